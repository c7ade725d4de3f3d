(** Model of gmlc/containers/CircularBuffer.hpp, class CircularBufferRaw (lines 21-135). *)
From Verif Require Import Base.

(** CircularBuffer.hpp:128-131.  [c_mem] is the allocation [origin] points to (its length is what may be
    touched); [c_w], [c_r] are the offsets [next_write - origin], [next_read - origin]; [c_cap] is
    [capacity_].  [ptrdiff_t] arithmetic is modelled by unbounded [Z]: all quantities are bounded by the
    allocation size plus an [int]. *)
Record circ := Circ { c_mem : list byte; c_w : Z; c_r : Z; c_cap : Z }.

(** CircularBuffer.hpp:23-27 constructor on a block [mem] of [n] bytes. *)
Definition circ_new (mem : list byte) (n : Z) : circ := Circ mem 0 0 n.

(** CircularBuffer.hpp:29 *)
Definition circ_capacity (s : circ) : Z := c_cap s.

(** CircularBuffer.hpp:30-46 *)
Definition circ_space (s : circ) (sz : Z) : bool :=
  if c_r s <=? c_w s then
    if sz + 4 <=? c_cap s - c_w s then true
    else if sz + 4 <=? c_r s then true
    else false
  else if sz + 4 <=? c_r s - c_w s then true
  else false.

(** The two memcpy calls that store one block: header (the int [n]) then the [n] bytes read from the
    caller's [data].  CircularBuffer.hpp:56-58, 72-73, 80-81. *)
Definition circ_put (mem : list byte) (off : Z) (data : list byte) (n : Z) : outcome (list byte) :=
  m1 <-! mwrite mem off (enc32 n) ;;
  bs <-! mread data 0 n ;;
  mwrite m1 (off + 4) bs.

(** CircularBuffer.hpp:48-86.  [data = None] is the null pointer. *)
Definition circ_push (s : circ) (data : option (list byte)) (n : Z) : outcome (circ * bool) :=
  match data with
  | None => Ok (s, false)                                             (* :50-52 *)
  | Some d =>
    if n <=? 0 then Ok (s, false)                                      (* :50-52 *)
    else if c_r s <=? c_w s then                                       (* :53 *)
      if n + 4 <=? c_cap s - c_w s then                                (* :54-55 *)
        m <-! circ_put (c_mem s) (c_w s) d n ;;                        (* :56-58 *)
        let w := c_w s + n + 4 in                                      (* :59 *)
        let w' := if (c_cap s - w <? 8) && (0 <? c_r s) then 0 else w in (* :62-65 *)
        Ok (Circ m w' (c_r s) (c_cap s), true)
      else if n + 4 <=? c_r s then                                     (* :67-69 *)
        m1 <-! mwrite (c_mem s) (c_w s) (enc32 (-1)) ;;                (* :70-71 *)
        m <-! circ_put m1 0 d n ;;                                     (* :72-73 *)
        Ok (Circ m (n + 4) (c_r s) (c_cap s), true)                    (* :74-75 *)
      else Ok (s, false)                                               (* :85 *)
    else if n + 4 <=? c_r s - c_w s then                               (* :77-79 *)
      m <-! circ_put (c_mem s) (c_w s) d n ;;                          (* :80-81 *)
      Ok (Circ m (c_w s + n + 4) (c_r s) (c_cap s), true)              (* :82-83 *)
    else Ok (s, false)                                                 (* :85 *)
  end.

(** memcpy of an int out of the buffer *)
Definition read_int (mem : list byte) (off : Z) : outcome Z :=
  bs <-! mread mem off 4 ;; Ok (dec32 bs).

(** CircularBuffer.hpp:87-98 *)
Definition circ_next_size (s : circ) : outcome Z :=
  if c_w s =? c_r s then Ok 0
  else
    sz <-! read_int (c_mem s) (c_r s) ;;
    if sz <? 0 then read_int (c_mem s) 0 else Ok sz.

(** CircularBuffer.hpp:101-121.  Result: new state, return value, bytes written to the caller's buffer
    (the caller provides [maxSize] writable bytes). *)
Definition circ_pop (s : circ) (maxSize : Z) : outcome (circ * Z * list byte) :=
  if c_w s =? c_r s then Ok (s, 0, [])                                 (* :103-105 *)
  else
    sz0 <-! read_int (c_mem s) (c_r s) ;;                              (* :106-107 *)
    '(r, sz) <-! (if sz0 <? 0
                  then sz1 <-! read_int (c_mem s) 0 ;; Ok (0, sz1)     (* :108-111 *)
                  else Ok (c_r s, sz0)) ;;
    if sz <=? maxSize then                                             (* :112 *)
      bs <-! mread (c_mem s) (r + 4) sz ;;                             (* :113 *)
      let r1 := r + sz + 4 in                                          (* :114 *)
      let r2 := if c_cap s - r1 <? 8 then 0 else r1 in                 (* :115-117 *)
      Ok (Circ (c_mem s) (c_w s) r2 (c_cap s), sz, bs)                 (* :118 *)
    else Ok (Circ (c_mem s) (c_w s) r (c_cap s), - sz, []).            (* :120 *)

(** CircularBuffer.hpp:123 *)
Definition circ_empty (s : circ) : bool := c_w s =? c_r s.

(** CircularBuffer.hpp:125 *)
Definition circ_clear (s : circ) : circ := Circ (c_mem s) 0 0 (c_cap s).

(** ** Calls and histories *)
Inductive cop :=
| CPush (data : option (list byte)) (n : Z)
| CPop (maxSize : Z)
| CNextSize
| CEmpty
| CSpace (n : Z)
| CCapacity
| CClear.

Inductive cret :=
| RBool (b : bool)
| RInt (z : Z)
| RPop (z : Z) (bytes : list byte)
| RUnit.

Definition circ_step (s : circ) (o : cop) : outcome (circ * cret) :=
  match o with
  | CPush d n => '(s', b) <-! circ_push s d n ;; Ok (s', RBool b)
  | CPop k => '(s', z, bs) <-! circ_pop s k ;; Ok (s', RPop z bs)
  | CNextSize => z <-! circ_next_size s ;; Ok (s, RInt z)
  | CEmpty => Ok (s, RBool (circ_empty s))
  | CSpace n => Ok (s, RBool (circ_space s n))
  | CCapacity => Ok (s, RInt (circ_capacity s))
  | CClear => Ok (circ_clear s, RUnit)
  end.

(** A history: the calls, each paired with what it returned. *)
Fixpoint circ_run (s : circ) (ops : list cop) : outcome (circ * list (cop * cret)) :=
  match ops with
  | [] => Ok (s, [])
  | o :: os =>
      '(s1, x) <-! circ_step s o ;;
      '(s2, tr) <-! circ_run s1 os ;;
      Ok (s2, (o, x) :: tr)
  end.
