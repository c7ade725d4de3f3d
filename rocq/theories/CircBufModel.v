(** Model of class CircularBuffer (CircularBuffer.hpp:138-336): ownership, special members, resize. *)
From Verif Require Import Base Heap CircModel.

(** CircularBuffer.hpp:332-335.  [b_org] is [buffer.origin]; [b_w], [b_r] are the offsets of [buffer.next_write]
    and [buffer.next_read] from it (every assignment in the class keeps the three pointers in one block); [b_cap]
    is [buffer.capacity_]. *)
Record cbuf := CBuf { b_data : ptr; b_asize : Z; b_acap : Z;
                      b_org : ptr; b_w : Z; b_r : Z; b_cap : Z }.

(** The raw buffer as CircModel sees it: the fields plus the bytes behind [origin]. *)
Definition raw_of (h : heap) (b : cbuf) : circ := Circ (hget h (b_org b)) (b_w b) (b_r b) (b_cap b).

(** CircularBuffer.hpp:140, with the member initialisers of :332-334 *)
Definition cb_default : cbuf := CBuf None 0 0 None 0 0 0.

(** CircularBuffer.hpp:141-145 *)
Definition cb_new (h : heap) (n : Z) : outcome (heap * cbuf) :=
  '(id, h1) <-! halloc h n ;; Ok (h1, CBuf (Some id) n n (Some id) 0 0 n).

(** CircularBuffer.hpp:146-151 *)
Definition cb_destroy (h : heap) (b : cbuf) : outcome heap :=
  if 0 <? b_acap b then hfree h (b_data b) else Ok h.

(** CircularBuffer.hpp:152-163: the new object and what is left of the source. *)
Definition cb_move (src : cbuf) : cbuf * cbuf := (src, CBuf None 0 0 None 0 0 0).

(** CircularBuffer.hpp:164-180.  In the else branch [data] is deleted but not reset. *)
Definition cb_copy (h : heap) (src : cbuf) : outcome (heap * cbuf) :=
  '(id, h1) <-! halloc h (b_asize src) ;;
  match b_data src with
  | Some _ =>
      h2 <-! hcopy h1 (Some id) (b_data src) (b_asize src) ;;
      Ok (h2, CBuf (Some id) (b_asize src) (b_asize src) (Some id) (b_w src) (b_r src) (b_cap src))
  | None =>
      h2 <-! hfree h1 (Some id) ;;
      Ok (h2, CBuf (Some id) 0 0 (b_org src) (b_w src) (b_r src) (b_cap src))
  end.

(** CircularBuffer.hpp:314-329 *)
Definition cb_resize_memory (h : heap) (b : cbuf) (n : Z) (copyData : bool) : outcome (heap * cbuf) :=
  if b_acap b <? n then
    '(id, h1) <-! halloc h n ;;
    h3 <-! (if 0 <? b_acap b then
              h2 <-! (if copyData then hcopy h1 (Some id) (b_data b) (b_asize b) else Ok h1) ;;
              hfree h2 (b_data b)
            else Ok h1) ;;
    Ok (h3, CBuf (Some id) n n (b_org b) (b_w b) (b_r b) (b_cap b))
  else Ok (h, CBuf (b_data b) n (b_acap b) (b_org b) (b_w b) (b_r b) (b_cap b)).

(** CircularBuffer.hpp:182-201.  [dst] and [src] are different objects (see [wstep] for the same object). *)
Definition cb_move_assign (h : heap) (dst src : cbuf) : outcome (heap * cbuf * cbuf) :=
  h1 <-! hfree h (b_data dst) ;;
  Ok (h1, src, CBuf None 0 0 None 0 0 0).

(** CircularBuffer.hpp:202-214; [src] is read after resizeMemory: it is a different object here, and its
    fields do not change. *)
Definition cb_copy_assign (h : heap) (dst src : cbuf) : outcome (heap * cbuf) :=
  let b0 := CBuf (b_data dst) (b_asize dst) (b_acap dst) (b_org src) (b_w src) (b_r src) (b_cap src) in
  '(h1, b1) <-! cb_resize_memory h b0 (b_asize src) false ;;
  h2 <-! hcopy h1 (b_data b1) (b_data src) (b_asize src) ;;
  Ok (h2, CBuf (b_data b1) (b_asize b1) (b_acap b1) (b_data b1) (b_w b1) (b_r b1) (b_cap b1)).

(** CircularBuffer.hpp:216-291.  The boolean is true when the call threw (the object is then as given). *)
Definition cb_resize (h : heap) (b : cbuf) (n : Z) : outcome (heap * cbuf * bool) :=
  if n =? b_cap b then Ok (h, b, false)                                            (* :218-220 *)
  else if b_w b =? b_r b then                                                      (* :221-223 *)
    '(h1, b1) <-! cb_resize_memory h b n true ;;
    Ok (h1, CBuf (b_data b1) (b_asize b1) (b_acap b1) (b_data b1) 0 0 n, false)
  else if b_asize b <? n then                                                      (* :224-245 *)
    '(h1, b1) <-! cb_resize_memory h b n true ;;
    if b_r b <? b_w b then
      Ok (h1, CBuf (b_data b1) (b_asize b1) (b_acap b1) (b_data b1) (b_w b) (b_r b) n, false)
    else
      let readDiff := b_cap b - b_r b in
      m <-! mmove (hget h1 (b_data b1)) (n - readDiff) (b_r b) (b_cap b - b_r b) ;;
      Ok (hput h1 (b_data b1) m,
          CBuf (b_data b1) (b_asize b1) (b_acap b1) (b_data b1) (b_w b) (n - readDiff) n, false)
  else if b_r b <? b_w b then                                                      (* :249-268 *)
    if b_w b <=? n then
      Ok (h, CBuf (b_data b) n (b_acap b) (b_org b) (b_w b) (b_r b) n, false)
    else if b_w b - b_r b <? n then
      m <-! mmove (hget h (b_org b)) 0 (b_r b) (b_w b - b_r b) ;;
      Ok (hput h (b_org b) m, CBuf (b_data b) n (b_acap b) (b_org b) (b_w b - b_r b) 0 n, false)
    else Ok (h, b, true)
  else                                                                             (* :269-288 *)
    let readDiff := b_cap b - b_r b in
    if readDiff + b_w b <? n then
      m <-! mmove (hget h (b_data b)) (n - readDiff) (b_r b) (b_cap b - b_r b) ;;
      Ok (hput h (b_data b) m,
          CBuf (b_data b) n (b_acap b) (b_data b) (b_w b) (n - readDiff) n, false)
    else Ok (h, b, true).

(** CircularBuffer.hpp:292-311: the remaining members forward to [buffer]. *)
Definition cb_op (h : heap) (b : cbuf) (o : cop) : outcome (heap * cbuf * cret) :=
  '(s, x) <-! circ_step (raw_of h b) o ;;
  Ok (hput h (b_org b) (c_mem s),
      CBuf (b_data b) (b_asize b) (b_acap b) (b_org b) (c_w s) (c_r s) (c_cap s), x).

(** ** Programs over any number of buffers *)
Record world := World { w_heap : heap; w_objs : gmap nat cbuf }.

Inductive wop :=
| WDefault (o : nat) | WNew (o : nat) (n : Z)
| WCopy (o src : nat) | WMove (o src : nat)
| WCopyAssign (o src : nat) | WMoveAssign (o src : nat)
| WResize (o : nat) (n : Z) | WCall (o : nat) (c : cop) | WDestroy (o : nat).

Inductive wret := WRet (x : cret) | WThrew | WDone.

(** A constructor that throws creates no object.  Using an object that does not exist is UB. *)
Definition wget (w : world) (o : nat) : outcome cbuf :=
  match w_objs w !! o with Some b => Ok b | None => UB end.

Definition wstep (w : world) (p : wop) : outcome (world * wret) :=
  match p with
  | WDefault o => Ok (World (w_heap w) (<[o := cb_default]> (w_objs w)), WDone)
  | WNew o n =>
      match cb_new (w_heap w) n with
      | Ok (h, b) => Ok (World h (<[o := b]> (w_objs w)), WDone)
      | Throw => Ok (w, WThrew)
      | UB => UB
      end
  | WCopy o src =>
      bs <-! wget w src ;;
      match cb_copy (w_heap w) bs with
      | Ok (h, b) => Ok (World h (<[o := b]> (w_objs w)), WDone)
      | Throw => Ok (w, WThrew)
      | UB => UB
      end
  | WMove o src =>
      bs <-! wget w src ;;
      let '(b, bs') := cb_move bs in
      Ok (World (w_heap w) (<[o := b]> (<[src := bs']> (w_objs w))), WDone)
  | WCopyAssign o src =>
      bd <-! wget w o ;; bs <-! wget w src ;;
      '(h, b) <-! cb_copy_assign (w_heap w) bd bs ;;
      Ok (World h (<[o := b]> (w_objs w)), WDone)
  | WMoveAssign o src =>
      bd <-! wget w o ;; bs <-! wget w src ;;
      '(h, b, bs') <-! cb_move_assign (w_heap w) bd bs ;;
      (* when o = src the clearing of cb comes last, CircularBuffer.hpp:193-199 *)
      Ok (World h (<[src := bs']> (<[o := b]> (w_objs w))), WDone)
  | WResize o n =>
      b <-! wget w o ;;
      '(h, b', threw) <-! cb_resize (w_heap w) b n ;;
      Ok (World h (<[o := b']> (w_objs w)), if threw : bool then WThrew else WDone)
  | WCall o c =>
      b <-! wget w o ;;
      '(h, b', x) <-! cb_op (w_heap w) b c ;;
      Ok (World h (<[o := b']> (w_objs w)), WRet x)
  | WDestroy o =>
      b <-! wget w o ;;
      h <-! cb_destroy (w_heap w) b ;;
      Ok (World h (delete o (w_objs w)), WDone)
  end.

Fixpoint wrun (w : world) (ps : list wop) : outcome (world * list (wop * wret)) :=
  match ps with
  | [] => Ok (w, [])
  | p :: ps' =>
      '(w1, x) <-! wstep w p ;;
      '(w2, tr) <-! wrun w1 ps' ;;
      Ok (w2, (p, x) :: tr)
  end.

Definition world0 (junk : nat -> nat -> Z) : world := World (Heap ∅ 0 junk) ∅.
