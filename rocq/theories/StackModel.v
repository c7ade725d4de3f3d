(** Model of StackBufferRaw and StackBuffer (StackBuffer.hpp).
    Simplifications: a pointer into the block is its byte offset from [origin]; only accesses are checked, so
    forming an out-of-range pointer (origin + dataSize - 8 for dataSize < 8) and the alignment of [dataIndex]
    are in StackPtrs.v; ints do not wrap (StackInts.v proves where they stay within int). *)
From Verif Require Import Base Heap.

(** StackBuffer.hpp:37-41.  [k_mem]: bytes behind [origin]; [k_next]: next - origin; [k_idx]: offset of
    [nextIndex] from [origin]; [k_size]: dataSize; [k_count]: dataCount. *)
Record stk := Stk { k_mem : list byte; k_next : Z; k_idx : Z; k_size : Z; k_count : Z }.

(** StackBuffer.hpp:27 *)
Definition diSize : Z := 8.

(** StackBuffer.hpp:45-50 *)
Definition stk_new (m : list byte) (n : Z) : stk := Stk m 0 (n - diSize) n 0.

(** StackBuffer.hpp:61-62,69 *)
Definition stk_capacity (s : stk) : Z := k_size s.
Definition stk_current (s : stk) : Z := k_count s.
Definition stk_empty (s : stk) : bool := k_count s =? 0.

(** StackBuffer.hpp:63-68 *)
Definition stk_space (s : stk) (n : Z) : bool :=
  n <=? k_size s - k_next s - (k_count s + 1) * diSize.

(** StackBuffer.hpp:71-86.  [data] is the bytes readable at [block]; None is nullptr. *)
Definition stk_push (s : stk) (data : option (list byte)) (n : Z) : outcome (stk * bool) :=
  match data with
  | None => Ok (s, false)
  | Some d =>
      if n <=? 0 then Ok (s, false)
      else if negb (stk_space s n) then Ok (s, false)
      else
        bs <-! mread d 0 n ;;
        m1 <-! mwrite (k_mem s) (k_next s) bs ;;
        m2 <-! mwrite m1 (k_idx s) (enc32 (k_next s)) ;;
        m3 <-! mwrite m2 (k_idx s + 4) (enc32 n) ;;
        Ok (Stk m3 (k_next s + n) (k_idx s - diSize) (k_size s) (k_count s + 1), true)
  end.

(** nextIndex[1].offset and nextIndex[1].dataSize *)
Definition top_offset (s : stk) : outcome Z := bs <-! mread (k_mem s) (k_idx s + 8) 4 ;; Ok (dec32 bs).
Definition top_size (s : stk) : outcome Z := bs <-! mread (k_mem s) (k_idx s + 12) 4 ;; Ok (dec32 bs).

(** StackBuffer.hpp:88-91 *)
Definition stk_next_size (s : stk) : outcome Z := if 0 <? k_count s then top_size s else Ok 0.

(** StackBuffer.hpp:93-118; the third component is the bytes written to the caller's block. *)
Definition stk_pop (s : stk) (maxSize : Z) : outcome (stk * Z * list byte) :=
  if 0 <? k_count s then
    blk <-! top_size s ;;
    if blk <=? maxSize then
      off <-! top_offset s ;;
      bs <-! mread (k_mem s) off blk ;;
      let next := if off + blk =? k_next s then k_next s - blk else k_next s in
      if k_count s - 1 =? 0
      then Ok (Stk (k_mem s) 0 (k_size s - diSize) (k_size s) 0, blk, bs)
      else Ok (Stk (k_mem s) next (k_idx s + diSize) (k_size s) (k_count s - 1), blk, bs)
    else Ok (s, - blk, [])
  else Ok (s, 0, []).

(** The 8 byte records of a region, in order. *)
Fixpoint chunk8 (bs : list byte) : list (list byte) :=
  match bs with
  | a :: b :: c :: d :: e :: f :: g :: h :: t => [a;b;c;d;e;f;g;h] :: chunk8 t
  | _ => []
  end.

(** StackBuffer.hpp:121-126; std::reverse by its contract: the records end up in opposite order. *)
Definition stk_reverse (s : stk) : outcome stk :=
  if 1 <? k_count s then
    bs <-! mread (k_mem s) (k_idx s + 8) (diSize * k_count s) ;;
    m <-! mwrite (k_mem s) (k_idx s + 8) (concat (rev (chunk8 bs))) ;;
    Ok (Stk m (k_next s) (k_idx s) (k_size s) (k_count s))
  else Ok s.

(** StackBuffer.hpp:128-134 *)
Definition stk_clear (s : stk) : stk := Stk (k_mem s) 0 (k_size s - diSize) (k_size s) 0.

Inductive kop :=
| KPush (data : option (list byte)) (n : Z) | KPop (maxSize : Z) | KNextSize | KEmpty | KSpace (n : Z)
| KCapacity | KCount | KReverse | KClear.
Inductive kret := RBool (b : bool) | RInt (z : Z) | RPop (z : Z) (bs : list byte) | RUnit.

Definition stk_step (s : stk) (o : kop) : outcome (stk * kret) :=
  match o with
  | KPush d n => '(s', b) <-! stk_push s d n ;; Ok (s', RBool b)
  | KPop k => '(s', z, bs) <-! stk_pop s k ;; Ok (s', RPop z bs)
  | KNextSize => z <-! stk_next_size s ;; Ok (s, RInt z)
  | KEmpty => Ok (s, RBool (stk_empty s))
  | KSpace n => Ok (s, RBool (stk_space s n))
  | KCapacity => Ok (s, RInt (stk_capacity s))
  | KCount => Ok (s, RInt (stk_current s))
  | KReverse => s' <-! stk_reverse s ;; Ok (s', RUnit)
  | KClear => Ok (stk_clear s, RUnit)
  end.

Fixpoint stk_run (s : stk) (ops : list kop) : outcome (stk * list (kop * kret)) :=
  match ops with
  | [] => Ok (s, [])
  | o :: os => '(s1, x) <-! stk_step s o ;; '(s2, tr) <-! stk_run s1 os ;; Ok (s2, (o, x) :: tr)
  end.

(** ** class StackBuffer *)
(** StackBuffer.hpp:332-335.  [b_org] is stack.origin; [b_next], [b_idx] are offsets from it. *)
Record sbuf := SBuf { b_data : ptr; b_stated : Z; b_acap : Z;
                      b_org : ptr; b_next : Z; b_idx : Z; b_size : Z; b_count : Z }.

Definition sraw_of (h : heap) (b : sbuf) : stk := Stk (hget h (b_org b)) (b_next b) (b_idx b) (b_size b) (b_count b).

(** StackBuffer.hpp:144 *)
Definition sb_default : sbuf := SBuf None 0 0 None 0 0 0 0.

(** StackBuffer.hpp:145-149 *)
Definition sb_new (h : heap) (n : Z) : outcome (heap * sbuf) :=
  '(id, h1) <-! halloc h n ;; Ok (h1, SBuf (Some id) n n (Some id) 0 (n - diSize) n 0).

(** StackBuffer.hpp:151 *)
Definition sb_destroy (h : heap) (b : sbuf) : outcome heap := hfree h (b_data b).

(** StackBuffer.hpp:153-165 *)
Definition sb_move (src : sbuf) : sbuf * sbuf := (src, SBuf None 0 0 None 0 0 0 0).

(** StackBuffer.hpp:166-184.  The else branch leaves [stack] a copy of the source's, origin included. *)
Definition sb_copy (h : heap) (src : sbuf) : outcome (heap * sbuf) :=
  '(id, h1) <-! halloc h (b_stated src) ;;
  if match b_data src with Some _ => true | None => false end && (0 <? b_stated src) then
    h2 <-! hcopy h1 (Some id) (b_data src) (b_stated src) ;;
    Ok (h2, SBuf (Some id) (b_stated src) (b_stated src) (Some id) (b_next src)
                 (b_size src - diSize - diSize * b_count src) (b_size src) (b_count src))
  else
    h2 <-! hfree h1 (Some id) ;;
    Ok (h2, SBuf None 0 0 (b_org src) (b_next src) (b_idx src) (b_size src) (b_count src)).

(** StackBuffer.hpp:311-329; only data, statedSize and actualCapacity change. *)
Definition sb_resize_memory (h : heap) (b : sbuf) (n : Z) (copyData : bool) : outcome (heap * sbuf) :=
  if n =? b_stated b then Ok (h, b)
  else if b_acap b <? n then
    '(id, h1) <-! halloc h n ;;
    h3 <-! (if 0 <? b_acap b then
              h2 <-! (if copyData then hcopy h1 (Some id) (b_data b) (b_stated b) else Ok h1) ;;
              hfree h2 (b_data b)
            else Ok h1) ;;
    Ok (h3, SBuf (Some id) n n (b_org b) (b_next b) (b_idx b) (b_size b) (b_count b))
  else Ok (h, SBuf (b_data b) n (b_acap b) (b_org b) (b_next b) (b_idx b) (b_size b) (b_count b)).

(** StackBuffer.hpp:186-201; actualCapacity of the source is not reset. *)
Definition sb_move_assign (h : heap) (dst src : sbuf) : outcome (heap * sbuf * sbuf) :=
  h1 <-! hfree h (b_data dst) ;;
  Ok (h1, src, SBuf None 0 (b_acap src) None 0 0 0 0).

(** StackBuffer.hpp:202-215, different objects *)
Definition sb_copy_assign (h : heap) (dst src : sbuf) : outcome (heap * sbuf) :=
  let b0 := SBuf (b_data dst) (b_stated dst) (b_acap dst) (b_org src) (b_next src) (b_idx src) (b_size src) (b_count src) in
  '(h1, b1) <-! sb_resize_memory h b0 (b_stated src) false ;;
  h2 <-! hcopy h1 (b_data b1) (b_data src) (b_stated src) ;;
  Ok (h2, SBuf (b_data b1) (b_stated b1) (b_acap b1) (b_data b1) (b_next b1)
               (b_size b1 - diSize - diSize * b_count b1) (b_size b1) (b_count b1)).

Inductive rres := RRet (b : bool) | RThrew.

(** StackBuffer.hpp:217-267 *)
Definition sb_resize (h : heap) (b : sbuf) (n : Z) : outcome (heap * sbuf * rres) :=
  if n <? 0 then Ok (h, b, RRet false)                                               (* :219-221 *)
  else if n =? b_size b then Ok (h, b, RRet true)                                    (* :222-224 *)
  else if b_count b =? 0 then                                                        (* :225-227 *)
    '(h1, b1) <-! sb_resize_memory h b n true ;;
    Ok (h1, SBuf (b_data b1) (b_stated b1) (b_acap b1) (b_data b1) 0 (n - diSize) n 0, RRet (b_stated b1 =? n))
  else
    let indexOffset := b_size b - diSize * b_count b in
    let newOffset := n - diSize * b_count b in
    if b_stated b <? n then                                                          (* :228-242 *)
      '(h1, b1) <-! sb_resize_memory h b n true ;;
      m <-! mmove (hget h1 (b_data b1)) newOffset indexOffset (diSize * b_count b) ;;
      Ok (hput h1 (b_data b1) m,
          SBuf (b_data b1) (b_stated b1) (b_acap b1) (b_data b1) n (n - diSize - diSize * b_count b) n (b_count b),
          RRet (b_stated b1 =? n))
    else if n <? b_next b + diSize * b_count b then Ok (h, b, RThrew)                (* :244-252 *)
    else                                                                             (* :253-264 *)
      m <-! mmove (hget h (b_data b)) newOffset indexOffset (diSize * b_count b) ;;
      Ok (hput h (b_data b) m,
          SBuf (b_data b) n (b_acap b) (b_data b) n (n - diSize - diSize * b_count b) n (b_count b), RRet true).

(** StackBuffer.hpp:269-300: forwarding members *)
Definition sb_op (h : heap) (b : sbuf) (o : kop) : outcome (heap * sbuf * kret) :=
  '(s, x) <-! stk_step (sraw_of h b) o ;;
  Ok (hput h (b_org b) (k_mem s),
      SBuf (b_data b) (b_stated b) (b_acap b) (b_org b) (k_next s) (k_idx s) (k_size s) (k_count s), x).

(** ** Programs over any number of stacks *)
Record sworld := SWorld { s_heap : heap; s_objs : gmap nat sbuf }.

Inductive swop :=
| SDefault (o : nat) | SNew (o : nat) (n : Z)
| SCopy (o src : nat) | SMove (o src : nat)
| SCopyAssign (o src : nat) | SMoveAssign (o src : nat) | SSwap (o o' : nat)
| SResize (o : nat) (n : Z) | SCall (o : nat) (c : kop) | SDestroy (o : nat).

Inductive swret := SRet (x : kret) | SResized (b : bool) | SThrew | SDone.

Definition sget (w : sworld) (o : nat) : outcome sbuf :=
  match s_objs w !! o with Some b => Ok b | None => UB end.

Definition swstep (w : sworld) (p : swop) : outcome (sworld * swret) :=
  match p with
  | SDefault o => Ok (SWorld (s_heap w) (<[o := sb_default]> (s_objs w)), SDone)
  | SNew o n =>
      match sb_new (s_heap w) n with
      | Ok (h, b) => Ok (SWorld h (<[o := b]> (s_objs w)), SDone)
      | Throw => Ok (w, SThrew)
      | UB => UB
      end
  | SCopy o src =>
      bs <-! sget w src ;;
      match sb_copy (s_heap w) bs with
      | Ok (h, b) => Ok (SWorld h (<[o := b]> (s_objs w)), SDone)
      | Throw => Ok (w, SThrew)
      | UB => UB
      end
  | SMove o src =>
      bs <-! sget w src ;;
      let '(b, bs') := sb_move bs in
      Ok (SWorld (s_heap w) (<[o := b]> (<[src := bs']> (s_objs w))), SDone)
  | SCopyAssign o src =>
      bd <-! sget w o ;; bs <-! sget w src ;;
      '(h, b) <-! sb_copy_assign (s_heap w) bd bs ;;
      Ok (SWorld h (<[o := b]> (s_objs w)), SDone)
  | SMoveAssign o src =>
      bd <-! sget w o ;; bs <-! sget w src ;;
      '(h, b, bs') <-! sb_move_assign (s_heap w) bd bs ;;
      Ok (SWorld h (<[src := bs']> (<[o := b]> (s_objs w))), SDone)
  | SSwap o o' =>                                        (* StackBuffer.hpp:52-59,302-308 *)
      b <-! sget w o ;; b' <-! sget w o' ;;
      Ok (SWorld (s_heap w) (<[o := b']> (<[o' := b]> (s_objs w))), SDone)
  | SResize o n =>
      b <-! sget w o ;;
      '(h, b', r) <-! sb_resize (s_heap w) b n ;;
      Ok (SWorld h (<[o := b']> (s_objs w)), match r with RRet x => SResized x | RThrew => SThrew end)
  | SCall o c =>
      b <-! sget w o ;;
      '(h, b', x) <-! sb_op (s_heap w) b c ;;
      Ok (SWorld h (<[o := b']> (s_objs w)), SRet x)
  | SDestroy o =>
      b <-! sget w o ;;
      h <-! sb_destroy (s_heap w) b ;;
      Ok (SWorld h (delete o (s_objs w)), SDone)
  end.

Fixpoint swrun (w : sworld) (ps : list swop) : outcome (sworld * list (swop * swret)) :=
  match ps with
  | [] => Ok (w, [])
  | p :: ps' => '(w1, x) <-! swstep w p ;; '(w2, tr) <-! swrun w1 ps' ;; Ok (w2, (p, x) :: tr)
  end.

Definition sworld0 (junk : nat -> nat -> Z) : sworld := SWorld (Heap ∅ 0 junk) ∅.
