(** Model of BlockIterator.hpp. *)
From stdpp Require Import gmap.
From Verif Require Import Base BlkHeap.

(** X* ptr: null, read from a table entry that was never written, or the slot of a block. *)
Inductive bptr := PNull | PJunk | PSlot (b : nat) (j : Z).

(** BlockIterator.hpp:21-23.  [vec] is a position in a table; [None] stands for the static emptyValue of end(). *)
Record biter := BIter { i_tab : option nat; i_pos : Z; i_ptr : bptr; i_off : Z }.

(** static_cast<int>(ptrdiff_t) *)
Definition wrap32 (z : Z) : Z := (z + 2147483648) mod 4294967296 - 2147483648.

Section iter.
Context {V : Type}.
Variable P : params.
Notation B := (bsz P).
Implicit Types (h : bheap V) (t : option nat).

(** Address of slot [off] of the block at the current table entry; the entry is read, but nothing is read through it.  Whether the resulting pointer could
    legally be formed is not modelled. *)
Definition it_ptr h t pos off : outcome bptr :=
  match t with
  | None => if pos =? 0 then Ok PNull else UB
  | Some _ => c <-! tget h t pos ;; Ok (match c with Some b => PSlot b off | None => PJunk end)
  end.

(** BlockIterator.hpp:33-40 *)
Definition it_new h t pos off : outcome biter :=
  p <-! it_ptr h t pos off ;; Ok (BIter t pos p off).

Definition ptr_add (p : bptr) (k : Z) : bptr := match p with PSlot b j => PSlot b (j + k) | _ => p end.

Definition int_ok (z : Z) : bool := (-2147483648 <=? z) && (z <=? int_max).

(** BlockIterator.hpp:74-80 and 139-147 check(); ++ (lines 81-87) is += 1 *)
Definition it_add h (it : biter) (k : Z) : outcome biter :=
  let off := i_off it + wrap32 k in
  if negb (int_ok off) then UB
  else if B <=? off then
    let diff := off - B in
    let pos := i_pos it + 1 + diff / B in
    p <-! it_ptr h (i_tab it) pos (diff mod B) ;;
    Ok (BIter (i_tab it) pos p (diff mod B))
  else Ok (BIter (i_tab it) (i_pos it) (ptr_add (i_ptr it) k) off).

(** BlockIterator.hpp:100-106 and 150-158 checkNeg(); -- (lines 107-113) is -= 1 *)
Definition it_sub h (it : biter) (k : Z) : outcome biter :=
  let off := i_off it - wrap32 k in
  if negb (int_ok off) then UB
  else if off <? 0 then
    let diff := - off - 1 in
    let pos := i_pos it - (1 + diff / B) in
    let off' := B - 1 - diff mod B in
    p <-! it_ptr h (i_tab it) pos off' ;;
    Ok (BIter (i_tab it) pos p off')
  else Ok (BIter (i_tab it) (i_pos it) (ptr_add (i_ptr it) (- k)) off).

(** BlockIterator.hpp:42-45 *)
Definition it_read h (it : biter) : outcome V :=
  match i_ptr it with PSlot b j => eget P h (Some b) j | _ => UB end.

(** BlockIterator.hpp:49-56 *)
Definition it_eq (a b : biter) : bool :=
  (bool_decide (i_tab a = i_tab b) && (i_pos a =? i_pos b)) && (i_off a =? i_off b).

(** for (; it != last; ++it) reading each element; running for more than [fuel] elements counts as an error *)
Fixpoint it_walk h (it last : biter) (fuel : nat) : outcome (list V) :=
  if it_eq it last then Ok []
  else match fuel with
       | O => UB
       | S k => v <-! it_read h it ;; it' <-! it_add h it 1 ;; l <-! it_walk h it' last k ;; Ok (v :: l)
       end.

(** Advance [n] times with ++. *)
Fixpoint it_steps h (it : biter) (n : nat) : outcome biter :=
  match n with O => Ok it | S k => it' <-! it_add h it 1 ;; it_steps h it' k end.

End iter.
