(** Specification of StableBlockVector: a plain list. *)
From stdpp Require Import gmap.
From Verif Require Import Base BlkHeap BlkIter VecModel.

Section spec.
Context {V : Type}.
Implicit Types (xs : list V).

Inductive seq_step : list V -> vop V -> vret V -> list V -> Prop :=
| sq_push xs x : seq_step xs (VPush x) VUnit (xs ++ [x])
| sq_pop xs x : seq_step (xs ++ [x]) VPop VUnit xs
| sq_pop_empty : seq_step [] VPop VUnit []
| sq_clear xs : seq_step xs VClear VUnit []
| sq_shrink xs : seq_step xs VShrink VUnit xs
| sq_assign xs ys : seq_step xs (VAssign ys) VUnit ys
| sq_set xs n x : (n < length xs)%nat -> seq_step xs (VSet (Z.of_nat n) x) VUnit (<[n := x]> xs)
| sq_get xs n x : xs !! n = Some x -> seq_step xs (VGet (Z.of_nat n)) (VVal x) xs
| sq_at xs n x : xs !! n = Some x -> seq_step xs (VAt (Z.of_nat n)) (VVal x) xs
| sq_at_throw xs n : zlen xs <= n -> seq_step xs (VAt n) VOutOfRange xs
| sq_back xs x : seq_step (xs ++ [x]) VBack (VVal x) (xs ++ [x])
| sq_front x xs : seq_step (x :: xs) VFront (VVal x) (x :: xs)
| sq_size xs : seq_step xs VSize (VInt (zlen xs)) xs
| sq_empty xs : seq_step xs VEmpty (VBool (match xs with [] => true | _ => false end)) xs
| sq_walk xs : seq_step xs VWalk (VList xs) xs.

Inductive seq_trace : list V -> list (vop V * vret V) -> list V -> Prop :=
| sqt_nil xs : seq_trace xs [] xs
| sqt_cons xs o r xs1 tr xs2 : seq_step xs o r xs1 -> seq_trace xs1 tr xs2 -> seq_trace xs ((o, r) :: tr) xs2.

(** Preconditions the caller must meet: indices in range, back/front on a non-empty vector.  [at] takes any size_t. *)
Definition seq_legal (xs : list V) (o : vop V) : Prop :=
  match o with
  | VSet n _ | VGet n => 0 <= n < zlen xs
  | VAt n => 0 <= n
  | VBack | VFront => xs <> []
  | _ => True
  end.

(** The list after a call, and legal sequences of calls *)
Definition seq_next (xs : list V) (o : vop V) : list V :=
  match o with
  | VPush x => xs ++ [x] | VPop => removelast xs | VClear => [] | VAssign ys => ys
  | VSet n x => <[Z.to_nat n := x]> xs
  | _ => xs
  end.
Definition seq_after (xs : list V) (ops : list (vop V)) : list V := fold_left seq_next ops xs.
Fixpoint seq_ok (xs : list V) (ops : list (vop V)) : Prop :=
  match ops with [] => True | o :: ops' => seq_legal xs o /\ seq_ok (seq_next xs o) ops' end.

(** No traversal by iterators (treated separately) *)
Definition no_walk (o : vop V) : Prop := match o with VWalk => False | _ => True end.

(** ** Several vectors.  [None]: moved from. *)
Inductive vw_step (A : gmap nat (option (list V))) : vwop V -> vret V -> gmap nat (option (list V)) -> Prop :=
| vws_default o : vw_step A (VDefault o) VUnit (<[o := Some []]> A)
| vws_sized o n x : vw_step A (VSized o n x) VUnit (<[o := Some (replicate (Z.to_nat n) x)]> A)
| vws_copy o src xs : A !! src = Some (Some xs) -> vw_step A (VCopy o src) VUnit (<[o := Some xs]> A)
| vws_copy_moved o src : A !! src = Some None -> vw_step A (VCopy o src) VUnit (<[o := Some []]> A)
| vws_move o src v : A !! src = Some v -> vw_step A (VMove o src) VUnit (<[o := v]> (<[src := None]> A))
| vws_copy_assign o src xs : A !! src = Some (Some xs) -> is_Some (A !! o) ->
    vw_step A (VCopyAssign o src) VUnit (<[o := Some xs]> A)
| vws_move_assign o src v : A !! src = Some v -> vw_step A (VMoveAssign o src) VUnit (<[src := None]> (<[o := v]> A))
| vws_call o c r xs xs' : A !! o = Some (Some xs) -> seq_step xs c r xs' ->
    vw_step A (VCall o c) r (<[o := Some xs']> A)
| vws_destroy o : is_Some (A !! o) -> vw_step A (VDestroy o) VUnit (delete o A).

Inductive vw_trace : gmap nat (option (list V)) -> list (vwop V * vret V) -> gmap nat (option (list V)) -> Prop :=
| vwt_nil A : vw_trace A [] A
| vwt_cons A p r A1 tr A2 : vw_step A p r A1 -> vw_trace A1 tr A2 -> vw_trace A ((p, r) :: tr) A2.

End spec.
