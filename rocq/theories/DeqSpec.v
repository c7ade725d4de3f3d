(** Specification of StableBlockDeque: a plain list with two ends. *)
From stdpp Require Import gmap.
From Verif Require Import Base BlkHeap BlkIter VecModel VecSpec DeqModel.

Section spec.
Context {V : Type}.
Implicit Types (xs : list V).

Inductive dq_step : list V -> dop V -> vret V -> list V -> Prop :=
| dq_v xs o r xs' : seq_step xs o r xs' -> dq_step xs (DV o) r xs'
| dq_pushf xs x : dq_step xs (DPushF x) VUnit (x :: xs)
| dq_popf x xs : dq_step (x :: xs) DPopF VUnit xs
| dq_popf_empty : dq_step [] DPopF VUnit [].

Inductive dq_trace : list V -> list (dop V * vret V) -> list V -> Prop :=
| dqt_nil xs : dq_trace xs [] xs
| dqt_cons xs o r xs1 tr xs2 : dq_step xs o r xs1 -> dq_trace xs1 tr xs2 -> dq_trace xs ((o, r) :: tr) xs2.

Definition dq_legal (xs : list V) (o : dop V) : Prop := match o with DV c => seq_legal xs c | _ => True end.

(** The list after a call, and legal sequences of calls *)
Definition dq_next (xs : list V) (o : dop V) : list V :=
  match o with DV c => seq_next xs c | DPushF x => x :: xs | DPopF => tail xs end.
Definition dq_after (xs : list V) (ops : list (dop V)) : list V := fold_left dq_next ops xs.
Fixpoint dq_ok (xs : list V) (ops : list (dop V)) : Prop :=
  match ops with [] => True | o :: ops' => dq_legal xs o /\ dq_ok (dq_next xs o) ops' end.

(** Where element [n] of [xs] is after a call; [None] if the call removes it *)
Definition dq_track (xs : list V) (n : Z) (o : dop V) : option Z :=
  match o with
  | DPushF _ => Some (n + 1)
  | DPopF => if n =? 0 then None else Some (n - 1)
  | DV _ => if n <? zlen (dq_next xs o) then Some n else None
  end.
Fixpoint dq_tracks (xs : list V) (n : Z) (ops : list (dop V)) : option Z :=
  match ops with
  | [] => Some n
  | o :: ops' => match dq_track xs n o with Some m => dq_tracks (dq_next xs o) m ops' | None => None end
  end.

(** ** Several deques.  [None]: moved from. *)
Inductive dw_step (A : gmap nat (option (list V))) : dwop V -> vret V -> gmap nat (option (list V)) -> Prop :=
| dws_default o : dw_step A (DDefault o) VUnit (<[o := Some []]> A)
| dws_sized o n x : dw_step A (DSized o n x) VUnit (<[o := Some (replicate (Z.to_nat n) x)]> A)
| dws_copy o src xs : A !! src = Some (Some xs) -> dw_step A (DCopy o src) VUnit (<[o := Some xs]> A)
| dws_move o src v : A !! src = Some v -> dw_step A (DMove o src) VUnit (<[o := v]> (<[src := None]> A))
| dws_copy_assign o src xs : A !! src = Some (Some xs) -> is_Some (A !! o) ->
    dw_step A (DCopyAssign o src) VUnit (<[o := Some xs]> A)
| dws_move_assign o src v : A !! src = Some v -> dw_step A (DMoveAssign o src) VUnit (<[src := None]> (<[o := v]> A))
| dws_call o c r xs xs' : A !! o = Some (Some xs) -> dq_step xs c r xs' ->
    dw_step A (DCall o c) r (<[o := Some xs']> A)
| dws_destroy o : is_Some (A !! o) -> dw_step A (DDestroy o) VUnit (delete o A).

Inductive dw_trace : gmap nat (option (list V)) -> list (dwop V * vret V) -> gmap nat (option (list V)) -> Prop :=
| dwt_nil A : dw_trace A [] A
| dwt_cons A p r A1 tr A2 : dw_step A p r A1 -> dw_trace A1 tr A2 -> dw_trace A ((p, r) :: tr) A2.

End spec.
