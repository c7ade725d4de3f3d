(** What StringMappedVector and DualStringMappedVector promise about their search terms: each object has a dictionary of
    its own from texts to positions, whatever happens to other objects. *)
From stdpp Require Import gmap.
From Verif Require Import Base StrModel.

Section spec.
Context {T : Type} `{Countable T}.
Implicit Types (m : gmap T Z) (n : Z).

(** A removal at position [i] takes the element out only if it is the last one (what that means is C28 and C31); then the
    terms of later positions move down by one. *)
Definition st_num n (i : Z) : Z := if decide (i = n - 1) then n - 1 else n.
Definition st_low n (i : Z) m : gmap T Z := (fun k => if decide (i = n - 1 /\ i < k) then k - 1 else k) <$> m.

(** The text of a default constructed string_view, and which of the two classes is meant. *)
Variable empty_text : T.
Variable dual : bool.

(** Number of elements and dictionary *)
Inductive st_step1 : Z * gmap T Z -> sop T -> sret -> Z * gmap T Z -> Prop :=
| st_insert o t n m : m !! t = None -> st_step1 (n, m) (SInsert o t) (SIdx n) (n + 1, <[t := n]> m)
| st_insert_used o t n m : is_Some (m !! t) -> st_step1 (n, m) (SInsert o t) SNone (n, m)
| st_both o t b n m : m !! t = None -> st_step1 (n, m) (SInsertBoth o t b) (SIdx n) (n + 1, <[t := n]> m)
| st_both_one o t n m : is_Some (m !! t) -> st_step1 (n, m) (SInsertBoth o t false) (SIdx n) (n + 1, m)
| st_both_used o t n m : is_Some (m !! t) -> st_step1 (n, m) (SInsertBoth o t true) SNone (n, m)
| st_no o n m : st_step1 (n, m) (SInsertNo o) (SIdx n) (n + 1, m)
| st_assign o t n m : m !! t = None -> st_step1 (n, m) (SAssign o t) (SIdx n) (n + 1, <[t := n]> m)
| st_assign_used o t n m i : m !! t = Some i -> st_step1 (n, m) (SAssign o t) (SIdx i) (n, m)
| st_term_idx o t i n m : i < n -> m !! t = None -> st_step1 (n, m) (STermIdx o t i) (SBool true) (n, <[t := i]> m)
| st_term_idx_no o t i n m : n <= i \/ is_Some (m !! t) -> st_step1 (n, m) (STermIdx o t i) (SBool false) (n, m)
| st_term o t t' i n m : m !! t' = Some i -> m !! t = None -> st_step1 (n, m) (STerm o t t') (SBool true) (n, <[t := i]> m)
| st_term_no o t t' n m : m !! t' = None \/ is_Some (m !! t) -> st_step1 (n, m) (STerm o t t') (SBool false) (n, m)
| st_key o t i n m : m !! t = None -> st_step1 (n, m) (STermKey o t (Some i)) (SBool true) (n, <[t := i]> m)
| st_key_no o t r n m : r = None \/ is_Some (m !! t) -> st_step1 (n, m) (STermKey o t r) (SBool false) (n, m)
| st_find o t i n m : m !! t = Some i -> st_step1 (n, m) (SFind o t) (SIdx i) (n, m)
| st_find_no o t n m : m !! t = None -> st_step1 (n, m) (SFind o t) SNone (n, m)
| st_remove_idx_out o i n m : n <= i -> st_step1 (n, m) (SRemoveIdx o i) SUnit (n, m)
| st_remove_idx_all o i n m : dual = true -> i < n ->
    st_step1 (n, m) (SRemoveIdx o i) SUnit (st_num n i, st_low n i (filter (fun p => p.2 <> i) m))
| st_remove_idx_one o i n m t : dual = false -> i < n -> m !! t = Some i \/ (t = empty_text /\ forall u, m !! u <> Some i) ->
    st_step1 (n, m) (SRemoveIdx o i) SUnit (st_num n i, st_low n i (delete t m))
| st_remove_none o t n m : m !! t = None -> st_step1 (n, m) (SRemove o t) SUnit (n, m)
| st_remove_out o t n m i : dual = true -> m !! t = Some i -> n <= i -> st_step1 (n, m) (SRemove o t) SUnit (n, m)
| st_remove_all o t n m i : dual = true -> m !! t = Some i -> i < n ->
    st_step1 (n, m) (SRemove o t) SUnit (st_num n i, st_low n i (filter (fun p => p.2 <> i) m))
| st_remove_one o t n m i : dual = false -> m !! t = Some i ->
    st_step1 (n, m) (SRemove o t) SUnit (st_num n i, st_low n i (delete t m))
| st_clear o n m : st_step1 (n, m) (SClear o) SUnit (0, ∅)
| st_shuffle o nd n m : st_step1 (n, m) (SShuffle o nd) SUnit (n, m).

(** [None]: the object was moved from. *)
Notation dicts := (gmap nat (option (Z * gmap T Z))).
Implicit Types A : dicts.

Inductive st_step : dicts -> sop T -> sret -> dicts -> Prop :=
| st_new A o : st_step A (SNew o) SUnit (<[o := Some (0, ∅)]> A)
| st_copy A o src a : A !! src = Some (Some a) -> st_step A (SCopy o src) SUnit (<[o := Some a]> A)
| st_copy_assign A o src a : A !! src = Some (Some a) -> st_step A (SCopyAssign o src) SUnit (<[o := Some a]> A)
| st_move A o src a : A !! src = Some a -> st_step A (SMove o src) SUnit (<[o := a]> (<[src := None]> A))
| st_move_assign A o src a : A !! src = Some a -> st_step A (SMoveAssign o src) SUnit (<[src := None]> (<[o := a]> A))
| st_destroy A o : st_step A (SDestroy o) SUnit (delete o A)
| st_call A p a r a' : A !! sobj_of p = Some (Some a) -> st_step1 a p r a' -> st_step A p r (<[sobj_of p := Some a']> A).

Inductive st_trace : dicts -> list (sop T * sret) -> dicts -> Prop :=
| stt_nil A : st_trace A [] A
| stt_cons A p r A1 tr A2 : st_step A p r A1 -> st_trace A1 tr A2 -> st_trace A ((p, r) :: tr) A2.

(** What the caller must respect: lifetimes; an object that was moved from is only destroyed, moved or assigned to; no
    self-move.  [S]: which objects exist, and which of them were not moved from. *)
Definition st_legal (S : gmap nat bool) (p : sop T) : Prop :=
  match p with
  | SNew o => S !! o = None
  | SCopy o src => S !! o = None /\ S !! src = Some true
  | SMove o src => S !! o = None /\ S !! src <> None
  | SCopyAssign o src => S !! o = Some true /\ S !! src = Some true
  | SMoveAssign o src => o <> src /\ S !! o <> None /\ S !! src <> None
  | SDestroy o => S !! o <> None
  | _ => S !! sobj_of p = Some true
  end.
Definition st_next (S : gmap nat bool) (p : sop T) : gmap nat bool :=
  match p with
  | SNew o | SCopy o _ | SCopyAssign o _ => <[o := true]> S
  | SMove o src | SMoveAssign o src => <[o := default true (S !! src)]> (<[src := false]> S)
  | SDestroy o => delete o S
  | _ => S
  end.
Fixpoint st_ok (S : gmap nat bool) (ps : list (sop T)) : Prop :=
  match ps with [] => True | p :: ps' => st_legal S p /\ st_ok (st_next S p) ps' end.

Global Instance st_legal_dec S p : Decision (st_legal S p).
Proof. destruct p; cbn; apply _. Defined.
Global Instance st_ok_dec ps : forall S, Decision (st_ok S ps).
Proof. induction ps as [|p ps IH]; intros S; cbn; [apply _|]. apply and_dec; [apply _|apply IH]. Defined.

Definition no_copy (p : sop T) : Prop := match p with SCopy _ _ | SCopyAssign _ _ => False | _ => True end.

End spec.
