(** C111: getWorkerCount *)
From stdpp Require Import list.
From Verif Require Import Base Conc CondVar Herlihy SqModel SqSpec SqProofs WqModel WqProofs Props_Wq WqWorkers.
Local Open Scope nat_scope.

Section props.
Variable nw : nat.

(** It returns the number of workers, or 0 -- and 0 (with workers) only if closeWorkerQueue has been called. *)
Theorem C111_count f xs c H i j t r : wq_run nw (wq_init nw f) xs = Some (c, H) -> ret_of H i j t OCount r ->
  exists n, r = RNum n /\ (n = Z.of_nat nw \/ (n = 0%Z /\ exists a u, H !! a = Some (HInv u OClose) /\ a < j)).
Proof. intros Er Hr. destruct (wi_done _ _ _ (workI_run nw f _ _ _ Er) _ _ _ _ Hr) as (n & E1 & E2 & _). exists n. split; [exact E1|exact E2]. Qed.

(** Before any call of closeWorkerQueue it is the number of workers. *)
Theorem C111_open f xs c H i j t r : wq_run nw (wq_init nw f) xs = Some (c, H) -> ret_of H i j t OCount r ->
  (forall a u, a < j -> H !! a <> Some (HInv u OClose)) -> r = RNum (Z.of_nat nw).
Proof. intros Er Hr Hn. destruct (C111_count f _ _ _ _ _ _ _ Er Hr) as (n & -> & [->|(_ & a & u & Ha & Hj)]); [reflexivity|]. destruct (Hn a u Hj Ha). Qed.

(** Called after closeWorkerQueue has returned it is 0. *)
Theorem C111_closed f xs c H i j t r a b u r' : wq_run nw (wq_init nw f) xs = Some (c, H) -> ret_of H i j t OCount r -> ret_of H a b u OClose r' -> b < i ->
  r = RNum 0.
Proof.
  intros Er Hr Hc Hb. destruct (wi_done _ _ _ (workI_run nw f _ _ _ Er) _ _ _ _ Hr) as (n & -> & _ & E). rewrite E; [reflexivity|]. exists a, b, u, OClose, r'. unfold tells_closed. auto.
Qed.

(** Once it has returned 0 (with workers) it does so in every later call. *)
Theorem C111_stays f xs c H i j t i' j' t' r : 0 < nw -> wq_run nw (wq_init nw f) xs = Some (c, H) -> ret_of H i j t OCount (RNum 0) -> ret_of H i' j' t' OCount r -> j < i' ->
  r = RNum 0.
Proof.
  intros Hn Er Hz Hr Hj. destruct (wi_done _ _ _ (workI_run nw f _ _ _ Er) _ _ _ _ Hr) as (n & -> & _ & E). rewrite E; [reflexivity|].
  exists i, j, t, OCount, (RNum 0). unfold tells_closed. auto 6.
Qed.
End props.

(** One worker: asked before closeWorkerQueue, while it is running, and after it has returned *)
Definition count_run : list (nat * act cvc wqop) :=
  let ask := (1, ACall OCount) :: ints 1 1 ++ [(1, ARet)] in
  ask ++ (2, ACall OClose) :: ints 2 4 ++ ask ++ ints 2 42 ++ ints 0 24 ++ ints 2 2 ++ (2, ARet) :: ask.
Example C111_case : match wq_run 1 (wq_init 1 no_fin) count_run with
  | Some (c, H) => H = [HInv 1 OCount; HRet 1 (RNum 1); HInv 2 OClose; HInv 1 OCount; HRet 1 (RNum 0); HRet 2 RUnit; HInv 1 OCount; HRet 1 (RNum 0)]
  | None => False end.
Proof. vm_compute. reflexivity. Qed.

Print Assumptions C111_count. Print Assumptions C111_open. Print Assumptions C111_closed. Print Assumptions C111_stays.
