(** The access lists behind C40, C45, C52 and C91 are what the steps do: a step changes only what its list says it writes, and
    what it does depends only on what its list says it accesses, on the locks, on the atomics and on the condition variable. *)
From stdpp Require Import list.
From Verif Require Import Base Conc CondVar.
From Verif Require SqModel BqModel AirModel WbModel WbConc.

Local Ltac cases := repeat match goal with |- context [match ?x with _ => _ end] => lazymatch x with context [match _ with _ => _ end] => fail | _ => destruct x end end.
Local Ltac fin := splits; try reflexivity; try exact I; try (intros ?w Hw; repeat (destruct Hw as [Hw|Hw]; [first [discriminate Hw|reflexivity]|]); destruct Hw).

Section sq.
Import SqModel.
Context {V : Type}.
Implicit Types (s : sqsh V) (pc : sqpc V).

Theorem C40_writes s t pc s' pc' : sq_step s t pc tt = Some (s', pc') ->
  (~ In (true, true) (sq_acc pc) -> pullE s' = pullE s) /\ (~ In (false, true) (sq_acc pc) -> pushE s' = pushE s).
Proof.
  destruct s as [a b p q f]. destruct pc; cbn [sq_step]; unfold lock_push, lock_pull, unlock_push, unlock_pull, set_push, set_pull, set_flag; cbn [pushL pullL pushE pullE eflag sq_acc In];
    cases; intros [= <- <-]; cbn [pushE pullE]; split; intros Hn; try reflexivity; exfalso; apply Hn; auto.
Qed.

Theorem C40_reads s1 s2 t pc : pushL s1 = pushL s2 -> pullL s1 = pullL s2 -> eflag s1 = eflag s2 ->
  (forall w, In (true, w) (sq_acc pc) -> pullE s1 = pullE s2) -> (forall w, In (false, w) (sq_acc pc) -> pushE s1 = pushE s2) ->
  match sq_step s1 t pc tt, sq_step s2 t pc tt with
  | Some (s1', p1), Some (s2', p2) => p1 = p2 /\ pushL s1' = pushL s2' /\ pullL s1' = pullL s2' /\ eflag s1' = eflag s2' /\
      (forall w, In (true, w) (sq_acc pc) -> pullE s1' = pullE s2') /\ (forall w, In (false, w) (sq_acc pc) -> pushE s1' = pushE s2')
  | None, None => True
  | _, _ => False
  end.
Proof.
  destruct s1 as [a b p1 q1 f], s2 as [a2 b2 p2 q2 f2]. cbn. intros <- <- <-.
  destruct pc; cbn [sq_step sq_acc In]; unfold lock_push, lock_pull, unlock_push, unlock_pull, set_push, set_pull, set_flag; cbn [pushL pullL pushE pullE eflag]; intros H1 H2;
    try (pose proof (H1 _ (or_introl eq_refl))); try (pose proof (H1 _ (or_intror (or_introl eq_refl)))); try (pose proof (H2 _ (or_introl eq_refl))); try (pose proof (H2 _ (or_intror (or_introl eq_refl)))); subst;
    cases; cbn [pushL pullL pushE pullE eflag]; fin.
Qed.
End sq.

Section bq.
Import BqModel.
Context {V : Type}.
Implicit Types (s : bqsh V) (pc : bqpc V).

Theorem C45_writes bp s t pc k s' pc' : bq_step bp s t pc k = Some (s', pc') ->
  (~ In (RPull, true) (bq_acc pc) -> pullE s' = pullE s) /\ (~ In (RPush, true) (bq_acc pc) -> pushE s' = pushE s) /\ (~ In (RPrio, true) (bq_acc pc) -> prioE s' = prioE s).
Proof.
  destruct s as [a b p q r f ws]. destruct k, pc; cbn [bq_step bq_step0]; unfold lock_push, lock_pull, unlock_push, unlock_pull, set_push, set_pull, set_prio, set_flag, set_wait; cbn [pushL pullL pushE pullE prioE eflag bwait bq_acc In];
    cases; try discriminate; intros [= <- <-]; cbn [pushE pullE prioE]; splits; intros Hn; try reflexivity; exfalso; apply Hn; auto.
Qed.

Theorem C45_reads bp s1 s2 t pc k : pushL s1 = pushL s2 -> pullL s1 = pullL s2 -> eflag s1 = eflag s2 -> bwait s1 = bwait s2 ->
  (forall w, In (RPull, w) (bq_acc pc) -> pullE s1 = pullE s2) -> (forall w, In (RPush, w) (bq_acc pc) -> pushE s1 = pushE s2) -> (forall w, In (RPrio, w) (bq_acc pc) -> prioE s1 = prioE s2) ->
  match bq_step bp s1 t pc k, bq_step bp s2 t pc k with
  | Some (s1', p1), Some (s2', p2) => p1 = p2 /\ pushL s1' = pushL s2' /\ pullL s1' = pullL s2' /\ eflag s1' = eflag s2' /\ bwait s1' = bwait s2' /\
      (forall w, In (RPull, w) (bq_acc pc) -> pullE s1' = pullE s2') /\ (forall w, In (RPush, w) (bq_acc pc) -> pushE s1' = pushE s2') /\ (forall w, In (RPrio, w) (bq_acc pc) -> prioE s1' = prioE s2')
  | None, None => True
  | _, _ => False
  end.
Proof.
  destruct s1 as [a b p1 q1 r1 f ws], s2 as [a2 b2 p2 q2 r2 f2 ws2]. cbn. intros <- <- <- <-.
  destruct k, pc; cbn [bq_step bq_step0 bq_acc In]; try exact (fun _ _ _ => I); unfold lock_push, lock_pull, unlock_push, unlock_pull, set_push, set_pull, set_prio, set_flag, set_wait; cbn [pushL pullL pushE pullE prioE eflag bwait]; intros H1 H2 H3;
    try (pose proof (H1 _ (or_introl eq_refl))); try (pose proof (H1 _ (or_intror (or_introl eq_refl)))); try (pose proof (H2 _ (or_introl eq_refl))); try (pose proof (H2 _ (or_intror (or_introl eq_refl))));
    try (pose proof (H3 _ (or_introl eq_refl))); try (pose proof (H3 _ (or_intror (or_introl eq_refl)))); subst;
    cases; cbn [pushL pullL pushE pullE prioE eflag bwait]; try exact I; fin.
Qed.
End bq.

Section air.
Import AirModel.
Context {V : Type}.
Implicit Types (s : airsh V) (pc : airpc V).

Theorem C52_access s1 s2 t pc k : air_acc pc = false -> door s1 = door s2 -> loaded s1 = loaded s2 -> await s1 = await s2 ->
  match air_step s1 t pc k, air_step s2 t pc k with
  | Some (s1', p1), Some (s2', p2) => p1 = p2 /\ door s1' = door s2' /\ loaded s1' = loaded s2' /\ await s1' = await s2' /\ adata s1' = adata s1 /\ adata s2' = adata s2
  | None, None => True
  | _, _ => False
  end.
Proof.
  destruct s1 as [d l x ws], s2 as [d2 l2 x2 ws2]. cbn. intros Ha <- <- <-.
  destruct k, pc; cbn [air_step air_step0 air_acc] in *; try discriminate; try exact I; unfold lock, unlock, set_loaded, set_data, set_await; cbn [door loaded adata await];
    cases; cbn [door loaded adata await]; try exact I; splits; reflexivity.
Qed.
End air.

Section wb.
Import WbModel WbConc.
Implicit Types (s : wc) (pc : cpc).

Theorem C91_writes s t pc s' pc' : c_step s t pc tt = Some (s', pc') ->
  (~ In (MTask, true) (c_acc pc) -> tk (blk s') = tk (blk s)) /\ (~ In (MFut, true) (c_acc pc) -> fut (blk s') = fut (blk s)) /\
  (~ In (MFin, true) (c_acc pc) -> finished (blk s') = finished (blk s)) /\ (~ In (MLoaded, true) (c_acc pc) -> loaded (blk s') = loaded (blk s)).
Proof.
  destruct s as [S [k f fin l] g r]. destruct pc; cbn [c_step c_acc In]; unfold take_future, set_fin, set_loaded; cbn [blk st tk fut finished loaded go rn];
    cases; try discriminate; intros [= <- <-]; cbn [blk tk fut finished loaded]; splits; intros Hn; try reflexivity; exfalso; apply Hn; auto.
Qed.

(** The shared states of futures are synchronised by the library. *)
Theorem C91_reads s1 s2 t pc : st s1 = st s2 -> go s1 = go s2 -> rn s1 = rn s2 ->
  (forall w, In (MTask, w) (c_acc pc) -> tk (blk s1) = tk (blk s2)) -> (forall w, In (MFut, w) (c_acc pc) -> fut (blk s1) = fut (blk s2)) ->
  (forall w, In (MFin, w) (c_acc pc) -> finished (blk s1) = finished (blk s2)) -> (forall w, In (MLoaded, w) (c_acc pc) -> loaded (blk s1) = loaded (blk s2)) ->
  match c_step s1 t pc tt, c_step s2 t pc tt with
  | Some (s1', p1), Some (s2', p2) => p1 = p2 /\ st s1' = st s2' /\ go s1' = go s2' /\ rn s1' = rn s2' /\
      (forall w, In (MTask, w) (c_acc pc) -> tk (blk s1') = tk (blk s2')) /\ (forall w, In (MFut, w) (c_acc pc) -> fut (blk s1') = fut (blk s2')) /\
      (forall w, In (MFin, w) (c_acc pc) -> finished (blk s1') = finished (blk s2')) /\ (forall w, In (MLoaded, w) (c_acc pc) -> loaded (blk s1') = loaded (blk s2'))
  | None, None => True
  | _, _ => False
  end.
Proof.
  destruct s1 as [S [k f fi l] g r], s2 as [S2 [k2 f2 fi2 l2] g2 r2]. cbn [st go rn blk tk fut finished loaded]. intros <- <- <-.
  destruct pc; cbn [c_step c_acc In]; unfold take_future, set_fin, set_loaded; cbn [blk st tk fut finished loaded go rn]; intros H1 H2 H3 H4;
    try (pose proof (H1 _ (or_introl eq_refl))); try (pose proof (H1 _ (or_intror (or_introl eq_refl)))); try (pose proof (H2 _ (or_introl eq_refl))); try (pose proof (H2 _ (or_intror (or_introl eq_refl))));
    try (pose proof (H3 _ (or_introl eq_refl))); try (pose proof (H4 _ (or_introl eq_refl))); subst;
    cases; cbn [blk st tk fut finished loaded go rn]; fin.
Qed.
End wb.

Print Assumptions C40_writes.
Print Assumptions C40_reads.
Print Assumptions C45_writes.
Print Assumptions C45_reads.
Print Assumptions C52_access.
Print Assumptions C91_writes.
Print Assumptions C91_reads.

(** The hypotheses are met: the swap, the transfer of the slot, the reset of a task. *)
Example C40_access_case : SqModel.sq_step (SqModel.SqSh (Some 1%nat) (Some 1%nat) [4; 5] [] false) 1 (SqModel.C3 None) tt
  = Some (SqModel.SqSh (Some 1%nat) (Some 1%nat) [] [4; 5] false, SqModel.C4 None) /\ SqModel.sq_acc (@SqModel.C3 Z None) = [(true, true); (false, true)].
Proof. split; reflexivity. Qed.
Example C45_access_case : BqModel.bq_step true (BqModel.BqSh None (Some 1%nat) [4] [] [7] false []) 1 (BqModel.OQ BqModel.MTry) CStep
  = Some (BqModel.BqSh None (Some 1%nat) [4] [] [] false [], BqModel.O3 BqModel.MTry (Some 7)) /\ BqModel.bq_acc (@BqModel.OQ Z BqModel.MTry) = [(BqModel.RPrio, true)].
Proof. split; reflexivity. Qed.
Example C52_access_case : AirModel.air_step (AirModel.AirSh (Some 1%nat) true (Some 4) []) 1 (AirModel.AU4 (Some 4)) CStep
  = Some (AirModel.AirSh (Some 1%nat) false (Some 4) [], AirModel.AU5 (Some 4)) /\ AirModel.air_acc (AirModel.AU4 (Some 4)) = false.
Proof. split; reflexivity. Qed.
Example C91_access_case : exists s', WbConc.c_step (WbConc.wc0 3) 0 WbConc.R1 tt = Some (s', WbConc.R2) /\ WbModel.tk (WbConc.blk s') <> WbModel.tk (WbConc.blk (WbConc.wc0 3)).
Proof. eexists. split; [reflexivity|discriminate]. Qed.
