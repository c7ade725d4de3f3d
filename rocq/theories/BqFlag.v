(** Blocking queues: what queueEmptyFlag says *)
From stdpp Require Import list.
From Verif Require Import Base Conc CondVar BqModel BqSpec BqInv BqMore.

Section bq.
Context {V : Type}.
Variable bp : bool.
Notation bqcfg := (cfg (bqsh V) (bqpc V)).
Implicit Types (s : bqsh V) (pc : bqpc V) (c : bqcfg).

(** Points at which the flag is known to be false *)
Definition low s pc : Prop :=
  match pc with PD _ | PE | P6 _ | P7 _ | P8 _ | PA _ | P9 _ | PB _ | R3 _ | R4 => eflag s = false | PF => False
  | C0 _ (Some _) | C1 _ (Some _) | C2 _ (Some _) | C3 _ (Some _) | C6 _ (Some _) => prioE s = [] | _ => True end.
(** pushPriority between inserting and its compare-exchange *)
Definition marking c : Prop := exists t, th c t = Some R7.

Record flagI c : Prop := {
  f_low : forall t pc, th c t = Some pc -> low (sh c) pc;
  f_true : eflag (sh c) = true -> pullE (sh c) = [] /\ pushE (sh c) = [] /\ (prioE (sh c) = [] \/ marking c);
}.

Ltac cases Es :=
  repeat lazymatch type of Es with
  | context [match ?x with _ => _ end] => destruct x eqn:?
  end; try discriminate Es; try (injection Es as <- <-).
Ltac norm := repeat match goal with H : nonempty _ = true |- _ => apply nonempty_true in H | H : nonempty _ = false |- _ => apply nonempty_false in H end.
Ltac fields := cbn [pushE pullE prioE eflag bwait set_push set_pull set_prio set_flag set_wait unlock_push unlock_pull] in *.

Lemma step_low s t pc k s' pc' : bq_step bp s t pc k = Some (s', pc') -> sinv s pc -> low s pc -> low s' pc'.
Proof.
  intros Es Hs Hl. destruct k as [|u| |]; cbn [bq_step] in Es; try discriminate.
  - destruct pc; cbn [low] in Hl; try contradiction; cbn [bq_step0] in Es; unfold lock_push, lock_pull, cont, after, test in Es; cases Es; cbn [sinv low noprio] in *; fields; norm; auto; try congruence; try tauto.
  - destruct pc; try discriminate. cases Es; exact I.
  - destruct pc; try discriminate. cases Es; exact I.
Qed.

(** The flag becomes true only under both locks. *)
Lemma step_both s t pc k s' pc' : bq_step bp s t pc k = Some (s', pc') -> eflag s' = true -> eflag s = true \/ (hpush pc = true /\ hpull pc = true).
Proof.
  intros Es Hq. destruct k as [|u| |]; cbn [bq_step] in Es; try discriminate.
  - destruct pc; cbn [bq_step0] in Es; unfold lock_push, lock_pull in Es; cases Es; cbn in *; auto; try congruence.
  - destruct pc; try discriminate. cases Es; auto.
  - destruct pc; try discriminate. cases Es; auto.
Qed.

Lemma step_true s t pc k s' pc' : bq_step bp s t pc k = Some (s', pc') -> okpc bp pc -> sinv s pc -> low s pc -> (bp = false -> prioE s = []) ->
  (eflag s = true -> pullE s = [] /\ pushE s = []) -> eflag s' = true ->
  pullE s' = [] /\ pushE s' = [] /\ (prioE s' = [] \/ pc' = R7 \/ (eflag s = true /\ (prioE s = [] -> prioE s' = []) /\ pc <> R7)).
Proof.
  intros Es Ho Hs Hl Hb Ht Hq. destruct k as [|u| |]; cbn [bq_step] in Es; try discriminate.
  - destruct pc; cbn [bq_step0] in Es; unfold lock_push, lock_pull in Es; cases Es; cbn [sinv low noprio] in *; fields; norm; try congruence; try tauto;
      try (rewrite Ht in * by assumption); try (destruct (Ht Hq) as [E1 E2]; rewrite ?E1, ?E2 in *; cbn in *); try congruence; try (splits; auto; try discriminate; fail); auto 10.
    + splits; auto. right; right. splits; auto; discriminate.
    + destruct k; tauto.
    + splits; auto. right; right. splits; auto; discriminate.
    + splits; auto. right; right. splits; auto; discriminate.
  - destruct pc; try discriminate. cases Es; cbn in *. destruct (Ht Hq). splits; auto; right; right; splits; auto; discriminate.
  - destruct pc; try discriminate. cases Es; cbn in *. destruct (Ht Hq). splits; auto; right; right; splits; auto; discriminate.
Qed.

Lemma flagI_int c t k pc s' pc' : bqI bp c -> flagI c -> th c t = Some pc -> bq_step bp (sh c) t pc k = Some (s', pc') -> flagI (Cfg s' (fupd t (Some pc') (th c))).
Proof.
  intros Hi [Fl Ft] Et Es. pose proof (i_pc _ _ Hi _ _ Et) as [Hs Ho]. split; cbn [sh th].
  - intros u pu Eu. unfold fupd in Eu. destruct (Nat.eqb_spec u t) as [->|Hne]; [injection Eu as <-; eapply step_low; eauto|].
    pose proof (Fl _ _ Eu) as Hfu. pose proof (step_both _ _ _ _ _ _ Es) as Hup.
    assert (Hx : (hpush pu = true \/ hpull pu = true) -> eflag (sh c) = false -> eflag s' = false).
    { intros Hh E. destruct (eflag s') eqn:E'; [|reflexivity]. destruct (Hup eq_refl) as [?|[Hp1 Hp2]]; [congruence|]. exfalso. apply Hne. destruct Hh as [Hh|Hh].
      - assert (pushL (sh c) = Some t) by (eapply lk_owner; eauto using i_push). assert (pushL (sh c) = Some u) by (eapply lk_owner; eauto using i_push). congruence.
      - assert (pullL (sh c) = Some t) by (eapply lk_owner; eauto using i_pull). assert (pullL (sh c) = Some u) by (eapply lk_owner; eauto using i_pull). congruence. }
    assert (Hy : hpull pu = true -> prioE s' = prioE (sh c)).
    { intros Hh. apply (step_frame _ _ _ _ _ _ _ Es). destruct (hpull pc) eqn:E; [|reflexivity]. exfalso. apply Hne.
      assert (pullL (sh c) = Some t) by (eapply lk_owner; eauto using i_pull). assert (pullL (sh c) = Some u) by (eapply lk_owner; eauto using i_pull). congruence. }
    destruct pu; cbn in *; auto; try (destruct k0; auto; rewrite Hy; auto).
  - intros Hq. destruct (step_true _ _ _ _ _ _ Es Ho Hs (Fl _ _ Et) (i_prio _ _ Hi)) as (E1 & E2 & E3); [intros E; apply Ft in E; tauto|exact Hq|].
    split; [exact E1|]. split; [exact E2|]. destruct E3 as [E3|[->|(E3 & E4 & E5)]]; [auto|right; exists t; cbn; apply fupd_same|].
    destruct (Ft E3) as (_ & _ & [Hp|[u Hu]]); [auto|]. right. exists u. cbn. rewrite fupd_other; [exact Hu|congruence].
Qed.

Lemma flagI_init s : (eflag s = true -> nothing_held s) -> flagI (init s).
Proof. intros Hs. split; cbn; [discriminate|]. intros E. apply Hs in E as (E1 & E2 & E3). auto. Qed.
Lemma flagI_call c t o : flagI c -> th c t = None -> flagI (Cfg (sh c) (fupd t (Some (bq_start o)) (th c))).
Proof.
  intros [Fl Ft] Et. split; cbn [sh th].
  - intros u pu Eu. unfold fupd in Eu. destruct (Nat.eqb_spec u t) as [->|]; [|eauto]. injection Eu as <-. destruct o; exact I.
  - intros E. destruct (Ft E) as (E1 & E2 & E3). split; [exact E1|]. split; [exact E2|]. destruct E3 as [?|[u Hu]]; [auto|]. right. exists u. cbn. rewrite fupd_other; [exact Hu|congruence].
Qed.
Lemma flagI_ret c t pc r : flagI c -> th c t = Some pc -> bq_fin pc = Some r -> flagI (Cfg (sh c) (fupd t None (th c))).
Proof.
  intros [Fl Ft] Et Ef. destruct pc; try discriminate. split; cbn [sh th].
  - intros u pu Eu. unfold fupd in Eu. destruct (Nat.eqb_spec u t) as [->|]; [discriminate|eauto].
  - intros E. destruct (Ft E) as (E1 & E2 & E3). split; [exact E1|]. split; [exact E2|]. destruct E3 as [?|[u Hu]]; [auto|]. right. exists u. cbn. rewrite fupd_other; [exact Hu|congruence].
Qed.

Lemma flagI_run xs c c' H : bqI bp c -> flagI c -> Forall (has_op bp) (calls xs) -> bq_run bp c xs = Some (c', H) -> flagI c'.
Proof.
  intros Hi Hf Hok Er. enough (bqI bp c' /\ flagI c') by tauto. revert Er. apply (inv_run bq_start (bq_step bp) bq_fin (has_op bp) (fun c => bqI bp c /\ flagI c)); auto.
  - intros c0 t o [H1 H2] Ho Et. split; [apply bqI_call|apply flagI_call]; auto.
  - intros c0 t k pc s' pc' [H1 H2] Et Es. split; [eapply bqI_int|eapply flagI_int]; eauto.
  - intros c0 t pc r [H1 H2] Et Ef. split; [eapply bqI_ret|eapply flagI_ret]; eauto.
Qed.
End bq.
