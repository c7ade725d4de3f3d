(** Blocking queues: no lost wakeup while only one thread waits *)
From stdpp Require Import list.
From Verif Require Import Base Conc CondVar BqModel BqSpec BqInv BqMore.

Section bq.
Context {V : Type}.
Variables (bp : bool) (t0 : nat).
Notation bqcfg := (cfg (bqsh V) (bqpc V)).
Implicit Types (s : bqsh V) (pc : bqpc V) (c : bqcfg).

(** What threads other than [t0] may call *)
Definition may (o : bqop V) : Prop := match o with BPop | BPopFor | BPopCall => False | BTryPop => bp = false | _ => True end.
Definition sole_consumer (xs : list (nat * act cvc (bqop V))) : Prop := forall t o, In (t, ACall o) xs -> t <> t0 -> may o.

Definition quiet pc : Prop :=
  match pc with
  | O0 m | OP m | OQ m | C0 m _ | C1 m _ | C2 m _ | C3 m _ | C4 m _ | C5 m _ | C6 m _ | C7 m _ | O1 m _ | O2 m | O3 m _ => m = MTry /\ bp = false
  | CB | W0 _ | WP _ _ | WQ _ | W1 _ _ | W2 _ | W3 _ | W4 _ | W5 _ | W7 _ => False
  | _ => True
  end.

(** The flag only becomes true under the push lock. *)
Definition flagged s pc : Prop := match pc with PD _ | PE => eflag s = false | PF => False | _ => True end.

(** From finding nothing to waiting *)
Definition zone s pc : Prop :=
  match pc with C7 _ None | O1 _ true | O3 _ None | CB | W0 _ | WP _ false | W1 _ false | W4 _ => True | W5 _ => In t0 (bwait s) | _ => False end.
Definition early pc : Prop := match pc with CB | W0 _ | WP _ false | W1 _ false => True | _ => False end.
(** Going to notify *)
Definition notif s pc : Prop :=
  match pc with P3 _ | P4 _ | P5 _ | P6 _ | P7 _ | P8 _ | PA _ | P9 _ | R1 _ | R2 _ | R3 _ | R4 => True | R7 => eflag s = true | _ => False end.
(** Going to set the flag, or to swap *)
Definition late pc : Prop :=
  match pc with C0 _ (Some _) | C1 _ (Some _) | C2 _ (Some _) | C3 _ (Some _) | C6 _ (Some _) | L3 | LP | L4 => True | _ => False end.
Definition avail s : Prop := pullE s <> [] \/ prioE s <> [].
Definition clean s : Prop := eflag s = true /\ nothing_held s.

Record wake c : Prop := {
  k_quiet : forall t pc, th c t = Some pc -> t <> t0 -> quiet pc;
  k_flag : forall t pc, th c t = Some pc -> flagged (sh c) pc;
  k_wake : forall pc, th c t0 = Some pc -> zone (sh c) pc ->
    clean (sh c) \/ (exists u pu, th c u = Some pu /\ notif (sh c) pu) \/
    (early pc /\ (avail (sh c) \/ exists u pu, th c u = Some pu /\ late pu));
}.

Ltac cases Es :=
  repeat lazymatch type of Es with
  | context [match ?x with _ => _ end] => destruct x eqn:?
  end; try discriminate Es; try (injection Es as <- <-).
Ltac norm := repeat match goal with H : nonempty _ = true |- _ => apply nonempty_true in H | H : nonempty _ = false |- _ => apply nonempty_false in H end.
Ltac fields := cbn [pushE pullE prioE eflag bwait set_push set_pull set_prio set_flag set_wait unlock_push unlock_pull] in *.

Lemma step_quiet s t pc k s' pc' : bq_step bp s t pc k = Some (s', pc') -> quiet pc -> quiet pc'.
Proof.
  intros Es Hq. destruct k as [|u| |]; cbn [bq_step] in Es; try discriminate.
  - destruct pc; cbn [quiet] in Hq; try contradiction; cbn [bq_step0] in Es; unfold lock_push, lock_pull, cont, after, test in Es; cases Es; cbn; auto; destruct Hq; try congruence; split; congruence.
  - destruct pc; try discriminate; contradiction.
  - destruct pc; try discriminate; contradiction.
Qed.

(** Flag facts of the thread that steps and of the others *)
Lemma step_flagged s t pc k s' pc' : bq_step bp s t pc k = Some (s', pc') -> flagged s pc -> flagged s' pc'.
Proof.
  intros Es Hq. destruct k as [|u| |]; cbn [bq_step] in Es; try discriminate.
  - destruct pc; cbn [flagged] in Hq; try contradiction; cbn [bq_step0] in Es; unfold lock_push, lock_pull, cont, after, test in Es; cases Es; cbn; auto; congruence.
  - destruct pc; try discriminate. cases Es; exact I.
  - destruct pc; try discriminate. cases Es; exact I.
Qed.
Lemma step_up s t pc k s' pc' : bq_step bp s t pc k = Some (s', pc') -> eflag s' = true -> eflag s = true \/ hpush pc = true.
Proof.
  intros Es Hq. destruct k as [|u| |]; cbn [bq_step] in Es; try discriminate.
  - destruct pc; cbn [bq_step0] in Es; unfold lock_push, lock_pull in Es; cases Es; cbn in *; auto; try congruence.
  - destruct pc; try discriminate. cases Es; auto.
  - destruct pc; try discriminate. cases Es; auto.
Qed.
Lemma step_down s t pc k s' pc' : bq_step bp s t pc k = Some (s', pc') -> flagged s pc -> eflag s = true -> eflag s' = true \/ notif s' pc'.
Proof.
  intros Es Hf Hq. destruct k as [|u| |]; cbn [bq_step] in Es; try discriminate.
  - destruct pc; cbn [bq_step0] in Es; unfold lock_push, lock_pull in Es; cases Es; cbn in *; auto; try congruence.
  - destruct pc; try discriminate. cases Es; auto.
  - destruct pc; try discriminate. cases Es; auto.
Qed.

(** Steps of the others *)
Lemma other_clean s t pc k s' pc' : bq_step bp s t pc k = Some (s', pc') -> okpc bp pc -> sinv s pc -> flagged s pc -> quiet pc -> clean s -> clean s' \/ notif s' pc' \/ notif s pc.
Proof.
  intros Es Ho Hs Hf Hq (E1 & E2 & E3 & E4). unfold clean, nothing_held. destruct k as [|u| |]; cbn [bq_step] in Es; try discriminate.
  - destruct pc; cbn [quiet] in Hq; try contradiction; cbn [bq_step0] in Es; unfold lock_push, lock_pull in Es; cases Es; cbn [sinv flagged] in *; norm; fields; auto 8; try congruence;
      try (right; left; exact I); try (right; left; cbn; assumption); try (exfalso; intuition congruence).
  - destruct pc; try discriminate; contradiction.
  - destruct pc; try discriminate; contradiction.
Qed.
Lemma other_notif s t pc k s' pc' : bq_step bp s t pc k = Some (s', pc') -> sinv s pc -> notif s pc ->
  notif s' pc' \/ (bwait s' = [] /\ avail s' /\ hpull pc = true).
Proof.
  intros Es Hs Hn. unfold avail. destruct k as [|u| |]; cbn [bq_step] in Es; try discriminate.
  - destruct pc; cbn [notif] in Hn; try contradiction; cbn [bq_step0] in Es; unfold lock_push, lock_pull in Es; cases Es; cbn [sinv] in *; norm; fields; cbn [notif hpull]; auto; congruence.
  - destruct pc; try discriminate; contradiction.
  - destruct pc; try discriminate; contradiction.
Qed.
Lemma other_avail s t pc k s' pc' : bq_step bp s t pc k = Some (s', pc') -> (bp = false -> prioE s = []) -> sinv s pc -> quiet pc -> avail s -> avail s' \/ late pc'.
Proof.
  intros Es Hb Hs Hq Ha. unfold avail in *. destruct k as [|u| |]; cbn [bq_step] in Es; try discriminate.
  - destruct pc; cbn [quiet] in Hq; try contradiction; cbn [bq_step0] in Es; unfold lock_push, lock_pull, cont in Es; cases Es; cbn [sinv] in *; norm; fields; cbn [late]; auto; try tauto.
    all: try (left; destruct Ha as [Ha|Ha]; [left; exact Ha|right; intros E; apply app_eq_nil in E; tauto]).
    all: try (left; destruct Ha as [Ha|Ha]; [left; intros E; apply app_eq_nil in E; tauto|right; exact Ha]).
    all: try (left; destruct Ha as [Ha|Ha]; [left|right; exact Ha]; intros E; apply rev_nil_inv in E; tauto).
    all: try (exfalso; rewrite Hb in * by tauto; congruence).
    all: left; right; congruence.
  - destruct pc; try discriminate; contradiction.
  - destruct pc; try discriminate; contradiction.
Qed.
Lemma other_late s t pc k s' pc' : bq_step bp s t pc k = Some (s', pc') -> (bp = false -> prioE s = []) -> sinv s pc -> quiet pc -> late pc -> late pc' \/ clean s' \/ avail s'.
Proof.
  intros Es Hb Hs Hq Ha. unfold clean, nothing_held, avail in *. destruct k as [|u| |]; cbn [bq_step] in Es; try discriminate.
  - destruct pc; cbn [late] in Ha; try contradiction; cbn [bq_step0] in Es; unfold lock_push, lock_pull, cont in Es; cases Es; cbn [sinv quiet] in *; norm; fields; cbn [late]; auto; try tauto.
    all: right; left; split; [reflexivity|]; splits; try tauto; apply Hb; tauto.
  - destruct pc; try discriminate; contradiction.
  - destruct pc; try discriminate; contradiction.
Qed.

(** Steps of [t0] *)
Lemma own_zone s pc k s' pc' : bq_step bp s t0 pc k = Some (s', pc') -> sinv s pc -> zone s' pc' ->
  clean s' \/
  (zone s pc /\ eflag s' = eflag s /\ pushE s' = pushE s /\ pullE s' = pullE s /\ prioE s' = prioE s /\
    (early pc -> early pc' \/ (~ avail s /\ hpull pc = true))).
Proof.
  intros Es Hs Hz. unfold clean, nothing_held, avail in *. destruct k as [|u| |]; cbn [bq_step] in Es; try discriminate.
  - destruct pc; cbn [bq_step0] in Es; unfold lock_push, lock_pull, cont, after, test in Es; cases Es; cbn [zone sinv noprio early hpull] in *; try contradiction; norm; fields; try tauto.
    all: try (right; splits; auto; tauto). all: try (right; splits; auto; intros _; right; split; [|reflexivity]; intros [?|?]; tauto).
    + destruct k; cbn in *; tauto.
    + destruct e; [right; splits; auto; tauto|tauto].
  - destruct pc; try discriminate. cases Es. cbn in Hz. apply rm_spec in Hz. tauto.
  - destruct pc; try discriminate. cases Es. cbn in Hz. apply rm_spec in Hz. tauto.
Qed.

Lemma zone_not_notif s pc : zone s pc -> ~ notif s pc.
Proof. destruct pc; cbn; tauto. Qed.
Lemma zone_lock s pc : zone s pc -> hpull pc = true \/ (exists m, pc = W5 m /\ In t0 (bwait s)) \/ early pc.
Proof. destruct pc; cbn; try tauto; eauto 10. Qed.

Lemma notif_flag s s' pc : notif s pc -> eflag s' = eflag s -> notif s' pc.
Proof. destruct pc; cbn; auto; congruence. Qed.
Lemma notif_up s s' pc : notif s pc -> (eflag s = true -> eflag s' = true) -> notif s' pc.
Proof. destruct pc; cbn; auto. Qed.

Lemma wake_init s : wake (init s).
Proof. split; cbn; discriminate. Qed.

Lemma zone_frame s s' t pc k p p' : bq_step bp s t p k = Some (s', p') -> t <> t0 -> zone s' pc -> (In t (bwait s) -> exists m, p = W5 m) -> zone s pc.
Proof.
  intros Es Hne Hz Hw. destruct pc; cbn in *; auto. destruct (step_wait _ _ _ _ _ _ _ Es Hw) as [H1 _]. apply H1; [exact Hz|congruence].
Qed.

Lemma wake_int c t k pc s' pc' : bqI bp c -> wake c -> th c t = Some pc -> bq_step bp (sh c) t pc k = Some (s', pc') -> wake (Cfg s' (fupd t (Some pc') (th c))).
Proof.
  intros Hi [Kq Kf Kw] Et Es. pose proof (i_pc _ _ Hi _ _ Et) as [Hs Ho]. pose proof (Kf _ _ Et) as Hf. split; cbn [sh th].
  - intros u pu Eu Hne. unfold fupd in Eu. destruct (Nat.eqb_spec u t) as [->|]; [|eauto]. injection Eu as <-. eapply step_quiet; eauto.
  - intros u pu Eu. unfold fupd in Eu. destruct (Nat.eqb_spec u t) as [->|Hne]; [injection Eu as <-; eapply step_flagged; eauto|].
    pose proof (Kf _ _ Eu) as Hfu. pose proof (step_up _ _ _ _ _ _ Es) as Hup.
    assert (Hx : hpush pu = true -> eflag (sh c) = false -> eflag s' = false).
    { intros Hh E. destruct (eflag s') eqn:E'; [|reflexivity]. destruct (Hup eq_refl) as [?|Hp]; [congruence|]. exfalso. apply Hne.
      assert (pushL (sh c) = Some t) by (eapply lk_owner; eauto using i_push). assert (pushL (sh c) = Some u) by (eapply lk_owner; eauto using i_push). congruence. }
    destruct pu; cbn in *; auto.
  - intros p0 E0 Hz. destruct (Nat.eq_dec t t0) as [->|Hne].
    + rewrite fupd_same in E0. injection E0 as <-. destruct (own_zone _ _ _ _ _ Es Hs Hz) as [?|(Hz0 & F1 & F2 & F3 & F4 & He)]; [auto|].
      destruct (Kw _ Et Hz0) as [(E1 & E2 & E3 & E4)|[(u & pu & Eu & Hn)|[Hea [Ha|(u & pu & Eu & Hl)]]]].
      * left. unfold clean, nothing_held. rewrite F1, F2, F3, F4. auto.
      * right; left. exists u, pu. split; [|eapply notif_flag; eassumption]. rewrite fupd_other; [exact Eu|]. intros ->. assert (pu = pc) as -> by congruence.
        eapply zone_not_notif; eassumption.
      * destruct (He Hea) as [He'|[He' _]]; [|tauto]. right; right. split; [exact He'|]. left. unfold avail. rewrite F3, F4. exact Ha.
      * assert (Hut : u <> t0). { intros ->. assert (pu = pc) as -> by congruence. destruct pc; cbn in *; contradiction. }
        destruct (He Hea) as [He'|[_ He']].
        -- right; right. split; [exact He'|]. right. exists u, pu. rewrite fupd_other by exact Hut. auto.
        -- exfalso. apply Hut. assert (pullL (sh c) = Some t0) by (eapply lk_owner; eauto using i_pull).
           assert (pullL (sh c) = Some u). { eapply lk_owner; [apply (i_pull _ _ Hi)|exact Eu|]. destruct pu; cbn in Hl |- *; try contradiction; reflexivity. } congruence.
    + rewrite fupd_other in E0 by congruence. assert (Hw : In t (bwait (sh c)) -> exists m, pc = W5 m). { intros Hx. destruct (i_wait _ _ Hi _ Hx) as [m E]. exists m; congruence. }
      pose proof (zone_frame _ _ _ _ _ _ _ Es Hne Hz Hw) as Hz0. pose proof (Kq _ _ Et Hne) as Hq.
      assert (Hme : forall P : bqpc V -> Prop, P pc' -> exists u pu, fupd t (Some pc') (th c) u = Some pu /\ P pu). { intros P HP. exists t, pc'. rewrite fupd_same. auto. }
      assert (Hmine : notif (sh c) pc -> clean s' \/ (exists u pu, fupd t (Some pc') (th c) u = Some pu /\ notif s' pu) \/
        (early p0 /\ (avail s' \/ exists u pu, fupd t (Some pc') (th c) u = Some pu /\ late pu))).
      { intros Hn. destruct (other_notif _ _ _ _ _ _ Es Hs Hn) as [Hn'|(Ew & Ha & Hh)]; [right; left; apply Hme, Hn'|].
        destruct (zone_lock _ _ Hz) as [Hl|[(m & -> & Hx)|He]]; [|rewrite Ew in Hx; destruct Hx|right; right; auto].
        exfalso. apply Hne. assert (pullL (sh c) = Some t) by (eapply lk_owner; eauto using i_pull). assert (pullL (sh c) = Some t0) by (eapply lk_owner; eauto using i_pull). congruence. }
      destruct (Kw _ E0 Hz0) as [Hc|[(u & pu & Eu & Hn)|[Hea [Ha|(u & pu & Eu & Hl)]]]].
      * destruct (other_clean _ _ _ _ _ _ Es Ho Hs Hf Hq Hc) as [?|[?|Hn]]; [auto|right; left; apply Hme; assumption|auto].
      * destruct (Nat.eq_dec u t) as [->|Hut]; [assert (pu = pc) as -> by congruence; auto|].
        destruct (eflag (sh c)) eqn:Ef.
        -- destruct (step_down _ _ _ _ _ _ Es Hf Ef) as [Ef'|Hn']; [|right; left; apply Hme; assumption].
           right; left. exists u, pu. rewrite fupd_other by exact Hut. split; [exact Eu|]. eapply notif_up; eauto.
        -- right; left. exists u, pu. rewrite fupd_other by exact Hut. split; [exact Eu|]. eapply notif_up; [exact Hn|congruence].
      * destruct (other_avail _ _ _ _ _ _ Es (i_prio _ _ Hi) Hs Hq Ha) as [?|Hl]; [auto 6|]. right; right. split; [exact Hea|right; apply Hme, Hl].
      * destruct (Nat.eq_dec u t) as [->|Hut].
        -- assert (pu = pc) as -> by congruence. destruct (other_late _ _ _ _ _ _ Es (i_prio _ _ Hi) Hs Hq Hl) as [Hl'|[?|?]]; [|auto 6..].
           right; right. split; [exact Hea|right; apply Hme, Hl'].
        -- right; right. split; [exact Hea|]. right. exists u, pu. rewrite fupd_other by exact Hut. auto.
Qed.

Lemma wake_call c t o : wake c -> has_op bp o -> (t <> t0 -> may o) -> th c t = None -> wake (Cfg (sh c) (fupd t (Some (bq_start o)) (th c))).
Proof.
  intros [Kq Kf Kw] Ho Hm Et. split; cbn [sh th].
  - intros u pu Eu Hne. unfold fupd in Eu. destruct (Nat.eqb_spec u t) as [->|]; [|eauto]. injection Eu as <-. specialize (Hm Hne). destruct o; cbn in *; auto; contradiction.
  - intros u pu Eu. unfold fupd in Eu. destruct (Nat.eqb_spec u t) as [->|]; [|eauto]. injection Eu as <-. destruct o; cbn; auto.
  - intros p0 E0 Hz. assert (Hne : t <> t0). { intros ->. rewrite fupd_same in E0. injection E0 as <-. destruct o; cbn in Hz; contradiction. }
    rewrite fupd_other in E0 by congruence. assert (Hk : forall u pu, th c u = Some pu -> fupd t (Some (bq_start o)) (th c) u = Some pu). { intros u pu Eu. rewrite fupd_other; [exact Eu|congruence]. }
    destruct (Kw _ E0 Hz) as [Hc|[(u & pu & Eu & Hn)|[Hea [Ha|(u & pu & Eu & Hl)]]]]; eauto 10.
Qed.

Lemma wake_ret c t pc r : wake c -> th c t = Some pc -> bq_fin pc = Some r -> wake (Cfg (sh c) (fupd t None (th c))).
Proof.
  intros [Kq Kf Kw] Et Ef. destruct pc; try discriminate. assert (Hx : forall u pu, fupd t None (th c) u = Some pu -> th c u = Some pu).
  { intros u pu Eu. unfold fupd in Eu. destruct (Nat.eqb_spec u t) as [->|]; [discriminate|exact Eu]. }
  assert (Hy : forall u pu, th c u = Some pu -> pu <> Ret r0 -> fupd t None (th c) u = Some pu). { intros u pu Eu Hn. rewrite fupd_other; [exact Eu|]. intros ->. congruence. }
  split; cbn [sh th]; eauto.
  intros p0 E0 Hz. destruct (Kw _ (Hx _ _ E0) Hz) as [Hc|[(u & pu & Eu & Hn)|[Hea [Ha|(u & pu & Eu & Hl)]]]]; eauto 10.
  - right; left. exists u, pu. split; [apply Hy; [exact Eu|intros ->; exact Hn]|exact Hn].
  - right; right. split; [exact Hea|]. right. exists u, pu. split; [apply Hy; [exact Eu|intros ->; exact Hl]|exact Hl].
Qed.

Lemma wake_run xs : forall c c' H, bqI bp c -> wake c -> Forall (has_op bp) (calls xs) -> sole_consumer xs -> bq_run bp c xs = Some (c', H) -> wake c'.
Proof.
  induction xs as [|[t a] xs IH]; intros c c' H Hi Hw Hok Hso; unfold bq_run; cbn [run].
  - intros [= <- _]. exact Hw.
  - destruct (exec bq_start (bq_step bp) bq_fin c (t, a)) as [[c1 e]|] eqn:Ex; [|discriminate]. destruct (run bq_start (bq_step bp) bq_fin c1 xs) as [[c2 H2]|] eqn:Er; [|discriminate]. intros [= <- _].
    assert (Hx : (forall o, a = ACall o -> has_op bp o) /\ Forall (has_op bp) (calls xs)).
    { unfold calls in Hok; cbn in Hok. destruct a eqn:Es; [inversion Hok; subst; split; [intros ? [= <-]; assumption|assumption]|split; [discriminate|exact Hok]..]. }
    destruct Hx as [Hx1 Hx2]. apply (IH c1 c2 H2); [eapply bqI_exec; [exact Hi| |exact Ex]; exact Hx1| |exact Hx2| |exact Er].
    + destruct a as [o|k|]; cbn in Ex.
      * destruct (th c t) eqn:Et; [discriminate|]. injection Ex as <- _. apply wake_call; auto. apply Hso. left. reflexivity.
      * destruct (th c t) as [pc|] eqn:Et; [|discriminate]. destruct (bq_step bp (sh c) t pc k) as [[s' pc']|] eqn:Es; [|discriminate]. injection Ex as <- _. eapply wake_int; eassumption.
      * destruct (th c t) as [pc|] eqn:Et; [|discriminate]. destruct (bq_fin pc) eqn:Es; [|discriminate]. injection Ex as <- _. eapply wake_ret; eassumption.
    + intros u o Hin. apply Hso. right. exact Hin.
Qed.
End bq.
