(** Blocking queues with exceptions: order, progress, wakeups, the flag *)
From stdpp Require Import list.
From Verif Require Import Base Conc CondVar Herlihy Serial BqModel BqSpec BqInv BqLin BqFifo BqMore BqWake BqFlag BqSerial BqMore2 BqThrow.

Section proofs.
Context {V : Type}.
Notation bqcfg := (cfg (bqsh V) (bqpc V)).
Notation xcfg := (cfg (bqsh V) (xpc V)).
Notation xhist := (list (hev (bqop V) (option (bqret V)))).
Notation xseq := (list (nat * bqop V * option (bqret V))).
Implicit Types (s : bqsh V) (pc : bqpc V) (c : xcfg) (H : xhist) (L : xseq).

(** The operations that did not throw *)
Definition done1 (x : nat * bqop V * option (bqret V)) : list (nat * bqop V * bqret V) := match x.2 with Some r => [(x.1, r)] | None => [] end.
Definition done L : list (nat * bqop V * bqret V) := flat_map done1 L.

Lemma in_done L i o r : In (i, o, r) (done L) <-> In (i, o, Some r) L.
Proof.
  unfold done. rewrite in_flat_map. split.
  - intros ([[j p] [r'|]] & Hi & Hx); cbn in Hx; [|destruct Hx]. destruct Hx as [[= -> -> ->]|[]]. exact Hi.
  - intros Hi. exists (i, o, Some r). split; [exact Hi|]. left. reflexivity.
Qed.
Lemma done_app L1 L2 : done (L1 ++ L2) = done L1 ++ done L2.
Proof. apply flat_map_app. Qed.
Lemma legal_done q L q' : legal x_spec q L q' -> legal bq_spec q (done L) q'.
Proof.
  induction 1 as [q|q i o r q1 L q' Hs Hl IH]; [constructor|]. destruct r as [r|]; cbn in *.
  - econstructor; [exact Hs|exact IH].
  - destruct Hs as [_ ->]. exact IH.
Qed.
Lemma done_once L : NoDup (map (fun x => x.1.1) L) -> NoDup (map (fun x => x.1.1) (done L)).
Proof.
  induction L as [|[[i o] r] L IH]; cbn; [auto|]. intros Hn. apply NoDup_cons in Hn as [Hi Hn]. destruct r as [r|]; cbn; [|auto]. apply NoDup_cons. split; [|auto].
  rewrite elem_of_list_In, in_map_iff in Hi |- *. intros ([[j p] r'] & E & Hx). cbn in E. subst j. apply Hi. exists (i, p, Some r'). split; [reflexivity|]. apply in_done, Hx.
Qed.
Lemma before_done L i i' o r o' r' : NoDup (map (fun x => x.1.1) L) -> before L i i' -> In (i, o, Some r) L -> In (i', o', Some r') L -> before (done L) i i'.
Proof.
  intros Hn (L1 & x & L2 & y & -> & E1 & Hy & E2) Hi Hi'.
  assert (Hu : forall z w : nat * bqop V * option (bqret V), In z (L1 ++ x :: L2) -> In w (L1 ++ x :: L2) -> z.1.1 = w.1.1 -> z = w).
  { clear - Hn. revert Hn. generalize (L1 ++ x :: L2). intros L. induction L as [|a L IH]; cbn; [intros _ ? ? []|]. intros Hn. apply NoDup_cons in Hn as [Ha Hn].
    rewrite elem_of_list_In, in_map_iff in Ha. intros z w [->|Hz] [->|Hw] E; auto; exfalso; apply Ha; eauto. }
  assert (x = (i, o, Some r)) as ->. { apply Hu; [apply in_app_iff; right; left; reflexivity|exact Hi|exact E1]. }
  assert (y = (i', o', Some r')) as ->. { apply Hu; [apply in_app_iff; right; right; exact Hy|exact Hi'|exact E2]. }
  exists (done L1), (i, o, r), (done L2), (i', o', r'). rewrite done_app. cbn. split; [reflexivity|]. split; [reflexivity|]. split; [apply in_done, Hy|reflexivity].
Qed.
Lemma done_before L i i' : before (done L) i i' -> before L i i'.
Proof.
  intros (L1 & x & L2 & y & E & E1 & Hy & E2). revert L1 E. induction L as [|[[j p] [r|]] L IH]; cbn; intros L1 E.
  - destruct L1; discriminate.
  - destruct L1 as [|z L1]; cbn in E; injection E as <- E.
    + subst L2. destruct y as [[j' p'] r']. apply in_done in Hy. exists [], (j, p, Some r), L, (j', p', Some r'). cbn in *. auto.
    + destruct (IH L1 E) as (M1 & a & M2 & b & -> & F). exists ((j, p, Some r) :: M1), a, M2, b. split; [reflexivity|exact F].
  - destruct (IH L1 E) as (M1 & a & M2 & b & -> & F). exists ((j, p, None) :: M1), a, M2, b. split; [reflexivity|exact F].
Qed.

Definition x_under_way H c (i : nat) (o : bqop V) : Prop := exists t, th c t <> None /\ last_ev H t i (HInv t o).

Lemma x_linearization bp late s xs c H : rest bp s -> Forall (has_op bp) (calls xs) -> x_run bp late (init s) xs = Some (c, H) ->
  exists L, linearization x_spec H (prioE s, rev (pullE s) ++ pushE s) L (x_held c) /\
    forall i o r, In (i, o, r) L -> (exists j t, ret_of H i j t o r) \/ x_under_way H c i o.
Proof.
  intros Hs Hok Er. destruct (x_atomic _ _ _ _ _ _ Hs Hok Er) as (Hi & f & Ha & Hf). destruct (atomic_hw _ _ _ _ _ Ha) as (L & HL & Hx).
  exists L. split; [exact HL|]. intros i o r Hin. destruct (Hx _ _ _ Hin) as [Hy|(t & Et & Hy)]; [auto|right]. exists t. split; [|exact Hy].
  intros E. rewrite (Hf _ E) in Et. discriminate.
Qed.

Lemma x_run_calls bp late xs : forall c c' H, x_run bp late c xs = Some (c', H) -> forall i t o, H !! i = Some (HInv t o) -> In o (calls xs).
Proof.
  unfold x_run. induction xs as [|[u a] xs IH]; intros c c' H; cbn [run].
  - intros [= <- <-] i t o E. rewrite lookup_nil in E. discriminate.
  - destruct (exec x_start (x_step bp late) x_fin c (u, a)) as [[c1 e]|] eqn:Ex; [|discriminate].
    destruct (run x_start (x_step bp late) x_fin c1 xs) as [[c2 H2]|] eqn:Er; [|discriminate]. intros [= <- <-] i t o E.
    assert (Hin : forall j, H2 !! j = Some (HInv t o) -> In o (calls ((u, a) :: xs))).
    { intros j Ej. specialize (IH _ _ _ Er _ _ _ Ej). unfold calls in *. destruct a; cbn; auto. }
    cbn in Ex. destruct a as [o'|k|]; destruct (th c u) as [x|]; try discriminate.
    + injection Ex as <- <-. destruct i as [|i]; cbn in E; [injection E as <- <-; unfold calls; cbn; auto|eauto].
    + destruct (x_step bp late (sh c) u x k) as [[s' x']|]; [|discriminate]. injection Ex as <- <-. eauto.
    + destruct (x_fin x); [|discriminate]. injection Ex as <- <-. destruct i as [|i]; cbn in E; [discriminate|eauto].
Qed.

Lemma x_no_clear bp late s xs c H : Forall (fun o => o <> BClear) (calls xs) -> x_run bp late (init s) xs = Some (c, H) -> ~ clearing (er c).
Proof.
  intros Hnc Er (t & Ht). assert (Hk : forall t pc, th (er c) t = Some pc -> clear_pc pc = false); [|destruct Ht as [Ht|Ht]; specialize (Hk _ _ Ht); discriminate].
  clear t Ht. revert Er. unfold x_run. apply (inv_run x_start (x_step bp late) x_fin (fun o => o <> BClear) (fun c => forall t pc, th (er c) t = Some pc -> clear_pc pc = false)); auto.
  - intros c0 t o Hc Ho Et u pc. rewrite er_fupd. unfold fupd. destruct (Nat.eqb u t); [|apply Hc]. intros [= <-]. destruct o; cbn; congruence.
  - intros c0 t k x s' x' Hc Et Es u pc. rewrite er_fupd. unfold fupd. destruct (Nat.eqb u t); [|apply Hc]. intros [= <-].
    assert (Hx : clear_pc (pt x) = false) by (apply (Hc t); cbn; rewrite Et; reflexivity).
    destruct (x_cases _ _ _ _ _ _ _ _ Es) as [(k0 & -> & Eb & _)|(p & p' & -> & -> & -> & Ew & -> & _)].
    + destruct k0 as [|w| |]; cbn [bq_step] in Eb; try discriminate.
      * destruct (pt x); cbn in Hx; try discriminate Hx; cbn [bq_step0] in Eb; unfold lock_push, lock_pull, cont, after, test in Eb;
          repeat lazymatch type of Eb with context [match ?x with _ => _ end] => destruct x eqn:? end; try discriminate Eb; injection Eb as _ <-; reflexivity.
      * destruct (pt x); try discriminate. destruct (inb t _); [|discriminate]. injection Eb as _ <-. reflexivity.
      * destruct (pt x); try discriminate. destruct m as [| |[]|]; try discriminate. injection Eb as _ <-. reflexivity.
    + cbn. destruct p; cbn in Ew; try discriminate; injection Ew as <-; reflexivity.
  - intros c0 t x r Hc Et Ef u pc. rewrite er_none. unfold fupd. destruct (Nat.eqb u t); [discriminate|apply Hc].
  - discriminate.
Qed.

(** ** Progress *)
Definition x_progress bp late c : Prop := exists u a c' e, (a = AInt (XStep CStep) \/ a = ARet) /\ x_exec bp late c (u, a) = Some (c', e).
Definition x_waits c (t : nat) : Prop := exists m, th c t = Some (XP (W5 m)) /\ In t (bwait (sh c)).

Lemma x_live bp late c t : xI bp c -> th c t <> None -> ~ x_waits c t -> x_progress bp late c.
Proof.
  intros [Hi Hu] Ht Hw.
  assert (Hp : progress bp (er c)).
  { apply (bq_live bp (er c) t Hi); [cbn; destruct (th c t); [discriminate|congruence]|]. intros (m & Em & Hin). apply Hw. exists m. split; [|exact Hin].
    cbn in Em. destruct (th c t) as [[pc|pc]|] eqn:Et; cbn in Em; try discriminate; [congruence|]. injection Em as ->. destruct (Hu _ _ Et). }
  destruct Hp as (u & a & c' & e & Ha & Ex). unfold bq_exec in Ex. cbn in Ex. destruct Ha as [-> | ->]; destruct (th c u) as [x|] eqn:Eu; cbn [option_map] in Ex; try discriminate.
  - destruct (bq_step bp (sh c) u (pt x) CStep) as [[s' pc']|] eqn:Es; [|discriminate].
    destruct x as [pc|pc]; eexists u, (AInt (XStep CStep)), _, _; (split; [auto|]); unfold x_exec, exec; rewrite Eu; cbn [x_step]; cbn [pt] in Es; rewrite Es; reflexivity.
  - destruct (bq_fin (pt x)) eqn:Ef; [|discriminate].
    destruct x as [pc|pc]; eexists u, ARet, _, _; (split; [auto|]); unfold x_exec, exec; rewrite Eu; cbn [x_fin]; cbn [pt] in Ef; rewrite Ef; reflexivity.
Qed.

(** ** Wakeups *)
Section wake.
Variables (bp : bool) (t0 : nat).
Definition x_sole (xs : list (nat * act xch (bqop V))) : Prop := forall t o, In (t, ACall o) xs -> t <> t0 -> may bp o.

Lemma wake_ext s (f g : nat -> option (bqpc V)) : (forall t, f t = g t) -> wake bp t0 (Cfg s f) -> wake bp t0 (Cfg s g).
Proof.
  intros E [K1 K2 K3]. split; cbn in *.
  - intros t pc. rewrite <- E. apply K1.
  - intros t pc. rewrite <- E. apply K2.
  - intros pc. rewrite <- E. intros Et Hz. destruct (K3 _ Et Hz) as [Hc|[(u & pu & Eu & Hn)|[Hea [Ha|(u & pu & Eu & Hl)]]]]; auto; [right; left|right; right; split; [exact Hea|right]]; exists u, pu; rewrite <- E; auto.
Qed.

Lemma wake_throw (c : bqcfg) t pc pc' : wake bp t0 c -> th c t = Some pc -> unwind pc = Some pc' -> cleared pc = false -> wake bp t0 (Cfg (sh c) (fupd t (Some pc') (th c))).
Proof.
  intros [K1 K2 K3] Et Eu Ec.
  assert (Hx : (forall s, flagged s pc') /\ quiet bp pc' /\ ~ zone t0 (sh c) pc' /\ ~ notif (sh c) pc /\ ~ BqWake.late pc).
  { destruct pc; cbn in Eu, Ec; try discriminate; injection Eu as <-; cbn; splits; auto; tauto. }
  destruct Hx as (X1 & X2 & X3 & X4 & X5). split; cbn [sh th].
  - intros u pu E Hne. unfold fupd in E. destruct (Nat.eqb_spec u t) as [->|]; [|eauto]. injection E as <-. exact X2.
  - intros u pu E. unfold fupd in E. destruct (Nat.eqb_spec u t) as [->|]; [|eauto]. injection E as <-. apply X1.
  - intros p0 E0 Hz. assert (Hne : t <> t0). { intros ->. rewrite fupd_same in E0. injection E0 as <-. contradiction. }
    rewrite fupd_other in E0 by congruence. destruct (K3 _ E0 Hz) as [Hc|[(u & pu & E & Hn)|[Hea [Ha|(u & pu & E & Hl)]]]]; auto.
    + right; left. exists u, pu. split; [|exact Hn]. rewrite fupd_other; [exact E|]. intros ->. assert (pu = pc) as -> by congruence. contradiction.
    + right; right. split; [exact Hea|]. right. exists u, pu. split; [|exact Hl]. rewrite fupd_other; [exact E|]. intros ->. assert (pu = pc) as -> by congruence. contradiction.
Qed.

Lemma x_wake_run xs : forall c c' H, xI bp c -> wake bp t0 (er c) -> Forall (has_op bp) (calls xs) -> x_sole xs -> x_run bp false c xs = Some (c', H) -> wake bp t0 (er c').
Proof.
  induction xs as [|[t a] xs IH]; intros c c' H Hi Hw Hok Hso; unfold x_run; cbn [run].
  - intros [= <- _]. exact Hw.
  - destruct (exec x_start (x_step bp false) x_fin c (t, a)) as [[c1 e]|] eqn:Ex; [|discriminate]. destruct (run x_start (x_step bp false) x_fin c1 xs) as [[c2 H2]|] eqn:Er; [|discriminate]. intros [= <- _].
    assert (Hx : (forall o, a = ACall o -> has_op bp o) /\ Forall (has_op bp) (calls xs)).
    { unfold calls in Hok; cbn in Hok. destruct a eqn:Es; [inversion Hok; subst; split; [intros ? [= <-]; assumption|assumption]|split; [discriminate|exact Hok]..]. }
    destruct Hx as [Hx1 Hx2]. apply (IH c1 c2 H2); [eapply xI_exec; [exact Hi| |exact Ex]; exact Hx1| |exact Hx2| |exact Er].
    + destruct a as [o|k|]; cbn in Ex; destruct (th c t) as [x|] eqn:Et; try discriminate.
      * injection Ex as <- _. eapply wake_ext; [intros u; symmetry; apply er_fupd|]. cbn [sh]. apply (wake_call bp t0 (er c) t o Hw); auto; [|cbn; rewrite Et; reflexivity]. apply Hso. left. reflexivity.
      * assert (Et' : th (er c) t = Some (pt x)) by (cbn; rewrite Et; reflexivity).
        destruct (x_step bp false (sh c) t x k) as [[s' x']|] eqn:Es; [|discriminate]. injection Ex as <- _. eapply wake_ext; [intros u; symmetry; apply er_fupd|]. cbn [sh].
        destruct (x_cases _ _ _ _ _ _ _ _ Es) as [(k0 & -> & Eb & _)|(pc & pc' & -> & -> & -> & Ew & -> & Hc)].
        -- eapply (wake_int bp t0 (er c)); [apply (x_i _ _ Hi)|exact Hw|exact Et'|exact Eb].
        -- eapply (wake_throw (er c)); [exact Hw|exact Et'|exact Ew|apply Hc; reflexivity].
      * destruct (x_fin x) eqn:Ef; [|discriminate]. injection Ex as <- _. apply x_ret in Ef as (r0 & Ef & _). eapply wake_ext; [intros u; symmetry; apply er_none|]. cbn [sh].
        eapply (wake_ret bp t0 (er c)); [exact Hw| |exact Ef]. cbn. rewrite Et. reflexivity.
    + intros u o Hin. apply Hso. right. exact Hin.
Qed.
End wake.

Lemma x_inserting bp late s xs c H u x : x_run bp late (init s) xs = Some (c, H) -> th c u = Some x -> notif (sh c) (pt x) -> exists i o, last_ev H u i (HInv u o) /\ bval o <> None.
Proof.
  intros Er Eu Hn. destruct (pending x_start (x_step bp late) x_fin (fun (o : bqop V) (x : xpc V) => at_op o (pt x))) with (3 := Er) (4 := Eu) as (i & o & Hl & Hk).
  - intros o. apply at_op_start.
  - intros s0 t y k s' y' o Es Hk. destruct (x_cases _ _ _ _ _ _ _ _ Es) as [(k0 & -> & Eb & _)|(pc & pc' & -> & -> & -> & Ew & -> & _)]; [eapply at_op_step; eassumption|].
    destruct pc; cbn in Ew; try discriminate; injection Ew as <-; cbn in *; auto.
  - apply notif_ins in Hn as [Hi Hr]. exists i, o. split; [exact Hl|]. cbn in Hk. destruct (pt x); cbn in Hk, Hi; try discriminate; unfold inserts in Hk; destruct (bval o); congruence.
Qed.

(** A consumer that missed its wakeup stays blocked, whatever is pushed and whatever throws. *)
Lemma x_missed_run bp late xs : forall c t c' H, missed (er c) t -> (forall u a, In (u, a) xs -> u <> t /\ forall o, a = ACall o -> bval o <> None) -> x_run bp late c xs = Some (c', H) -> missed (er c') t.
Proof.
  unfold x_run. induction xs as [|[u a] xs IH]; intros c t c' H Hm Hx; cbn [run].
  - intros [= <- _]. exact Hm.
  - destruct (exec x_start (x_step bp late) x_fin c (u, a)) as [[c1 e]|] eqn:Ex; [|discriminate]. destruct (run x_start (x_step bp late) x_fin c1 xs) as [[c2 H2]|] eqn:Er; [|discriminate]. intros [= <- _].
    destruct (Hx u a (or_introl eq_refl)) as [Hu Ha]. eapply IH; [|intros w b Hb; apply Hx; right; exact Hb|exact Er].
    assert (Hext : forall s f g, (forall w, f w = g w) -> missed (Cfg s f) t -> missed (V := V) (Cfg s g) t).
    { intros s f g E ((m & Em & Hw) & Hf & Hp & Ho). cbn in *. split; [exists m; cbn; rewrite <- E; auto|]. split; [exact Hf|]. split; [exact Hp|]. intros w pc. cbn. rewrite <- E. apply Ho. }
    cbn in Ex. destruct a as [o|k|]; destruct (th c u) as [x|] eqn:Eu; try discriminate.
    + injection Ex as <- _. eapply Hext; [intros w; symmetry; apply er_fupd|]. cbn [sh]. eapply (missed_exec bp (er c) t (u, ACall o) _ _ Hm Hu); [intros o1 [= <-]; apply (Ha o eq_refl)|]. unfold bq_exec. cbn. rewrite Eu. reflexivity.
    + destruct (x_step bp late (sh c) u x k) as [[s' x']|] eqn:Es; [|discriminate]. injection Ex as <- _. eapply Hext; [intros w; symmetry; apply er_fupd|]. cbn [sh].
      destruct (x_cases _ _ _ _ _ _ _ _ Es) as [(k0 & -> & Eb & _)|(pc & pc' & -> & -> & -> & Ew & -> & _)].
      * eapply (missed_exec bp (er c) t (u, AInt k0) _ _ Hm Hu); [discriminate|]. unfold bq_exec. cbn. rewrite Eu. cbn. rewrite Eb. reflexivity.
      * destruct Hm as ((m & Em & Hw) & Hf & Hp & Ho). split; [exists m; cbn; rewrite fupd_other by congruence; auto|]. split; [exact Hf|]. split; [exact Hp|].
        intros w p Hwt. cbn. unfold fupd. destruct (Nat.eqb_spec w u) as [->|]; [|apply Ho; exact Hwt]. intros [= <-].
        assert (Hpc : th (er c) u = Some pc) by (cbn; rewrite Eu; reflexivity). pose proof (Ho _ _ Hu Hpc) as Hk. destruct pc; cbn in Ew; try discriminate; injection Ew as <-; auto.
    + destruct (x_fin x) eqn:Ef; [|discriminate]. injection Ex as <- _. apply x_ret in Ef as (r0 & Ef & _). eapply Hext; [intros w; symmetry; apply er_none|]. cbn [sh].
      eapply (missed_exec bp (er c) t (u, ARet) _ _ Hm Hu); [discriminate|]. unfold bq_exec. cbn. rewrite Eu. cbn. rewrite Ef. reflexivity.
Qed.

(** ** The flag *)
Lemma flagI_ext s f g : (forall t, f t = g t) -> flagI (Cfg s f) -> flagI (V := V) (Cfg s g).
Proof.
  intros E [F1 F2]. split; cbn in *.
  - intros t pc. rewrite <- E. apply F1.
  - intros Hf. destruct (F2 Hf) as (E1 & E2 & E3). split; [exact E1|]. split; [exact E2|]. destruct E3 as [?|[u Hu]]; [auto|]. right. exists u. cbn in *. rewrite <- E. exact Hu.
Qed.
Lemma flagI_throw (c : bqcfg) t pc pc' : flagI c -> th c t = Some pc -> unwind pc = Some pc' -> flagI (Cfg (sh c) (fupd t (Some pc') (th c))).
Proof.
  intros [F1 F2] Et Ew. split; cbn [sh th].
  - intros u pu E. unfold fupd in E. destruct (Nat.eqb_spec u t) as [->|]; [|eauto]. injection E as <-. pose proof (F1 _ _ Et) as Hl. destruct pc; cbn in Ew; try discriminate; injection Ew as <-; cbn in *; auto.
  - intros Hf. destruct (F2 Hf) as (E1 & E2 & E3). split; [exact E1|]. split; [exact E2|]. destruct E3 as [?|[u Hu]]; [auto|]. right. exists u. cbn. rewrite fupd_other; [exact Hu|].
    intros ->. rewrite Et in Hu. injection Hu as ->. discriminate.
Qed.
Lemma x_flag_run bp late xs c c' H : xI bp c -> flagI (er c) -> Forall (has_op bp) (calls xs) -> x_run bp late c xs = Some (c', H) -> flagI (er c').
Proof.
  intros Hi Hf Hok Er. enough (xI bp c' /\ flagI (er c')) by tauto. revert Er. apply (inv_run x_start (x_step bp late) x_fin (has_op bp) (fun c => xI bp c /\ flagI (er c))); auto.
  - intros c0 t o [H1 H2] Ho Et. split; [apply xI_call; auto|]. eapply flagI_ext; [intros w; symmetry; apply er_fupd|]. apply (flagI_call (er c0)); [exact H2|]. cbn. rewrite Et. reflexivity.
  - intros c0 t k x s' x' [H1 H2] Et Es. split; [eapply xI_int; eauto|]. eapply flagI_ext; [intros w; symmetry; apply er_fupd|]. cbn [sh].
    assert (Et' : th (er c0) t = Some (pt x)) by (cbn; rewrite Et; reflexivity).
    destruct (x_cases _ _ _ _ _ _ _ _ Es) as [(k0 & -> & Eb & _)|(pc & pc' & -> & -> & -> & Ew & -> & _)].
    + eapply (flagI_int bp (er c0)); [apply (x_i _ _ H1)|exact H2|exact Et'|exact Eb].
    + eapply (flagI_throw (er c0)); [exact H2|exact Et'|exact Ew].
  - intros c0 t x r [H1 H2] Et Ef. split; [eapply xI_ret; eauto|]. apply x_ret in Ef as (r0 & Ef & _). eapply flagI_ext; [intros w; symmetry; apply er_none|].
    eapply (flagI_ret (er c0)); [exact H2| |exact Ef]. cbn. rewrite Et. reflexivity.
Qed.
End proofs.
