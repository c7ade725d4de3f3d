(** SimpleQueue: simulation by an atomic queue, absence of deadlock and of races *)
From stdpp Require Import list.
From Verif Require Import Base Conc SqModel SqSpec.

Section sq.
Context {V : Type}.
Variable strict : bool.
Notation sqcfg := (cfg (sqsh V) (sqpc V)).
Implicit Types (s : sqsh V) (pc : sqpc V) (q : list V) (c : sqcfg).

Definition hpush pc : bool :=
  match pc with
  | P1 _ | P2 _ | P9 _ | P10 _ | P11 _ | C2 _ | C3 _ | C4 _ | C6 _ | C7 _ | S2 | S3 _ | L2 | L3 | L4 | L5 | V2 _ | V3 _ => true
  | _ => false
  end.
Definition hpull pc : bool :=
  match pc with
  | P4 _ | P5 _ | P6 _ | P7 _ | P8 _ | P9 _ | C0 _ | C1 _ | C2 _ | C3 _ | C4 _ | C5 _ | C6 _ | C7 _ | O1 | O2 | O3 _ | K1 | K2 _
  | S1 | S2 | S3 _ | S4 _ | L1 | L2 | L3 | L4 | L5 | L6 | V1 _ | V2 _ | V3 _ | V4 _ | Crash => true
  | _ => false
  end.

(** With [strict] no empty batch may be pushed. *)
Definition sq_okop (o : sqop V) : Prop := strict = true -> no_empty_batch o.
Definition is_push (o : sqop V) : Prop := match o with QPush _ | QEmplace _ | QPushVec _ => True | _ => False end.
Definition okpc pc : Prop :=
  match pc with
  | P0 o | P1 o | P2 o | P3 o | P4 o | P5 o | P6 o | P7 o | P8 o | P9 o | P10 o | P11 o => is_push o /\ sq_okop o
  | _ => True
  end.

Definition flagok (b : bool) q : Prop := (b = true -> q = []) /\ (strict = true -> q = [] -> b = true).

(** Somebody holds the push lock and is about to append. *)
Definition pend (x : option (sqpc V)) : Prop := match x with Some (P10 _) => True | _ => False end.

(** Content and physical state, at most points *)
Definition gen s (pd : Prop) q : Prop :=
  q = rev (pullE s) ++ pushE s /\ (pullE s = [] -> pushE s = [] /\ ~ pd) /\ flagok (eflag s) q.

(** ... depending on where the owner of the pull lock is *)
Definition hinv (x : option (sqpc V)) s (pd : Prop) q : Prop :=
  match x with
  | Some (P5 _) => gen s pd q /\ pullE s = []
  | Some (P6 o) => pullE s = rev (elems o) /\ pushE s = [] /\ ~ pd /\ q = [] /\ flagok (eflag s) []
  | Some (P8 _) | Some (P9 _) | Some O2 => gen s pd q /\ pullE s <> []
  | Some (C0 (Some v)) => q = v :: rev (pullE s) ++ pushE s /\ eflag s = false
  | Some (C1 None) | Some (C2 None) => gen s pd q /\ pullE s = []
  | Some (C6 None) => gen s pd q /\ pullE s = [] /\ pushE s = []
  | Some (C1 (Some v)) | Some (C2 (Some v)) => pullE s = [] /\ q = v :: pushE s /\ eflag s = false
  | Some (C3 (Some v)) => pullE s = [] /\ pushE s <> [] /\ q = v :: pushE s /\ eflag s = false
  | Some (C4 (Some v)) => pushE s = [] /\ pullE s <> [] /\ q = pullE s /\ eflag s = false
  | Some (C5 (Some v)) => pullE s <> [] /\ q = pullE s ++ pushE s /\ eflag s = false
  | Some (C6 (Some v)) => pullE s = [] /\ pushE s = [] /\ q = [v] /\ eflag s = false
  | Some (C3 None) | Some (C4 None) | Some (C5 None) | Some Crash => False
  | Some (C7 _) => pullE s = [] /\ pushE s = [] /\ q = [] /\ eflag s = true
  | Some O1 => gen s pd q /\ (pullE s = [] -> eflag s = true)
  | Some L3 => pullE s = [] /\ flagok (eflag s) q
  | Some L4 => pullE s = [] /\ pushE s = [] /\ flagok (eflag s) q
  | _ => gen s pd q
  end.

Record sqR c q : Prop := {
  r_push : lk (pushL (sh c)) hpush (th c);
  r_pull : lk (pullL (sh c)) hpull (th c);
  r_ok : forall t pc, th c t = Some pc -> okpc pc;
  r_q : hinv (holder (pullL (sh c)) (th c)) (sh c) (pend (holder (pushL (sh c)) (th c))) q;
}.

Definition alpha pc : ast (sqop V) (sqret V) :=
  match pc with
  | P0 o | P1 o | P2 o | P3 o | P4 o | P5 o | P6 o | P8 o | P9 o | P10 o => APend o
  | P7 _ | P11 _ => ADone QUnit
  | C4 (Some v) | C5 (Some v) | C7 (Some v) => ADone (QVal (Some v))
  | O0 | C0 _ | C1 _ | C2 _ | C3 _ | C4 _ | C5 _ | C6 _ | C7 _ | O1 | O2 | Crash => APend QPop
  | O3 r => ADone (QVal r)
  | K0 | K1 => APend QPeek
  | K2 r => ADone (QVal r)
  | S0 | S1 | S2 => APend QSize
  | S3 n | S4 n => ADone (QNum n)
  | L0 | L1 | L2 | L3 | L4 => APend QClear
  | L5 | L6 => ADone QUnit
  | V0 n | V1 n | V2 n => APend (QReserve n)
  | V3 _ | V4 _ => ADone QUnit
  | E0 => APend QEmpty
  | Ret r => ADone r
  end.

Lemma okpc_upd c t pc' : (forall u pc, th c u = Some pc -> okpc pc) -> okpc pc' -> forall u pc, fupd t (Some pc') (th c) u = Some pc -> okpc pc.
Proof. intros Hc Ho u pc. unfold fupd. destruct (Nat.eqb u t); [intros [= <-]; exact Ho|apply Hc]. Qed.

(** The stepping thread owns the pull lock before and after. *)
Lemma R_self c q q' t pc s' pc' :
  sqR c q -> th c t = Some pc -> hpull pc = true -> hpull pc' = true -> pullL s' = pullL (sh c) ->
  lk (pushL s') hpush (fupd t (Some pc') (th c)) -> okpc pc' ->
  (hinv (Some pc) (sh c) (pend (holder (pushL (sh c)) (th c))) q -> hinv (Some pc') s' (pend (holder (pushL s') (fupd t (Some pc') (th c)))) q') ->
  sqR (Cfg s' (fupd t (Some pc') (th c))) q'.
Proof.
  intros [R1 R2 R3 R4] Et Hh Hh' El Hl Ho Hq. pose proof (lk_owner _ _ _ _ _ R2 Et Hh) as E. constructor; cbn [sh th].
  - exact Hl.
  - rewrite El. eapply lk_keep; [exact R2|exact Et|congruence].
  - apply okpc_upd; assumption.
  - rewrite El, E, holder_self. apply Hq. rewrite E in R4. cbn in R4. rewrite Et in R4. exact R4.
Qed.

(** The stepping thread does not own the pull lock, before and after. *)
Lemma R_other c q q' t pc s' pc' :
  sqR c q -> th c t = Some pc -> hpull pc = false -> hpull pc' = false -> pullL s' = pullL (sh c) ->
  lk (pushL s') hpush (fupd t (Some pc') (th c)) -> okpc pc' ->
  (forall x, holder (pullL (sh c)) (th c) = x ->
     hinv x (sh c) (pend (holder (pushL (sh c)) (th c))) q -> hinv x s' (pend (holder (pushL s') (fupd t (Some pc') (th c)))) q') ->
  sqR (Cfg s' (fupd t (Some pc') (th c))) q'.
Proof.
  intros [R1 R2 R3 R4] Et Hh Hh' El Hl Ho Hq. pose proof (lk_other _ _ _ _ _ R2 Et Hh) as E. constructor; cbn [sh th].
  - exact Hl.
  - rewrite El. eapply lk_keep; [exact R2|exact Et|congruence].
  - apply okpc_upd; assumption.
  - rewrite El, holder_other by exact E. eapply Hq; [reflexivity|exact R4].
Qed.

(** ... takes it *)
Lemma R_acq c q t pc s' pc' :
  sqR c q -> th c t = Some pc -> hpush pc = false -> hpush pc' = false -> hpull pc' = true -> okpc pc' ->
  lock_pull (sh c) t pc' = Some (s', pc') ->
  (gen (sh c) (pend (holder (pushL (sh c)) (th c))) q -> hinv (Some pc') s' (pend (holder (pushL (sh c)) (th c))) q) ->
  sqR (Cfg s' (fupd t (Some pc') (th c))) q.
Proof.
  intros [R1 R2 R3 R4] Et Hp Hp' Hh Ho. unfold lock_pull. destruct (pullL (sh c)) eqn:E; [discriminate|]. intros [= <-] Hq. constructor; cbn [sh th pushL pullL].
  - eapply lk_keep; [exact R1|exact Et|congruence].
  - apply lk_acq; assumption.
  - apply okpc_upd; assumption.
  - rewrite holder_self, holder_other by (eapply lk_other; eassumption). exact (Hq R4).
Qed.

(** ... releases it *)
Lemma R_rel c q t pc pc' :
  sqR c q -> th c t = Some pc -> hpull pc = true -> hpull pc' = false -> hpush pc' = hpush pc -> okpc pc' ->
  (hinv (Some pc) (sh c) (pend (holder (pushL (sh c)) (th c))) q -> gen (sh c) (pend (holder (pushL (sh c)) (fupd t (Some pc') (th c)))) q) ->
  sqR (Cfg (unlock_pull (sh c)) (fupd t (Some pc') (th c))) q.
Proof.
  intros [R1 R2 R3 R4] Et Hh Hh' Hp Ho Hq. pose proof (lk_owner _ _ _ _ _ R2 Et Hh) as E. constructor; cbn [sh th pushL pullL unlock_pull].
  - eapply lk_keep; eassumption.
  - eapply lk_rel; eassumption.
  - apply okpc_upd; assumption.
  - apply Hq. rewrite E in R4. cbn in R4. rewrite Et in R4. exact R4.
Qed.

Lemma rev_nil_inv {A} (l : list A) : rev l = [] -> l = [].
Proof. intros E. rewrite <- (rev_involutive l), E. reflexivity. Qed.

Lemma nonempty_true (l : list V) : nonempty l = true -> l <> [].
Proof. destruct l; [discriminate|congruence]. Qed.
Lemma nonempty_false (l : list V) : nonempty l = false -> l = [].
Proof. destruct l; [reflexivity|discriminate]. Qed.

Definition same_data s s' : Prop := pushE s' = pushE s /\ pullE s' = pullE s /\ eflag s' = eflag s.

Lemma hinv_mono x s s' (pd pd' : Prop) q : same_data s s' -> (pd' -> pd) -> hinv x s pd q -> hinv x s' pd' q.
Proof.
  intros (E1 & E2 & E3) Hpd. unfold hinv, gen. rewrite E1, E2, E3. destruct x as [[]|]; try (intros H; exact H); try tauto;
    try (destruct k; tauto).
Qed.

Definition hp (x : option (sqpc V)) : bool := match x with Some pc => hpush pc | None => false end.

Lemma hinv_p10 x s (pd pd' : Prop) q : pushE s <> [] -> hp x = false -> hinv x s pd q -> hinv x s pd' q.
Proof.
  intros Hne. unfold hinv, gen. destruct x as [[]|]; cbn [hp hpush]; try discriminate; intros _; try (intros H; exact H); try tauto;
    try (destruct k; tauto).
Qed.

Lemma hinv_append x s (pd pd' : Prop) q l : pd -> hp x = false -> hinv x s pd q -> hinv x (set_push s (pushE s ++ l)) pd' (q ++ l).
Proof.
  intros Hpd. assert (Hg : gen s pd q -> pullE s <> [] /\ gen (set_push s (pushE s ++ l)) pd' (q ++ l)).
  { intros (E & Hp & Hf). assert (Hne : pullE s <> []) by tauto. split; [exact Hne|]. unfold gen, set_push, flagok. cbn [pullE pushE eflag].
    split; [subst q; rewrite app_assoc; reflexivity|]. split; [contradiction|].
    assert (Hq : q <> []). { rewrite E. clear E. intros E. apply app_eq_nil in E as [E _]. apply rev_nil_inv in E. contradiction. }
    split; [intros Ef; apply Hf in Ef; contradiction|]. intros _ E1. apply app_eq_nil in E1 as [E1 _]. contradiction. }
  unfold hinv. destruct x as [[]|]; cbn [hp hpush]; try discriminate; intros _; try (intros H; apply Hg; exact H); try tauto;
    unfold set_push; cbn [pullE pushE eflag].
  - destruct k as [v|]; [|apply Hg]. intros [-> H2]. split; [cbn; rewrite app_assoc; reflexivity|exact H2].
  - destruct k as [v|]; [|intros [H1 H2]; apply Hg in H1; tauto]. intros (H1 & -> & H2). auto.
  - destruct k as [v|]; [|tauto]. intros (H1 & -> & H2). rewrite app_assoc. auto.
Qed.

Lemma gen_pend_False s s' (pd : Prop) q : gen s pd q -> same_data s s' -> gen s' False q.
Proof. unfold gen. intros H (E1 & E2 & E3). rewrite E1, E2, E3. tauto. Qed.

Lemma hinv_flag x s (pd : Prop) q : hinv x s pd q -> flagok (eflag s) q.
Proof.
  assert (Hx : forall q', eflag s = false -> q' <> [] -> flagok (eflag s) q') by (intros q' E1 E2; split; congruence).
  unfold hinv. destruct x as [[]|]; try destruct k; try (intros (_ & _ & H); exact H); try (intros [(_ & _ & H) _]; exact H); try tauto.
  - intros (_ & _ & _ & -> & H). exact H.
  - intros [-> H2]. apply Hx; [exact H2|discriminate].
  - intros (_ & -> & H2). apply Hx; [exact H2|discriminate].
  - intros (_ & -> & H2). apply Hx; [exact H2|discriminate].
  - intros (_ & _ & -> & H2). apply Hx; [exact H2|discriminate].
  - intros (_ & H1 & -> & H2). apply Hx; [exact H2|exact H1].
  - intros (H1 & -> & H2). apply Hx; [exact H2|]. intros E. apply app_eq_nil in E. tauto.
  - intros (_ & _ & -> & H2). apply Hx; [exact H2|discriminate].
  - intros (_ & _ & -> & ->). split; auto.
  - intros (_ & _ & -> & ->). split; auto.
Qed.

(** Every internal step *)
Lemma sqR_int c q t k pc s' pc' :
  sqR c q -> th c t = Some pc -> sq_step (sh c) t pc k = Some (s', pc') ->
  exists q', sqR (Cfg s' (fupd t (Some pc') (th c))) q' /\
    ((q' = q /\ alpha pc' = alpha pc) \/ exists o r, alpha pc = APend o /\ alpha pc' = ADone r /\ sq_spec strict q o r q').
Proof.
  intros HR Et Es. pose proof (r_ok _ _ HR t pc Et) as Hok. pose proof (r_push _ _ HR) as Rp.
  assert (Hpo : hpush pc = false -> pushL (sh c) <> Some t) by (intros E; eapply lk_other; eassumption).
  assert (Hpd : forall pc1, hpush pc = hpush pc1 -> pend (Some pc1) = False ->
            pend (holder (pushL (sh c)) (fupd t (Some pc1) (th c))) -> pend (holder (pushL (sh c)) (th c))).
  { intros pc1 E1 E2. destruct (hpush pc) eqn:Eh.
    - rewrite (lk_owner _ _ _ _ _ Rp Et Eh), holder_self, E2. tauto.
    - rewrite holder_other by auto. auto. }
  assert (Hnp : forall x, holder (pullL (sh c)) (th c) = x -> hpush pc = true -> hpull pc = false -> hp x = false).
  { intros x Hx H1 H2. destruct x as [p|]; [|reflexivity]. cbn. destruct (hpush p) eqn:E; [|reflexivity]. exfalso.
    pose proof (holder_held _ _ _ _ (r_pull _ _ HR) Hx) as Hp. destruct (pullL (sh c)) as [u|] eqn:Eu; [|discriminate]. cbn in Hx.
    pose proof (lk_owner _ _ _ _ _ Rp Hx E) as E3. rewrite (lk_owner _ _ _ _ _ Rp Et H1) in E3. injection E3 as <-. congruence. }
  assert (Hself : hpull pc = true -> hinv (Some pc) (sh c) (pend (holder (pushL (sh c)) (th c))) q).
  { intros E. pose proof (r_q _ _ HR) as H. rewrite (lk_owner _ _ _ _ _ (r_pull _ _ HR) Et E) in H. cbn [holder] in H. rewrite Et in H. exact H. }
  Ltac lkp := first [ eapply lk_keep; [eassumption|eassumption|reflexivity] | eapply lk_rel; [eassumption|eassumption|reflexivity|reflexivity]
                    | apply lk_acq; [assumption|reflexivity] ].
  Ltac okp := first [assumption | exact I].
  Ltac self HR Et q' := exists q'; split; [eapply (R_self _ _ q'); [exact HR|exact Et|reflexivity|reflexivity|reflexivity|lkp|okp|]|].
  Ltac other HR Et q' := exists q'; split; [eapply (R_other _ _ q'); [exact HR|exact Et|reflexivity|reflexivity|reflexivity|lkp|okp|]|].
  Ltac silent := left; split; reflexivity.
  Ltac eff := right; do 2 eexists; split; [reflexivity|split; [reflexivity|]].
  Ltac acq HR Et Es q := pose proof Es as Es'; unfold lock_pull in Es'; destruct (pullL (sh _)); [discriminate|]; injection Es' as <- <-;
    exists q; split; [eapply R_acq; [exact HR|exact Et|reflexivity|reflexivity|reflexivity|okp|exact Es|]|silent].
  Ltac rel HR Et q := exists q; split; [eapply R_rel; [exact HR|exact Et|reflexivity|reflexivity|reflexivity|okp|]|].
  Ltac acqp c Es := unfold lock_push in Es; destruct (pushL (sh c)) eqn:?El; [discriminate|]; injection Es as <- <-.
  destruct pc; cbn [sq_step] in Es; try discriminate Es.
  - (* P0 *) acqp c Es. other HR Et q; [|silent]. intros x _. apply hinv_mono; [repeat split|]. cbn [pushL]. rewrite holder_self. intros [].
  - (* P1 *) destruct (nonempty (pushE (sh c))) eqn:En; injection Es as <- <-; (other HR Et q; [|silent]).
    + intros x Hx. apply hinv_p10; [apply nonempty_true, En|eapply Hnp; eauto].
    + intros x Hx. apply hinv_mono; [repeat split|]. apply Hpd; reflexivity.
  - (* P2 *) injection Es as <- <-. other HR Et q; [|silent]. intros x Hx. apply hinv_mono; [repeat split|]. intros [].
  - (* P3 *) acq HR Et Es q. intros H; exact H.
  - (* P4 *) destruct (nonempty (pullE (sh c))) eqn:En; injection Es as <- <-; (self HR Et q; [|silent]).
    + intros H. split; [|apply nonempty_true, En]. rewrite holder_other by auto. exact H.
    + intros H. split; [|apply nonempty_false, En]. rewrite holder_other by auto. exact H.
  - (* P5 *) injection Es as <- <-. self HR Et q; [|silent]. intros [(E1 & E2 & E3) E4]. specialize (E2 E4) as [E2 E5].
    cbn [hinv set_pull pullE pushE eflag pushL]. rewrite holder_other by auto. rewrite E4, E2 in E1. cbn in E1. subst q. rewrite E4. auto.
  - (* P6 *) injection Es as <- <-. self HR Et (q ++ elems o).
    + intros (E1 & E2 & E3 & E4 & E5). subst q. cbn [hinv set_flag pullE pushE eflag pushL]. unfold gen. cbn [set_flag pullE pushE eflag]. rewrite holder_other by auto.
      rewrite E1, E2, rev_involutive, app_nil_r. split; [reflexivity|]. split; [auto|]. split; [discriminate|]. intros Hst E. exfalso. destruct Hok as [Ho1 Ho2].
      destruct o; try contradiction; try discriminate E. cbn in E. subst vs. exact (Ho2 Hst).
    + eff. destruct Hok as [Ho1 Ho2]. destruct o; try contradiction; constructor.
  - (* P7 *) injection Es as <- <-. rel HR Et q; [|silent]. intros H. rewrite holder_other by auto. exact H.
  - (* P8 *) acqp c Es. self HR Et q; [|silent]. intros [H1 H2]. split; [|exact H2]. cbn [pushL]. rewrite ?holder_self. eapply gen_pend_False; [exact H1|repeat split].
  - (* P9 *) injection Es as <- <-. rel HR Et q; [|silent]. intros [H1 H2]. unfold gen in *. tauto.
  - (* P10 *) injection Es as <- <-. other HR Et (q ++ elems o).
    + intros x Hx. apply hinv_append; [|eapply Hnp; eauto]. rewrite (lk_owner _ _ _ _ _ Rp Et eq_refl). cbn. rewrite Et. exact I.
    + eff. destruct Hok as [Ho1 Ho2]. destruct o; try contradiction; constructor.
  - (* P11 *) injection Es as <- <-. other HR Et q; [|silent]. intros x Hx. apply hinv_mono; [repeat split|]. intros [].
  - (* O0 *) acq HR Et Es q. intros H; exact H.
  - (* C0 *) specialize (Hself eq_refl). destruct (nonempty (pullE (sh c))) eqn:En; injection Es as <- <-.
    + apply nonempty_true in En. destruct k0 as [v|]; cbn [cont hinv] in *.
      * destruct Hself as [E1 E2]. self HR Et (rev (pullE (sh c)) ++ pushE (sh c)).
        -- intros _. split; [reflexivity|]. split; [contradiction|]. split; [congruence|].
           intros _ E. apply app_eq_nil in E as [E _]. apply rev_nil_inv in E. contradiction.
        -- eff. subst q. constructor.
      * self HR Et q; [|silent]. intros _. split; [|contradiction]. rewrite holder_other by auto. exact Hself.
    + apply nonempty_false in En. self HR Et q; [|destruct k0; silent]. intros _. rewrite holder_other by auto.
      destruct k0 as [v|]; cbn [hinv] in *; [|auto]. rewrite En in *. exact (conj eq_refl Hself).
  - (* C1 *) acqp c Es. self HR Et q; [|destruct k0; silent]. intros H. destruct k0 as [v|]; cbn [hinv pushL] in *; [exact H|]. destruct H as [H1 H2]. split; [|exact H2]. rewrite holder_self. eapply gen_pend_False; [exact H1|repeat split].
  - (* C2 *) specialize (Hself eq_refl). destruct (nonempty (pushE (sh c))) eqn:En; injection Es as <- <-.
    + apply nonempty_true in En. self HR Et q; [|destruct k0; silent]. intros _. destruct k0 as [v|]; cbn [hinv] in *; [tauto|].
      unfold gen in Hself. tauto.
    + apply nonempty_false in En. self HR Et q; [|destruct k0; silent]. intros _.
      rewrite (lk_owner _ _ _ _ _ Rp Et eq_refl), holder_self. destruct k0 as [v|]; cbn [hinv] in *.
      * rewrite En in *. tauto.
      * destruct Hself. split; [|auto]. eapply gen_pend_False; [eassumption|repeat split].
  - (* C3 *) specialize (Hself eq_refl). injection Es as <- <-. destruct k0 as [v|]; [|contradiction]. cbn [hinv] in Hself. destruct Hself as (E1 & E2 & E3 & E4).
    self HR Et (pushE (sh c)); [|eff; subst q; constructor]. intros _. cbn [hinv pushE pullE eflag]. auto.
  - (* C4 *) specialize (Hself eq_refl). injection Es as <- <-. destruct k0 as [v|]; [|contradiction]. cbn [hinv] in Hself. destruct Hself as (E1 & E2 & E3 & E4).
    self HR Et q; [|silent]. intros _. cbn [hinv unlock_push pushE pullE eflag]. rewrite E1, app_nil_r. auto.
  - (* C5 *) specialize (Hself eq_refl). injection Es as <- <-. destruct k0 as [v|]; [|contradiction]. cbn [hinv] in Hself. destruct Hself as (E1 & E2 & E3).
    cbn [cont]. self HR Et q; [|silent]. intros _. cbn [hinv]. unfold gen. cbn [set_pull pushE pullE eflag]. rewrite rev_involutive. split; [exact E2|].
    split; [intros E; apply rev_nil_inv in E; contradiction|]. split; [congruence|]. intros _ E. subst q. apply app_eq_nil in E as [E _]. contradiction.
  - (* C6 *) specialize (Hself eq_refl). injection Es as <- <-. destruct k0 as [v|]; cbn [hinv] in Hself.
    + destruct Hself as (E1 & E2 & E3 & E4). self HR Et (@nil V); [|eff; subst q; constructor]. intros _. cbn [hinv set_flag pushE pullE eflag]. auto.
    + destruct Hself as ((E1 & _) & E2 & E3). self HR Et q; [|silent]. intros _. cbn [hinv set_flag pushE pullE eflag]. rewrite E2, E3 in E1. auto.
  - (* C7 *) specialize (Hself eq_refl). injection Es as <- <-. cbn [hinv] in Hself. destruct Hself as (E1 & E2 & E3 & E4).
    assert (Hg : gen (unlock_push (sh c)) False q).
    { unfold gen, flagok. cbn [unlock_push pushE pullE eflag]. rewrite E1, E2, E4. subst q. auto. }
    destruct k0; cbn [cont]; (self HR Et q; [|silent]); intros _; [exact Hg|]. split; [exact Hg|]. intros _. exact E4.
  - (* O1 *) specialize (Hself eq_refl). cbn [hinv] in Hself. destruct Hself as [E1 E2]. destruct (eflag (sh c)) eqn:Ef; injection Es as <- <-.
    + self HR Et q.
      * intros _. rewrite holder_other by auto. exact E1.
      * eff. destruct E1 as (_ & _ & E1). rewrite Ef in E1. destruct E1 as [E1 _]. rewrite (E1 eq_refl). constructor.
    + self HR Et q; [|silent]. intros _. rewrite holder_other by auto. split; [exact E1|]. intros E. apply E2 in E. discriminate.
  - (* O2 *) specialize (Hself eq_refl). cbn [hinv] in Hself. destruct Hself as [(E1 & E2 & E3) E4]. destruct (rev (pullE (sh c))) as [|v l] eqn:Er.
    { apply rev_nil_inv in Er. contradiction. }
    injection Es as <- <-. self HR Et q; [|silent]. intros _. cbn [hinv set_pull pushE pullE eflag]. rewrite rev_involutive. split; [exact E1|].
    destruct (eflag (sh c)); [|reflexivity]. destruct E3 as [E3 _]. rewrite (E3 eq_refl) in E1. discriminate.
  - (* O3 *) injection Es as <- <-. rel HR Et q; [|silent]. intros H. rewrite holder_other by auto. exact H.
  - (* K0 *) acq HR Et Es q. intros H; exact H.
  - (* K1 *) specialize (Hself eq_refl). injection Es as <- <-. self HR Et q.
    + intros H. rewrite holder_other by auto. exact H.
    + eff. cbn [hinv] in Hself. destruct Hself as (E1 & E2 & E3). subst q. destruct (pullE (sh c)) as [|x l] eqn:Ep using rev_ind.
      * cbn. destruct (E2 eq_refl) as [-> _]. constructor.
      * rewrite last_snoc, rev_app_distr. cbn. constructor.
  - (* K2 *) injection Es as <- <-. rel HR Et q; [|silent]. intros H. rewrite holder_other by auto. exact H.
  - (* S0 *) acq HR Et Es q. intros H; exact H.
  - (* S1 *) acqp c Es. self HR Et q; [|silent]. intros H; cbn [hinv pushL unlock_push]; rewrite ?holder_self; eapply gen_pend_False; [exact H|repeat split].
  - (* S2 *) specialize (Hself eq_refl). injection Es as <- <-. self HR Et q.
    + intros H. rewrite (lk_owner _ _ _ _ _ Rp Et eq_refl), holder_self. eapply gen_pend_False; [exact H|repeat split].
    + eff. cbn [hinv] in Hself. destruct Hself as (E1 & E2 & E3).
      replace (zlen (pullE (sh c)) + zlen (pushE (sh c)))%Z with (zlen q); [constructor|]. subst q. unfold zlen. rewrite app_length, rev_length. lia.
  - (* S3 *) injection Es as <- <-. self HR Et q; [|silent]. intros H; cbn [hinv pushL unlock_push]; rewrite ?holder_self; eapply gen_pend_False; [exact H|repeat split].
  - (* S4 *) injection Es as <- <-. rel HR Et q; [|silent]. intros H. rewrite holder_other by auto. exact H.
  - (* L0 *) acq HR Et Es q. intros H; exact H.
  - (* L1 *) acqp c Es. self HR Et q; [|silent]. intros H; cbn [hinv pushL unlock_push]; rewrite ?holder_self; eapply gen_pend_False; [exact H|repeat split].
  - (* L2 *) injection Es as <- <-. self HR Et q; [|silent]. intros (_ & _ & H). split; [reflexivity|exact H].
  - (* L3 *) injection Es as <- <-. self HR Et q; [|silent]. intros (H1 & H2). split; [exact H1|]. split; [reflexivity|exact H2].
  - (* L4 *) injection Es as <- <-. self HR Et (@nil V); [|eff; constructor]. intros (H1 & H2 & H3).
    cbn [hinv]. unfold gen, flagok. cbn [set_flag pushE pullE eflag pushL]. rewrite H1, H2, (lk_owner _ _ _ _ _ Rp Et eq_refl), holder_self. cbn [pend]. auto.
  - (* L5 *) injection Es as <- <-. self HR Et q; [|silent]. intros H; cbn [hinv pushL unlock_push]; rewrite ?holder_self; eapply gen_pend_False; [exact H|repeat split].
  - (* L6 *) injection Es as <- <-. rel HR Et q; [|silent]. intros H. rewrite holder_other by auto. exact H.
  - (* V0 *) acq HR Et Es q. intros H; exact H.
  - (* V1 *) acqp c Es. self HR Et q; [|silent]. intros H; cbn [hinv pushL unlock_push]; rewrite ?holder_self; eapply gen_pend_False; [exact H|repeat split].
  - (* V2 *) injection Es as <- <-. self HR Et q; [|eff; constructor]. intros H. rewrite (lk_owner _ _ _ _ _ Rp Et eq_refl), holder_self. eapply gen_pend_False; [exact H|repeat split].
  - (* V3 *) injection Es as <- <-. self HR Et q; [|silent]. intros H; cbn [hinv pushL unlock_push]; rewrite ?holder_self; eapply gen_pend_False; [exact H|repeat split].
  - (* V4 *) injection Es as <- <-. rel HR Et q; [|silent]. intros H. rewrite holder_other by auto. exact H.
  - (* E0 *) injection Es as <- <-. other HR Et q.
    + intros x Hx H. rewrite holder_other by auto. exact H.
    + eff. destruct (hinv_flag _ _ _ _ (r_q _ _ HR)). constructor; assumption.
Qed.

Lemma sqR_call c q t o : sqR c q -> sq_okop o -> th c t = None -> sqR (Cfg (sh c) (fupd t (Some (sq_start o)) (th c))) q /\ alpha (sq_start o) = APend o.
Proof.
  intros [R1 R2 R3 R4] Ho Et. split; [|destruct o; reflexivity].
  assert (Hn : forall L h, lk L h (th c) -> L <> Some t). { intros L h Hl E. apply Hl in E as (x & E & _). congruence. }
  constructor; cbn [sh th].
  - apply lk_call; [exact R1|exact Et|destruct o; reflexivity].
  - apply lk_call; [exact R2|exact Et|destruct o; reflexivity].
  - apply okpc_upd; [exact R3|]. destruct o; cbn; auto.
  - rewrite !holder_other by eauto. exact R4.
Qed.

Lemma sqR_ret c q t pc r : sqR c q -> th c t = Some pc -> sq_fin pc = Some r -> sqR (Cfg (sh c) (fupd t None (th c))) q /\ alpha pc = ADone r.
Proof.
  intros [R1 R2 R3 R4] Et Ef. destruct pc; try discriminate. injection Ef as <-. split; [|reflexivity].
  constructor; cbn [sh th].
  - eapply lk_ret; [exact R1|exact Et|reflexivity].
  - eapply lk_ret; [exact R2|exact Et|reflexivity].
  - intros u pc. unfold fupd. destruct (Nat.eqb u t); [discriminate|apply R3].
  - rewrite !holder_other by (eapply lk_other; eauto). exact R4.
Qed.

Lemma sqR_init : sqR (init (sq0 (V := V))) [].
Proof.
  constructor; cbn; try apply lk_init; [discriminate|]. unfold gen, flagok. cbn. tauto.
Qed.


Definition rest s : Prop := pushL s = None /\ pullL s = None /\ gen s False (sq_content s).

Lemma rest_R s : rest s -> sqR (init s) (sq_content s).
Proof.
  intros (E1 & E2 & Hg). constructor; cbn [init sh th]; rewrite ?E1, ?E2; try apply lk_init; [discriminate|]. exact Hg.
Qed.

Lemma R_rest c q : sqR c q -> (forall t, th c t = None) -> rest (sh c) /\ q = sq_content (sh c).
Proof.
  intros [R1 R2 R3 R4] Hn.
  assert (Hl : forall L h, lk L h (th c) -> L = None).
  { intros [t|] h Hl; [|reflexivity]. destruct (proj1 (Hl t) eq_refl) as (x & E & _). rewrite Hn in E. discriminate. }
  pose proof (Hl _ _ R1) as E1. pose proof (Hl _ _ R2) as E2. rewrite E1, E2 in R4. cbn in R4. pose proof R4 as (Eq & _). rewrite Eq in R4.
  split; [split; [exact E1|split; [exact E2|exact R4]]|exact Eq].
Qed.

Lemma okops xs : (strict = true -> Forall no_empty_batch (calls (Ch := unit) xs)) -> Forall sq_okop (calls xs).
Proof. intros H. apply Forall_forall. intros o Ho Hs. specialize (H Hs). rewrite Forall_forall in H. auto. Qed.

Lemma sq_sim s xs c H : rest s -> (strict = true -> Forall no_empty_batch (calls xs)) -> sq_run (init s) xs = Some (c, H) ->
  exists q' f', atomic (sq_spec strict) (sq_content s) (fun _ => AIdle) H q' f' /\ sqR c q'.
Proof.
  intros Hr Hok Er. edestruct (sim_run sq_start sq_step sq_fin (sq_spec strict) sq_okop sqR alpha) as (q' & f' & Ha & Hr' & _);
    [| | | | | |exact Er|exists q', f'; split; [exact Ha|exact Hr']].
  - intros c0 q t o. apply sqR_call.
  - intros c0 q t k pc s' pc'. apply sqR_int.
  - intros c0 q t pc r. apply sqR_ret.
  - apply rest_R, Hr.
  - reflexivity.
  - apply okops, Hok.
Qed.

Lemma reach_rest s : sq_reach strict s -> rest s.
Proof.
  induction 1 as [|s xs c H _ IH Hok Er Hn|s _ IH|s Hg _ IH].
  - split; [reflexivity|]. split; [reflexivity|]. unfold gen, flagok. cbn. tauto.
  - destruct (sq_sim _ _ _ _ IH Hok Er) as (q' & f' & _ & Hr). apply (R_rest _ _ Hr Hn).
  - destruct IH as (E1 & E2 & E3 & E4 & E5). unfold rest, sq_move, gen, flagok, sq_content in *. cbn in *.
    split; [reflexivity|]. split; [reflexivity|]. split; [reflexivity|]. split; [exact E4|]. destruct (pullE s) as [|v l]; cbn in *.
    + destruct (E4 eq_refl) as [-> _]. auto.
    + split; [discriminate|]. intros _ E. apply app_eq_nil in E as [E _]. apply app_eq_nil in E as [_ E]. discriminate.
  - destruct IH as (E1 & E2 & E3 & E4 & E5). unfold rest, sq_move, gen, flagok, sq_content in *. cbn in *. rewrite Hg. intuition congruence.
Qed.

(** ** No deadlock *)

(** A thread whose next step is to take a lock *)
Definition wants pc : bool * bool (* push, pull *) :=
  match pc with
  | P0 _ | P8 _ | C1 _ | S1 | L1 | V1 _ => (true, false)
  | P3 _ | O0 | K0 | S0 | L0 | V0 _ => (false, true)
  | _ => (false, false)
  end.

Lemma sq_can_step c t pc : th c t = Some pc -> pc <> Crash ->
  (fst (wants pc) = true -> pushL (sh c) = None) -> (snd (wants pc) = true -> pullL (sh c) = None) ->
  can_step sq_start sq_step sq_fin c t.
Proof.
  intros Et Hc H1 H2. destruct (sq_fin pc) as [r|] eqn:Ef.
  - exists ARet. unfold exec. rewrite Et, Ef. do 2 eexists. split; [congruence|reflexivity].
  - exists (AInt tt). unfold exec. rewrite Et. destruct (sq_step (sh c) t pc tt) as [[s' pc']|] eqn:Es.
    + do 2 eexists. split; [congruence|reflexivity].
    + exfalso. destruct pc; cbn [sq_step sq_fin wants fst snd] in *; try discriminate; try congruence; unfold lock_push, lock_pull in Es;
        try (rewrite H1 in Es by reflexivity; discriminate); try (rewrite H2 in Es by reflexivity; discriminate).
      destruct (rev (pullE (sh c))); discriminate.
Qed.

Lemma hinv_nocrash c q t pc : sqR c q -> th c t = Some pc -> pc <> Crash.
Proof.
  intros [R1 R2 R3 R4] Et ->. rewrite (lk_owner _ _ _ _ _ R2 Et eq_refl) in R4. cbn [holder] in R4. rewrite Et in R4. exact R4.
Qed.

Lemma sq_live c q : sqR c q -> (exists t, th c t <> None) -> exists t, can_step sq_start sq_step sq_fin c t.
Proof.
  intros HR (t0 & Ht0). destruct (pushL (sh c)) as [t|] eqn:E1.
  - destruct (proj1 (r_push _ _ HR t) E1) as (pc & Et & Hh). exists t. eapply sq_can_step; [exact Et|eapply hinv_nocrash; eassumption|..];
      intros E; exfalso; destruct pc; discriminate.
  - destruct (pullL (sh c)) as [t|] eqn:E2.
    + destruct (proj1 (r_pull _ _ HR t) E2) as (pc & Et & Hh). exists t. eapply sq_can_step; [exact Et|eapply hinv_nocrash; eassumption|auto|].
      intros E; exfalso; destruct pc; discriminate.
    + destruct (th c t0) as [pc|] eqn:Et; [|congruence]. exists t0. eapply sq_can_step; [exact Et|eapply hinv_nocrash; eassumption|auto|auto].
Qed.

(** ** Steps of one operation *)
Definition todo pc : nat :=
  match pc with
  | P0 _ => 11 | P1 _ => 10 | P2 _ => 9 | P3 _ => 8 | P4 _ => 7 | P5 _ => 3 | P6 _ => 2 | P7 _ => 1 | P8 _ => 4 | P9 _ => 3 | P10 _ => 2 | P11 _ => 1
  | O0 => 17 | C0 None => 16 | C1 None => 15 | C2 None => 14 | C3 None => 13 | C4 None => 12 | C5 None => 11 | C6 None => 12 | C7 None => 11
  | O1 => 10 | O2 => 9
  | C0 (Some _) => 8 | C1 (Some _) => 7 | C2 (Some _) => 6 | C3 (Some _) => 5 | C4 (Some _) => 4 | C5 (Some _) => 3 | C6 (Some _) => 4 | C7 (Some _) => 3
  | O3 _ => 2
  | K0 => 3 | K1 => 2 | K2 _ => 1
  | S0 | L0 | V0 _ => 7 | S1 | L1 | V1 _ => 6 | S2 | L2 | V2 _ => 5 | L3 => 4 | L4 => 3 | S3 _ | L5 | V3 _ => 2 | S4 _ | L6 | V4 _ => 1
  | E0 => 1
  | Ret _ | Crash => 0
  end%nat.

Lemma todo_step s t pc k s' pc' : sq_step s t pc k = Some (s', pc') -> (todo pc' < todo pc)%nat.
Proof.
  destruct pc; cbn [sq_step]; try discriminate; unfold lock_push, lock_pull; intros Es;
    try (destruct (pushL s); [discriminate|]); try (destruct (pullL s); [discriminate|]);
    try (destruct (rev (pullE s))); injection Es as <- <-; cbn [todo]; try lia;
    try (destruct (nonempty _)); try (destruct (eflag s)); try (destruct k0 as [?|]); cbn [todo cont]; lia.
Qed.

(** ** Races *)
Lemma acc_lock pc x w : In (x, w) (sq_acc pc) -> if x then hpull pc = true else hpush pc = true.
Proof. destruct pc; cbn; intros H; repeat destruct H as [[= <- <-]|H]; try contradiction; reflexivity. Qed.

Lemma sq_norace c q t u pt pu x w w' : sqR c q -> th c t = Some pt -> th c u = Some pu -> In (x, w) (sq_acc pt) -> In (x, w') (sq_acc pu) -> t = u.
Proof.
  intros [R1 R2 _ _] Et Eu Ht Hu. apply acc_lock in Ht, Hu. destruct x.
  - pose proof (lk_owner _ _ _ _ _ R2 Et Ht). pose proof (lk_owner _ _ _ _ _ R2 Eu Hu). congruence.
  - pose proof (lk_owner _ _ _ _ _ R1 Et Ht). pose proof (lk_owner _ _ _ _ _ R1 Eu Hu). congruence.
Qed.

End sq.
