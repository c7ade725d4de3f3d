(** AirLock: simulation by an atomic slot, wakeups *)
From stdpp Require Import list.
From Verif Require Import Base Conc CondVar AirModel AirSpec.

Section air.
Context {V : Type}.
Notation aircfg := (cfg (airsh V) (airpc V)).
Implicit Types (s : airsh V) (pc : airpc V) (q : option V) (c : aircfg).

Definition hdoor pc : bool :=
  match pc with
  | AT2 _ | AT3 _ | AT4 _ | AT5 _ _ | AL1 _ | AL2 _ | AL3 _ | AL5 _ _ | AL6 _ _ | AL7 | AU2 | AU3 | AU4 _ | AU5 _ | AU6 _ => true
  | _ => false
  end.

Definition isS q : bool := match q with Some _ => true | None => false end.

Definition ahinv (x : option (airpc V)) s q : Prop :=
  loaded s = isS q /\
  match x with
  | Some (AT3 _) | Some (AL5 _ _) => q = None
  | Some (AT4 v) | Some (AL6 _ v) => q = None /\ adata s = Some v
  | Some (AU4 r) => q = r /\ q <> None
  | Some (AU5 _) => q = None
  | Some (AL3 _) | Some AU3 => q <> None /\ adata s = q
  | _ => q <> None -> adata s = q
  end.

(** [lost]: somebody who was woken may have been left by an exception (AirThrow.v). *)
Variable lost : Prop.
(** Somebody who will use a free slot or pass it on *)
Definition helper s t pc : Prop :=
  match pc with AU5 _ | AL2 _ | AL5 true _ | AL6 true _ => True | AL4 _ => ~ In t (await s) | _ => False end.
Definition someone s (f : nat -> option (airpc V)) : Prop := lost \/ exists t pc, f t = Some pc /\ helper s t pc.

Record airR c q : Prop := {
  a_door : lk (door (sh c)) hdoor (th c);
  a_q : ahinv (holder (door (sh c)) (th c)) (sh c) q;
  a_wait : forall t, In t (await (sh c)) -> exists v, th c t = Some (AL4 v);
  a_help : loaded (sh c) = false -> await (sh c) <> [] -> someone (sh c) (th c);
}.

Definition aalpha pc : ast (airop V) (airret V) :=
  match pc with
  | AT0 v | AT1 v | AT2 v | AT3 v | AT4 v => APend (ATryLoad v)
  | AT5 _ b => ADone (ABool b)
  | AL0 v | AL1 v | AL2 v | AL3 v | AL4 v | AL5 _ v | AL6 _ v => APend (ALoad v)
  | AL7 => ADone AUnit
  | AU0 | AU1 | AU2 | AU3 | AU4 _ => APend AUnload
  | AU5 r | AU6 r => ADone (AVal r)
  | AI0 => APend AIsLoaded
  | AEnd r => ADone r
  end.

(** Steps of the thread holding the door *)
Lemma wait_upd c t pc pc' (ws : list nat) : (forall u, In u (await (sh c)) -> exists v, th c u = Some (AL4 v)) -> th c t = Some pc ->
  (forall u, In u ws -> In u (await (sh c)) /\ (u = t -> exists v, pc' = AL4 v) \/ u = t /\ exists v, pc' = AL4 v) ->
  forall u, In u ws -> exists v, fupd t (Some pc') (th c) u = Some (AL4 v).
Proof.
  intros Hw Et Hs u Hu. unfold fupd. destruct (Nat.eqb_spec u t) as [->|Hne].
  - destruct (Hs t Hu) as [[_ H]|[_ H]]; [destruct (H eq_refl) as (v & ->)|destruct H as (v & ->)]; eauto.
  - destruct (Hs u Hu) as [[H _]|[H _]]; [auto|congruence].
Qed.

(** A helper other than the stepping thread stays one. *)
Lemma help_other c t pc pc' s' : th c t = Some pc ->
  (forall u, In u (await s') -> In u (await (sh c)) \/ u = t) ->
  (helper (sh c) t pc -> helper s' t pc') ->
  someone (sh c) (th c) -> someone s' (fupd t (Some pc') (th c)).
Proof.
  intros Et Hs Hh [Hx|(u & p & Eu & Hp)]; [left; exact Hx|right]. destruct (Nat.eq_dec u t) as [->|Hne].
  - exists t, pc'. rewrite fupd_same. split; [reflexivity|]. apply Hh. congruence.
  - exists u, p. rewrite fupd_other by exact Hne. split; [exact Eu|]. destruct p; cbn in *; auto. intros H. apply Hs in H as [H|H]; auto.
Qed.

Definition aeff q q' pc pc' : Prop :=
  (q' = q /\ aalpha pc' = aalpha pc) \/ exists o r, aalpha pc = APend o /\ aalpha pc' = ADone r /\ air_spec q o r q'.

Lemma not_waiting c t pc : (forall u, In u (await (sh c)) -> exists v, th c u = Some (AL4 v)) -> th c t = Some pc -> hdoor pc = true ->
  ~ In t (await (sh c)).
Proof. intros Hw Et Hd H. destruct (Hw _ H) as (v & E). rewrite Et in E. injection E as ->. discriminate. Qed.

Lemma A_self c q q' t pc s' pc' : airR c q -> th c t = Some pc -> hdoor pc = true -> hdoor pc' = true -> door s' = door (sh c) ->
  (forall u, In u (await s') -> In u (await (sh c))) -> (ahinv (Some pc) (sh c) q -> ahinv (Some pc') s' q') ->
  (loaded s' = false -> await s' <> [] -> (loaded (sh c) = false -> someone (sh c) (th c)) -> someone s' (fupd t (Some pc') (th c))) ->
  airR (Cfg s' (fupd t (Some pc') (th c))) q'.
Proof.
  intros [Rd Rq Rw Rh] Et H1 H2 Ed Hs Hi Hh. pose proof (lk_owner _ _ _ _ _ Rd Et H1) as Eo. constructor; cbn [sh th].
  - rewrite Ed. eapply lk_keep; [eassumption|eassumption|congruence].
  - rewrite Ed, Eo, holder_self. apply Hi. rewrite Eo in Rq. cbn in Rq. rewrite Et in Rq. exact Rq.
  - eapply wait_upd; [exact Rw|exact Et|]. intros u Hu. left. split; [auto|]. intros ->. exfalso. eapply not_waiting; eauto.
  - intros E1 E2. apply Hh; [exact E1|exact E2|]. intros E3. apply Rh; [exact E3|]. intros E. destruct (await s') as [|u l]; [auto|].
    specialize (Hs u (or_introl eq_refl)). rewrite E in Hs. destruct Hs.
Qed.

Lemma A_rel c q t pc pc' : airR c q -> th c t = Some pc -> hdoor pc = true -> hdoor pc' = false ->
  (ahinv (Some pc) (sh c) q -> q <> None -> adata (sh c) = q) -> (helper (sh c) t pc -> helper (sh c) t pc') ->
  airR (Cfg (unlock (sh c)) (fupd t (Some pc') (th c))) q.
Proof.
  intros [Rd Rq Rw Rh] Et H1 H2 Hi Hh. pose proof (lk_owner _ _ _ _ _ Rd Et H1) as Eo. constructor; cbn [sh th unlock door loaded await].
  - eapply lk_rel; eassumption.
  - cbn [holder]. rewrite Eo in Rq. cbn in Rq. rewrite Et in Rq. split; [apply Rq|]. exact (Hi Rq).
  - eapply wait_upd; [exact Rw|exact Et|]. intros u Hu. left. split; [auto|]. intros ->. exfalso. eapply not_waiting; eauto.
  - intros E1 E2. eapply help_other; [exact Et|auto| |apply Rh; assumption]. intros H. apply Hh in H. destruct pc'; exact H.
Qed.

Lemma A_other c q t pc pc' : airR c q -> th c t = Some pc -> hdoor pc = false -> hdoor pc' = false -> (forall v, pc <> AL4 v) ->
  airR (Cfg (sh c) (fupd t (Some pc') (th c))) q.
Proof.
  intros [Rd Rq Rw Rh] Et H1 H2 Hn. constructor; cbn [sh th].
  - eapply lk_keep; [eassumption|eassumption|congruence].
  - rewrite holder_other by (eapply lk_other; eassumption). exact Rq.
  - eapply wait_upd; [exact Rw|exact Et|]. intros u Hu. left. split; [auto|]. intros ->. destruct (Rw _ Hu) as (v & E). rewrite Et in E. injection E as ->.
    destruct (Hn v eq_refl).
  - intros E1 E2. eapply help_other; [exact Et|auto| |apply Rh; assumption]. destruct pc; cbn in *; try contradiction; try discriminate. exfalso. eapply Hn. reflexivity.
Qed.

Lemma A_acq c q t pc pc1 s' pc' : airR c q -> th c t = Some pc -> lock (sh c) t pc1 = Some (s', pc') -> hdoor pc = false -> hdoor pc1 = true ->
  ~ In t (await (sh c)) -> (forall s1, ahinv None s1 q -> ahinv (Some pc1) s1 q) -> aalpha pc1 = aalpha pc ->
  (helper (sh c) t pc -> helper (sh c) t pc1) ->
  exists q', airR (Cfg s' (fupd t (Some pc') (th c))) q' /\ aeff q q' pc pc'.
Proof.
  intros [Rd Rq Rw Rh] Et El Hd Hd1 Hnw Hi Ha Hhp. unfold lock in El. destruct (door (sh c)) eqn:Ed; [discriminate|]. injection El as <- <-.
  exists q. split; [|left; auto]. constructor; cbn [sh th door await loaded].
  - apply lk_acq; assumption.
  - rewrite holder_self. apply Hi. exact Rq.
  - eapply wait_upd; [exact Rw|exact Et|]. intros u Hu. left. split; [auto|]. intros ->. contradiction.
  - intros E1 E2. eapply help_other; [exact Et|auto| |apply Rh; assumption]. intros H. apply Hhp in H. destruct pc1; exact H.
Qed.

Lemma airR_int c q t k pc s' pc' :
  airR c q -> th c t = Some pc -> air_step (sh c) t pc k = Some (s', pc') -> exists q', airR (Cfg s' (fupd t (Some pc') (th c))) q' /\ aeff q q' pc pc'.
Proof.
  intros HR Et Es. pose proof (a_wait _ _ HR) as Rw. pose proof (a_door _ _ HR) as Rd.
  assert (Hself : hdoor pc = true -> ahinv (Some pc) (sh c) q).
  { intros E. pose proof (a_q _ _ HR) as Rq. rewrite (lk_owner _ _ _ _ _ Rd Et E) in Rq. cbn [holder] in Rq. rewrite Et in Rq. exact Rq. }
  assert (Hq : loaded (sh c) = isS q) by apply (a_q _ _ HR).
  assert (Hnw : (forall v, pc <> AL4 v) -> ~ In t (await (sh c))).
  { intros Hn H. destruct (Rw _ H) as (v & E). rewrite Et in E. injection E as ->. exact (Hn v eq_refl). }
  Ltac silent := left; split; reflexivity.
  Ltac eff := right; do 2 eexists; split; [reflexivity|split; [reflexivity|]].
  Ltac self HR Et q' := exists q'; split; [eapply (A_self _ _ q'); [exact HR|exact Et|reflexivity|reflexivity|reflexivity|auto| |]|].
  Ltac hkeep Et := intros El Ew Hh; eapply help_other; [exact Et|auto|cbn; tauto|auto].
  destruct k as [|u| |]; cbn [air_step] in Es; [| | |discriminate].
  - destruct pc; cbn [air_step0] in Es; try discriminate Es.
    + (* AT0 *) rewrite Hq in Es. destruct q as [w|]; cbn [isS] in Es; injection Es as <- <-; (eexists; split; [eapply A_other; [exact HR|exact Et|reflexivity|reflexivity|discriminate]|]).
      * eff. constructor.
      * silent.
    + (* AT1 *) eapply A_acq; [exact HR|exact Et|exact Es|reflexivity|reflexivity|apply Hnw; discriminate|intros s1 H; exact H|reflexivity|intros []].
    + (* AT2 *) rewrite Hq in Es. destruct q as [w|]; cbn [isS] in Es; injection Es as <- <-.
      * self HR Et (Some w); [intros H; exact H|hkeep Et|]. eff. constructor.
      * self HR Et (@None V); [intros [H _]; split; [exact H|reflexivity]|hkeep Et|silent].
    + (* AT3 *) injection Es as <- <-. self HR Et q; [|hkeep Et|silent]. intros [H1 H2]. split; [exact H1|]. auto.
    + (* AT4 *) injection Es as <- <-. specialize (Hself eq_refl). destruct Hself as (H1 & -> & H3).
      self HR Et (Some v); [|discriminate|eff; constructor]. intros _. split; [reflexivity|]. intros _. exact H3.
    + (* AT5 *) injection Es as <- <-. exists q. split; [|silent]. eapply A_rel; [exact HR|exact Et|reflexivity|reflexivity|intros [_ H]; exact H|intros []].
    + (* AL0 *) eapply A_acq; [exact HR|exact Et|exact Es|reflexivity|reflexivity|apply Hnw; discriminate|intros s1 H; exact H|reflexivity|intros []].
    + (* AL1 *) rewrite Hq in Es. destruct q as [w|]; cbn [isS] in Es; injection Es as <- <-.
      * self HR Et (Some w); [intros H; exact H|hkeep Et|silent].
      * self HR Et (@None V); [intros [H _]; split; [exact H|reflexivity]|hkeep Et|silent].
    + (* AL2 *) rewrite Hq in Es. destruct q as [w|]; cbn [isS] in Es; injection Es as <- <-.
      * self HR Et (Some w); [intros [H H0]; split; [exact H|split; [discriminate|apply H0; discriminate]]|intros E; rewrite Hq in E; discriminate|silent].
      * self HR Et (@None V); [intros [H _]; split; [exact H|reflexivity]|hkeep Et|silent].
    + (* AL3 *) injection Es as <- <-. exists q. split; [|silent]. specialize (Hself eq_refl). destruct Hself as [H1 H2].
      destruct HR as [Rd' Rq' Rw' Rh']. constructor; cbn [sh th set_await unlock door loaded await].
      * eapply lk_rel; [exact Rd|exact Et|reflexivity|reflexivity].
      * cbn [holder]. split; [exact H1|]. intros _. apply H2.
      * eapply wait_upd; [exact Rw|exact Et|]. intros x [<-|Hx]; [right; eauto|]. left. split; [exact Hx|eauto].
      * intros E. rewrite H1 in E. destruct H2 as [H2 _]. destruct q; [discriminate|congruence].
    + (* AL4 *) destruct (inb t (await (sh c))) eqn:Ei; [discriminate|]. apply inb_false in Ei.
      eapply A_acq; [exact HR|exact Et|exact Es|reflexivity|reflexivity|exact Ei|intros s1 H; exact H|reflexivity|intros H; exact I].
    + (* AL5 *) injection Es as <- <-. self HR Et q; [|hkeep Et|silent]. intros [H1 H2]. split; [exact H1|]. auto.
    + (* AL6 *) injection Es as <- <-. specialize (Hself eq_refl). destruct Hself as (H1 & -> & H3).
      self HR Et (Some v); [|discriminate|eff; constructor]. intros _. split; [reflexivity|]. intros _. exact H3.
    + (* AL7 *) injection Es as <- <-. exists q. split; [|silent]. eapply A_rel; [exact HR|exact Et|reflexivity|reflexivity|intros [_ H]; exact H|intros []].
    + (* AU0 *) rewrite Hq in Es. destruct q as [w|]; cbn [isS] in Es; injection Es as <- <-; (eexists; split; [eapply A_other; [exact HR|exact Et|reflexivity|reflexivity|discriminate]|]).
      * silent.
      * eff. constructor.
    + (* AU1 *) eapply A_acq; [exact HR|exact Et|exact Es|reflexivity|reflexivity|apply Hnw; discriminate|intros s1 H; exact H|reflexivity|intros []].
    + (* AU2 *) rewrite Hq in Es. destruct q as [w|]; cbn [isS] in Es; injection Es as <- <-.
      * self HR Et (Some w); [|hkeep Et|silent]. intros [H1 H2]. split; [exact H1|]. split; [discriminate|]. apply H2. discriminate.
      * self HR Et (@None V); [intros H; exact H|hkeep Et|eff; constructor].
    + (* AU3 *) injection Es as <- <-. specialize (Hself eq_refl). destruct Hself as (H1 & H2 & H3). rewrite H3.
      self HR Et q; [|hkeep Et|silent]. intros _. split; [exact H1|]. auto.
    + (* AU4 *) injection Es as <- <-. specialize (Hself eq_refl). destruct Hself as (H1 & <- & H3).
      self HR Et (@None V).
      * intros _. split; reflexivity.
      * intros _ _ _. right. exists t, (AU5 q). rewrite fupd_same. split; [reflexivity|exact I].
      * eff. destruct q; [constructor|congruence].
    + (* AU5 *) destruct (await (sh c)) eqn:Ew; [|discriminate]. injection Es as <- <-.
      self HR Et q; [|congruence|silent]. intros [H1 H2]. split; [exact H1|]. congruence.
    + (* AU6 *) injection Es as <- <-. exists q. split; [|silent]. eapply A_rel; [exact HR|exact Et|reflexivity|reflexivity|intros [_ H]; exact H|intros []].
    + (* AI0 *) injection Es as <- <-. eexists. split; [eapply A_other; [exact HR|exact Et|reflexivity|reflexivity|discriminate]|].
      eff. rewrite Hq. destruct q; constructor.
  - (* notify *) destruct pc; try discriminate. destruct (notify1 (await (sh c)) (CWake u)) as [ws|] eqn:En; [|discriminate]. injection Es as <- <-.
    exists q. split; [|silent]. eapply A_self; [exact HR|exact Et|reflexivity|reflexivity|reflexivity| | |].
    + intros x. cbn [set_await await]. eapply notify1_sub. exact En.
    + intros [H1 H2]. split; [exact H1|]. congruence.
    + intros _ _ _. cbn in En. destruct (inb u (await (sh c))) eqn:Eu; [|discriminate]. injection En as <-. apply inb_spec in Eu.
      destruct (Rw _ Eu) as (v & E). right. exists u, (AL4 v). rewrite fupd_other by congruence. split; [exact E|]. cbn. rewrite rm_spec. tauto.
  - (* spurious wakeup *) destruct pc; try discriminate. destruct (inb t (await (sh c))) eqn:Eu; [|discriminate]. injection Es as <- <-.
    exists q. split; [|silent]. destruct HR as [Rd' Rq' Rw' Rh']. constructor; cbn [sh th set_await door loaded await].
    + eapply lk_keep; [exact Rd|exact Et|reflexivity].
    + rewrite holder_other by (eapply lk_other; [exact Rd|exact Et|reflexivity]). exact Rq'.
    + eapply wait_upd; [exact Rw|exact Et|]. intros x Hx. apply rm_spec in Hx. left. split; [apply Hx|]. intros ->. destruct Hx. congruence.
    + intros _ _. right. exists t, (AL4 v). rewrite fupd_same. split; [reflexivity|]. cbn. rewrite rm_spec. tauto.
Qed.

Lemma airR_call c q t o : airR c q -> True -> th c t = None -> airR (Cfg (sh c) (fupd t (Some (air_start o)) (th c))) q /\ aalpha (air_start o) = APend o.
Proof.
  intros [Rd Rq Rw Rh] _ Et. split; [|destruct o; reflexivity]. constructor; cbn [sh th].
  - apply lk_call; [exact Rd|exact Et|destruct o; reflexivity].
  - rewrite holder_other; [exact Rq|]. intros E. apply Rd in E as (x & E & _). congruence.
  - intros u Hu. destruct (Rw u Hu) as (v & E). exists v. rewrite fupd_other; [exact E|]. congruence.
  - intros E1 E2. destruct (Rh E1 E2) as [Hx|(u & p & E & Hp)]; [left; exact Hx|right]. exists u, p. rewrite fupd_other by congruence. auto.
Qed.

Lemma airR_ret c q t pc r : airR c q -> th c t = Some pc -> air_fin pc = Some r -> airR (Cfg (sh c) (fupd t None (th c))) q /\ aalpha pc = ADone r.
Proof.
  intros [Rd Rq Rw Rh] Et Ef. destruct pc; try discriminate. injection Ef as <-. split; [|reflexivity]. constructor; cbn [sh th].
  - eapply lk_ret; [exact Rd|exact Et|reflexivity].
  - rewrite holder_other; [exact Rq|]. eapply lk_other; [exact Rd|exact Et|reflexivity].
  - intros u Hu. destruct (Rw u Hu) as (v & E). exists v. rewrite fupd_other; [exact E|]. congruence.
  - intros E1 E2. destruct (Rh E1 E2) as [Hx|(u & p & E & Hp)]; [left; exact Hx|right]. exists u, p. rewrite fupd_other; [auto|]. intros ->. rewrite Et in E. injection E as <-. exact Hp.
Qed.

Lemma airR_init : airR (init (air0 (V := V))) None.
Proof.
  constructor; cbn; [apply lk_init|split; [reflexivity|congruence]|intros t []|congruence].
Qed.

Lemma air_sim xs c H : air_run (init air0) xs = Some (c, H) ->
  exists q f, atomic air_spec None (fun _ => AIdle) H q f /\ airR c q.
Proof.
  intros Er. edestruct (sim_run air_start air_step air_fin (air_spec (V := V)) (fun _ => True) airR aalpha) as (q' & f' & Ha & Hr' & _);
    [| | | | | |exact Er|exists q', f'; split; [exact Ha|exact Hr']].
  - intros c0 q t o. apply airR_call.
  - intros c0 q t k pc s' pc'. apply airR_int.
  - intros c0 q t pc r. apply airR_ret.
  - apply airR_init.
  - reflexivity.
  - apply Forall_forall. auto.
Qed.

(** ** Progress *)
Definition air_moves c t : Prop := exists a c' e, a <> AInt CSpur /\ th c t <> None /\ air_exec c (t, a) = Some (c', e).

Lemma air_holder_moves c t pc : th c t = Some pc -> hdoor pc = true -> air_moves c t.
Proof.
  intros Et Hd. unfold air_moves, air_exec, exec. assert (Hn : th c t <> None) by congruence.
  assert (Hx : forall k s' pc', k <> CSpur -> air_step (sh c) t pc k = Some (s', pc') -> air_moves c t).
  { intros k s' pc' Hk Es. exists (AInt k). do 2 eexists. split; [congruence|]. split; [exact Hn|]. unfold air_exec, exec. rewrite Et, Es. reflexivity. }
  destruct pc; cbn in Hd; try discriminate; try (eapply (Hx CStep); [discriminate|reflexivity]).
  destruct (await (sh c)) as [|u l] eqn:Ew.
  - eapply (Hx CStep); [discriminate|]. cbn. rewrite Ew. reflexivity.
  - destruct (notify1_some (await (sh c))) as (x & Hx1 & En); [rewrite Ew; discriminate|]. eapply (Hx (CWake x)); [discriminate|]. unfold air_step. rewrite En. reflexivity.
Qed.

Lemma air_live c q t : airR c q -> th c t <> None -> ~ air_waits c t -> exists u, air_moves c u.
Proof.
  intros [Rd Rq Rw Rh] Ht Hw. destruct (door (sh c)) as [u|] eqn:Ed.
  - destruct (proj1 (Rd u) eq_refl) as (pc & Eu & Hd). exists u. eapply air_holder_moves; eassumption.
  - exists t. destruct (th c t) as [pc|] eqn:Et; [|congruence]. destruct (hdoor pc) eqn:Eh; [eapply air_holder_moves; eassumption|].
    unfold air_moves. destruct (air_fin pc) as [r|] eqn:Ef.
    + exists ARet. do 2 eexists. split; [discriminate|]. split; [congruence|]. unfold air_exec, exec. rewrite Et, Ef. reflexivity.
    + exists (AInt CStep). unfold air_exec, exec. rewrite Et. destruct (air_step (sh c) t pc CStep) as [[s' pc']|] eqn:Es.
      { do 2 eexists. split; [discriminate|]. split; [congruence|]. reflexivity. }
      exfalso. destruct pc; cbn in Es, Ef, Eh; try discriminate; try (unfold lock in Es; rewrite Ed in Es; discriminate).
      destruct (inb t (await (sh c))) eqn:Ei; [|unfold lock in Es; rewrite Ed in Es; discriminate]. apply inb_spec in Ei. apply Hw. exists v. auto.
Qed.

Lemma air_woken c q : airR c q -> door (sh c) = None -> loaded (sh c) = false -> await (sh c) <> [] -> lost \/ exists t v, th c t = Some (AL4 v) /\ ~ In t (await (sh c)).
Proof.
  intros [Rd Rq Rw Rh] Ed El Ew. destruct (Rh El Ew) as [Hx|(t & pc & Et & Hp)]; [left; exact Hx|right]. exists t.
  assert (Hd : hdoor pc = false). { destruct (hdoor pc) eqn:E; [|reflexivity]. pose proof (lk_owner _ _ _ _ _ Rd Et E). congruence. }
  destruct pc; cbn in *; try contradiction; try discriminate. eauto.
Qed.

Lemma air_norace c q t u pt pu : airR c q -> th c t = Some pt -> th c u = Some pu -> air_acc pt = true -> air_acc pu = true -> t = u.
Proof.
  intros [Rd _ _ _] Et Eu Ht Hu. assert (H1 : hdoor pt = true) by (destruct pt; try discriminate; reflexivity).
  assert (H2 : hdoor pu = true) by (destruct pu; try discriminate; reflexivity).
  pose proof (lk_owner _ _ _ _ _ Rd Et H1). pose proof (lk_owner _ _ _ _ _ Rd Eu H2). congruence.
Qed.
End air.
