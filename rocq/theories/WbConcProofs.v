(** Proofs about one WorkBlock and several threads. *)
From stdpp Require Import list.
From Verif Require Import Base Conc WbModel WbConc.
Local Open Scope nat_scope.

Notation ccfg := (@cfg wc cpc).
Definition modifies (pc : cpc) : bool :=
  match pc with
  | X1 | X2 | X3 | X4 _ | X5 | R1 | R2 | R3 | U1 _ | U2 _ | U3 _ | U4 _ | U5 _ => true
  | _ => false
  end.
Definition isdone (x : fstat) : bool := match x with FDone _ => true | _ => false end.

(** The members of the block, seen from the program point of the thread that modifies it (if any) *)
Definition phase (m : option cpc) (cur : nat) (sx : fstat) (tkn : bool) (b : wb) (go : list nat) : Prop :=
  match m with
  | None | Some (X1 | R1 | U1 _) => fut b = Some cur /\ finished b = isdone sx /\ loaded b = true /\ (cur ∈ go -> isdone sx = true)
  | Some (X2 | X3) => fut b = Some cur /\ finished b = false /\ loaded b = true /\ sx = FWait /\ cur ∉ go
  | Some (X4 i) => fut b = Some cur /\ finished b = false /\ loaded b = true /\ sx = FWait /\ i = cur
  | Some X5 => fut b = Some cur /\ loaded b = true /\ isdone sx = true
  | Some R2 => loaded b = true /\ sx = FWait /\ tkn = false /\ cur ∉ go
  | Some R3 => finished b = false /\ loaded b = true /\ sx = FWait /\ tkn = false /\ cur ∉ go
  | Some (U2 _) => fut b = Some cur
  | Some (U3 _) => sx = FWait /\ tkn = false /\ cur ∉ go
  | Some (U4 _) => finished b = false /\ sx = FWait /\ tkn = false /\ cur ∉ go
  | Some (U5 _) => fut b = Some cur /\ finished b = false /\ sx = FWait /\ cur ∉ go
  | _ => False
  end.

Definition entry (x : fstate) : nat * fstat := (fwork x, fstat_ x).

(** [m] is the thread that modifies the block. *)
Definition who (c : ccfg) (m : option nat) : Prop := forall t, m = Some t <-> exists pc, th c t = Some pc /\ modifies pc = true.
Definition at_m (c : ccfg) (m : option nat) : option cpc := match m with Some t => th c t | None => None end.

Record cR (c : ccfg) (q : ideal) : Prop := {
  r_calm : forall t u pt pu, t <> u -> th c t = Some pt -> th c u = Some pu -> compat (op_of pt) (op_of pu) = true;
  r_q : map entry (st (sh c)) = q;
  r_cur : exists S0 x m, st (sh c) = S0 ++ [x] /\ tk (blk (sh c)) = Some (length S0) /\ (fstat_ x = FWait \/ fstat_ x = FDone (fwork x)) /\
    who c m /\ phase (at_m c m) (length S0) (fstat_ x) (taken x) (blk (sh c)) (go (sh c));
  r_go : forall i, i ∈ go (sh c) -> i < length (st (sh c));
  r_wait : forall t j, th c t = Some (W2 j) -> exists i, j = Some i /\ S i = length (st (sh c));
}.

Definition calpha (pc : cpc) : ast cop cret :=
  match pc with
  | X5 | R2 | R3 | U3 _ | U4 _ | U5 _ => ADone CUnit
  | Ret _ r => ADone r
  | pc => APend (op_of pc)
  end.

Lemma compat_sym o o' : compat o o' = compat o' o.
Proof. destruct o, o'; reflexivity. Qed.

Lemma calm_upd (c : ccfg) t pc' :
  (forall t u pt pu, t <> u -> th c t = Some pt -> th c u = Some pu -> compat (op_of pt) (op_of pu) = true) ->
  (forall u pc, u <> t -> th c u = Some pc -> compat (op_of pc') (op_of pc) = true) ->
  forall t0 u pt pu, t0 <> u -> fupd t (Some pc') (th c) t0 = Some pt -> fupd t (Some pc') (th c) u = Some pu -> compat (op_of pt) (op_of pu) = true.
Proof.
  intros Hc Hn t0 u pt pu Hne. unfold fupd. destruct (Nat.eqb_spec t0 t) as [->|N0], (Nat.eqb_spec u t) as [->|N1]; [congruence|..].
  - intros [= <-] E. eauto.
  - intros E [= <-]. rewrite compat_sym. eauto.
  - eauto.
Qed.

Lemma calm_self (c : ccfg) t pc pc' :
  (forall t u pt pu, t <> u -> th c t = Some pt -> th c u = Some pu -> compat (op_of pt) (op_of pu) = true) ->
  th c t = Some pc -> op_of pc' = op_of pc ->
  forall t0 u pt pu, t0 <> u -> fupd t (Some pc') (th c) t0 = Some pt -> fupd t (Some pc') (th c) u = Some pu -> compat (op_of pt) (op_of pu) = true.
Proof. intros Hc Ht E. apply calm_upd; [exact Hc|]. intros u pu Hu Epu. rewrite E. eapply (Hc t u); eauto. Qed.

Lemma op_modifies pc pc' : modifies pc = true -> modifies pc' = true -> compat (op_of pc) (op_of pc') = false.
Proof. destruct pc, pc'; try discriminate; reflexivity. Qed.

(** The modifying thread goes on, or is done with it. *)
Lemma who_self (c : ccfg) t pc : (forall t u pt pu, t <> u -> th c t = Some pt -> th c u = Some pu -> compat (op_of pt) (op_of pu) = true) ->
  th c t = Some pc -> modifies pc = true -> who c (Some t).
Proof.
  intros Hc Ht Hm u. split.
  - intros [= <-]. eauto.
  - intros (pu & Eu & Hu). destruct (Nat.eq_dec t u) as [->|N]; [reflexivity|]. exfalso.
    pose proof (op_modifies _ _ Hm Hu). pose proof (Hc t u pc pu N Ht Eu). congruence.
Qed.

Lemma who_eq c m m' : who c m -> who c m' -> m = m'.
Proof.
  intros H H'. destruct m as [t|].
  - symmetry. apply H'. apply H. reflexivity.
  - destruct m' as [t|]; [|reflexivity]. apply H, H'. reflexivity.
Qed.

Lemma who_upd c m s' t pc pc' : who c m -> th c t = Some pc -> modifies pc' = modifies pc -> who (Cfg s' (fupd t (Some pc') (th c))) m.
Proof.
  intros Hw Ht E u. rewrite (Hw u). cbn [th]. unfold fupd. destruct (Nat.eqb_spec u t) as [->|N]; [|reflexivity]. rewrite Ht. split.
  - intros (x & [= <-] & Hx). exists pc'. split; [reflexivity|congruence].
  - intros (x & [= <-] & Hx). exists pc. split; [reflexivity|congruence].
Qed.
Lemma who_done (c : ccfg) s' t pc x : who c (Some t) -> th c t = Some pc -> match x with Some pc' => modifies pc' = false | None => True end ->
  who (Cfg s' (fupd t x (th c))) None.
Proof.
  intros Hw Ht E u. split; [discriminate|]. cbn [th]. unfold fupd. intros (y & Ey & Hy). destruct (Nat.eqb_spec u t) as [->|N]; [subst x; congruence|].
  assert (Some t = Some u) by (apply Hw; eauto). congruence.
Qed.
Lemma who_call (c : ccfg) t pc' m : who c m -> th c t = None -> modifies pc' = false -> who (Cfg (sh c) (fupd t (Some pc') (th c))) m.
Proof.
  intros Hw Ht E u. rewrite (Hw u). cbn [th]. unfold fupd. destruct (Nat.eqb_spec u t) as [->|N]; [|reflexivity]. rewrite Ht. split; intros (x & Ex & Hx); congruence.
Qed.
Lemma who_ret (c : ccfg) t pc m : who c m -> th c t = Some pc -> modifies pc = false -> who (Cfg (sh c) (fupd t None (th c))) m.
Proof.
  intros Hw Ht E u. rewrite (Hw u). cbn [th]. unfold fupd. destruct (Nat.eqb_spec u t) as [->|N]; [|reflexivity]. rewrite Ht. split; intros (x & Ex & Hx); congruence.
Qed.
Lemma at_m_other (c : ccfg) s' t m x pc : who c m -> th c t = Some pc -> modifies pc = false -> at_m (Cfg s' (fupd t x (th c))) m = at_m c m.
Proof.
  intros Hw Ht E. destruct m as [u|]; [|reflexivity]. cbn. apply fupd_other. intros ->. destruct (proj1 (Hw t) eq_refl) as (y & Ey & Hy). congruence.
Qed.

Lemma W2_upd (c : ccfg) t pc' (n : nat) : (forall t j, th c t = Some (W2 j) -> exists i, j = Some i /\ S i = n) ->
  (forall j, pc' = W2 j -> exists i, j = Some i /\ S i = n) ->
  forall u j, fupd t (Some pc') (th c) u = Some (W2 j) -> exists i, j = Some i /\ S i = n.
Proof. intros Hw Hn u j. unfold fupd. destruct (Nat.eqb_spec u t) as [->|N]; [intros [= E]; eauto|apply Hw]. Qed.

(** No thread waits through the block while it is being reset. *)
Lemma no_W2 (c : ccfg) t pc : (forall t u pt pu, t <> u -> th c t = Some pt -> th c u = Some pu -> compat (op_of pt) (op_of pu) = true) ->
  th c t = Some pc -> compat (op_of pc) CWait = false -> forall u j, th c u <> Some (W2 j).
Proof.
  intros Hc Ht E u j Eu. destruct (Nat.eq_dec t u) as [->|N]; [rewrite Ht in Eu; injection Eu as ->; cbn in E; discriminate|].
  pose proof (Hc t u pc _ N Ht Eu) as H. cbn in H. congruence.
Qed.

Lemma at_app (S0 : store) x : at_ (S0 ++ [x]) (length S0) = x.
Proof. unfold at_. rewrite nth_middle. reflexivity. Qed.
Lemma set_app (S0 : store) x y : set_at (S0 ++ [x]) (length S0) y = S0 ++ [y].
Proof. unfold set_at. rewrite insert_app_r_alt by lia. rewrite Nat.sub_diag. reflexivity. Qed.
Lemma abandon_app (S0 : store) x y : exists x', abandon (S0 ++ [x; y]) (Some (length S0)) = S0 ++ [x'; y] /\ entry x' = broken (entry x).
Proof.
  unfold abandon. assert (Ea : at_ (S0 ++ [x; y]) (length S0) = x) by (unfold at_; rewrite nth_middle; reflexivity).
  rewrite Ea. destruct x as [f a tkn]. unfold broken, entry; cbn. destruct a; cbn.
  - exists (FS f FBroken tkn). split; [|reflexivity]. unfold set_at. rewrite insert_app_r_alt by lia. rewrite Nat.sub_diag. reflexivity.
  - exists (FS f (FDone f0) tkn). auto.
  - exists (FS f FBroken tkn). auto.
Qed.

Lemma cR_call (c : ccfg) q t o : cR c q -> (forall u pc, th c u = Some pc -> compat o (op_of pc) = true) -> th c t = None ->
  cR (Cfg (sh c) (fupd t (Some (c_start o)) (th c))) q /\ calpha (c_start o) = APend o.
Proof.
  intros [Hc Hq (S0 & x & m & E1 & E2 & E3 & Hw & Hph) Hgo Hwt] Ho Ht. split; [|destruct o; reflexivity].
  assert (Eo : op_of (c_start o) = o) by (destruct o; reflexivity).
  constructor; cbn [sh th]; try assumption.
  - apply calm_upd; [exact Hc|]. intros u pc _ Eu. rewrite Eo. eauto.
  - destruct (modifies (c_start o)) eqn:Em.
    + assert (m = None) as ->.
      { destruct m as [u|]; [|reflexivity]. destruct (proj1 (Hw u) eq_refl) as (pu & Eu & Hu). pose proof (op_modifies _ _ Em Hu) as F. rewrite Eo, (Ho _ _ Eu) in F. discriminate. }
      exists S0, x, (Some t). split; [exact E1|]. split; [exact E2|]. split; [exact E3|]. split.
      * intros u. cbn [th]. unfold fupd. split.
        -- intros [= <-]. rewrite Nat.eqb_refl. eauto.
        -- destruct (Nat.eqb_spec u t) as [->|N]; [reflexivity|]. intros Hx. apply Hw in Hx. discriminate.
      * unfold at_m. cbn [th]. rewrite fupd_same. destruct o; try discriminate; exact Hph.
    + exists S0, x, m. split; [exact E1|]. split; [exact E2|]. split; [exact E3|]. split; [apply who_call; assumption|].
      replace (at_m (Cfg (sh c) (fupd t (Some (c_start o)) (th c))) m) with (at_m c m); [exact Hph|].
      destruct m as [u|]; [|reflexivity]. cbn. symmetry. apply fupd_other. intros ->. destruct (proj1 (Hw t) eq_refl) as (y & Ey & _). congruence.
  - apply W2_upd; [exact Hwt|]. intros j E. destruct o; discriminate.
Qed.

Lemma cR_ret (c : ccfg) q t pc r : cR c q -> th c t = Some pc -> c_fin pc = Some r -> cR (Cfg (sh c) (fupd t None (th c))) q /\ calpha pc = ADone r.
Proof.
  intros [Hc Hq (S0 & x & m & E1 & E2 & E3 & Hw & Hph) Hgo Hwt] Ht Hf. destruct pc; try discriminate. injection Hf as ->. split; [|reflexivity].
  constructor; cbn [sh th]; try assumption.
  - intros t0 u pt pu Hne. unfold fupd. destruct (Nat.eqb t0 t), (Nat.eqb u t); try discriminate. apply Hc; assumption.
  - exists S0, x, m. split; [exact E1|]. split; [exact E2|]. split; [exact E3|]. split; [eapply who_ret; eauto|].
    rewrite (at_m_other c (sh c) t m None _ Hw Ht eq_refl). exact Hph.
  - intros u j. unfold fupd. destruct (Nat.eqb u t); [discriminate|apply Hwt].
Qed.

Lemma cR_int (c : ccfg) q t k pc s' pc' : cR c q -> th c t = Some pc -> c_step (sh c) t pc k = Some (s', pc') ->
  exists q', cR (Cfg s' (fupd t (Some pc') (th c))) q' /\
    ((q' = q /\ calpha pc' = calpha pc) \/ exists o r, calpha pc = APend o /\ calpha pc' = ADone r /\ c_spec q o r q').
Proof.
  intros HR Ht Es. destruct HR as [Hc Hq (S0 & x & m & E1 & E2 & E3 & Hw & Hph) Hgo Hwt].
  assert (Hop : op_of pc' = op_of pc).
  { clear - Es. unfold c_step, take_future in Es. destruct pc; repeat (case_match; try discriminate); simplify_eq; reflexivity. }
  destruct (modifies pc) eqn:Em.
  - (* the modifying thread *)
    assert (m = Some t) as -> by (eapply who_eq; [exact Hw|eapply who_self; eauto]). cbn in Hph. rewrite Ht in Hph.
    assert (Hq0 : q = map entry S0 ++ [entry x]) by (rewrite <- Hq, E1, map_app; reflexivity).
    assert (Hlen : length (st (sh c)) = S (length S0)) by (rewrite E1, app_length; cbn; lia).
    (* new configuration with the same or a changed store *)
    assert (Hnew : forall S1 x1 b1 g1 r1, s' = Wc (S1 ++ [x1]) b1 g1 r1 -> tk b1 = Some (length S1) -> (fstat_ x1 = FWait \/ fstat_ x1 = FDone (fwork x1)) ->
              phase (if modifies pc' then Some pc' else None) (length S1) (fstat_ x1) (taken x1) b1 g1 -> (forall i, i ∈ g1 -> i < S (length S1)) ->
              (length S1 = length S0 \/ compat (op_of pc) CWait = false) ->
              (forall j, pc' = W2 j -> False) ->
              cR (Cfg s' (fupd t (Some pc') (th c))) (map entry (S1 ++ [x1]))).
    { intros S1 x1 b1 g1 r1 -> F1 F2 F3 F4 F5 F6. constructor; cbn [sh th st].
      - eapply calm_self; eauto.
      - reflexivity.
      - exists S1, x1, (if modifies pc' then Some t else None). split; [reflexivity|]. split; [exact F1|]. split; [exact F2|]. split.
        + destruct (modifies pc') eqn:Em'; [eapply who_upd; eauto; congruence|eapply who_done; [exact Hw|exact Ht|exact Em']].
        + destruct (modifies pc') eqn:Em'; cbn; rewrite ?fupd_same; exact F3.
      - intros i Hi. rewrite app_length. cbn. cbn in Hi. specialize (F4 i Hi). lia.
      - apply W2_upd; [|intros j E; destruct (F6 j E)]. intros u j Eu. destruct F5 as [F5|F5].
        + destruct (Hwt u j Eu) as (i & -> & Hi). exists i. split; [reflexivity|]. rewrite app_length. cbn. lia.
        + destruct (no_W2 c t pc Hc Ht F5 u j Eu). }
    assert (Hgo' : forall i, i ∈ go (sh c) -> i < S (length S0)) by (intros i Hi; specialize (Hgo i Hi); lia).
    assert (Es0 : sh c = Wc (S0 ++ [x]) (blk (sh c)) (go (sh c)) (rn (sh c))) by (destruct (sh c); cbn in *; subst; reflexivity).
    remember (sh c) as s eqn:Hs. destruct s as [S b g r]. cbn [st blk go rn] in *. subst S. clear Es0.
    destruct pc; try discriminate; cbn [c_step blk st go rn] in Es; cbn [phase] in Hph.
    + (* X1 *) destruct Hph as (P1 & P2 & P3 & P4). injection Es as <- <-. destruct (finished b) eqn:Ef.
      * exists q. split; [rewrite Hq0; change [entry x] with (map entry [x]); rewrite <- map_app; eapply Hnew; [reflexivity|first [exact E2|reflexivity]|exact E3| |exact Hgo'|auto|discriminate]; cbn; rewrite Ef; auto|].
        right. exists CExec, CUnit. split; [reflexivity|]. split; [reflexivity|]. rewrite Hq0. destruct E3 as [E3|E3]; [rewrite E3 in P2; discriminate|].
        unfold entry. rewrite E3. apply cs_skip.
      * exists q. split; [|left; auto]. rewrite Hq0. change [entry x] with (map entry [x]); rewrite <- map_app.
        assert (fstat_ x = FWait) as Ew by (destruct E3 as [E3|E3]; [exact E3|rewrite E3 in P2; discriminate]).
        eapply Hnew; [reflexivity|first [exact E2|reflexivity]|exact E3| |exact Hgo'|auto|discriminate]. cbn. rewrite Ew in P4. cbn in P4. splits; auto. intros Hi. specialize (P4 Hi). discriminate.
    + (* X2 *) destruct Hph as (P1 & P2 & P3 & P4 & P5). rewrite P3 in Es. injection Es as <- <-.
      exists q. split; [|left; auto]. rewrite Hq0. change [entry x] with (map entry [x]); rewrite <- map_app.
      eapply Hnew; [reflexivity|first [exact E2|reflexivity]|exact E3| |exact Hgo'|auto|discriminate]. cbn. splits; auto.
    + (* X3 *) destruct Hph as (P1 & P2 & P3 & P4 & P5). rewrite E2 in Es. rewrite bool_decide_eq_false_2 in Es by exact P5. injection Es as <- <-.
      exists q. split; [|left; auto]. rewrite Hq0. change [entry x] with (map entry [x]); rewrite <- map_app.
      eapply Hnew; [reflexivity|exact E2|exact E3| | |auto|discriminate].
      * cbn. splits; auto.
      * intros i Hi. apply elem_of_cons in Hi as [->|Hi]; [lia|auto].
    + (* X4 *) destruct Hph as (P1 & P2 & P3 & P4 & ->). rewrite at_app, set_app in Es. injection Es as <- <-.
      exists (map entry (S0 ++ [FS (fwork x) (FDone (fwork x)) (taken x)])). split.
      * eapply Hnew; [reflexivity|exact E2|right; reflexivity| |exact Hgo'|auto|discriminate]. cbn. splits; auto.
      * right. exists CExec, CUnit. split; [reflexivity|]. split; [reflexivity|]. rewrite Hq0, map_app. cbn. unfold entry at 2 4. cbn. rewrite P4. apply cs_run.
    + (* X5 *) destruct Hph as (P1 & P2 & P3). injection Es as <- <-. exists q. split; [|left; auto]. rewrite Hq0. change [entry x] with (map entry [x]); rewrite <- map_app.
      eapply Hnew; [reflexivity|first [exact E2|reflexivity]|exact E3| |exact Hgo'|auto|discriminate]. cbn. splits; auto.
    + (* R1 *) destruct Hph as (P1 & P2 & P3 & P4). rewrite P3, E2 in Es. cbn [pt_reset pt_new] in Es. rewrite at_app in Es.
      destruct (abandon_app S0 x (FS (fwork x) FWait false)) as (x' & Ex' & Eb). rewrite <- app_assoc in Es. cbn [app] in Es. rewrite Ex' in Es.
      injection Es as <- <-.
      exists (map entry ((S0 ++ [x']) ++ [FS (fwork x) FWait false])). split.
      * eapply Hnew; [rewrite <- app_assoc; reflexivity| |left; reflexivity| | |right; reflexivity|discriminate].
        -- cbn. rewrite !app_length. reflexivity.
        -- cbn. rewrite app_length. cbn. splits; auto. intros Hi. specialize (Hgo' _ Hi). lia.
        -- intros i Hi. specialize (Hgo' i Hi). rewrite app_length. lia.
      * right. exists CReset, CUnit. split; [reflexivity|]. split; [reflexivity|]. rewrite Hq0, !map_app, <- app_assoc. cbn [map]. rewrite Eb. apply (cs_reset _ (entry x)).
    + (* R2 *) destruct Hph as (P1 & P2 & P3 & P4). injection Es as <- <-. exists q. split; [|left; auto]. rewrite Hq0. change [entry x] with (map entry [x]); rewrite <- map_app.
      eapply Hnew; [reflexivity|first [exact E2|reflexivity]|exact E3| |exact Hgo'|auto|discriminate]. cbn. splits; auto.
    + (* R3 *) destruct Hph as (P1 & P2 & P3 & P4 & P5). unfold take_future in Es. cbn [st blk go rn] in Es. rewrite E2 in Es. cbn [pt_future] in Es. rewrite at_app, P4, set_app in Es. injection Es as <- <-.
      exists q. split; [|left; auto]. rewrite Hq0. change [entry x] with (map entry [FS (fwork x) (fstat_ x) true]); rewrite <- map_app.
      eapply Hnew; [reflexivity|first [exact E2|reflexivity]|exact E3| |exact Hgo'|auto|discriminate]. cbn. rewrite P1, P3. splits; auto; intros; contradiction.
    + (* U1 *) destruct Hph as (P1 & P2 & P3 & P4). injection Es as <- <-. exists q. split; [|left; auto]. rewrite Hq0. change [entry x] with (map entry [x]); rewrite <- map_app.
      eapply Hnew; [reflexivity|first [exact E2|reflexivity]|exact E3| |exact Hgo'|auto|discriminate]. cbn. auto.
    + (* U2 *) rewrite E2 in Es. cbn [pt_new] in Es.
      destruct (abandon_app S0 x (FS f FWait false)) as (x' & Ex' & Eb). rewrite <- app_assoc in Es. cbn [app] in Es. rewrite Ex' in Es.
      injection Es as <- <-.
      exists (map entry ((S0 ++ [x']) ++ [FS f FWait false])). split.
      * eapply Hnew; [rewrite <- app_assoc; reflexivity| |left; reflexivity| | |right; reflexivity|discriminate].
        -- cbn. rewrite !app_length. reflexivity.
        -- cbn. rewrite app_length. cbn. splits; auto. intros Hi. specialize (Hgo' _ Hi). lia.
        -- intros i Hi. specialize (Hgo' i Hi). rewrite app_length. lia.
      * right. exists (CUpd f), CUnit. split; [reflexivity|]. split; [reflexivity|]. rewrite Hq0, !map_app, <- app_assoc. cbn [map]. rewrite Eb. apply (cs_upd _ (entry x)).
    + (* U3 *) destruct Hph as (P1 & P2 & P3). injection Es as <- <-. exists q. split; [|left; auto]. rewrite Hq0. change [entry x] with (map entry [x]); rewrite <- map_app.
      eapply Hnew; [reflexivity|first [exact E2|reflexivity]|exact E3| |exact Hgo'|auto|discriminate]. cbn. splits; auto.
    + (* U4 *) destruct Hph as (P1 & P3 & P4 & P5). unfold take_future in Es. cbn [st blk go rn] in Es. rewrite E2 in Es. cbn [pt_future] in Es. rewrite at_app, P4, set_app in Es. injection Es as <- <-.
      exists q. split; [|left; auto]. rewrite Hq0. change [entry x] with (map entry [FS (fwork x) (fstat_ x) true]); rewrite <- map_app.
      eapply Hnew; [reflexivity|first [exact E2|reflexivity]|exact E3| |exact Hgo'|auto|discriminate]. cbn. splits; auto.
    + (* U5 *) destruct Hph as (P1 & P2 & P3 & P4). injection Es as <- <-. exists q. split; [|left; auto]. rewrite Hq0. change [entry x] with (map entry [x]); rewrite <- map_app.
      eapply Hnew; [reflexivity|first [exact E2|reflexivity]|exact E3| |exact Hgo'|auto|discriminate]. cbn. rewrite P2, P3. splits; auto; intros; contradiction.
  - (* a thread that only looks *)
    assert (Em' : modifies pc' = false) by (destruct pc; try discriminate; clear - Es; cbn in Es; repeat (case_match; try discriminate); simplify_eq; reflexivity).
    assert (s' = sh c) as -> by (destruct pc; try discriminate; clear - Es; cbn in Es; repeat (case_match; try discriminate); simplify_eq; reflexivity).
    assert (Hq0 : q = map entry S0 ++ [entry x]) by (rewrite <- Hq, E1, map_app; reflexivity).
    assert (Hfut : compat (op_of pc) CReset = false -> op_of pc <> CExec -> fut (blk (sh c)) = Some (length S0)).
    { intros Hk Hx. destruct m as [u|]; [|apply Hph]. destruct (proj1 (Hw u) eq_refl) as (pu & Eu & Hu). cbn in Hph. rewrite Eu in Hph.
      assert (Hne : t <> u) by (intros ->; congruence). pose proof (Hc t u pc pu Hne Ht Eu) as Hk'.
      destruct pu; try discriminate; try (apply Hph); destruct pc; discriminate. }
    exists q. split.
    + constructor; cbn [sh th]; try assumption.
      * eapply calm_self; eauto.
      * exists S0, x, m. split; [exact E1|]. split; [exact E2|]. split; [exact E3|]. split; [eapply who_upd; eauto; congruence|].
        rewrite (at_m_other c (sh c) t m _ _ Hw Ht Em). exact Hph.
      * apply W2_upd; [exact Hwt|]. intros j ->. destruct pc; try discriminate; cbn in Es; repeat (case_match; try discriminate); injection Es as <-.
        exists (length S0). rewrite Hfut by (try reflexivity; discriminate). split; [reflexivity|]. rewrite E1, app_length. cbn. lia.
    + destruct pc; try discriminate; cbn in Es.
      * injection Es as <-. left. auto.
      * destruct i as [i|]; [|discriminate]. destruct (ready (st (sh c)) i) as [r|] eqn:Er; [|discriminate]. injection Es as <-.
        right. exists CWait, r. split; [reflexivity|]. split; [reflexivity|]. destruct (Hwt t _ Ht) as (j & [= <-] & Hi).
        assert (i = length S0) as -> by (rewrite E1, app_length in Hi; cbn in Hi; lia).
        unfold ready in Er. rewrite E1, lookup_app_r, Nat.sub_diag in Er by lia. cbn in Er. destruct E3 as [E3|E3]; rewrite E3 in Er; [discriminate|]. injection Er as <-.
        rewrite Hq0. unfold entry. rewrite E3. apply cs_wait.
      * injection Es as <-. right. eexists CFin, _. split; [reflexivity|]. split; [reflexivity|].
        assert (finished (blk (sh c)) = isdone (fstat_ x)) as ->.
        { destruct m as [u|]; [|apply Hph]. destruct (proj1 (Hw u) eq_refl) as (pu & Eu & Hu).
          assert (Hne : t <> u) by (intros ->; congruence). pose proof (Hc t u _ pu Hne Ht Eu) as Hk'. destruct pu; discriminate. }
        rewrite Hq0. unfold entry. destruct E3 as [E3|E3]; rewrite E3; constructor.
      * injection Es as <-. right. eexists CFut, _. split; [reflexivity|]. split; [reflexivity|]. rewrite Hfut by (try reflexivity; discriminate).
        rewrite Hq0. replace (length S0) with (length (map entry S0)) by apply map_length. apply cs_fut.
      * destruct (ready (st (sh c)) i) as [r|] eqn:Er; [|discriminate]. injection Es as <-. right. exists (CGet i), r. split; [reflexivity|]. split; [reflexivity|].
        rewrite <- Hq. unfold ready in Er. destruct (st (sh c) !! i) as [y|] eqn:Ey; [|discriminate].
        assert (El : map entry (st (sh c)) !! i = Some (entry y)) by (rewrite list_lookup_fmap, Ey; reflexivity). unfold entry in El.
        destruct (fstat_ y) eqn:Ef; [discriminate|injection Er as <-; eapply cs_get_value; exact El|injection Er as <-; eapply cs_get_broken; exact El].
Qed.

(** Works that ended are those whose result is there, each once. *)
Definition done_at (S : store) (i : nat) : Prop := exists x f, S !! i = Some x /\ fstat_ x = FDone f.
Definition once (s : wc) : Prop := NoDup (rn s) /\ forall i, i ∈ rn s <-> done_at (st s) i.

Lemma done_map S S' : map entry S = map entry S' -> forall i, done_at S i <-> done_at S' i.
Proof.
  assert (H : forall S S', map entry S = map entry S' -> forall i, done_at S i -> done_at S' i).
  { intros A B E i (x & f & Ex & Ef). assert (El : map entry B !! i = Some (entry x)) by (rewrite <- E, list_lookup_fmap, Ex; reflexivity).
    rewrite list_lookup_fmap in El. destruct (B !! i) as [y|] eqn:Ey; [|discriminate]. injection El as E1 E2. exists y, f. split; [exact Ey|]. congruence. }
  intros E i. split; apply H; auto.
Qed.
Lemma done_snoc S x i : done_at (S ++ [x]) i <-> done_at S i \/ (i = length S /\ isdone (fstat_ x) = true).
Proof.
  unfold done_at. split.
  - intros (y & f & Ey & Ef). apply lookup_app_Some in Ey as [Ey|[Hi Ey]]; [left; eauto|]. right.
    destruct (i - length S) as [|k] eqn:Ek; [|destruct k; discriminate]. cbn in Ey. injection Ey as ->. rewrite Ef. split; [lia|reflexivity].
  - intros [(y & f & Ey & Ef)|[-> H]].
    + exists y, f. split; [apply lookup_app_l_Some; exact Ey|exact Ef].
    + destruct (fstat_ x) as [|f|] eqn:Ef; try discriminate. exists x, f. split; [|exact Ef]. rewrite lookup_app_r, Nat.sub_diag by lia. reflexivity.
Qed.

Lemma once_int (c : ccfg) q t k pc s' pc' : cR c q -> once (sh c) -> th c t = Some pc -> c_step (sh c) t pc k = Some (s', pc') -> once s'.
Proof.
  intros [Hc Hq (S0 & x & m & E1 & E2 & E3 & Hw & Hph) Hgo Hwt] [Hnd Hin] Ht Es.
  assert (Hsame : map entry (st s') = map entry (st (sh c)) -> rn s' = rn (sh c) -> once s').
  { intros Em Er. unfold once. rewrite Er. split; [exact Hnd|]. intros i. rewrite Hin. apply done_map. symmetry. exact Em. }
  assert (Hab : forall y b g, isdone (fstat_ y) = false -> s' = Wc (abandon (S0 ++ [x; y]) (Some (length S0))) b g (rn (sh c)) -> once s').
  { intros y b g Hy ->. destruct (abandon_app S0 x y) as (x' & -> & Eb). unfold once. cbn [rn st]. split; [exact Hnd|]. intros i. rewrite Hin, E1.
    change [x'; y] with ([x'] ++ [y]). rewrite app_assoc, !done_snoc, Hy. unfold entry, broken in Eb. cbn in Eb. destruct (fstat_ x); injection Eb as _ ->; cbn; intuition congruence. }
  assert (Hm : modifies pc = true -> m = Some t) by (intros Em; eapply who_eq; [exact Hw|eapply who_self; eauto]).
  destruct pc; cbn in Es;
    try (unfold take_future in Es; repeat (case_match; try discriminate); simplify_eq; apply Hsame; reflexivity).
  - (* X4 *) injection Es as <- <-. rewrite (Hm eq_refl) in Hph. cbn in Hph. rewrite Ht in Hph. destruct Hph as (_ & _ & _ & P4 & ->).
    rewrite E1, at_app, set_app. unfold once. cbn [rn st]. assert (Hni : ¬ done_at (S0 ++ [x]) (length S0)).
    { rewrite done_snoc, P4. intros [(y & f & Ey & _)|[_ H]]; [apply lookup_lt_Some in Ey; lia|discriminate]. }
    split.
    + apply NoDup_app. split; [exact Hnd|]. split; [|apply NoDup_singleton]. intros i Hi ->%elem_of_list_singleton. apply Hin in Hi. rewrite E1 in Hi. contradiction.
    + intros i. rewrite elem_of_app, elem_of_list_singleton, Hin, E1, !done_snoc, P4. cbn. intuition congruence.
  - (* R1 *) destruct (loaded (blk (sh c))); [|injection Es as <- <-; apply Hsame; reflexivity]. rewrite E2, E1 in Es. cbn [pt_reset pt_new] in Es.
    rewrite at_app, <- app_assoc in Es. cbn [app] in Es. injection Es as Es _. symmetry in Es. eapply Hab; [|exact Es]. reflexivity.
  - (* R3 *) unfold take_future in Es. rewrite E2, E1 in Es. cbn [pt_future] in Es. rewrite at_app, set_app in Es. destruct (taken x); injection Es as <- <-; apply Hsame; cbn [st rn]; rewrite ?E1, ?map_app; reflexivity.
  - (* U2 *) rewrite E2, E1 in Es. cbn [pt_new] in Es. rewrite <- app_assoc in Es. cbn [app] in Es. injection Es as Es _. symmetry in Es. eapply Hab; [|exact Es]. reflexivity.
  - (* U4 *) unfold take_future in Es. rewrite E2, E1 in Es. cbn [pt_future] in Es. rewrite at_app, set_app in Es. destruct (taken x); injection Es as <- <-; apply Hsame; cbn [st rn]; rewrite ?E1, ?map_app; reflexivity.
Qed.

(** ** Whole executions *)
Lemma wc_sim xs : forall (c : ccfg) q f c' H, cR c q -> once (sh c) -> (forall t, f t = aview calpha (th c t)) -> calm c xs -> c_run c xs = Some (c', H) ->
  exists q' f', atomic c_spec q f H q' f' /\ cR c' q' /\ once (sh c').
Proof.
  induction xs as [|[t a] xs IH]; intros c q f c' H Hr Ho Hf Hok; cbn [run].
  - intros [= <- <-]. exists q, f. split; [constructor|]. auto.
  - destruct (exec c_start c_step c_fin c (t, a)) as [[c1 e]|] eqn:Ex; [|discriminate]. destruct (c_run c1 xs) as [[c2 H2]|] eqn:Er; [|discriminate]. intros [= <- <-].
    cbn [calm] in Hok. destruct (Hok _ _ Ex) as [Hcall Hok1]. clear Hok. rename Hok1 into Hok. cbn in Ex. destruct a as [o|k|].
    + destruct (th c t) eqn:Et; [discriminate|]. injection Ex as <- <-. destruct (cR_call c q t o Hr (Hcall o eq_refl) Et) as [Hr1 Ea].
      edestruct (IH _ q (fupd t (APend o) f) c2 H2 Hr1 Ho) as (q' & f' & Ha & Hr'); [|exact Hok|exact Er|].
      { intros u. cbn [th]. unfold fupd. destruct (Nat.eqb u t); [cbn; rewrite Ea; reflexivity|apply Hf]. }
      exists q', f'. split; [|auto]. apply at_inv; [rewrite Hf, Et; reflexivity|exact Ha].
    + destruct (th c t) as [pc|] eqn:Et; [|discriminate]. destruct (c_step (sh c) t pc k) as [[s' pc']|] eqn:Ei; [|discriminate]. injection Ex as <- <-.
      destruct (cR_int c q t k pc s' pc' Hr Et Ei) as (q1 & Hr1 & Hcase). pose proof (once_int c q t k pc s' pc' Hr Ho Et Ei) as Ho1. cbn [app].
      destruct Hcase as [[-> Ea]|(o & r & F1 & F2 & Hs)].
      * eapply (IH _ q f c2 H2 Hr1 Ho1); [|exact Hok|exact Er]. intros u. cbn [th]. unfold fupd. destruct (Nat.eqb_spec u t) as [->|]; [|apply Hf].
        rewrite Hf, Et. cbn. congruence.
      * edestruct (IH _ q1 (fupd t (ADone r) f) c2 H2 Hr1 Ho1) as (q' & f' & Ha & Hr'); [|exact Hok|exact Er|].
        { intros u. cbn [th]. unfold fupd. destruct (Nat.eqb u t); [cbn; rewrite F2; reflexivity|apply Hf]. }
        exists q', f'. split; [|auto]. eapply at_eff; [rewrite Hf, Et; exact F1|exact Hs|exact Ha].
    + destruct (th c t) as [pc|] eqn:Et; [|discriminate]. destruct (c_fin pc) as [r|] eqn:Ef; [|discriminate]. injection Ex as <- <-.
      destruct (cR_ret c q t pc r Hr Et Ef) as [Hr1 Ea].
      edestruct (IH _ q (fupd t AIdle f) c2 H2 Hr1 Ho) as (q' & f' & Ha & Hr'); [|exact Hok|exact Er|].
      { intros u. cbn [th]. unfold fupd. destruct (Nat.eqb u t); [reflexivity|apply Hf]. }
      exists q', f'. split; [|auto]. apply at_ret; [rewrite Hf, Et; exact Ea|exact Ha].
Qed.

Lemma cR_init f : cR (init (wc0 f)) [(f, FWait)].
Proof.
  constructor; cbn; try discriminate; [reflexivity| |intros i Hi; inversion Hi].
  exists [], (FS f FWait true), None. split; [reflexivity|]. split; [reflexivity|]. split; [left; reflexivity|]. split.
  - intros t. split; [discriminate|]. intros (pc & E & _). discriminate.
  - cbn. splits; auto. intros Hi. inversion Hi.
Qed.
Lemma once_init f : once (wc0 f).
Proof.
  split; [constructor|]. intros i. split; [intros Hi; inversion Hi|]. intros (x & g & Ex & Eg). cbn in Ex. destruct i as [|i]; [|destruct i; discriminate]. injection Ex as <-. discriminate.
Qed.

Lemma wc_all f xs c H : calm (init (wc0 f)) xs -> c_run (init (wc0 f)) xs = Some (c, H) ->
  exists q g, atomic c_spec [(f, FWait)] (fun _ => AIdle) H q g /\ cR c q /\ once (sh c).
Proof. intros Hc Er. eapply wc_sim; [apply cR_init|apply once_init|reflexivity|exact Hc|exact Er]. Qed.

Lemma compat_norace pt pu m wt wu : compat (op_of pt) (op_of pu) = true -> (m, wt) ∈ c_acc pt -> (m, wu) ∈ c_acc pu -> (wt || wu) = true -> False.
Proof.
  destruct pt, pu; cbn; try discriminate; intros _ H1 H2 H3;
    repeat match goal with H : _ ∈ _ :: _ |- _ => apply elem_of_cons in H as [H|H] | H : _ ∈ [] |- _ => inversion H end; simplify_eq; discriminate.
Qed.
Lemma cR_norace c q : cR c q -> ~ race c.
Proof. intros HR (t & u & pt & pu & m & wt & wu & Hne & Et & Eu & H1 & H2 & H3). eapply compat_norace; [eapply (r_calm _ _ HR); eauto|exact H1|exact H2|exact H3]. Qed.

(** A thread that cannot go on waits for a work that has not been run. *)
Lemma cR_progress c q t pc : cR c q -> th c t = Some pc -> can_step c_start c_step c_fin c t \/
  exists i, (pc = W2 (Some i) \/ pc = H1 i) /\ ready (st (sh c)) i = None.
Proof.
  intros HR Ht. assert (Hc : forall s' pc', c_step (sh c) t pc tt = Some (s', pc') -> can_step c_start c_step c_fin c t).
  { intros s' pc' E. exists (AInt tt). cbn. rewrite Ht, E. eexists _, _. split; [discriminate|reflexivity]. }
  destruct pc; try (left; eapply Hc; cbn; reflexivity).
  - left. cbn in Hc. repeat (case_match; try (eapply Hc; reflexivity)).
  - destruct (r_wait _ _ HR t _ Ht) as (j & -> & _). cbn in Hc. destruct (ready (st (sh c)) j) eqn:E; [left; eapply Hc; reflexivity|eauto].
  - cbn in Hc. destruct (ready (st (sh c)) i) eqn:E; [left; eapply Hc; reflexivity|eauto].
  - left. cbn in Hc. repeat (case_match; try (eapply Hc; reflexivity)).
  - left. cbn in Hc. destruct (take_future (sh c) (Ret CReset CUnit) CReset) as [s' p'] eqn:E. eapply Hc. reflexivity.
  - left. cbn in Hc. destruct (take_future (sh c) (U5 f) (CUpd f)) as [s' p'] eqn:E. eapply Hc. reflexivity.
  - left. exists ARet. cbn. rewrite Ht. cbn. eexists _, _. split; [discriminate|reflexivity].
Qed.

(** ** One worker executes, the others only wait or take futures: all schedules are calm. *)
Definition watches (o : cop) : bool := match o with CWait | CFut | CGet _ => true | _ => false end.
Definition one_worker (w : nat) (xs : list (nat * @act unit cop)) : Prop := forall t o, (t, ACall o) ∈ xs -> watches o = true \/ (t = w /\ o = CExec).

Lemma step_op s t pc k s' pc' : c_step s t pc k = Some (s', pc') -> op_of pc' = op_of pc.
Proof. destruct pc; cbn; unfold take_future; intros Es; repeat (case_match; try discriminate); simplify_eq; reflexivity. Qed.

Lemma one_worker_calm w xs : forall c, one_worker w xs -> (forall t pc, th c t = Some pc -> watches (op_of pc) = true \/ (t = w /\ op_of pc = CExec)) -> calm c xs.
Proof.
  induction xs as [|[t a] xs IH]; intros c Hx Hc; [exact I|]. cbn [calm]. intros c' e Ex. split.
  - intros o -> u pc Hu. cbn in Ex. destruct (th c t) eqn:Et; [discriminate|]. clear Ex.
    destruct (Hx t o (elem_of_list_here _ _)) as [Ho|[-> ->]], (Hc u pc Hu) as [Hp|[-> Hp]].
    + destruct o; try discriminate; destruct (op_of pc); try discriminate; reflexivity.
    + rewrite Hp. destruct o; try discriminate; reflexivity.
    + destruct (op_of pc); try discriminate; reflexivity.
    + congruence.
  - apply IH; [intros u o Hu; apply Hx; right; exact Hu|]. cbn in Ex. intros u pc. destruct a as [o|k|].
    + destruct (th c t) eqn:Et; [discriminate|]. injection Ex as <- _. cbn [th]. unfold fupd. destruct (Nat.eqb_spec u t) as [->|N]; [|apply Hc].
      intros [= <-]. replace (op_of (c_start o)) with o by (destruct o; reflexivity). apply Hx. left.
    + destruct (th c t) as [p|] eqn:Et; [|discriminate]. destruct (c_step (sh c) t p k) as [[s' p']|] eqn:Es; [|discriminate]. injection Ex as <- _.
      cbn [th]. unfold fupd. destruct (Nat.eqb_spec u t) as [->|N]; [|apply Hc]. intros [= <-]. rewrite (step_op _ _ _ _ _ _ Es). apply Hc. exact Et.
    + destruct (th c t) as [p|] eqn:Et; [|discriminate]. destruct (c_fin p); [|discriminate]. injection Ex as <- _.
      cbn [th]. unfold fupd. destruct (Nat.eqb_spec u t) as [->|N]; [discriminate|apply Hc].
Qed.

(** ** A work that is lost *)
Definition lost (s : wc) : Prop := finished (blk s) = true /\ fut (blk s) = Some 1 /\ ready (st s) 1 = None.
Definition quiet_pc (pc : cpc) : bool := match pc with X1 | W1 | W2 _ | F1 | G1 | H1 _ | Ret _ _ => true | _ => false end.
Definition quiet_op (o : cop) : bool := match o with CReset | CUpd _ => false | _ => true end.

Lemma lost_stays xs : forall (c : ccfg) c' H u, lost (sh c) -> (forall t pc, th c t = Some pc -> quiet_pc pc = true) -> th c u = Some (W2 (Some 1)) ->
  (forall t o, (t, ACall o) ∈ xs -> quiet_op o = true) -> c_run c xs = Some (c', H) -> sh c' = sh c /\ th c' u = Some (W2 (Some 1)).
Proof.
  induction xs as [|[t a] xs IH]; intros c c' H u Hl Hq Hu Hx; cbn [run]; [intros [= <- _]; auto|].
  destruct (c_exec c (t, a)) as [[c1 e]|] eqn:Ex; [|discriminate]. destruct (c_run c1 xs) as [[c2 H2]|] eqn:Er; [|discriminate]. intros [= <- _].
  enough (E1 : sh c1 = sh c /\ (forall t pc, th c1 t = Some pc -> quiet_pc pc = true) /\ th c1 u = Some (W2 (Some 1))).
  { destruct E1 as (E1 & E2 & E3). rewrite <- E1. eapply IH; [rewrite E1; exact Hl|exact E2|exact E3|intros v o Hv; eapply Hx; right; exact Hv|exact Er]. }
  cbn in Ex. destruct a as [o|k|].
  - destruct (th c t) eqn:Et; [discriminate|]. injection Ex as <- _. cbn [th sh]. split; [reflexivity|]. unfold fupd. split.
    + intros v pc. destruct (Nat.eqb_spec v t) as [->|N]; [|apply Hq]. intros [= <-]. specialize (Hx t o (elem_of_list_here _ _)). destruct o; try discriminate; reflexivity.
    + destruct (Nat.eqb_spec u t) as [->|N]; congruence.
  - destruct (th c t) as [pc|] eqn:Et; [|discriminate]. destruct (c_step (sh c) t pc k) as [[s' pc']|] eqn:Es; [|discriminate]. injection Ex as <- _. cbn [th sh].
    pose proof (Hq _ _ Et) as Hqp. destruct Hl as (L1 & L2 & L3).
    assert (E : s' = sh c /\ quiet_pc pc' = true).
    { destruct pc; try discriminate; cbn in Es; rewrite ?L1 in Es; repeat (case_match; try discriminate); simplify_eq; auto. }
    destruct E as [-> Eq]. split; [reflexivity|]. unfold fupd. split.
    + intros v p. destruct (Nat.eqb_spec v t) as [->|N]; [intros [= <-]; exact Eq|apply Hq].
    + destruct (Nat.eqb_spec u t) as [->|N]; [|exact Hu]. rewrite Hu in Et. injection Et as <-. cbn in Es. rewrite L3 in Es. discriminate.
  - destruct (th c t) as [pc|] eqn:Et; [|discriminate]. destruct (c_fin pc) as [r|] eqn:Ef; [|discriminate]. injection Ex as <- _. cbn [th sh]. split; [reflexivity|]. unfold fupd. split.
    + intros v p. destruct (Nat.eqb_spec v t) as [->|N]; [discriminate|apply Hq].
    + destruct (Nat.eqb_spec u t) as [->|N]; [|exact Hu]. rewrite Hu in Et. injection Et as <-. discriminate.
Qed.
