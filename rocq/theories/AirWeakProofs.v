(** AirLock with release/acquire accesses: proofs *)
From stdpp Require Import list.
From Verif Require Import Base Conc CondVar AirModel AirSpec AirProofs AirWeak.
Local Open Scope nat_scope.

Section weak.
Context {V : Type}.
Notation wcfg := (cfg (wsh V) (airpc V)).
Implicit Types (w : wsh V) (pc : airpc V) (q : option V) (c : wcfg).

(** What the operations promise in this memory model: the unlocked loads may be out of date. *)
Inductive weak_spec : option V -> airop V -> airret V -> option V -> Prop :=
| ws_exact q o r q' : air_spec q o r q' -> weak_spec q o r q'
| ws_try_load q v : weak_spec q (ATryLoad v) (ABool false) q
| ws_unload q : weak_spec q AUnload (AVal None) q
| ws_loaded q b : weak_spec q AIsLoaded (ABool b) q.

(** The machine without views *)
Definition strong c : cfg (airsh V) (airpc V) := Cfg (wair (sh c)) (th c).

Record viewI c : Prop := {
  v_last : last (whist (sh c)) = Some (loaded (wair (sh c)));
  v_view : forall t, wview (sh c) t < length (whist (sh c));
  v_free : door (wair (sh c)) = None -> S (wdoor (sh c)) = length (whist (sh c));
  v_door : wdoor (sh c) < length (whist (sh c));
  v_held : forall t, door (wair (sh c)) = Some t -> S (wview (sh c) t) = length (whist (sh c));
}.

Record weakR c q : Prop := { wr_air : airR False (strong c) q; wr_view : viewI c }.

Lemma step0_read s t pc b : open_load pc = true \/ locked_load pc = true ->
  exists pc', air_step0 (set_loaded s b) t pc = Some (set_loaded s b, pc').
Proof. intros [H|H]; destruct pc; try discriminate; cbn; eauto. Qed.

Lemma set_loaded_eta (s : airsh V) : set_loaded s (loaded s) = s.
Proof. destruct s; reflexivity. Qed.

(** Under the lock a load returns the newest value. *)
Lemma locked_newest c q t pc i b : weakR c q -> th c t = Some pc -> hdoor pc = true -> wview (sh c) t <= i -> whist (sh c) !! i = Some b ->
  b = loaded (wair (sh c)).
Proof.
  intros [Ra Rv] Et Hd Hi Hb. pose proof (lk_owner _ _ _ _ _ (a_door _ _ _ Ra) Et Hd) as Eo.
  pose proof (v_held _ Rv _ Eo) as Hh. pose proof (lookup_lt_Some _ _ _ Hb) as Hlt. assert (i = pred (length (whist (sh c)))) as -> by lia.
  pose proof (v_last _ Rv) as Hl. rewrite last_lookup in Hl. congruence.
Qed.

Lemma viewI_same c s' (x : option (airpc V)) t : viewI c -> wair s' = wair (sh c) -> whist s' = whist (sh c) -> wdoor s' = wdoor (sh c) ->
  (forall u, wview (sh c) u <= wview s' u < length (whist (sh c))) -> viewI (Cfg s' (fupd t x (th c))).
Proof.
  intros [L Vw F D Hh] E1 E2 E3 Hv. constructor; cbn [sh th]; rewrite ?E1, ?E2, ?E3; auto.
  - intros u. apply Hv.
  - intros u Hu. specialize (Hh u Hu). specialize (Hv u). lia.
Qed.

Lemma view_le c t m : (forall u, wview (sh c) u < length (whist (sh c))) -> wview (sh c) t <= m < length (whist (sh c)) ->
  forall u, wview (sh c) u <= fupd t m (wview (sh c)) u < length (whist (sh c)).
Proof. intros Hv Hm u. unfold fupd. destruct (Nat.eqb_spec u t) as [->|]; [lia|]. specialize (Hv u). lia. Qed.

Lemma viewI_step strict c q t k pc s' pc' : weakR c q -> th c t = Some pc -> weak_step strict (sh c) t pc k = Some (s', pc') ->
  viewI (Cfg s' (fupd t (Some pc') (th c))).
Proof.
  intros [Ra Rv] Et Es. pose proof (v_view _ Rv) as Hv. destruct k as [k|i|u n]; cbn [weak_step] in Es.
  - destruct (open_load pc || locked_load pc) eqn:Eo; [discriminate|].
    destruct (air_step (wair (sh c)) t pc k) as [[s1 pc1]|] eqn:Ea; [|discriminate]. injection Es as <- <-.
    pose proof (a_door _ _ _ Ra) as Rd. cbn [strong sh th] in Rd.
    assert (Hown : hdoor pc = true -> door (wair (sh c)) = Some t) by (intros E; exact (lk_owner _ _ _ _ _ Rd Et E)).
    destruct Rv as [L Vw F D Hh].
    destruct (stores pc) as [b|] eqn:Est.
    + (* store *)
      assert (Hd : hdoor pc = true) by (destruct pc; try discriminate; reflexivity). specialize (Hown Hd).
      assert (s1 = set_loaded (wair (sh c)) b /\ unlocks pc = false) as [-> Eu].
      { destruct k, pc; cbn in Ea, Est; try discriminate; injection Ea as <- _; injection Est as <-; auto. }
      constructor; cbn [sh th wair whist wview wdoor set_loaded loaded door]; unfold view_after; rewrite ?Est, ?Eu, ?app_length; cbn [length].
      * apply last_snoc.
      * intros u. unfold fupd. destruct (Nat.eqb_spec u t); [lia|]. specialize (Vw u). lia.
      * congruence.
      * lia.
      * intros u Hu. assert (u = t) as -> by congruence. rewrite fupd_same. lia.
    + assert (El : loaded s1 = loaded (wair (sh c))).
      { destruct k, pc; cbn in Ea, Est; try discriminate Ea; try discriminate Est; unfold lock in Ea;
          repeat match type of Ea with (if ?b then _ else _) = _ => destruct b | match ?b with _ => _ end = _ => destruct b end; try discriminate Ea; injection Ea as <- _; reflexivity. }
      destruct (locks pc && match k with CStep => true | _ => false end) eqn:Elk.
      * apply andb_true_iff in Elk as [Elk Ek]. destruct k; try discriminate. 
        assert (Hs : door (wair (sh c)) = None /\ door s1 = Some t /\ unlocks pc = false).
        { destruct pc; cbn in Ea, Elk; try discriminate; unfold lock in Ea;
            repeat match type of Ea with (if ?b then _ else _) = _ => destruct b | match ?b with _ => _ end = _ => destruct b end; try discriminate Ea; injection Ea as <- _; auto. }
        destruct Hs as (Hn & Hs & Eu). specialize (F Hn). pose proof (Vw t).
        constructor; cbn [sh th wair whist wview wdoor]; unfold view_after; rewrite ?Est, ?Elk, ?Eu, ?El; auto.
        -- intros u. unfold fupd. destruct (Nat.eqb_spec u t); [lia|auto].
        -- intros u Hu. assert (u = t) as -> by congruence. rewrite fupd_same. lia.
      * assert (Ev : view_after (sh c) t pc k = wview (sh c)) by (unfold view_after; rewrite Est; destruct k; auto; destruct (locks pc); [discriminate|auto]).
        destruct (unlocks pc) eqn:Eu.
        -- assert (Hd : hdoor pc = true) by (destruct pc; try discriminate; reflexivity). specialize (Hown Hd).
           assert (Hs : door s1 = None). { destruct k, pc; cbn in Ea, Eu; try discriminate; injection Ea as <- _; reflexivity. }
           specialize (Hh t Hown). constructor; cbn [sh th wair whist wview wdoor]; rewrite ?Ev, ?El; auto; try lia. congruence.
        -- assert (Hs : door s1 = door (wair (sh c))).
           { destruct k, pc; cbn in Ea, Eu, Elk, Eo, Est; try discriminate Ea; try discriminate Eu; try discriminate Elk; try discriminate Eo; try discriminate Est;
              repeat match type of Ea with (if ?b then _ else _) = _ => destruct b | match ?b with _ => _ end = _ => destruct b end; try discriminate Ea; injection Ea as <- _; reflexivity. }
           constructor; cbn [sh th wair whist wview wdoor]; rewrite ?Ev, ?El, ?Hs; auto.
  - destruct ((_ && _ || _) && _) eqn:Eo; [|discriminate]. apply andb_true_iff in Eo as [_ Hi]. apply Nat.leb_le in Hi.
    destruct (whist (sh c) !! i) as [b|] eqn:Eb; [|discriminate]. destruct (loads _ t pc b) as [p|]; [|discriminate]. injection Es as <- <-.
    apply lookup_lt_Some in Eb. apply viewI_same; auto. cbn. apply view_le; auto.
  - destruct (open_load pc && _) eqn:Eo; [|discriminate]. apply andb_true_iff in Eo as [_ Hn]. apply Nat.leb_le in Hn. injection Es as <- <-.
    apply viewI_same; auto. cbn. apply view_le; auto. pose proof (Hv t). pose proof (Hv u). lia.
Qed.

(** One step without views, or an unlocked load *)
Lemma weak_cases strict c q t k pc s' pc' : weakR c q -> th c t = Some pc -> weak_step strict (sh c) t pc k = Some (s', pc') ->
  (exists k0, air_step (wair (sh c)) t pc k0 = Some (wair s', pc') /\ open_load pc = false) \/
  (open_load pc = true /\ wair s' = wair (sh c) /\ hdoor pc' = false /\ (pc' = pc \/ exists i b, k = WRead i /\ wview (sh c) t <= i /\ whist (sh c) !! i = Some b /\ loads (wair (sh c)) t pc b = Some pc')).
Proof.
  intros HR Et Es. destruct k as [k|i|u n]; cbn [weak_step] in Es.
  - left. destruct (open_load pc || locked_load pc) eqn:Eo; [discriminate|]. destruct (air_step (wair (sh c)) t pc k) as [[s1 pc1]|] eqn:Ea; [|discriminate].
    injection Es as <- <-. exists k. split; [exact Ea|]. apply orb_false_iff in Eo. tauto.
  - destruct ((_ && _ || _) && _) eqn:Eo; [|discriminate]. apply andb_true_iff in Eo as [Eo Hi]. apply Nat.leb_le in Hi.
    destruct (whist (sh c) !! i) as [b|] eqn:Eb; [|discriminate]. destruct (loads _ t pc b) as [p|] eqn:El; [|discriminate]. injection Es as <- <-. cbn [wair].
    destruct (open_load pc) eqn:Eop.
    + right. split; [reflexivity|]. split; [reflexivity|]. split; [|right; exists i, b; auto].
      destruct pc; try discriminate; cbn in El; injection El as <-; destruct b; reflexivity.
    + left. cbn in Eo. assert (Hd : hdoor pc = true) by (destruct pc; try discriminate; reflexivity).
      exists CStep. split; [|reflexivity]. rewrite (locked_newest _ _ _ _ _ _ HR Et Hd Hi Eb) in El.
      unfold loads in El. rewrite set_loaded_eta in El. cbn [air_step]. destruct (step0_read (wair (sh c)) t pc (loaded (wair (sh c))) ltac:(auto)) as (p' & Ep).
      rewrite set_loaded_eta in Ep. rewrite Ep in El |- *. congruence.
  - destruct (open_load pc && _) eqn:Eo; [|discriminate]. apply andb_true_iff in Eo as [Eo _]. injection Es as <- <-.
    right. split; [exact Eo|]. split; [reflexivity|]. split; [destruct pc; try discriminate; reflexivity|auto].
Qed.

Lemma weakR_int strict c q t k pc s' pc' : weakR c q -> th c t = Some pc -> weak_step strict (sh c) t pc k = Some (s', pc') ->
  exists q', weakR (Cfg s' (fupd t (Some pc') (th c))) q' /\
    ((q' = q /\ aalpha pc' = aalpha pc) \/ exists o r, aalpha pc = APend o /\ aalpha pc' = ADone r /\ weak_spec q o r q').
Proof.
  intros HR Et Es. pose proof (viewI_step _ _ _ _ _ _ _ _ HR Et Es) as Hv.
  destruct (weak_cases _ _ _ _ _ _ _ _ HR Et Es) as [(k0 & Ea & _)|(Eo & Ew & Hd & Hc)].
  - destruct (airR_int False (strong c) q t k0 pc (wair s') pc' (wr_air _ _ HR) Et Ea) as (q' & Hr & He). exists q'. split; [constructor; [exact Hr|exact Hv]|].
    destruct He as [He|(o & r & E1 & E2 & Hs)]; [left; exact He|right]. exists o, r. auto using ws_exact.
  - exists q. split.
    + constructor; [|exact Hv]. unfold strong. cbn [sh th]. rewrite Ew.
      apply (A_other False (strong c) q t pc pc' (wr_air _ _ HR) Et); [destruct pc; try discriminate; reflexivity|exact Hd|destruct pc; discriminate].
    + destruct Hc as [->|(i & b & _ & _ & _ & El)]; [left; auto|]. destruct pc; try discriminate; cbn in El; injection El as <-; destruct b; cbn;
        try (left; auto; fail); right; do 2 eexists; (split; [reflexivity|split; [reflexivity|first [apply ws_try_load|apply ws_unload|apply ws_loaded]]]).
Qed.

Lemma viewI_th c f : viewI c -> viewI (Cfg (sh c) f).
Proof. intros [? ? ? ? ?]. constructor; auto. Qed.

Lemma weakR_init : weakR (init weak0) None.
Proof. constructor; [apply airR_init|]. constructor; cbn; auto; discriminate. Qed.

Lemma weak_sim strict xs c H : weak_run strict (init weak0) xs = Some (c, H) ->
  exists q f, atomic weak_spec None (fun _ => AIdle) H q f /\ weakR c q.
Proof.
  intros Er. edestruct (sim_run air_start (weak_step strict) air_fin weak_spec (fun _ => True) weakR aalpha) as (q' & f' & Ha & Hr' & _);
    [| | | | | |exact Er|exists q', f'; split; [exact Ha|exact Hr']].
  - intros c0 q t o [Ra Rv] Ho Et. destruct (airR_call False (strong c0) q t o Ra Ho Et) as [H1 H2]. split; [|exact H2]. constructor; [exact H1|apply viewI_th, Rv].
  - intros c0 q t k pc s' pc'. apply weakR_int.
  - intros c0 q t pc r [Ra Rv] Et Ef. destruct (airR_ret False (strong c0) q t pc r Ra Et Ef) as [H1 H2]. split; [|exact H2]. constructor; [exact H1|apply viewI_th, Rv].
  - apply weakR_init.
  - reflexivity.
  - apply Forall_forall. auto.
Qed.

(** Progress *)
Definition weak_moves c t : Prop := exists a c' e, a <> AInt (WStep CSpur) /\ (forall u n, a <> AInt (WLearn u n)) /\ th c t <> None /\ weak_exec false c (t, a) = Some (c', e).

Lemma weak_live c q t : weakR c q -> th c t <> None -> ~ weak_waits c t -> exists u, weak_moves c u.
Proof.
  intros HR Ht Hw. destruct (air_live False (strong c) q t (wr_air _ _ HR) Ht Hw) as (u & a & c' & e & Ha & Hu & Ex). cbn [strong th] in Hu.
  exists u. unfold air_exec, exec in Ex. cbn [strong th sh] in Ex. destruct (th c u) as [pc|] eqn:Eu; [|congruence]. destruct a as [o|k|]; [discriminate| |].
  - destruct (air_step (wair (sh c)) u pc k) as [[s1 p1]|] eqn:Ea; [|discriminate].
    destruct (open_load pc || locked_load pc) eqn:Eo.
    + pose proof (wr_view _ _ HR) as Rv. pose proof (v_last _ Rv) as Hl. rewrite last_lookup in Hl. pose proof (v_view _ Rv u) as Hv.
      destruct (step0_read (wair (sh c)) u pc (loaded (wair (sh c)))) as (p' & Ep); [apply orb_true_iff, Eo|].
      eexists (AInt (WRead (pred (length (whist (sh c)))))), _, _. split; [discriminate|]. split; [discriminate|]. split; [congruence|].
      unfold weak_exec, exec. rewrite Eu. cbn [weak_step]. cbn [negb orb]. rewrite andb_true_r, Eo, Hl.
      replace (wview (sh c) u <=? pred (length (whist (sh c)))) with true by (symmetry; apply Nat.leb_le; lia). cbn [andb].
      unfold loads. rewrite Ep. reflexivity.
    + eexists (AInt (WStep k)), _, _. split; [congruence|]. split; [discriminate|]. split; [congruence|].
      unfold weak_exec, exec. rewrite Eu. cbn [weak_step]. rewrite Eo, Ea. reflexivity.
  - destruct (air_fin pc) as [r|] eqn:Ef; [|discriminate]. eexists ARet, _, _. split; [discriminate|]. split; [discriminate|]. split; [congruence|].
    unfold weak_exec, exec. rewrite Eu, Ef. reflexivity.
Qed.
End weak.
