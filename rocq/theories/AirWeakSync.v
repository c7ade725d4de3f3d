(** AirLock with release/acquire accesses: threads that synchronise before every call *)
From stdpp Require Import list.
From Verif Require Import Base Conc CondVar AirModel AirSpec AirProofs AirWeak AirWeakProofs.
Local Open Scope nat_scope.

Section sync.
Context {V : Type}.
Notation wcfg := (cfg (wsh V) (airpc V)).
Notation wast := (ast (airop V) (airret V)).
Implicit Types (w : wsh V) (pc : airpc V) (q : option V) (c : wcfg) (f : nat -> wast).

Lemma airR_fun (c : cfg (airsh V) (airpc V)) q q' : airR False c q -> airR False c q' -> q = q'.
Proof.
  intros [_ [H1 H2] _ _] [_ [H3 H4] _ _]. rewrite H1 in H3.
  destruct q as [v|], q' as [v'|]; try discriminate; [|reflexivity].
  destruct (holder (door (sh c)) (th c)) as [[]|]; cbn in *; try (rewrite <- H2, <- H4 by discriminate; reflexivity);
    try discriminate; try (destruct H2; discriminate); try (destruct H2 as [_ H2], H4 as [_ H4]; congruence); try (destruct H2 as [H2 _], H4 as [H4 _]; congruence).
Qed.

(** What a call answers if its unlocked load returns [b] *)
Definition oans pc (b : bool) : option (airret V) :=
  match pc with
  | AT0 _ => if b then Some (ABool false) else None
  | AU0 => if b then None else Some (AVal None)
  | AI0 => Some (ABool b)
  | _ => None
  end.

Lemma oans_open pc b r : oans pc b = Some r -> open_load pc = true.
Proof. destruct pc; cbn; congruence. Qed.

Lemma oans_spec pc q r : oans pc (isS q) = Some r -> exists o, aalpha pc = APend o /\ air_spec q o r q.
Proof. destruct pc, q; cbn; intros [= <-]; eexists; (split; [reflexivity|constructor]). Qed.

(** The answer [r] of thread [t] can be put at a moment that is already past. *)
Definition past w t pc (r : airret V) : Prop := wfresh w t = true /\ exists i b, wview w t <= i /\ whist w !! i = Some b /\ oans pc b = Some r.

Definition valid c (t : nat) (x : wast) : Prop :=
  match th c t with None => x = AIdle | Some pc => x = aalpha pc \/ exists r, x = ADone r /\ past (sh c) t pc r end.

Record syncB c q f : Prop := { sb_R : weakR c q; sb_f : forall t, valid c t (f t) }.
Record syncI c : Prop := {
  si_R : exists q, weakR c q;
  si_fresh : forall t, wfresh (sh c) t = true -> exists pc, th c t = Some pc /\ open_load pc = true;
  si_fin : exists N, forall t, N <= t -> th c t = None;
}.

Lemma fin_upd c (s' : wsh V) t (x : option (airpc V)) : (exists N, forall u, N <= u -> th c u = None) -> exists N, forall u, N <= u -> th (Cfg s' (fupd t x (th c))) u = None.
Proof. intros (N & HN). exists (Nat.max N (S t)). intros u Hu. cbn. rewrite fupd_other by lia. apply HN. lia. Qed.

Lemma step_fresh strict w t k pc s' pc' u : weak_step strict w t pc k = Some (s', pc') -> u <> t -> wfresh s' u = wfresh w u /\ ((forall b, stores pc <> Some b) -> wview s' u = wview w u).
Proof.
  intros Es Hu. destruct k as [k|i|v n]; cbn [weak_step] in Es.
  - destruct (open_load pc || locked_load pc); [discriminate|]. destruct (air_step (wair w) t pc k) as [[s1 p1]|]; [|discriminate]. injection Es as <- <-.
    split; [reflexivity|]. intros Hst. cbn. unfold view_after. destruct (stores pc) as [b|]; [destruct (Hst b eq_refl)|]. destruct k; auto. destruct (locks pc); auto.
    apply fupd_other, Hu.
  - destruct ((_ && _ || _) && _); [|discriminate]. destruct (whist w !! i) as [b|]; [|discriminate]. destruct (loads _ t pc b); [|discriminate]. injection Es as <- <-.
    cbn. rewrite !fupd_other by exact Hu. auto.
  - destruct (open_load pc && _); [|discriminate]. injection Es as <- <-. cbn. rewrite !fupd_other by exact Hu. auto.
Qed.

Lemma view_other strict w t k pc s' pc' u : weak_step strict w t pc k = Some (s', pc') -> u <> t -> wview s' u = wview w u.
Proof.
  intros Es Hu. destruct k as [k|i|v n]; cbn [weak_step] in Es.
  - destruct (open_load pc || locked_load pc); [discriminate|]. destruct (air_step (wair w) t pc k) as [[s1 p1]|]; [|discriminate]. injection Es as <- <-.
    cbn. unfold view_after. destruct (stores pc) as [b|]; [apply fupd_other, Hu|]. destruct k; auto. destruct (locks pc); auto. apply fupd_other, Hu.
  - destruct ((_ && _ || _) && _); [|discriminate]. destruct (whist w !! i) as [b|]; [|discriminate]. destruct (loads _ t pc b); [|discriminate]. injection Es as <- <-.
    cbn. rewrite !fupd_other by exact Hu. auto.
  - destruct (open_load pc && _); [|discriminate]. injection Es as <- <-. cbn. rewrite !fupd_other by exact Hu. auto.
Qed.

Lemma hist_grows strict w t k pc s' pc' : weak_step strict w t pc k = Some (s', pc') -> whist s' = whist w \/ exists b, whist s' = whist w ++ [b].
Proof.
  intros Es. destruct k as [k|i|v n]; cbn [weak_step] in Es.
  - destruct (open_load pc || locked_load pc); [discriminate|]. destruct (air_step (wair w) t pc k) as [[s1 p1]|]; [|discriminate]. injection Es as <- <-. cbn.
    destruct (stores pc); eauto.
  - destruct ((_ && _ || _) && _); [|discriminate]. destruct (whist w !! i) as [b|]; [|discriminate]. destruct (loads _ t pc b); [|discriminate]. injection Es as <- <-. auto.
  - destruct (open_load pc && _); [|discriminate]. injection Es as <- <-. auto.
Qed.

Lemma fresh_self strict w t k pc s' pc' : weak_step strict w t pc k = Some (s', pc') -> wfresh s' t = true ->
  (wfresh w t = true /\ open_load pc = false) \/ (open_load pc = true /\ pc' = pc).
Proof.
  intros Es. destruct k as [k|i|v n]; cbn [weak_step] in Es.
  - destruct (open_load pc || locked_load pc) eqn:Eo; [discriminate|]. destruct (air_step (wair w) t pc k) as [[s1 p1]|]; [|discriminate]. injection Es as <- <-. cbn.
    apply orb_false_iff in Eo. tauto.
  - destruct ((_ && _ || _) && _); [|discriminate]. destruct (whist w !! i) as [b|]; [|discriminate]. destruct (loads _ t pc b); [|discriminate]. injection Es as <- <-.
    cbn. rewrite fupd_same. discriminate.
  - destruct (open_load pc && _) eqn:Eo; [|discriminate]. injection Es as <- <-. apply andb_true_iff in Eo. tauto.
Qed.

Lemma syncI_int strict c t k pc s' pc' : syncI c -> th c t = Some pc -> weak_step strict (sh c) t pc k = Some (s', pc') -> syncI (Cfg s' (fupd t (Some pc') (th c))).
Proof.
  intros [[q HR] Hf HN] Et Es. constructor.
  - destruct (weakR_int _ _ _ _ _ _ _ _ HR Et Es) as (q' & H & _). eauto.
  - cbn. intros u Hu. destruct (Nat.eq_dec u t) as [->|Hne].
    + rewrite fupd_same. destruct (fresh_self _ _ _ _ _ _ _ Es Hu) as [[H1 H2]|[H1 ->]]; [|eauto].
      destruct (Hf _ H1) as (p & E & Ep). congruence.
    + rewrite fupd_other by exact Hne. apply Hf. destruct (step_fresh _ _ _ _ _ _ _ _ Es Hne) as [E _]. congruence.
  - apply fin_upd, HN.
Qed.

Lemma syncI_exec strict c x c' e : syncI c -> weak_exec strict c x = Some (c', e) -> syncI c'.
Proof.
  intros Hi. apply (inv_exec air_start (weak_step strict) air_fin (fun _ => True) syncI); auto.
  - intros c0 t o [[q [Ra Rv]] Hf HN] _ Et. constructor.
    + exists q. destruct (airR_call False (strong c0) q t o Ra I Et) as [H _]. constructor; [exact H|apply viewI_th, Rv].
    + cbn. intros u Hu. destruct (Hf u Hu) as (p & E & Ep). exists p. rewrite fupd_other by congruence. auto.
    + apply fin_upd, HN.
  - intros c0 t k pc s' pc'. apply syncI_int.
  - intros c0 t pc r [[q [Ra Rv]] Hf HN] Et Ef. constructor.
    + exists q. destruct (airR_ret False (strong c0) q t pc r Ra Et Ef) as [H _]. constructor; [exact H|apply viewI_th, Rv].
    + cbn. intros u Hu. destruct (Hf u Hu) as (p & E & Ep). exists p. rewrite fupd_other; [auto|]. intros ->. rewrite Et in E. injection E as ->. destruct p; discriminate.
    + apply fin_upd, HN.
Qed.

Lemma syncI_init : syncI (init weak0).
Proof. constructor; [exists None; apply weakR_init|discriminate|exists 0; reflexivity]. Qed.

(** Effects of finitely many threads at one moment *)
Lemma effects (spec : option V -> airop V -> airret V -> option V -> Prop) (P P' : nat -> wast -> Prop) q :
  (forall u x, P' u x -> P u x \/ exists o r, x = ADone r /\ spec q o r q /\ P u (APend o)) ->
  forall N f', (forall u, P' u (f' u)) ->
  exists f f1, (forall u, u < N -> P u (f u)) /\ (forall u, N <= u -> f u = f' u) /\ atomic spec q f [] q f1 /\ forall u, f1 u = f' u.
Proof.
  intros HP N f' Hf'. induction N as [|N (f & f1 & H1 & H2 & H3 & H4)].
  - exists f', f'. split; [lia|]. split; [reflexivity|]. split; [constructor|reflexivity].
  - destruct (HP N (f' N) (Hf' N)) as [HN|(o & r & Er & Hs & HN)].
    + exists f, f1. split; [|split; [intros u Hu; apply H2; lia|auto]]. intros u Hu. destruct (Nat.eq_dec u N) as [->|]; [rewrite H2 by lia; exact HN|apply H1; lia].
    + assert (Ext : forall u, f u = fupd N (ADone r) (fupd N (APend o) f) u).
      { intros u. unfold fupd. destruct (Nat.eqb_spec u N) as [->|]; [rewrite H2 by lia; exact Er|reflexivity]. }
      destruct (atomic_ext spec _ _ _ _ _ H3 _ Ext) as (f2 & Ha & Hf2).
      exists (fupd N (APend o) f), f2. split; [|split; [|split]].
      * intros u Hu. destruct (Nat.eq_dec u N) as [->|]; [rewrite fupd_same; exact HN|]. rewrite fupd_other by lia. apply H1. lia.
      * intros u Hu. rewrite fupd_other by lia. apply H2. lia.
      * eapply at_eff; [apply fupd_same|exact Hs|exact Ha].
      * intros u. rewrite <- Hf2. apply H4.
Qed.

Lemma syncB_int c t k pc s' pc' q' f' : syncI c -> th c t = Some pc -> weak_step true (sh c) t pc k = Some (s', pc') ->
  syncB (Cfg s' (fupd t (Some pc') (th c))) q' f' -> back air_spec syncB c [] q' f'.
Proof.
  intros [[q HR] Hfr [N HN]] Et Es [HR' Hf']. destruct (weak_cases _ _ _ _ _ _ _ _ HR Et Es) as [(k0 & Ea & Eo)|(Eo & Ew & Hd & Hc)].
  - (* step of the machine without views *)
    destruct (airR_int False (strong c) q t k0 pc (wair s') pc' (wr_air _ _ HR) Et Ea) as (q1 & Hr1 & He).
    assert (q1 = q') as -> by (eapply airR_fun; [exact Hr1|exact (wr_air _ _ HR')]).
    assert (Ht : f' t = aalpha pc').
    { specialize (Hf' t). unfold valid in Hf'. cbn in Hf'. rewrite fupd_same in Hf'. destruct Hf' as [E|(r & _ & Hp & _)]; [exact E|exfalso].
      destruct (fresh_self _ _ _ _ _ _ _ Es Hp) as [[H _]|[H _]]; [|congruence]. destruct (Hfr _ H) as (p & E & Ep). congruence. }
    pose (P := fun u (x : wast) => if Nat.eqb u t then x = aalpha pc' else valid c u x).
    pose (P' := fun u (x : wast) => (u = t -> x = aalpha pc') /\ valid (Cfg s' (fupd t (Some pc') (th c))) u x).
    assert (HP : forall u x, P' u x -> P u x \/ exists o r, x = ADone r /\ air_spec q' o r q' /\ P u (APend o)).
    { intros u x [H1 H2]. unfold P. destruct (Nat.eqb_spec u t) as [E|Hne]; [left; auto|]. unfold valid in *. cbn in H2. rewrite fupd_other in H2 by exact Hne.
      destruct (th c u) as [pu|] eqn:Eu; [|auto]. destruct H2 as [->|(r & -> & Hp & i & b & Hi & Hb & Ho)]; [left; left; reflexivity|].
      destruct (step_fresh _ _ _ _ _ _ _ _ Es Hne) as [Ef _]. rewrite Ef in Hp. rewrite (view_other _ _ _ _ _ _ _ _ Es Hne) in Hi.
      assert (Hcase : whist (sh c) !! i = Some b \/ b = isS q').
      { destruct (hist_grows _ _ _ _ _ _ _ Es) as [E|[b0 E]]; rewrite E in Hb; [left; exact Hb|]. apply lookup_app_Some in Hb as [Hb|[Hle Hb]]; [left; exact Hb|right].
        destruct (i - length (whist (sh c))); [|discriminate]. injection Hb as ->. pose proof (v_last _ (wr_view _ _ HR')) as Hl. cbn in Hl. rewrite E, last_snoc in Hl.
        pose proof (a_q _ _ _ Hr1) as [Hq _]. cbn in Hq. congruence. }
      destruct Hcase as [Hb0| ->].
      - left. right. exists r. split; [reflexivity|]. split; [exact Hp|]. exists i, b. auto.
      - right. destruct (oans_spec _ _ _ Ho) as (o & Ea' & Hs). exists o, r. split; [reflexivity|]. split; [exact Hs|]. left. congruence. }
    destruct (effects air_spec P P' q' HP (Nat.max N (S t)) f') as (f & f1 & H1 & H2 & H3 & H4).
    { intros u. split; [intros ->; exact Ht|apply Hf']. }
    assert (Hall : forall u, u <> t -> valid c u (f u)).
    { intros u Hu. destruct (decide (u < Nat.max N (S t))) as [Hl|Hl].
      - specialize (H1 u Hl). unfold P in H1. destruct (Nat.eqb_spec u t); [contradiction|exact H1].
      - rewrite H2 by lia. specialize (Hf' u). unfold valid in *. cbn in Hf'. rewrite fupd_other in Hf' by exact Hu. rewrite (HN u ltac:(lia)) in *. exact Hf'. }
    assert (Hft : f t = aalpha pc'). { specialize (H1 t ltac:(lia)). unfold P in H1. rewrite Nat.eqb_refl in H1. exact H1. }
    assert (Hval : forall g, (forall u, u <> t -> g u = f u) -> g t = aalpha pc -> forall u, valid c u (g u)).
    { intros g Hg Hgt u. destruct (Nat.eq_dec u t) as [->|Hne]; [unfold valid; rewrite Et; left; exact Hgt|]. rewrite Hg by exact Hne. apply Hall, Hne. }
    destruct He as [[-> Eal]|(o & r & E1 & E2 & Hs)].
    + exists q, f, f1. split; [|auto]. constructor; [exact HR|]. apply Hval; [auto|congruence].
    + assert (Ext : forall u, f u = fupd t (ADone r) (fupd t (APend o) f) u).
      { intros u. unfold fupd. destruct (Nat.eqb_spec u t) as [->|]; [congruence|reflexivity]. }
      destruct (atomic_ext air_spec _ _ _ _ _ H3 _ Ext) as (f2 & Ha & Hf2).
      exists q, (fupd t (APend o) f), f2. split; [|split].
      * constructor; [exact HR|]. apply Hval; [intros u Hu; apply fupd_other, Hu|rewrite fupd_same; congruence].
      * eapply at_eff; [apply fupd_same|exact Hs|exact Ha].
      * intros u. rewrite <- Hf2. apply H4.
  - assert (q' = q) as ->.
    { eapply airR_fun; [exact (wr_air _ _ HR')|]. unfold strong. cbn [sh th]. rewrite Ew.
      apply (A_other False (strong c) q t pc pc' (wr_air _ _ HR) Et); [destruct pc; try discriminate; reflexivity|exact Hd|destruct pc; discriminate]. }
    assert (Hoth : forall u, u <> t -> whist s' = whist (sh c) -> valid c u (f' u)).
    { intros u Hu Ew'. specialize (Hf' u). unfold valid in *. cbn in Hf'. rewrite fupd_other in Hf' by exact Hu. destruct (th c u) as [pu|]; [|exact Hf'].
      unfold past in *. rewrite Ew', (view_other _ _ _ _ _ _ _ _ Es Hu), (proj1 (step_fresh _ _ _ _ _ _ _ _ Es Hu)) in Hf'. exact Hf'. }
    pose proof (Hf' t) as Ht. unfold valid in Ht. cbn [th sh] in Ht. rewrite fupd_same in Ht.
    destruct k as [k|i|u n]; cbn [weak_step] in Es; rewrite Eo in Es; cbn [negb orb andb] in Es; [discriminate| |].
    + (* unlocked load *)
      destruct ((wfresh (sh c) t || _) && _) eqn:Eb; [|discriminate]. apply andb_true_iff in Eb as [Ef Hi]. apply Nat.leb_le in Hi.
      assert (El : locked_load pc = false) by (destruct pc; try discriminate; reflexivity). rewrite El, orb_false_r in Ef.
      destruct (whist (sh c) !! i) as [b|] eqn:Eb; [|discriminate]. destruct (loads (wair (sh c)) t pc b) as [p|] eqn:Eld; [|discriminate]. injection Es as <- ->.
      exists q, f', f'. split; [|split; [constructor|reflexivity]]. constructor; [exact HR|]. intros v. destruct (Nat.eq_dec v t) as [->|Hne]; [|apply Hoth; auto].
      destruct Ht as [Ht|(r & _ & Hp & _)]; [|cbn in Hp; rewrite fupd_same in Hp; discriminate]. unfold valid. rewrite Et.
      assert (Hx : aalpha pc' = aalpha pc \/ exists r, aalpha pc' = ADone r /\ oans pc b = Some r).
      { destruct pc; try discriminate; cbn in Eld; injection Eld as <-; destruct b; cbn; eauto. }
      destruct Hx as [E|(r & E & Ho)]; [left; congruence|right]. exists r. split; [congruence|]. split; [exact Ef|]. exists i, b. auto.
    + (* learning *)
      destruct (n <=? wview (sh c) u) eqn:En; [|discriminate]. apply Nat.leb_le in En. injection Es as <- <-.
      destruct Ht as [Ht|(r & Ht & Hp & i & b & Hi & Hb & Ho)].
      * exists q, f', f'. split; [|split; [constructor|reflexivity]]. constructor; [exact HR|]. intros v. destruct (Nat.eq_dec v t) as [->|Hne]; [|apply Hoth; auto].
        unfold valid. rewrite Et. left. exact Ht.
      * cbn [sh wview whist wfresh] in Hp, Hi, Hb. rewrite fupd_same in Hp. rewrite fupd_same in Hi. destruct (wfresh (sh c) t) eqn:Ef.
        -- exists q, f', f'. split; [|split; [constructor|reflexivity]]. constructor; [exact HR|]. intros v. destruct (Nat.eq_dec v t) as [->|Hne]; [|apply Hoth; auto].
           unfold valid. rewrite Et. right. exists r. split; [exact Ht|]. split; [exact Ef|]. exists i, b. split; [lia|auto].
        -- cbn [orb] in Hp. assert (Hp2 : S (Nat.max (wview (sh c) t) n) = length (whist (sh c))) by (destruct (length (whist (sh c))); [discriminate|apply Nat.eqb_eq in Hp; congruence]). pose proof (lookup_lt_Some _ _ _ Hb) as Hl.
           assert (b = isS q) as ->.
           { pose proof (v_last _ (wr_view _ _ HR)) as Hla. rewrite last_lookup in Hla. assert (i = pred (length (whist (sh c)))) as -> by lia.
             pose proof (a_q _ _ _ (wr_air _ _ HR)) as [Hq _]. cbn in Hq. congruence. }
           destruct (oans_spec _ _ _ Ho) as (o & Eal & Hs).
           exists q, (fupd t (APend o) f'), (fupd t (ADone r) (fupd t (APend o) f')). split; [|split].
           ++ constructor; [exact HR|]. intros v. destruct (Nat.eq_dec v t) as [->|Hne].
              ** rewrite fupd_same. unfold valid. rewrite Et. left. congruence.
              ** rewrite fupd_other by exact Hne. apply Hoth; auto.
           ++ eapply at_eff; [apply fupd_same|exact Hs|constructor].
           ++ intros v. unfold fupd. destruct (Nat.eqb_spec v t) as [->|]; congruence.
Qed.

Lemma sync_sim xs c H : weak_run true (init weak0) xs = Some (c, H) -> linearizable air_spec None H.
Proof.
  intros Er.
  assert (Hcall : forall c t o q' f', syncI c -> True -> th c t = None -> syncB (Cfg (sh c) (fupd t (Some (air_start o)) (th c))) q' f' -> back air_spec syncB c [HInv t o] q' f').
  { intros c0 t o q' f' [[q HR] Hfr _] _ Et [HR' Hf'].
    assert (q' = q) as ->.
    { eapply airR_fun; [exact (wr_air _ _ HR')|]. exact (proj1 (airR_call False (strong c0) q t o (wr_air _ _ HR) I Et)). }
    assert (Ht : f' t = APend o).
    { specialize (Hf' t). unfold valid in Hf'. cbn in Hf'. rewrite fupd_same in Hf'. destruct Hf' as [E|(r & _ & Hp & _)]; [destruct o; exact E|].
      destruct (Hfr _ Hp) as (p & E & _). congruence. }
    exists q, (fupd t AIdle f'), (fupd t (APend o) (fupd t AIdle f')). split; [|split].
    - constructor; [exact HR|]. intros u. unfold valid. destruct (Nat.eq_dec u t) as [->|Hne]; [rewrite Et; apply fupd_same|]. rewrite fupd_other by exact Hne.
      specialize (Hf' u). unfold valid in Hf'. cbn in Hf'. rewrite fupd_other in Hf' by exact Hne. exact Hf'.
    - apply at_inv; [apply fupd_same|constructor].
    - intros u. unfold fupd. destruct (Nat.eqb_spec u t) as [->|]; congruence. }
  assert (Hret : forall c t pc r q' f', syncI c -> th c t = Some pc -> air_fin pc = Some r -> syncB (Cfg (sh c) (fupd t None (th c))) q' f' -> back air_spec syncB c [HRet t r] q' f').
  { intros c0 t pc r q' f' [[q HR] Hfr _] Et Ef [HR' Hf'].
    assert (q' = q) as ->.
    { eapply airR_fun; [exact (wr_air _ _ HR')|]. exact (proj1 (airR_ret False (strong c0) q t pc r (wr_air _ _ HR) Et Ef)). }
    assert (Ht : f' t = AIdle). { specialize (Hf' t). unfold valid in Hf'. cbn in Hf'. rewrite fupd_same in Hf'. exact Hf'. }
    exists q, (fupd t (ADone r) f'), (fupd t AIdle (fupd t (ADone r) f')). split; [|split].
    - constructor; [exact HR|]. intros u. unfold valid. destruct (Nat.eq_dec u t) as [->|Hne].
      + rewrite Et, fupd_same. left. destruct pc; try discriminate. injection Ef as ->. reflexivity.
      + rewrite fupd_other by exact Hne. specialize (Hf' u). unfold valid in Hf'. cbn in Hf'. rewrite fupd_other in Hf' by exact Hne. exact Hf'.
    - apply at_ret; [apply fupd_same|constructor].
    - intros u. unfold fupd. destruct (Nat.eqb_spec u t) as [->|]; congruence. }
  destruct (bsim_run air_start (weak_step true) air_fin air_spec (fun _ => True) syncI syncB) with (xs := xs) (c := (init weak0 : wcfg)) (c' := c) (H := H) as [[[q HR] _ _] Hb].
  - intros c0 x c' e Hi _. apply syncI_exec, Hi.
  - exact Hcall.
  - intros c0 t k pc s' pc' q' f'. apply syncB_int.
  - exact Hret.
  - apply syncI_init.
  - apply Forall_forall. auto.
  - exact Er.
  - destruct (Hb q (fun t => match th c t with Some pc => aalpha pc | None => AIdle end)) as (q0 & f0 & f1 & [HR0 Hf0] & Ha & _).
    { constructor; [exact HR|]. intros t. unfold valid. destruct (th c t); auto. }
    assert (q0 = None) as -> by (eapply airR_fun; [exact (wr_air _ _ HR0)|apply airR_init]).
    destruct (atomic_ext air_spec _ _ _ _ _ Ha (fun _ => AIdle)) as (g & Hg & _); [intros t; exact (Hf0 t)|]. exists q, g. exact Hg.
Qed.
End sync.
