(** AirLock: exceptions (C97) and how many steps it takes (C98) *)
From stdpp Require Import list.
From Verif Require Import Base Conc CondVar Herlihy AirModel AirSpec AirProofs AirThrow AirBound.
Local Open Scope nat_scope.

Section props.
Context {V : Type}.
Notation xcfg := (cfg (airsh V) (xapc V)).
Notation sched := (list (nat * act (xch V) (airop V))).
Implicit Types (c : xcfg) (xs ys : sched) (H : list (hev (airop V) (option (airret V)))).

(** Everybody inside an operation waits. *)
Definition at_rest c : Prop := forall u, th c u <> None -> xa_waits c u.

(** ** C97.  Exceptions

    Every history is a history of an atomic slot in which some loads (when it is free) and some unloads (when it is full) throw and have
    no effect; an unload that throws may lose or change the element only if moving an element can throw halfway ([lossy]). *)
Theorem C97_linearizable late lossy xs c H : xa_run late lossy (init air0) xs = Some (c, H) -> linearizable (xair_spec lossy) None H.
Proof. intros Er. destruct (xa_sim _ _ _ _ _ Er) as (q & f & Ha & _). exists q, f. exact Ha. Qed.

Theorem C97_race_free late lossy xs c H t u x y : xa_run late lossy (init air0) xs = Some (c, H) ->
  th c t = Some x -> th c u = Some y -> air_acc (xpt x) = true -> air_acc (xpt y) = true -> t = u.
Proof.
  intros Er Et Eu. destruct (xa_sim _ _ _ _ _ Er) as (q & f & _ & Hr & _). apply (air_norace _ (xer c) q t u (xpt x) (xpt y) Hr); cbn; [rewrite Et|rewrite Eu]; reflexivity.
Qed.

(** The lock is free again when an operation has returned or thrown. *)
Theorem C97_unlocked late lossy xs c H t : xa_run late lossy (init air0) xs = Some (c, H) -> th c t = None -> door (sh c) <> Some t.
Proof.
  intros Er Et Ed. destruct (xa_sim _ _ _ _ _ Er) as (q & f & _ & Hr & _). destruct (proj1 (a_door _ _ _ Hr t) Ed) as (pc & E & _). cbn in E. rewrite Et in E. discriminate.
Qed.

Lemma xa_waits_dec c t : xa_waits c t \/ ~ xa_waits c t.
Proof.
  unfold xa_waits. destruct (th c t) as [[pc|pc]|]; [|right; intros (v & E & _); discriminate|right; intros (v & E & _); discriminate].
  destruct pc; try (right; intros (? & E & _); discriminate). destruct (inb t (await (sh c))) eqn:E.
  - left. eexists. split; [reflexivity|]. apply inb_spec, E.
  - right. intros (? & _ & Hi). apply inb_spec in Hi. congruence.
Qed.
Theorem C97_no_deadlock late lossy xs c H t : xa_run late lossy (init air0) xs = Some (c, H) -> th c t <> None -> ~ xa_waits c t -> exists u, xa_moves late lossy c u.
Proof. intros Er. destruct (xa_sim _ _ _ _ _ Er) as (q & f & _ & Hr). apply (xa_live _ _ _ _ _ Hr). Qed.

Lemma xa_wait_in c t : xa_waits c t -> await (sh c) <> [].
Proof. intros (v & _ & Hw) E. rewrite E in Hw. destruct Hw. Qed.
Lemma xa_closed late c q : xaR late c q -> at_rest c -> door (sh c) = None.
Proof.
  intros Hr Hall. destruct (door (sh c)) as [u|] eqn:Ed; [|reflexivity]. destruct (proj1 (a_door _ _ _ (xa_r _ _ _ Hr) u) Ed) as (pc & Eu & Hd). cbn in Eu.
  destruct (th c u) as [x|] eqn:Et; [|discriminate]. destruct (Hall u ltac:(congruence)) as (v & E & _). rewrite Et in E. injection E as ->. injection Eu as <-. discriminate.
Qed.
Lemma xa_woken c q : xaR false c q -> door (sh c) = None -> loaded (sh c) = false -> await (sh c) <> [] -> exists u v, th c u = Some (XP (AL4 v)) /\ ~ In u (await (sh c)).
Proof.
  intros [Hr Hu] Ed El Ew. destruct (air_woken _ _ _ Hr Ed El Ew) as [E|(u & v & Eu & Hn)]; [discriminate|]. exists u, v. split; [|exact Hn]. cbn in Eu.
  destruct (th c u) as [[pc|pc]|] eqn:Et; try discriminate; injection Eu as ->; [reflexivity|]. destruct (Hu _ _ Et).
Qed.
Lemma xa_full c q t : xaR false c q -> at_rest c -> th c t <> None -> loaded (sh c) = true.
Proof.
  intros Hr Hall Ht. destruct (loaded (sh c)) eqn:El; [reflexivity|]. exfalso.
  destruct (xa_woken c q Hr (xa_closed _ _ _ Hr Hall) El (xa_wait_in _ _ (Hall t Ht))) as (u & v & Eu & Hn). destruct (Hall u ltac:(congruence)) as (w & _ & Hw). contradiction.
Qed.
Lemma xa_slot late c q : xaR late c q -> at_rest c -> loaded (sh c) = isS q /\ (q <> None -> adata (sh c) = q).
Proof. intros Hr Hall. pose proof (a_q _ _ _ (xa_r _ _ _ Hr)) as Hq. cbn [sh xer] in Hq. rewrite (xa_closed _ _ _ Hr Hall) in Hq. exact Hq. Qed.

(** Nobody waits for a free slot, as long as load does not throw after it has waited (line 70). *)
Theorem C97_not_forgotten_partial lossy xs c H t : xa_run false lossy (init air0) xs = Some (c, H) -> door (sh c) = None -> loaded (sh c) = false -> xa_waits c t ->
  exists u v, th c u = Some (XP (AL4 v)) /\ ~ In u (await (sh c)).
Proof. intros Er Ed El Hw. destruct (xa_sim _ _ _ _ _ Er) as (q & f & _ & Hr). eapply xa_woken; [exact Hr|exact Ed|exact El|eapply xa_wait_in, Hw]. Qed.

Theorem C97_quiescent_partial lossy xs c H t : xa_run false lossy (init air0) xs = Some (c, H) -> at_rest c -> th c t <> None -> loaded (sh c) = true.
Proof. intros Er. destruct (xa_sim _ _ _ _ _ Er) as (q & f & _ & Hr). apply (xa_full _ _ _ Hr). Qed.

(** If it does, a loader can be left waiting in front of a free slot with nobody else inside: *)
Definition forget (v : V) : sched :=
  let i := AInt (XGo CStep) in
  (1, ACall (ATryLoad v)) :: repeat (1, i) 6 ++ [(1, ARet); (2, ACall (ALoad v))] ++ repeat (2, i) 4 ++ [(3, ACall (ALoad v))] ++ repeat (3, i) 4 ++
  [(1, ACall AUnload)] ++ repeat (1, i) 5 ++ [(1, AInt (XGo (CWake 2))); (1, i); (1, ARet); (2, i); (2, i); (2, AInt (XThrow None)); (2, i); (2, ARet)].
Theorem C97_refuted lossy (v : V) : exists xs c H t, xa_run true lossy (init air0) xs = Some (c, H) /\ at_rest c /\ xa_waits c t /\ door (sh c) = None /\ loaded (sh c) = false.
Proof.
  exists (forget v). destruct (xa_run true lossy (init air0) (forget v)) as [[c H]|] eqn:Er.
  - assert (E : match xa_run true lossy (init air0) (forget v) with Some (c, _) => (sh c, th c 1, th c 2, th c 3) = (AirSh None false None [3], None, None, Some (XP (AL4 v))) | None => False end)
      by (destruct lossy; vm_compute; reflexivity).
    rewrite Er in E. injection E as Es E1 E2 E3. exists c, H, 3. rewrite Es. split; [reflexivity|].
    assert (Hw : xa_waits c 3) by (exists v; rewrite Es; cbn; auto). split; [|auto].
    intros u Hu. destruct (was_called true lossy _ _ _ _ _ Er Hu) as [Hn|(a & Ha)]; [destruct (Hn eq_refl)|].
    assert (Hin : In u [1; 2; 3]) by (apply (in_map fst) in Ha; cbn in Ha; cbn; tauto). cbn in Hin. destruct Hin as [<-|[<-|[<-|[]]]]; [congruence|congruence|exact Hw].
  - exfalso. assert (E : match xa_run true lossy (init air0) (forget v) with Some _ => True | None => False end) by (destruct lossy; vm_compute; exact I). rewrite Er in E. exact E.
Qed.

(** and there it stays, whatever the others do, until somebody loads the slot or wakes up without a reason. *)
Definition no_load (x : nat * act (xch V) (airop V)) : Prop :=
  match snd x with ACall (ATryLoad _) | ACall (ALoad _) => False | AInt (XGo CSpur) => False | _ => True end.
Definition idle_pc (pc : airpc V) : Prop := match pc with AU0 | AI0 | AEnd _ => True | _ => False end.
Definition asleep c (w0 : list nat) : Prop := loaded (sh c) = false /\ await (sh c) = w0 /\
  forall u x, th c u = Some x -> (exists v, x = XP (AL4 v) /\ In u w0) \/ (exists pc, x = XP pc /\ idle_pc pc).
Lemma asleep_run late lossy w0 xs : forall c c' H, xa_run late lossy c xs = Some (c', H) -> Forall no_load xs -> asleep c w0 ->
  asleep c' w0 /\ forall t v, th c t = Some (XP (AL4 v)) -> th c' t = Some (XP (AL4 v)).
Proof.
  induction xs as [|[u a] xs IH]; intros c c' H Er Hf Hs; [injection Er as <- _; auto|].
  unfold xa_run in Er. cbn [run] in Er. destruct (exec _ _ _ c (u, a)) as [[c1 e]|] eqn:Ex; [|discriminate]. destruct (run _ _ _ c1 xs) as [[c2 H2]|] eqn:Er2; [|discriminate]. injection Er as <- _.
  inversion Hf as [|? ? Hx Hf']; subst.
  assert (Hn : asleep c1 w0 /\ forall t v, th c t = Some (XP (AL4 v)) -> th c1 t = Some (XP (AL4 v))).
  { destruct Hs as (El & Ew & Hall). unfold exec in Ex. destruct a as [o|k|]; (destruct (th c u) as [x|] eqn:Eu; try discriminate).
    - injection Ex as <- _. split.
      + split; [exact El|]. split; [exact Ew|]. intros z y. cbn. unfold fupd. destruct (Nat.eqb z u); [|apply Hall]. intros [= <-]. right. destruct o; cbn in Hx; try contradiction; eexists; (split; [reflexivity|exact I]).
      + intros t v Et. cbn. rewrite fupd_other; [exact Et|congruence].
    - destruct (xa_step late lossy (sh c) u x k) as [[s' x']|] eqn:Es; [|discriminate]. injection Ex as <- _.
      destruct (Hall u x Eu) as [(v & -> & Hi)|(pc & -> & Hp)].
      + exfalso. rewrite <- Ew in Hi. destruct k as [[|w| |]| |]; cbn in Es, Hx; try contradiction; try discriminate. rewrite (proj2 (inb_spec _ _) Hi) in Es. discriminate.
      + assert (Hr : s' = sh c /\ exists r, x' = XP (AEnd r)).
        { destruct k as [[|w| |]| |]; destruct pc; cbn in Hp; try contradiction; cbn in Es; try rewrite El in Es; try discriminate; injection Es as <- <-; eauto. }
        destruct Hr as (-> & r & ->). split.
        * split; [exact El|]. split; [exact Ew|]. intros z y. cbn. unfold fupd. destruct (Nat.eqb z u); [|apply Hall]. intros [= <-]. right. eexists; (split; [reflexivity|exact I]).
        * intros t v Et. cbn. rewrite fupd_other; [exact Et|]. intros ->. rewrite Eu in Et. injection Et as ->. destruct Hp.
    - destruct (xa_fin x) as [r|] eqn:Ef; [|discriminate]. injection Ex as <- _. split.
      + split; [exact El|]. split; [exact Ew|]. intros z y. cbn. unfold fupd. destruct (Nat.eqb z u); [discriminate|apply Hall].
      + intros t v Et. cbn. rewrite fupd_other; [exact Et|]. intros ->. rewrite Eu in Et. injection Et as ->. discriminate. }
  destruct Hn as [Hn1 Hn2]. destruct (IH _ _ _ Er2 Hf' Hn1) as [H3 H4]. auto.
Qed.
Theorem C97_stuck late lossy c xs c' H t : at_rest c -> loaded (sh c) = false -> xa_run late lossy c xs = Some (c', H) -> Forall no_load xs -> xa_waits c t -> xa_waits c' t.
Proof.
  intros Hall El Er Hf (v & Et & Hw). assert (Hs : asleep c (await (sh c))).
  { split; [exact El|]. split; [reflexivity|]. intros u x Eu. left. destruct (Hall u ltac:(congruence)) as (w & E & Hi). exists w. split; [congruence|exact Hi]. }
  destruct (asleep_run _ _ _ _ _ _ _ Er Hf Hs) as [(_ & Ew & _) Hk]. exists v. rewrite Ew. auto.
Qed.

(** If moving an element out can throw halfway, try_unload can lose it: the object was accepted, nobody has got it, and the slot is empty. *)
Theorem C97_lost_refuted late (v : V) : exists xs c H,
  xa_run late true (init air0) xs = Some (c, H) /\ (forall u, th c u = None) /\ loaded (sh c) = false /\ adata (sh c) = None /\
  H = [HInv 1 (ATryLoad v); HRet 1 (Some (ABool true)); HInv 1 AUnload; HRet 1 None].
Proof.
  pose (xs := (1, ACall (ATryLoad v)) :: repeat (1, AInt (XGo CStep)) 6 ++ [(1, ARet); (1, ACall AUnload)] ++ repeat (1, AInt (XGo CStep)) 4 ++ [(1, AInt XLose); (1, AInt (XGo CStep)); (1, AInt (XGo CStep)); (1, ARet)] : sched).
  assert (E : match xa_run late true (init air0) xs with Some (c, H) => (sh c, th c 1, H) = (air0, None, [HInv 1 (ATryLoad v); HRet 1 (Some (ABool true)); HInv 1 AUnload; HRet 1 None]) | None => False end) by (destruct late; vm_compute; reflexivity).
  exists xs. destruct (xa_run late true (init air0) xs) as [[c H]|] eqn:Er; [|destruct E]. injection E as Es E1 EH. exists c, H. rewrite Es. split; [reflexivity|]. split; [|auto].
  intros u. destruct (th c u) as [x|] eqn:Eu; [|reflexivity]. exfalso. destruct (was_called late true _ _ _ _ u Er ltac:(congruence)) as [Hn|(a & Ha)]; [destruct (Hn eq_refl)|].
  assert (Hin : In u [1]) by (apply (in_map fst) in Ha; cbn in Ha; cbn; tauto). cbn in Hin. destruct Hin as [<-|[]]. congruence.
Qed.

(** ** C98.  Steps

    All operations together: if they are called [n] times, there are at most [14 * n] steps, and 6 more for each spurious wake-up. *)
Theorem C98_bounded late lossy xs c H : xa_run late lossy (init air0) xs = Some (c, H) -> length xs <= 14 * length (calls xs) + 6 * all_spurs xs.
Proof.
  intros Er. destruct (on_some xs) as (n & Hn). pose proof (work_run late lossy n xs _ _ _ Hn Er) as L. rewrite total_init in L.
  rewrite moves_length. pose proof (costs_calls xs). lia.
Qed.

(** One operation, from its call on, whatever the others do: *)
Theorem C98_call late lossy c xs c' H t o : th c t = None -> inside t xs -> xa_run late lossy c ((t, ACall o) :: xs) = Some (c', H) ->
  match o with
  | ATryLoad _ => n_int t xs <= 6
  | AUnload => n_int t xs <= 7
  | AIsLoaded => n_int t xs <= 1
  | ALoad _ => n_int t xs <= 6 + 5 * woken t xs + 6 * spurs t xs
  end.
Proof.
  intros Et Hin Er. unfold xa_run in Er. cbn [run exec] in Er. rewrite Et in Er. destruct (run _ _ _ _ xs) as [[c2 H2]|] eqn:Er2; [|discriminate]. clear Er.
  destruct o as [v|v| |].
  - apply (quick_run late lossy t xs _ _ _ _ Er2 Hin (fupd_same _ _ _) I).
  - destruct (own_run late lossy t xs _ _ _ _ Er2 Hin (fupd_same _ _ _)) as (x' & _ & L). cbn [own xpt xa_start air_start] in L. lia.
  - apply (quick_run late lossy t xs _ _ _ _ Er2 Hin (fupd_same _ _ _) I).
  - apply (quick_run late lossy t xs _ _ _ _ Er2 Hin (fupd_same _ _ _) I).
Qed.

(** When no more operations are called, everything comes to rest: then everybody still inside waits, and (if load does not throw
    after waiting) only for a full slot. *)
Theorem C98_settles late lossy xs c H : xa_run late lossy (init air0) xs = Some (c, H) ->
  exists B, forall ys c' H', xa_run late lossy c ys = Some (c', H') -> calls ys = [] -> all_spurs ys = 0 ->
    length ys <= B /\ ((forall u, ~ xa_moves late lossy c' u) -> at_rest c' /\ (late = false -> forall t, th c' t <> None -> loaded (sh c') = true)).
Proof.
  intros Er. destruct (on_some xs) as (n & Hn). exists (total n (work_of c)). intros ys c' H' Er' Hc Hsp. split.
  - assert (Hn' : on n ys).
    { intros u a Hi. pose proof (active late lossy ys _ _ _ _ _ Er' Hc Hi) as Ha. destruct (was_called late lossy xs _ _ _ u Er Ha) as [E|(b & Hb)]; [destruct (E eq_refl)|eapply Hn, Hb]. }
    pose proof (work_run late lossy n ys _ _ _ Hn' Er') as L. rewrite moves_length, Hc, Hsp in *. pose proof (costs_calls ys) as L2. rewrite Hc in L2. cbn in *. lia.
  - assert (Ea : xa_run late lossy (init air0) (xs ++ ys) = Some (c', H ++ H')) by (unfold xa_run in *; rewrite run_app, Er, Er'; reflexivity).
    destruct (xa_sim _ _ _ _ _ Ea) as (q & f & _ & Hr). intros Hm.
    assert (Hall : at_rest c').
    { intros u Hu. destruct (th c' u) as [x|] eqn:Et; [|congruence].
      destruct (xa_waits_dec c' u) as [Hw|Hw]; [exact Hw|]. destruct (xa_live late lossy c' q u Hr ltac:(congruence) Hw) as (z & Hz). destruct (Hm z Hz). }
    split; [exact Hall|]. intros -> t Ht. eapply xa_full; eassumption.
Qed.

(** One try_unload lets one waiting loader in: if everybody inside waits, somebody does, and then try_unload is called and nothing else until
    everybody waits again (and nothing throws), then try_unload has returned the element, exactly one of the loaders has returned, its
    element is in the slot, and the others still wait. *)
Lemma xa_hret late lossy xs : forall c c' H t, xa_run late lossy c xs = Some (c', H) -> th c t <> None -> th c' t = None -> exists r, In (HRet t r) H.
Proof.
  induction xs as [|[u a] xs IH]; intros c c' H t Er H1 H2; [injection Er as <- _; congruence|].
  unfold xa_run in Er. cbn [run] in Er. destruct (exec _ _ _ c (u, a)) as [[c1 e]|] eqn:Ex; [|discriminate]. destruct (run _ _ _ c1 xs) as [[c2 He]|] eqn:Er2; [|discriminate]. injection Er as <- <-.
  destruct (th c1 t) eqn:E1.
  - destruct (IH _ _ _ t Er2 ltac:(congruence) H2) as (r & Hr). exists r. apply in_or_app. auto.
  - unfold exec in Ex. destruct a as [o|k|]; (destruct (th c u) as [x|] eqn:Eu; try discriminate).
    + injection Ex as <- _. cbn in E1. unfold fupd in E1. destruct (Nat.eqb t u); congruence.
    + destruct (xa_step late lossy (sh c) u x k) as [[s' x']|]; [|discriminate]. injection Ex as <- _. cbn in E1. unfold fupd in E1. destruct (Nat.eqb t u); congruence.
    + destruct (xa_fin x) as [r|]; [|discriminate]. injection Ex as <- <-. cbn in E1. unfold fupd in E1. destruct (Nat.eqb_spec t u) as [->|]; [|congruence]. exists r. cbn. auto.
Qed.
Lemma xa_hinv late lossy xs : forall c c' H, xa_run late lossy c xs = Some (c', H) -> calls xs = [] -> forall u o, ~ In (HInv u o) H.
Proof.
  induction xs as [|[u a] xs IH]; intros c c' H Er Hc z o Hi; [injection Er as _ <-; destruct Hi|].
  unfold xa_run in Er. cbn [run] in Er. destruct (exec _ _ _ c (u, a)) as [[c1 e]|] eqn:Ex; [|discriminate]. destruct (run _ _ _ c1 xs) as [[c2 He]|] eqn:Er2; [|discriminate]. injection Er as <- <-.
  unfold calls in Hc. cbn in Hc. apply in_app_or in Hi. destruct a as [o'|k|]; cbn in Hc; [discriminate| |]; (destruct Hi as [Hi|Hi]; [|eapply IH; eassumption]); unfold exec in Ex; (destruct (th c u) as [x|]; [|discriminate]).
  - destruct (xa_step late lossy (sh c) u x k) as [[s' x']|]; [|discriminate]. injection Ex as _ <-. destruct Hi.
  - destruct (xa_fin x); [|discriminate]. injection Ex as _ <-. destruct Hi as [Hi|[]]. discriminate.
Qed.
Theorem C98_drain lossy xs c H w t ys c' H' : xa_run false lossy (init air0) xs = Some (c, H) -> at_rest c -> xa_waits c w -> th c t = None ->
  xa_run false lossy c ((t, ACall AUnload) :: ys) = Some (c', H') -> calls ys = [] -> (forall u, ~ In (HRet u None) H') -> at_rest c' ->
  In (HRet t (Some (AVal (adata (sh c))))) H' /\ adata (sh c) <> None /\ th c' t = None /\
  exists u v, th c u = Some (XP (AL4 v)) /\ th c' u = None /\ (exists r, In (HRet u (Some r)) H') /\ loaded (sh c') = true /\ adata (sh c') = Some v /\ forall z, z <> u -> th c' z = th c z.
Proof.
  intros Er Hall Hw Et Er' Hc Hno Hall'. destruct (xa_sim _ _ _ _ _ Er) as (q & f & _ & Hr).
  assert (Hfull : loaded (sh c) = true). { eapply xa_full; [exact Hr|exact Hall|]. destruct Hw as (v & E & _). rewrite E. discriminate. }
  destruct (xa_slot _ _ _ Hr Hall) as [Hl Hd]. rewrite Hfull in Hl. assert (Hq : q <> None) by (destruct q; [discriminate|discriminate]).
  specialize (Hd Hq). rewrite Hd.
  unfold xa_run in Er'. cbn [run exec] in Er'. rewrite Et in Er'. destruct (run _ _ _ _ ys) as [[c2 H2]|] eqn:Er2; [|discriminate]. injection Er' as E1 E2. cbn [app] in E2. subst c2 H'.
  destruct (xaR_call _ _ _ t AUnload Hr I Et) as [Hr1 _].
  set (av := aview (xalpha (V := V))).
  edestruct (sim_run xa_start (xa_step false lossy) xa_fin (xair_spec (V := V) lossy) (fun _ => True) (xaR false) xalpha) as (q' & f' & Ha & Hr' & Hf');
    [| | |exact Hr1|intros u; reflexivity| |exact Er2|].
  { intros c0 q1 t1 o. apply xaR_call. }
  { intros c0 q1 t1 k pc s' pc'. apply xaR_int. }
  { intros c0 q1 t1 pc r. apply xaR_ret. }
  { apply Forall_forall. auto. }
  assert (Hrest : forall u, av (th c u) = AIdle /\ th c u = None \/ exists v, av (th c u) = APend (ALoad v) /\ th c u = Some (XP (AL4 v))).
  { intros u. destruct (th c u) as [x|] eqn:Eu; [|left; auto]. right. destruct (Hall u ltac:(congruence)) as (v & E & _). rewrite Eu in E. injection E as ->. exists v. auto. }
  assert (Hrest' : forall u, f' u = AIdle /\ th c' u = None \/ exists v, f' u = APend (ALoad v) /\ th c' u = Some (XP (AL4 v))).
  { intros u. rewrite Hf'. destruct (th c' u) as [x|] eqn:Eu; [|left; auto]. right. destruct (Hall' u ltac:(congruence)) as (v & E & _). rewrite Eu in E. injection E as ->. exists v. auto. }
  assert (Hf0 : forall u, av (th c u) = AIdle \/ exists v, av (th c u) = APend (ALoad v)) by (intros u; destruct (Hrest u) as [[E _]|(v & E & _)]; [left; exact E|right; exists v; exact E]).
  destruct (drain_atomic lossy t q (fun u => av (th c u)) Hq Hf0 _ _ _ _ _ Ha) as [(u & Eu)|[Hph Hret]].
  - eapply (xa_hinv false lossy); [exact Er2|exact Hc].
  - intros u Hu. apply (Hno u). right. exact Hu.
  - left. split; [reflexivity|]. split; [cbn; rewrite fupd_same; reflexivity|]. intros u Hu. cbn. rewrite fupd_other by exact Hu. reflexivity.
  - exfalso. destruct (Hrest' u) as [[E _]|(v & E & _)]; congruence.
  - assert (Ht : th c' t = None).
    { destruct (Hrest' t) as [[_ E]|(v & E & _)]; [exact E|]. exfalso. destruct Hph as [(_ & F & _)|[(_ & F & _)|(u & v' & _ & _ & _ & F & _)]]; [congruence| |]; exact (over_not_pend _ _ _ F E). }
    split; [|split; [exact Hq|split; [exact Ht|]]].
    { destruct (xa_hret false lossy _ _ _ _ t Er2 ltac:(cbn; rewrite fupd_same; discriminate) Ht) as (r & Hi). rewrite (Hret r Hi) in Hi. right. exact Hi. }
    destruct Hph as [(_ & F & _)|[(-> & F & Ho)|(u & v & Hu & Eu & -> & F & Fu & Ho)]].
    + exfalso. destruct (Hrest' t) as [[E _]|(v & E & _)]; congruence.
    + exfalso. destruct (xa_slot _ _ _ Hr' Hall') as [E _]. cbn in E.
      assert (Hwt : w <> t) by (intros ->; destruct Hw as (v & E1 & _); congruence). assert (Ew : th c' w <> None).
      { destruct (Hrest' w) as [[E1 _]|(v & _ & E1)]; [|congruence]. rewrite (Ho w Hwt) in E1. destruct Hw as (v & E2 & _). rewrite E2 in E1. discriminate. }
      rewrite (xa_full _ _ _ Hr' Hall' Ew) in E. discriminate.
    + destruct (Hrest u) as [[E _]|(v1 & E & E1)]; [congruence|]. assert (v1 = v) as -> by congruence.
      assert (Eu' : th c' u = None) by (destruct (Hrest' u) as [[_ E2]|(v2 & E2 & _)]; [exact E2|destruct (over_not_pend _ _ _ Fu E2)]).
      destruct (xa_slot _ _ _ Hr' Hall') as [El Ed]. exists u, v. split; [exact E1|]. split; [exact Eu'|]. split; [|split; [exact El|split; [apply Ed; discriminate|]]].
      * destruct (xa_hret false lossy _ _ _ _ u Er2 ltac:(cbn; rewrite fupd_other by exact Hu; congruence) Eu') as (r & Hi). destruct r as [r|]; [exists r; right; exact Hi|]. destruct (Hno u). right. exact Hi.
      * intros z Hz. destruct (Nat.eq_dec z t) as [->|Hzt]; [congruence|]. specialize (Ho z Hzt Hz). destruct (Hrest z) as [[E2 E3]|(v2 & E2 & E3)]; destruct (Hrest' z) as [[E4 E5]|(v4 & E4 & E5)]; congruence.
Qed.
End props.

Local Notation stp := (AInt (XGo CStep)).
(** Thread 1 throws in try_load, then loads 5, throws in try_unload, and isLoaded still says true; 2 throws in load. *)
Example C97_case : result xa_start (xa_step false false) xa_fin (init air0)
    ([(1, ACall (ATryLoad 4%Z))] ++ repeat (1, stp) 3 ++ [(1, AInt (XThrow (Some 77%Z))); (1, stp); (1, ARet)] ++
     [(2, ACall (ALoad 6%Z)); (2, stp); (2, stp); (2, AInt (XThrow None)); (2, stp); (2, ARet)] ++
     [(1, ACall (ATryLoad 5%Z))] ++ repeat (1, stp) 6 ++ [(1, ARet); (1, ACall AUnload)] ++ repeat (1, stp) 3 ++ [(1, AInt (XThrow None)); (1, stp); (1, ARet)] ++
     [(1, ACall AIsLoaded); (1, stp); (1, ARet)])
  = Some (AirSh None true (Some 5%Z) [],
          [HInv 1 (ATryLoad 4%Z); HRet 1 None; HInv 2 (ALoad 6%Z); HRet 2 None; HInv 1 (ATryLoad 5%Z); HRet 1 (Some (ABool true)); HInv 1 AUnload; HRet 1 None;
           HInv 1 AIsLoaded; HRet 1 (Some (ABool true))]).
Proof. vm_compute. reflexivity. Qed.

(** The state of [C97_refuted], and operations that change nothing for the loader that waits *)
Example C97_stuck_case : result xa_start (xa_step true false) xa_fin (init air0)
    (forget 5%Z ++ [(1, ACall AUnload); (1, stp); (1, ARet); (2, ACall AIsLoaded); (2, stp); (2, ARet)])
  = Some (AirSh None false None [3],
          [HInv 1 (ATryLoad 5%Z); HRet 1 (Some (ABool true)); HInv 2 (ALoad 5%Z); HInv 3 (ALoad 5%Z); HInv 1 AUnload; HRet 1 (Some (AVal (Some 5%Z))); HRet 2 None;
           HInv 1 AUnload; HRet 1 (Some (AVal None)); HInv 2 AIsLoaded; HRet 2 (Some (ABool false))]).
Proof. vm_compute. reflexivity. Qed.

(** Two loaders wait for a full slot (at rest); try_unload is called and wakes 2, which loads the slot; 3 still waits (at rest again). *)
Definition drain1 : list (nat * act (xch Z) (airop Z)) :=
  (1, ACall (ATryLoad 5%Z)) :: repeat (1, stp) 6 ++ [(1, ARet); (2, ACall (ALoad 6%Z))] ++ repeat (2, stp) 4 ++ [(3, ACall (ALoad 7%Z))] ++ repeat (3, stp) 4.
Definition drain2 : list (nat * act (xch Z) (airop Z)) :=
  repeat (1, stp) 5 ++ [(1, AInt (XGo (CWake 2))); (1, stp); (1, ARet)] ++ repeat (2, stp) 5 ++ [(2, ARet)].
Definition snap (x : option (cfg (airsh Z) (xapc Z) * list (hev (airop Z) (option (airret Z))))) :=
  match x with Some (c, H) => Some (sh c, map (th c) [0; 1; 2; 3; 4], H) | None => None end.
Example C98_case :
  snap (xa_run false false (init air0) drain1) = Some (AirSh None true (Some 5%Z) [3; 2], [None; None; Some (XP (AL4 6%Z)); Some (XP (AL4 7%Z)); None],
    [HInv 1 (ATryLoad 5%Z); HRet 1 (Some (ABool true)); HInv 2 (ALoad 6%Z); HInv 3 (ALoad 7%Z)]) /\
  snap (xa_run false false (init air0) (drain1 ++ (1, ACall AUnload) :: drain2)) = Some (AirSh None true (Some 6%Z) [3], [None; None; None; Some (XP (AL4 7%Z)); None],
    [HInv 1 (ATryLoad 5%Z); HRet 1 (Some (ABool true)); HInv 2 (ALoad 6%Z); HInv 3 (ALoad 7%Z); HInv 1 AUnload; HRet 1 (Some (AVal (Some 5%Z))); HRet 2 (Some AUnit)]) /\
  calls drain2 = [] /\ all_spurs drain2 = 0 /\ n_int 1 drain2 = 7 /\ woken 2 (repeat (2, stp) 4 ++ drain2) = 1 /\ n_int 2 (repeat (2, stp) 4 ++ drain2) = 9.
Proof. vm_compute. auto 10. Qed.

Print Assumptions C97_linearizable.
Print Assumptions C97_race_free.
Print Assumptions C97_unlocked.
Print Assumptions C97_no_deadlock.
Print Assumptions C97_not_forgotten_partial.
Print Assumptions C97_quiescent_partial.
Print Assumptions C97_refuted.
Print Assumptions C97_stuck.
Print Assumptions C97_lost_refuted.
Print Assumptions C98_bounded.
Print Assumptions C98_call.
Print Assumptions C98_settles.
Print Assumptions C98_drain.
