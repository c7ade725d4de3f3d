(** AirLock with the acquire loads and release stores of the code: C69 and C70 *)
From stdpp Require Import list.
From Verif Require Import Base Conc Herlihy CondVar AirModel AirSpec AirProofs AirWeak AirWeakProofs AirWeakSync.
Local Open Scope nat_scope.

Section props.
Context {V : Type}.
Implicit Types (c : cfg (wsh V) (airpc V)) (xs : list (nat * act wch (airop V))) (H : list (hev (airop V) (airret V))).

(** C69: every history is a history of an atomic slot, as with sequentially consistent memory (C52).

    Proved: whatever the threads do, the history is that of an atomic slot whose try_load and try_unload may fail for no
    reason and whose isLoaded may answer anything; so what is loaded, and what is unloaded, when and how often, is right
    ([weak_spec]).  Missing: that failures and isLoaded are right too; it is false ([C69_refuted]). *)
Theorem C69_linearizable_partial xs c H : weak_run false (init weak0) xs = Some (c, H) -> linearizable weak_spec None H.
Proof. intros Er. destruct (weak_sim _ _ _ _ Er) as (q & f & Ha & _). exists q, f. exact Ha. Qed.

Theorem C69_herlihy_wing_partial xs c H : weak_run false (init weak0) xs = Some (c, H) -> exists L q, linearization weak_spec H None L q.
Proof. intros Er. eapply linearizable_hw, C69_linearizable_partial; eassumption. Qed.

(** Proved: if before every unlocked load the thread has learnt, since the start of the call, all writes made up to then,
    then all answers are those of the atomic slot. *)
Theorem C69_synchronised_partial xs c H : weak_run true (init weak0) xs = Some (c, H) -> linearizable air_spec None H.
Proof. apply sync_sim. Qed.

(** C70: what is done under the lock does not depend on the memory model.  Loads made there return the newest value ... *)
Theorem C70_newest xs c H t pc i s' pc' : weak_run false (init weak0) xs = Some (c, H) -> th c t = Some pc -> locked_load pc = true ->
  weak_step false (sh c) t pc (WRead i) = Some (s', pc') -> S i = length (whist (sh c)).
Proof.
  intros Er Et Hl Es. destruct (weak_sim _ _ _ _ Er) as (q & f & _ & Hr).
  assert (Hd : hdoor pc = true) by (destruct pc; try discriminate; reflexivity). cbn [weak_step] in Es.
  destruct ((_ && _ || _) && _) eqn:Eo; [|discriminate]. apply andb_true_iff in Eo as [_ Hi]. apply Nat.leb_le in Hi.
  destruct (whist (sh c) !! i) as [b|] eqn:Eb; [|discriminate]. apply lookup_lt_Some in Eb.
  pose proof (v_held _ (wr_view _ _ Hr) t (lk_owner _ _ _ _ _ (a_door _ _ _ (wr_air _ _ Hr)) Et Hd)). lia.
Qed.

(** ... no two threads are about to access the data at once ... *)
Theorem C70_race_free xs c H t u pt pu : weak_run false (init weak0) xs = Some (c, H) ->
  th c t = Some pt -> th c u = Some pu -> air_acc pt = true -> air_acc pu = true -> t = u.
Proof. intros Er. destruct (weak_sim _ _ _ _ Er) as (q & f & _ & Hr). apply (air_norace _ _ _ t u pt pu (wr_air _ _ Hr)). Qed.

(** ... waiting loaders are not forgotten ... *)
Theorem C70_not_forgotten xs c H t : weak_run false (init weak0) xs = Some (c, H) -> door (wair (sh c)) = None -> last (whist (sh c)) = Some false -> weak_waits c t ->
  exists u v, th c u = Some (AL4 v) /\ ~ In u (await (wair (sh c))).
Proof.
  intros Er Ed El (v & Et & Hw). destruct (weak_sim _ _ _ _ Er) as (q & f & _ & Hr). rewrite (v_last _ (wr_view _ _ Hr)) in El. injection El as El.
  destruct (air_woken False (strong c) q (wr_air _ _ Hr) Ed El) as [[]|Hx]; [|exact Hx]. cbn. intros E. rewrite E in Hw. destruct Hw.
Qed.

Theorem C70_quiescent xs c H t : weak_run false (init weak0) xs = Some (c, H) -> th c t <> None -> (forall u, th c u <> None -> weak_waits c u) ->
  last (whist (sh c)) = Some true.
Proof.
  intros Er Ht Hall. destruct (weak_sim _ _ _ _ Er) as (q & f & _ & Hr). destruct (last (whist (sh c))) as [[]|] eqn:El; [reflexivity| |].
  - exfalso. assert (Ed : door (wair (sh c)) = None).
    { destruct (door (wair (sh c))) as [u|] eqn:Ed; [|reflexivity]. destruct (proj1 (a_door _ _ _ (wr_air _ _ Hr) u) Ed) as (pc & Eu & Hd). cbn in Eu.
      destruct (Hall u ltac:(congruence)) as (v & E & _). rewrite Eu in E. injection E as ->. discriminate. }
    destruct (C70_not_forgotten _ _ _ _ Er Ed El (Hall t Ht)) as (u & v & Eu & Hn). destruct (Hall u ltac:(congruence)) as (w & _ & Hw). contradiction.
  - rewrite (v_last _ (wr_view _ _ Hr)) in El. discriminate.
Qed.

(** ... and nothing hangs: if a thread is inside a call and does not wait, then some thread can make a step that is neither a
    spurious wakeup nor learning something. *)
Theorem C70_no_deadlock xs c H t : weak_run false (init weak0) xs = Some (c, H) -> th c t <> None -> ~ weak_waits c t -> exists u, weak_moves c u.
Proof. intros Er. destruct (weak_sim _ _ _ _ Er) as (q & f & _ & Hr). apply (weak_live _ _ _ Hr). Qed.
End props.

(** C69 is false without synchronisation outside the lock: load(5) has returned, and another thread's try_unload, called
    afterwards, still finds nothing. *)
Definition late_load : list (nat * act wch (airop Z)) :=
  [(1, ACall (ALoad 5%Z)); (1, AInt (WStep CStep)); (1, AInt (WRead 0)); (1, AInt (WStep CStep)); (1, AInt (WStep CStep)); (1, AInt (WStep CStep)); (1, ARet)].
Definition late_hist : list (hev (airop Z) (airret Z)) := [HInv 1 (ALoad 5%Z); HRet 1 AUnit; HInv 2 AUnload; HRet 2 (AVal None)].

Lemma late_not_linearizable : ~ linearizable air_spec None late_hist.
Proof.
  intros Hl. apply linearizable_hw in Hl as (L & q & [Hle Hnd Hops Hret Hord]).
  assert (R1 : ret_of late_hist 0 1 1 (ALoad 5%Z) AUnit). { split; [lia|]. split; [reflexivity|]. split; [reflexivity|]. intros k e Hk. lia. }
  assert (R2 : ret_of late_hist 2 3 2 AUnload (AVal None)). { split; [lia|]. split; [reflexivity|]. split; [reflexivity|]. intros k e Hk. lia. }
  pose proof (Hret _ _ _ _ _ R1) as I1. pose proof (Hret _ _ _ _ _ R2) as I2.
  destruct (Hord _ _ _ _ _ _ R1 I2 ltac:(cbn; lia)) as (L1 & x & L2 & y & -> & Ex & Hy & Ey). cbn in Ey.
  assert (Hidx : forall z, In z (L1 ++ x :: L2) -> z.1.1 = 0 /\ z.1.2 = ALoad 5%Z \/ z.1.1 = 2 /\ z.1.2 = AUnload).
  { intros [[i o] r] Hz. destruct (Hops _ _ _ Hz) as (t & Ht). cbn. destruct i as [|[|[|[|i]]]]; cbn in Ht; try discriminate; injection Ht as _ <-; auto. }
  assert (L1 = []) as ->.
  { destruct L1 as [|z L1]; [reflexivity|exfalso]. cbn in Hnd. apply NoDup_cons in Hnd as [Hz _]. apply Hz. apply elem_of_list_In, in_map_iff.
    destruct (Hidx z (or_introl eq_refl)) as [[E _]|[E _]]; rewrite E; [exists x; split; [exact Ex|apply in_app_iff; right; left; reflexivity]|].
    exists y. split; [exact Ey|apply in_app_iff; right; right; exact Hy]. }
  cbn [app] in *. destruct L2 as [|z L2]; [destruct Hy|].
  cbn in Hnd. apply NoDup_cons in Hnd as [Hx Hnd]. assert (Ez : z.1.1 = 2 /\ z.1.2 = AUnload).
  { destruct (Hidx z ltac:(right; left; reflexivity)) as [[E _]|H]; [|exact H]. exfalso. apply Hx. rewrite Ex, <- E. left. }
  destruct Ez as [Ez Ez']. assert (z = (2, AUnload, AVal None)) as ->.
  { destruct I2 as [E|[E|I2]]; [subst x; discriminate|exact E|]. exfalso. apply NoDup_cons in Hnd as [Hz _]. apply Hz. rewrite Ez. apply elem_of_list_In, in_map_iff. eexists. split; [|exact I2]. reflexivity. }
  assert (x = (0, ALoad 5%Z, AUnit)) as ->.
  { destruct I1 as [E|[E|I1]]; [exact E|discriminate|]. exfalso. apply Hx. rewrite Ex. right. apply elem_of_list_In, in_map_iff. eexists. split; [|exact I1]. reflexivity. }
  inversion Hle as [|? ? ? ? q1 ? ? Hs Hle']; subst. inversion Hs; subst. inversion Hle' as [|? ? ? ? q2 ? ? Hs' _]; subst. inversion Hs'.
Qed.

Theorem C69_refuted : exists xs c H, weak_run (V := Z) false (init weak0) xs = Some (c, H) /\ ~ linearizable air_spec None H.
Proof.
  exists (late_load ++ [(2, ACall AUnload); (2, AInt (WRead 0)); (2, ARet)]).
  destruct (weak_run false (init weak0) _) as [[c H]|] eqn:Er; [|vm_compute in Er; discriminate].
  exists c, H. split; [reflexivity|]. assert (H = late_hist) as ->.
  { assert (E : option_map snd (weak_run false (init weak0) (late_load ++ [(2, ACall AUnload); (2, AInt (WRead 0)); (2, ARet)])) = Some H) by (rewrite Er; reflexivity).
    vm_compute in E. injection E as <-. reflexivity. }
  apply late_not_linearizable.
Qed.

(** The same with a thread that has learnt of the load: it gets the value. *)
Example C69_told : option_map snd (weak_run (V := Z) true (init weak0)
    (late_load ++ [(2, ACall AUnload); (2, AInt (WLearn 1 1)); (2, AInt (WRead 1))] ++ repeat (2, AInt (WStep CStep)) 1 ++ [(2, AInt (WRead 1))] ++ repeat (2, AInt (WStep CStep)) 4 ++ [(2, ARet)]))
  = Some [HInv 1 (ALoad 5%Z); HRet 1 AUnit; HInv 2 AUnload; HRet 2 (AVal (Some 5%Z))].
Proof. vm_compute. reflexivity. Qed.

(** A thread that knows of the load cannot read the old value. *)
Example C69_told_old : weak_run (V := Z) true (init weak0) (late_load ++ [(2, ACall AUnload); (2, AInt (WLearn 1 1)); (2, AInt (WRead 0))]) = None.
Proof. vm_compute. reflexivity. Qed.

(** A thread synchronised at the start of its call reads a value that has become old during the call. *)
Example C69_during : option_map snd (weak_run (V := Z) true (init weak0)
    ([(2, ACall AUnload); (2, AInt (WLearn 2 0))] ++ late_load ++ [(2, AInt (WRead 0)); (2, ARet)]))
  = Some [HInv 2 AUnload; HInv 1 (ALoad 5%Z); HRet 1 AUnit; HRet 2 (AVal None)].
Proof. vm_compute. reflexivity. Qed.

(** Two loaders wait for a full slot; try_unload wakes one of them. *)
Definition weak_case : list (nat * act wch (airop Z)) :=
  late_load ++ flat_map (fun t => [(t, ACall (ALoad (Z.of_nat t))); (t, AInt (WStep CStep)); (t, AInt (WRead 1)); (t, AInt (WRead 1)); (t, AInt (WStep CStep))]) [2; 3] ++
  [(1, ACall AUnload); (1, AInt (WRead 1)); (1, AInt (WStep CStep)); (1, AInt (WRead 1)); (1, AInt (WStep CStep)); (1, AInt (WStep CStep)); (1, AInt (WStep (CWake 2))); (1, AInt (WStep CStep)); (1, ARet)].
Example C70_case : option_map (fun x => let c := fst x in (door (wair (sh c)), whist (sh c), await (wair (sh c)), th c 2, th c 3)) (weak_run (V := Z) false (init weak0) weak_case)
  = Some (None, [false; true; false], [3], Some (AL4 2%Z), Some (AL4 3%Z)).
Proof. vm_compute. reflexivity. Qed.

Print Assumptions C69_linearizable_partial.
Print Assumptions C69_herlihy_wing_partial.
Print Assumptions C69_synchronised_partial.
Print Assumptions C69_refuted.
Print Assumptions C70_newest.
Print Assumptions C70_race_free.
Print Assumptions C70_not_forgotten.
Print Assumptions C70_quiescent.
Print Assumptions C70_no_deadlock.
