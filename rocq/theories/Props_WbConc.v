(** Properties C90 and C91: one WorkBlock and several threads [WorkQueue.hpp 59-139].

    C90, full statement: while a WorkQueue works on a WorkBlock, other threads may ask isFinished(), wait() for it, take futures
    from it and, after wait() has returned, reset() it and hand it in again: no data race, isFinished() is true once wait() has
    returned, and each work handed in after a reset() is run.  False: [finished] is a plain bool that execute() writes after
    the future has become ready, so isFinished() races with it ([C90_race_refuted]), may be false after wait() has returned
    ([C90_finished_refuted]), and a reset() after wait() may be undone, upon which the work is lost and the next wait() never
    returns ([C90_reuse_refuted]).  True for wait() and futures only ([C90_wait_partial]).

    C91: if no call overlaps a call that changes what it uses ([calm]), the block behaves as its ideal. *)
From stdpp Require Import list.
From Verif Require Import Base Conc Herlihy WbModel WbConc WbConcProofs.
Local Open Scope nat_scope.

(** Every calm execution is linearizable: the calls can be put in an order, compatible with real time, in which each returns
    what the ideal block says; the ideal block at the end holds what the shared states hold. *)
Theorem C91_linearizable : forall f xs c H, calm (init (wc0 f)) xs -> c_run (init (wc0 f)) xs = Some (c, H) ->
  exists L, linearization c_spec H [(f, FWait)] L (map (fun x => (fwork x, fstat_ x)) (st (sh c))).
Proof.
  intros f xs c H Hc Er. destruct (wc_all f xs c H Hc Er) as (q & g & Ha & HR & _). destruct (atomic_hw _ _ _ _ _ Ha) as (L & HL & _).
  exists L. rewrite <- (r_q _ _ HR) in HL. exact HL.
Qed.
Print Assumptions C91_linearizable.

(** A calm execution has no data race. *)
Theorem C91_race_free : forall f xs c H, calm (init (wc0 f)) xs -> c_run (init (wc0 f)) xs = Some (c, H) -> ~ race c.
Proof. intros f xs c H Hc Er. destruct (wc_all f xs c H Hc Er) as (q & g & _ & HR & _). eapply cR_norace. exact HR. Qed.
Print Assumptions C91_race_free.

(** No work runs twice for one future, and a future has a result exactly when its work has run to its end. *)
Theorem C91_once : forall f xs c H, calm (init (wc0 f)) xs -> c_run (init (wc0 f)) xs = Some (c, H) ->
  NoDup (rn (sh c)) /\ forall i, i ∈ rn (sh c) <-> exists x g, st (sh c) !! i = Some x /\ fstat_ x = FDone g.
Proof. intros f xs c H Hc Er. destruct (wc_all f xs c H Hc Er) as (q & g & _ & _ & Ho). exact Ho. Qed.
Print Assumptions C91_once.

(** Nobody is stuck: a thread inside an operation can step, unless it waits for a future whose work has not run. *)
Theorem C91_progress : forall f xs c H t pc, calm (init (wc0 f)) xs -> c_run (init (wc0 f)) xs = Some (c, H) -> th c t = Some pc ->
  can_step c_start c_step c_fin c t \/ exists i, (pc = W2 (Some i) \/ pc = H1 i) /\ ready (st (sh c)) i = None.
Proof. intros f xs c H t pc Hc Er Ht. destruct (wc_all f xs c H Hc Er) as (q & g & _ & HR & _). eapply cR_progress; eauto. Qed.
Print Assumptions C91_progress.

(** One thread [w] calls execute() as often as it likes, all others only wait(), getReturnVal(), get_future() and use futures. *)
Theorem C90_wait_partial : forall f w xs c H, one_worker w xs -> c_run (init (wc0 f)) xs = Some (c, H) ->
  ~ race c /\ NoDup (rn (sh c)) /\ exists L, linearization c_spec H [(f, FWait)] L (map (fun x => (fwork x, fstat_ x)) (st (sh c))).
Proof.
  intros f w xs c H Hx Er. assert (Hc : calm (init (wc0 f)) xs) by (eapply one_worker_calm; [exact Hx|discriminate]).
  split; [eapply C91_race_free; eauto|]. split; [eapply C91_once; eauto|eapply C91_linearizable; eauto].
Qed.
Print Assumptions C90_wait_partial.

Definition sched_exec : list (nat * @act unit cop) := (0, ACall CExec) :: repeat (0, AInt tt) 4.
Definition sched_wait : list (nat * @act unit cop) := [(1, ACall CWait); (1, AInt tt); (1, AInt tt); (1, ARet)].

Lemma run_hist s xs H : option_map snd (c_run (init s) xs) = Some H -> exists c, c_run (init s) xs = Some (c, H).
Proof. destruct (c_run (init s) xs) as [[c H']|]; [|discriminate]. intros [= ->]. eauto. Qed.

(** isFinished() while execute() is in its last line: a data race.  No reset() is needed for it. *)
Theorem C90_race_refuted : forall f, exists xs c H, c_run (init (wc0 f)) xs = Some (c, H) /\ (forall t o, (t, ACall o) ∈ xs -> (t, o) = (0, CExec) \/ (t, o) = (1, CFin)) /\ race c.
Proof.
  intros f. exists (sched_exec ++ [(1, ACall CFin)]). eexists _, _. split; [reflexivity|]. split.
  - intros t o Hi. cbn in Hi. repeat (apply elem_of_cons in Hi as [Hi|Hi]; [try discriminate; injection Hi as -> ->; auto|]). inversion Hi.
  - exists 0, 1, X5, F1, MFin, true, false. cbn. splits; try reflexivity; [discriminate|left|left].
Qed.
Print Assumptions C90_race_refuted.

(** wait() has returned with the result, and isFinished() says false. *)
Theorem C90_finished_refuted : forall f, exists xs c, c_run (init (wc0 f)) xs = Some (c, [HInv 0 CExec; HInv 1 CWait; HRet 1 (CVal f); HInv 1 CFin; HRet 1 (CBool false)]).
Proof.
  intros f. exists (sched_exec ++ sched_wait ++ [(1, ACall CFin); (1, AInt tt); (1, ARet)]). apply run_hist. vm_compute. reflexivity.
Qed.
Print Assumptions C90_finished_refuted.

Definition sched_reuse : list (nat * @act unit cop) := sched_exec ++ sched_wait ++ (1, ACall CReset) :: repeat (1, AInt tt) 3 ++
  [(1, ARet); (0, AInt tt); (0, ARet); (0, ACall CExec); (0, AInt tt); (0, ARet); (1, ACall CWait); (1, AInt tt)].
(** wait() has returned with the result, the block is reset and handed in again, and execute() is called again: it does not
    run the work, and the second wait() never returns, however the execution goes on (short of another reset()). *)
Theorem C90_reuse_refuted : forall f, exists xs c,
  c_run (init (wc0 f)) xs = Some (c, [HInv 0 CExec; HInv 1 CWait; HRet 1 (CVal f); HInv 1 CReset; HRet 1 CUnit; HRet 0 CUnit; HInv 0 CExec; HRet 0 CUnit; HInv 1 CWait]) /\
  forall ys c' H', (forall t o, (t, ACall o) ∈ ys -> match o with CReset | CUpd _ => False | _ => True end) -> c_run c ys = Some (c', H') ->
    rn (sh c') = [0] /\ forall r, HRet 1 r ∉ H'.
Proof.
  intros f. exists sched_reuse.
  assert (V : forall t, option_map (fun x => (sh x.1, th x.1 0, th x.1 1, th x.1 (S (S t)), x.2)) (c_run (init (wc0 f)) sched_reuse) =
    Some (Wc [FS f (FDone f) true; FS f FWait true] (WB (Some 1) (Some 1) true true) [0] [0], None, Some (W2 (Some 1)), None,
      [HInv 0 CExec; HInv 1 CWait; HRet 1 (CVal f); HInv 1 CReset; HRet 1 CUnit; HRet 0 CUnit; HInv 0 CExec; HRet 0 CUnit; HInv 1 CWait]))
    by (intros t; vm_compute; reflexivity).
  destruct (c_run (init (wc0 f)) sched_reuse) as [[c0 H0]|]; [|discriminate (V 0)]. cbn in V.
  pose proof (V 0) as V0. injection V0 as Vs V1 V2 _ ->. exists c0. split; [reflexivity|].
  assert (L : lost (sh c0)) by (rewrite Vs; split; [reflexivity|split; reflexivity]).
  assert (Q : forall t pc, th c0 t = Some pc -> quiet_pc pc = true).
  { intros [|[|t]] pc; [congruence|rewrite V2; intros [= <-]; reflexivity|]. specialize (V t). intros E. rewrite E in V. discriminate. }
  assert (Rn : rn (sh c0) = [0]) by (rewrite Vs; reflexivity). rename V2 into U. clear V Vs V1.
  intros ys c' H' Hy Er. assert (Hy' : forall t o, (t, ACall o) ∈ ys -> quiet_op o = true) by (intros t o Hi; specialize (Hy t o Hi); destruct o; auto; contradiction).
  destruct (lost_stays ys c0 c' H' 1 L Q U Hy' Er) as [E _]. split; [rewrite E; exact Rn|].
  intros r Hr. clear E Hy.
  assert (G : forall ys c c' H, lost (sh c) -> (forall t pc, th c t = Some pc -> quiet_pc pc = true) -> th c 1 = Some (W2 (Some 1)) ->
    (forall t o, (t, ACall o) ∈ ys -> quiet_op o = true) -> c_run c ys = Some (c', H) -> HRet 1 r ∉ H).
  { clear. induction ys as [|[t a] ys IH] using rev_ind; intros c c' H L Q U Hy Er; [injection Er as _ <-; intros Hi; inversion Hi|].
    rewrite run_app in Er. destruct (c_run c ys) as [[c1 H1]|] eqn:E1; [|discriminate].
    assert (Hy1 : forall t o, (t, ACall o) ∈ ys -> quiet_op o = true) by (intros t' o Hi; eapply Hy; apply elem_of_app; left; exact Hi).
    destruct (lost_stays ys c c1 H1 1 L Q U Hy1 E1) as [_ U1]. specialize (IH c c1 H1 L Q U Hy1 E1).
    cbn [run] in Er. destruct (c_exec c1 (t, a)) as [[c2 e]|] eqn:E2; [|discriminate]. injection Er as _ <-.
    rewrite app_nil_r. intros [Hi|Hi]%elem_of_app; [contradiction|]. cbn in E2. destruct a as [o|k|].
    - destruct (th c1 t); [discriminate|]. injection E2 as _ <-. apply elem_of_list_singleton in Hi. discriminate.
    - destruct (th c1 t); [|discriminate]. destruct (c_step (sh c1) t c0 k) as [[??]|]; [|discriminate]. injection E2 as _ <-. inversion Hi.
    - destruct (th c1 t) eqn:Et; [|discriminate]. destruct (c_fin c0) eqn:Ef; [|discriminate]. injection E2 as _ <-. apply elem_of_list_singleton in Hi. injection Hi as <- _.
      rewrite U1 in Et. injection Et as <-. discriminate. }
  eapply G; eauto.
Qed.
Print Assumptions C90_reuse_refuted.

(** The second wait of that execution is indeed under way, and a worker that could run the work may come and go: *)
Example C90_reuse_goes_on : let ys := [(0, ACall CExec); (2, ACall CFin); (2, AInt tt); (2, ARet); (0, AInt tt); (0, ARet)] in
  option_map (fun x => (th x.1 1, x.2)) (c_run (init (wc0 7)) (sched_reuse ++ ys)) = Some (Some (W2 (Some 1)),
    [HInv 0 CExec; HInv 1 CWait; HRet 1 (CVal 7); HInv 1 CReset; HRet 1 CUnit; HRet 0 CUnit; HInv 0 CExec; HRet 0 CUnit; HInv 1 CWait] ++
    [HInv 0 CExec; HInv 2 CFin; HRet 2 (CBool true); HRet 0 CUnit]).
Proof. vm_compute. reflexivity. Qed.

(** A calm execution with overlapping waits, futures, a reset() and an exchange of the work function: *)
Definition calm_sched : list (nat * @act unit cop) :=
  [(1, ACall CWait); (1, AInt tt); (2, ACall CFut); (2, AInt tt); (2, ARet); (2, ACall (CGet 0))] ++
  sched_exec ++ [(1, AInt tt); (1, ARet); (0, AInt tt); (0, ARet); (3, ACall CReset); (3, AInt tt); (2, AInt tt); (2, ARet); (3, AInt tt); (3, AInt tt); (3, ARet);
    (2, ACall CFin); (2, AInt tt); (2, ARet); (3, ACall (CUpd 9)); (3, AInt tt); (3, AInt tt); (3, AInt tt); (3, AInt tt); (3, AInt tt); (3, ARet);
    (2, ACall (CGet 1)); (2, AInt tt); (2, ARet); (1, ACall CWait); (1, AInt tt)] ++ sched_exec ++ [(1, AInt tt); (1, ARet); (0, AInt tt); (0, ARet); (2, ACall CFin); (2, AInt tt); (2, ARet)].
(** [calm] can be decided by running the schedule. *)
Fixpoint calmb (c : ccfg) (xs : list (nat * @act unit cop)) (n : nat) : bool :=
  match xs with
  | [] => true
  | (t, a) :: xs' => match c_exec c (t, a) with
      | Some (c', _) => match a with ACall o => forallb (fun u => match th c u with Some pc => compat o (op_of pc) | None => true end) (seq 0 n) | _ => true end && calmb c' xs' n
      | None => true
      end
  end.
Lemma calmb_calm n xs : forall c, (forall t, n <= t -> th c t = None) -> (forall t a, (t, a) ∈ xs -> t < n) -> calmb c xs n = true -> calm c xs.
Proof.
  induction xs as [|[t a] xs IH]; intros c Hn Hx Hb; [exact I|]. cbn [calm]. intros c' e E. cbn [calmb] in Hb. rewrite E in Hb. apply andb_true_iff in Hb as [Ha Hb]. split.
  - intros o -> u pc Hu. destruct (Nat.lt_ge_cases u n) as [Hl|Hl]; [|rewrite (Hn u Hl) in Hu; discriminate].
    rewrite forallb_forall in Ha. specialize (Ha u). rewrite Hu in Ha. apply Ha. apply in_seq. lia.
  - apply IH; [|intros u b Hu; eapply Hx; right; exact Hu|exact Hb]. pose proof (Hx t a (elem_of_list_here _ _)) as Ht. intros u Hu. specialize (Hn u Hu).
    cbn in E. destruct a as [o|k|]; destruct (th c t); try discriminate.
    + injection E as <- _. cbn [th]. unfold fupd. destruct (Nat.eqb_spec u t); [lia|exact Hn].
    + destruct (c_step (sh c) t c0 k) as [[s' p']|]; [|discriminate]. injection E as <- _. cbn [th]. unfold fupd. destruct (Nat.eqb_spec u t); [lia|exact Hn].
    + destruct (c_fin c0); [|discriminate]. injection E as <- _. cbn [th]. unfold fupd. destruct (Nat.eqb_spec u t); [lia|exact Hn].
Qed.
Example C91_case : exists c, calm (init (wc0 7)) calm_sched /\ c_run (init (wc0 7)) calm_sched = Some (c,
    [HInv 1 CWait; HInv 2 CFut; HRet 2 (CFuture (Some 0)); HInv 2 (CGet 0); HInv 0 CExec; HRet 1 (CVal 7); HRet 0 CUnit; HInv 3 CReset; HRet 2 (CVal 7); HRet 3 CUnit;
     HInv 2 CFin; HRet 2 (CBool false); HInv 3 (CUpd 9); HRet 3 CUnit; HInv 2 (CGet 1); HRet 2 CBroken; HInv 1 CWait; HInv 0 CExec; HRet 1 (CVal 9); HRet 0 CUnit;
     HInv 2 CFin; HRet 2 (CBool true)]) /\ rn (sh c) = [0; 2].
Proof.
  assert (V : option_map (fun x => (rn (sh x.1), x.2)) (c_run (init (wc0 7)) calm_sched) = Some ([0; 2],
    [HInv 1 CWait; HInv 2 CFut; HRet 2 (CFuture (Some 0)); HInv 2 (CGet 0); HInv 0 CExec; HRet 1 (CVal 7); HRet 0 CUnit; HInv 3 CReset; HRet 2 (CVal 7); HRet 3 CUnit;
     HInv 2 CFin; HRet 2 (CBool false); HInv 3 (CUpd 9); HRet 3 CUnit; HInv 2 (CGet 1); HRet 2 CBroken; HInv 1 CWait; HInv 0 CExec; HRet 1 (CVal 9); HRet 0 CUnit;
     HInv 2 CFin; HRet 2 (CBool true)])) by (vm_compute; reflexivity).
  assert (C : calm (init (wc0 7)) calm_sched).
  { apply (calmb_calm 4); [reflexivity| |vm_compute; reflexivity]. assert (F : Forall (fun x : nat * @act unit cop => x.1 < 4) calm_sched) by (unfold calm_sched, sched_exec; cbn [app repeat]; repeat constructor; cbn; lia).
    intros t a Hi. rewrite Forall_forall in F. exact (F _ Hi). }
  destruct (c_run (init (wc0 7)) calm_sched) as [[c H]|]; [|discriminate]. cbn in V. injection V as V ->. exists c. auto.
Qed.
Example C90_wait_nonvacuous : exists xs c, one_worker 0 xs /\ c_run (init (wc0 7)) xs = Some (c, [HInv 1 CWait; HInv 0 CExec; HRet 1 (CVal 7); HRet 0 CUnit]).
Proof.
  exists ((1, ACall CWait) :: sched_exec ++ [(1, AInt tt); (1, AInt tt); (1, ARet); (0, AInt tt); (0, ARet)]).
  match goal with |- exists c, _ /\ c_run ?i ?xs = Some (_, ?H) => assert (E : exists c, c_run i xs = Some (c, H)) by (apply run_hist; vm_compute; reflexivity) end.
  destruct E as [c E]. exists c. split; [|exact E].
  intros t o Hi. cbn in Hi. repeat (apply elem_of_cons in Hi as [Hi|Hi]; [try discriminate; injection Hi as -> ->; auto|]). inversion Hi.
Qed.
