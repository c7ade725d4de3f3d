(** Property C95: work executed by the WorkQueue may itself use the queue [WorkQueue.hpp 85-93, 313-336, 344-403, 467-490].  What
    is known of calls by other threads remains true, nobody gets stuck, and only closeWorkerQueue must not be called by work: it
    never returns, and the queue cannot be destroyed any more without ending the program. *)
From stdpp Require Import list.
From Verif Require Import Base Conc CondVar Herlihy Serial SqModel SqSpec SqProofs WqModel WqProofs WqCount WqMore WqBound WqLive WqSeq WqTurn WqPrio WqOpen WqDrain WqMisc WqDtor WqNest Props_Wq Props_Wq4.
Local Open Scope nat_scope.

Section props.
Variable nw : nat.
Implicit Types (f : nat -> bool) (N : ncfg) (zs : list (nat * nact)).

(** [calm]: no exception is thrown by a closeWorkerQueue that holds queueLock.  Every such execution has the same calls, returns and
    states as one in which each call is made by a thread of its own. *)
Theorem C95_same_partial f zs N H : nrun nw (ninit nw f) zs = Some (N, H) -> calm nw (ninit nw f) zs ->
  exists xs, wq_run nw (wq_init nw f) xs = Some (fl N, H) /\ calls xs = ncalls zs.
Proof. intros Er Hc. destruct (nrun_flat nw zs _ _ _ Hc Er) as (xs & E1 & E2 & _). eauto. Qed.
(** That is so if only threads outside close the queue, and as long as the queue is open. *)
Theorem C95_calm f zs N H : nrun nw (ninit nw f) zs = Some (N, H) -> outside_close nw f zs \/ halt (sh (fl N)) = false -> calm nw (ninit nw f) zs.
Proof.
  intros Er [Ho|Hh]; [destruct (outside_run nw f zs N H Ho Er) as (_ & E & _); exact E|]. exact (proj1 (open_calm nw zs (ninit nw f) _ _ (openI_init nw f) Er Hh)).
Qed.
(** A block submitted once, by whomever, is executed at most once. *)
Theorem C95_once f zs N H b : nrun nw (ninit nw f) zs = Some (N, H) -> calm nw (ninit nw f) zs -> submitted b H <= 1 -> rcount b (sh (fl N)) <= 1.
Proof.
  intros Er Hc Hs. destruct (C95_same_partial f zs N H Er Hc) as (xs & Ex & _). set (n := S (list_max (map fst xs))).
  assert (Hon : onn n xs).
  { apply Forall_forall. intros x Hx'. apply elem_of_list_In in Hx'. apply (in_map fst) in Hx'. pose proof (proj1 (list_max_le (map fst xs) (list_max (map fst xs))) (le_n _)) as HM.
    eapply List.Forall_forall in HM; [|exact Hx']. unfold n. lia. }
  pose proof (C56_accounting nw f n xs _ _ b Hon Ex) as Ea. pose proof (runs_run b nw n _ _ _ _ Hon Ex (proj2 (everything_init b nw n f))) as Hr. unfold runs_bound in Hr. lia.
Qed.

(** The queue is open: a thread that is inside it and not asleep is not stuck; either it or another thread can step. *)
Theorem C95_open f zs N H t p l pc : 0 < nw -> nrun nw (ninit nw f) zs = Some (N, H) -> halt (sh (fl N)) = false -> stk N t = p :: l -> th (fl N) p = Some pc ->
  ~ asleep (sh (fl N)) p pc -> ngo nw N.
Proof.
  intros Hn Er Hh Et Ep Ha. eapply nest_open; [exact Er|exact Hh|exact Et|exact Ep| |exact Ha]. intros xs ->.
  destruct (C95_same_partial f zs N H Er (C95_calm f zs N H Er (or_intror Hh))) as (ys & Ey & _). pose proof (direct_run nw f ys _ _ Hn Ey _ _ Ep). discriminate.
Qed.
(** When no thread can step, all work that was begun has ended: all workers are asleep in their loop and nobody is in a call. *)
Theorem C95_rest f zs N H : 0 < nw -> nrun nw (ninit nw f) zs = Some (N, H) -> halt (sh (fl N)) = false -> ~ ngo nw N ->
  quiet nw (fl N) /\ (forall w, w < nw -> stk N w = [w]) /\ forall t, nw <= t -> stk N t = [].
Proof.
  intros Hn Er Hh Hg. pose proof (baseI_run nw _ _ _ _ Er) as Hb. pose proof (bi_nest _ _ Hb) as Hi.
  destruct (C95_same_partial f zs N H Er (C95_calm f zs N H Er (or_intror Hh))) as (ys & Ey & _). pose proof (openI_run nw _ _ _ _ (openI_init nw f) Ey) as Ho.
  assert (Ht : forall t p l, stk N t = p :: l -> t < nw /\ p = t /\ l = [] /\ exists pc, th (fl N) t = Some pc /\ asleep (sh (fl N)) t pc).
  { intros t p l Et. destruct (th (fl N) p) as [pc|] eqn:Ep; [|exfalso; eapply (ni_in _ _ Hi t p); [rewrite Et; left; reflexivity|exact Ep]].
    assert (Ha : asleep (sh (fl N)) p pc).
    { assert (Hd : asleep (sh (fl N)) p pc \/ ~ asleep (sh (fl N)) p pc) by (unfold asleep; destruct pc; try (right; intros [? _]; discriminate); destruct (inb p (waits (sh (fl N)))); [left; auto|right; intros [_ ?]; discriminate]).
      destruct Hd as [Hd|Hd]; [exact Hd|]. exfalso. apply Hg. exact (C95_open f zs N H t p l pc Hn Er Hh Et Ep Hd). }
    assert (Hp : p < nw). { destruct (le_lt_dec nw p) as [Hge|]; [exfalso|assumption]. pose proof (op_user _ _ Ho Hh _ _ Hge Ep) as E. destruct Ha as [-> _]. discriminate. }
    destruct (ni_base _ _ Hi p Hp) as (l' & El). assert (p = t) as -> by (eapply (ni_one _ _ Hi); [rewrite El; apply in_app_iff; right; left; reflexivity|rewrite Et; left; reflexivity]).
    splits; [exact Hp| |eauto]. rewrite Et in El. destruct l' as [|q l']; cbn in El; [injection El as ->; reflexivity|]. injection El as <- ->. pose proof (ni_dup _ _ Hi t) as Hd. rewrite Et in Hd. apply NoDup_cons_1_1 in Hd.
    exfalso. apply Hd, elem_of_list_In, in_app_iff. right. left. reflexivity. }
  splits.
  - split.
    + intros w Hw. destruct (ni_base _ _ Hi w Hw) as (l & El). destruct l as [|q l]; cbn in El; destruct (Ht _ _ _ El) as (_ & _ & _ & E); exact E.
    + intros t Hge. destruct (th (fl N) t) as [pc|] eqn:Et; [exfalso|reflexivity]. destruct (ni_ex _ _ Hi t) as [(v & Hv)|(k & Ek)]; [congruence| |].
      * destruct (stk N v) as [|p l] eqn:Ev; [destruct Hv|]. destruct (Ht _ _ _ Ev) as (Hlt & -> & -> & _). destruct Hv as [->|[]]. lia.
      * pose proof (op_late _ _ Ho Hh _ _ Ek). discriminate.
  - intros w Hw. destruct (ni_base _ _ Hi w Hw) as (l & El). destruct l as [|q l]; cbn in El; [exact El|]. destruct (Ht _ _ _ El) as (_ & _ & E & _). destruct l; discriminate.
  - intros t Hge. destruct (stk N t) as [|p l] eqn:Et; [reflexivity|]. destruct (Ht _ _ _ Et) as (Hlt & _). lia.
Qed.

(** The queue is being closed, or was closed, by threads outside, one after the other: no thread that is inside is stuck. *)
Theorem C95_closing_partial f zs N H t p l pc : nrun nw (ninit nw f) zs = Some (N, H) -> outside_close nw f zs -> no_overlap H -> halt (sh (fl N)) = true ->
  stk N t = p :: l -> th (fl N) p = Some pc -> ~ dead pc -> ngo nw N.
Proof. apply nest_closing. Qed.

(** Without new calls only boundedly many steps are made, apart from those after timeouts if the queue is open. *)
Theorem C95_bounded_closing f zs N H : nrun nw (ninit nw f) zs = Some (N, H) -> outside_close nw f zs -> halt (sh (fl N)) = true ->
  exists B, forall zs' N' H', nrun nw N zs' = Some (N', H') -> ncalls zs' = [] -> length zs' <= B.
Proof.
  intros Er Ho Hh. destruct (above_reach nw f zs N H Er) as (n & Hn). destruct (outside_run nw f zs N H Ho Er) as (_ & Hc & _). destruct (C95_same_partial f zs N H Er Hc) as (xs & Ex & _).
  destruct (C57_all_bound nw f (fl N) H n) as [B HB]; [exists xs; auto|]. exists B. intros zs' N' H' Er' Hc'.
  assert (Er2 : nrun nw (ninit nw f) (zs ++ zs') = Some (N', H ++ H')) by (rewrite nrun_app, Er, Er'; reflexivity).
  destruct (outside_run nw f _ _ _ (outside_app nw f _ _ Ho Hc') Er2) as (_ & Hca & Hf). apply Forall_app in Hf as [_ Hf].
  assert (Hcal : calm nw N zs').
  { clear - Hca Er. revert Hca Er. generalize (ninit nw f). revert H. induction zs as [|y zs IH]; intros H N0 J E; cbn [app calm nrun] in *; [injection E as <- _; exact J|].
    destruct (nexec nw N0 y) as [[N1 e]|] eqn:Ex; [|discriminate]. destruct (nrun nw N1 zs) as [[N2 H2]|] eqn:E2; [|discriminate]. injection E as <- _. eapply IH; [eapply J; reflexivity|exact E2]. }
  destruct (nrun_flat nw zs' N N' H' Hcal Er') as (ys & Ey & Ec & El & _). rewrite Hc' in Ec. rewrite <- (El Hf). eapply HB; [|exact Ec|exact Ey]. exact (proj1 (above_run nw ys _ _ _ n Ey Ec Hn)).
Qed.
Lemma no_wakes t (ys : list (nat * act cvc wqop)) : Forall (fun y => snd y <> AInt CTime /\ snd y <> AInt CSpur) ys -> wakes t ys = 0.
Proof.
  induction ys as [|[u a] ys IH]; intros Hf; [reflexivity|]. inversion Hf as [|? ? [H1 H2] H3]; subst. cbn in *. destruct a as [o|k|]; auto. rewrite IH by assumption. destruct (Nat.eqb u t); [|reflexivity].
  destruct k; cbn; congruence.
Qed.
Theorem C95_bounded_open f zs N H : nrun nw (ninit nw f) zs = Some (N, H) ->
  exists B, forall zs' N' H', nrun nw N zs' = Some (N', H') -> ncalls zs' = [] -> Forall (fun x => snd x <> NInt CTime /\ snd x <> NInt CSpur) zs' -> halt (sh (fl N')) = false -> length zs' <= B.
Proof.
  intros Er. destruct (above_reach nw f zs N H Er) as (n & Hn).
  destruct (halt (sh (fl N))) eqn:Hh. { exists 0. intros zs' N' H' Er' _ _ Hh'. pose proof (halt_nrun nw _ _ _ _ Er' Hh'). congruence. }
  destruct (C95_same_partial f zs N H Er (C95_calm f zs N H Er (or_intror Hh))) as (xs & Ex & _). pose proof (openI_run nw _ _ _ _ (openI_init nw f) Ex) as Ho.
  destruct (C64_bounded nw f n xs (fl N) H Ex) as [B HB]. exists (tsum n (fun _ => B) + tsum n (fun t => opt (fun _ => 1) (th (fl N) t))). intros zs' N' H' Er' Hc Hf Hh'.
  destruct (open_calm nw zs' N N' H' Ho Er' Hh') as [J1 J2]. destruct (nrun_flat nw zs' N N' H' J1 Er') as (ys & Ey & Ec & El & Ew). rewrite Hc in Ec. rewrite <- (El J2). specialize (Ew Hf).
  pose proof (proj1 (above_run nw ys _ _ _ n Ey Ec Hn)) as Hon. rewrite (len_sum n ys Hon Ec). pose proof (rets_sum nw n ys _ _ _ Hon Ec Ey) as Hr.
  enough (tsum n (fun t => n_int t ys) <= tsum n (fun _ => B)) by lia. apply tsum_le. intros t Ht. pose proof (HB ys _ _ t Ec Hon Ey Hh' Ht) as Hb. rewrite (no_wakes t ys Ew) in Hb. lia.
Qed.

(** closeWorkerQueue called by the work of worker [w]: the call never returns; [w] is still in it, or it has been ended by the
    exception of the join of [w] by itself. *)
Theorem C95_self_close f z1 w q z2 N H N' e N2 H2 : w < nw -> nrun nw (ninit nw f) z1 = Some (N, H) -> nexec nw N (w, NCall q OClose) = Some (N', e) -> nrun nw N' z2 = Some (N2, H2) ->
  (forall r, ~ In (HRet q r) (e ++ H2)) /\ ((exists l, stk N2 w = q :: l) \/ forall t, ~ In q (stk N2 t)).
Proof.
  intros Hw Er Ex Er2. pose proof (baseI_run nw _ _ _ _ Er) as Hb. destruct (self_start nw _ _ _ _ _ Hw Hb Ex) as [Hs He]. destruct (self_run nw w q z2 Hw _ _ _ (baseI_exec nw _ _ _ _ Hb Ex) Hs Er2) as [(pc & _ & _ & Hs2) H2e]. split.
  - intros r E. apply in_app_iff in E as [E|E]; [exact (He _ E)|exact (H2e _ E)].
  - destruct Hs2 as [(l & E & _)|E]; eauto.
Qed.
(** If only work closes the queue, the last worker is never joined: destroying the queue ends the program ([terminates]), also where the
    destructor sees [halt] and does not close it again. *)
Theorem C95_last_worker f zs N H : 0 < nw -> nrun nw (ninit nw f) zs = Some (N, H) -> by_workers nw zs -> inb (nw - 1) (joined (sh (fl N))) = false /\ terminates nw (sh (fl N)).
Proof.
  intros Hn Er Hz. pose proof (on_last _ _ (only_run nw f zs Hn Hz N H Er)) as E. split; [exact E|]. exists (nw - 1). split; [lia|exact E].
Qed.
End props.
Print Assumptions C95_same_partial.
Print Assumptions C95_calm.
Print Assumptions C95_once.
Print Assumptions C95_open.
Print Assumptions C95_rest.
Print Assumptions C95_closing_partial.
Print Assumptions C95_bounded_closing.
Print Assumptions C95_bounded_open.
Print Assumptions C95_self_close.
Print Assumptions C95_last_worker.

Definition nints (t n : nat) : list (nat * nact) := repeat (t, NInt CStep) n.
Definition ncall (t u : nat) (o : wqop) (n : nat) : list (nat * nact) := (t, NCall u o) :: nints t n ++ [(t, NRet)].

(** One worker; user 1 submits block 7, the worker executes it, and its work submits block 8 (the call 6).  The work ends, the worker
    executes block 8 and goes to sleep. *)
Definition at_work : list (nat * nact) := ncall 1 5 (OAdd (Some (BWork 7)) PMed) 17 ++ nints 0 29.
Example C95_add_case : exists N H, nrun 1 (ninit 1 no_fin) (at_work ++ ncall 0 6 (OAdd (Some (BWork 8)) PMed) 17 ++ nints 0 40) = Some (N, H) /\
  halt (sh (fl N)) = false /\ ran (sh (fl N)) = [7; 8] /\ submitted 8 H = 1 /\ th (fl N) 0 = Some W4 /\ stk N 0 = [0] /\ stk N 1 = [] /\ waits (sh (fl N)) = [0].
Proof. eexists _, _. split; [vm_compute; reflexivity|]. splits. Qed.
(** In the middle of it. *)
Example C95_inside_case : exists N H, nrun 1 (ninit 1 no_fin) (at_work ++ (0, NCall 6 (OAdd (Some (BWork 8)) PMed)) :: nints 0 14) = Some (N, H) /\
  halt (sh (fl N)) = false /\ stk N 0 = [6; 0] /\ th (fl N) 0 = Some (X2 7 XWork) /\ ngo 1 N.
Proof.
  eexists _, _. split; [vm_compute; reflexivity|]. splits. exists 0, (NInt CStep). eexists _, _. split; [intros k [= <-]; split; discriminate|]. split; [discriminate|]. vm_compute. reflexivity.
Qed.
(** User 1 closes the queue (the call 9) while the work of block 7 is running, and waits for the worker; the work then adds block 8. *)
Example C95_closing_case : exists N H, nrun 1 (ninit 1 no_fin) (at_work ++ (1, NCall 9 OClose) :: nints 1 46 ++ (0, NCall 6 (OAdd (Some (BWork 8)) PMed)) :: nints 0 5) = Some (N, H) /\
  halt (sh (fl N)) = true /\ stk N 1 = [9] /\ th (fl N) 9 = Some (CJ 0 false) /\ stk N 0 = [6; 0] /\ no_overlap H /\
  outside_close 1 no_fin (at_work ++ (1, NCall 9 OClose) :: nints 1 46 ++ (0, NCall 6 (OAdd (Some (BWork 8)) PMed)) :: nints 0 5).
Proof.
  eexists _, _. split; [vm_compute; reflexivity|]. splits.
  - intros i j t u Hij Ei Ej. destruct i as [|[|[|[|i]]]]; cbn in Ei; try discriminate; destruct j as [|[|[|[|j]]]]; cbn in Ej; try discriminate; lia.
  - apply outb_ok. vm_compute. reflexivity.
Qed.
(** The work of block 7 closes the queue (the call 6) and comes to join its own thread; the join throws.  The worker then ends.  [halt] is
    set, so the destructor does not close the queue; the thread was not joined, so its destructor ends the program.  *)
Definition closed_inside : list (nat * nact) := at_work ++ (0, NCall 6 OClose) :: nints 0 46 ++ [(0, NExc)] ++ nints 0 25.
Theorem C95_refuted : exists N H, nrun 1 (ninit 1 no_fin) closed_inside = Some (N, H) /\ calm 1 (ninit 1 no_fin) closed_inside /\ by_workers 1 closed_inside /\
  (forall r, ~ In (HRet 6 r) H) /\ stk N 0 = [0] /\ th (fl N) 0 = Some WE /\ (forall t, 1 <= t -> stk N t = []) /\
  dtor_calls (sh (fl N)) = None /\ terminates 1 (sh (fl N)).
Proof.
  eexists _, _. split; [vm_compute; reflexivity|]. split; [apply calmb_ok; vm_compute; reflexivity|]. split.
  - intros t u Hin. destruct t as [|t]; [lia|exfalso]. unfold closed_inside in Hin. apply in_app_iff in Hin as [Hin|[Hin|Hin]]; [vm_compute in Hin; repeat (destruct Hin as [Hin|Hin]; [congruence|]); destruct Hin|congruence|].
    apply in_app_iff in Hin as [Hin|[Hin|Hin]]; [apply repeat_spec in Hin; discriminate|discriminate|apply repeat_spec in Hin; discriminate].
  - splits.
    + intros r Hin. cbn in Hin. repeat (destruct Hin as [Hin|Hin]; [discriminate|]). destruct Hin.
    + intros [|[|t]] Ht; [lia|reflexivity|reflexivity].
    + exists 0. split; [lia|reflexivity].
Qed.
Print Assumptions C95_refuted.
