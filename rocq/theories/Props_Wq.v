(** WorkQueue: C56, C57 *)
From stdpp Require Import list.
From Verif Require Import Base Conc CondVar Herlihy SqModel SqSpec SqProofs WqModel WqProofs WqCount WqMore WqBound WqLive.
Local Open Scope nat_scope.

Section props.
Variable nw : nat.
Notation wqcfg := (cfg wqsh wqpc).
Implicit Types (s : wqsh) (c : wqcfg) (xs : list (nat * act cvc wqop)) (H : list (hev wqop wqret)) (f : nat -> bool).

(** ** C56 *)
(** [submitted b H]: how often block [b] was given to addWorkBlock.  Every time is accounted for: still in addWorkBlock,
    in a queue, popped by a getWorkBlock that has not returned yet, handed out, thrown away by closeWorkerQueue, or not accepted
    because the block was finished. *)
Theorem C56_accounting f n xs c H b : onn n xs -> wq_run nw (wq_init nw f) xs = Some (c, H) ->
  submitted b H = tsum n (fun t => opt (coming b) (th c t)) + queued b (sh c) + tsum n (fun t => opt (leaving b) (th c t)) +
    handed b (sh c) + lost b (sh c) + refused b (sh c).
Proof.
  intros Hn Er. pose proof (everything_run b nw n _ _ _ _ (shaped_init nw f) Hn Er) as E. rewrite (proj1 (everything_init b nw n f)) in E. symmetry. exact E.
Qed.

Lemma occ_in b l : In (Some (BWork b)) l <-> 1 <= occ b l.
Proof.
  induction l as [|x l IH]; cbn [occ fold_right]; [cbn; split; [tauto|lia]|]. fold (occ b l). split.
  - intros [->|Hi]; [cbn; rewrite Nat.eqb_refl; lia|apply IH in Hi; lia].
  - destruct x as [[|b']|]; cbn [isb]; try (intros E; right; apply IH; lia). destruct (Nat.eqb_spec b' b) as [->|]; [left; reflexivity|intros E; right; apply IH; lia].
Qed.

Theorem C56_discarded_by_close f xs c H b : wq_run nw (wq_init nw f) xs = Some (c, H) -> 1 <= lost b (sh c) -> halt (sh c) = true.
Proof.
  intros Er Hb. pose proof (dropI_run nw _ _ _ _ (shaped_init nw f) (dropI_init nw f) Er) as Hd. apply (di_drop _ Hd).
  intros E. unfold lost in Hb. rewrite E in Hb. cbn in Hb. lia.
Qed.

(** A block submitted once that was not finished before: it is accepted, it is in exactly one place, at most one thread gets
    it, only once, and its work is run at most once. *)
Theorem C56_once f n xs c H b : onn n xs -> wq_run nw (wq_init nw f) xs = Some (c, H) -> f b = false -> submitted b H = 1 ->
  refused b (sh c) = 0 /\
  tsum n (fun t => opt (coming b) (th c t)) + queued b (sh c) + tsum n (fun t => opt (leaving b) (th c t)) + handed b (sh c) + lost b (sh c) = 1 /\
  rcount b (sh c) <= handed b (sh c).
Proof.
  intros Hn Er Hf Hb. pose proof (C56_accounting _ _ _ _ _ b Hn Er) as E. rewrite Hb in E.
  assert (Hr : rcount b (sh c) <= handed b (sh c)). { pose proof (runs_run b nw n _ _ _ _ Hn Er (proj2 (everything_init b nw n f))) as Hr. unfold runs_bound in Hr. lia. }
  assert (refused b (sh c) = 0); [|splits; [assumption|lia|exact Hr]].
  destruct (refused b (sh c)) as [|m] eqn:Em; [reflexivity|exfalso]. pose proof (finI_run nw f _ _ _ _ (finI_init nw f) Er) as Hi.
  assert (Hx : In (Some (BWork b)) (ign (sh c))). { apply occ_in. unfold refused in Em. lia. }
  apply (fi_ign _ _ Hi) in Hx. apply (fi_fin _ _ Hi) in Hx as [Hx|Hx]; [congruence|]. unfold rcount in Hr.
  assert (count_occ Nat.eq_dec (ran (sh c)) b > 0) by (apply count_occ_In; exact Hx). lia.
Qed.

(** At most one thread gets it. *)
Theorem C56_one_worker f n xs c H b : onn n xs -> wq_run nw (wq_init nw f) xs = Some (c, H) -> submitted b H <= 1 ->
  forall i j t u, got (sh c) !! i = Some (t, Some (BWork b)) -> got (sh c) !! j = Some (u, Some (BWork b)) -> i = j /\ t = u.
Proof.
  intros Hn Er Hb i j t u Hi Hj. pose proof (C56_accounting _ _ _ _ _ b Hn Er) as E. assert (Hh : handed b (sh c) <= 1) by lia. clear E. unfold handed in Hh.
  enough (i = j) by (split; [assumption|congruence]). clear Er Hb. revert i j Hi Hj. induction (got (sh c)) as [|[w x] l IH]; intros i j Hi Hj; [discriminate|].
  cbn [map occ fold_right snd] in Hh. fold (occ b (map snd l)) in Hh.
  assert (Hl : forall k v, l !! k = Some (v, Some (BWork b)) -> 1 <= occ b (map snd l)).
  { intros k v Ek. apply occ_in. apply (in_map snd) with (x := (v, Some (BWork b))). apply elem_of_list_In. eapply elem_of_list_lookup_2, Ek. }
  destruct i as [|i], j as [|j]; cbn in Hi, Hj.
  - reflexivity.
  - injection Hi as -> ->. cbn [isb] in Hh. rewrite Nat.eqb_refl in Hh. pose proof (Hl _ _ Hj). lia.
  - injection Hj as -> ->. cbn [isb] in Hh. rewrite Nat.eqb_refl in Hh. pose proof (Hl _ _ Hi). lia.
  - f_equal. apply IH; [lia|assumption|assumption].
Qed.

(** ** C57 *)
(** How much work a call brings *)
Definition new_work (o : wqop) : nat := match o with OAdd _ _ => 2 | OAddV l _ => length l + 1 | OClose => 2 * nw | _ => 0 end.
Definition all_work xs : nat := fold_right (fun x m => match snd x with ACall o => new_work o | _ => 0 end + m) 0 xs.
Definition halted f c H : Prop := exists xs, wq_run nw (wq_init nw f) xs = Some (c, H) /\ halt (sh c) = true.

Lemma call_tok_work xs : call_tok nw xs <= all_work xs.
Proof.
  induction xs as [|[t a] xs IH]; [cbn; lia|]. cbn [call_tok all_work fold_right snd]. fold (call_tok nw xs) (all_work xs). destruct a as [o|k|]; try lia.
  enough (ptok nw (wq_start nw o) <= new_work o) by lia. destruct o; cbn [wq_start]; try (cbn; lia). destruct (Nat.eqb nw 0); cbn; lia.
Qed.

Definition workers c : Prop := shaped c /\ forall t, t < nw -> exists pc, th c t = Some pc /\ workpc pc = true.
Lemma workers_exec c x c' e : workers c -> wq_exec nw c x = Some (c', e) -> workers c'.
Proof.
  intros [I0 I1] Ex. split; [eapply shaped_exec; eassumption|]. intros v Hv. destruct (I1 v Hv) as (pv & E1 & E2).
  destruct x as [u [o|k|]]; unfold wq_exec in Ex; cbn in Ex; (destruct (th c u) as [pc|] eqn:Eu; [|]); try discriminate.
  - injection Ex as <- <-. exists pv. cbn. rewrite fupd_other; [auto|congruence].
  - destruct (wq_step nw (sh c) u pc k) as [[s' pc']|] eqn:Es; [|discriminate]. injection Ex as <- <-. cbn. unfold fupd. destruct (Nat.eqb_spec v u) as [->|]; [|eauto]. exists pc'. split; [reflexivity|].
    apply (sl_work _ _ _ _ _ _ (step_live nw _ _ _ _ _ _ Es (I0 _ _ Eu))). congruence.
  - destruct (wq_fin pc) as [r|] eqn:Ef; [|discriminate]. injection Ex as <- <-. exists pv. cbn. rewrite fupd_other; [auto|]. intros ->. rewrite Eu in E1. injection E1 as <-. destruct pc; discriminate.
Qed.
Lemma workers_run xs : forall c c' H, workers c -> wq_run nw c xs = Some (c', H) -> workers c'.
Proof.
  induction xs as [|x xs IH]; intros c c' H Hw; unfold wq_run; cbn [run]; [intros [= <- <-]; exact Hw|].
  destruct (exec _ _ _ c x) as [[c1 e]|] eqn:Ex; [|discriminate]. destruct (run _ _ _ c1 xs) as [[c2 H2]|] eqn:Er; [|discriminate]. intros [= <- <-].
  eapply IH; [|exact Er]. eapply workers_exec; eassumption.
Qed.
Lemma workers_init f : workers (wq_init nw f).
Proof. split; [apply shaped_init|]. intros v Hv. exists loop. split; [|reflexivity]. cbn [wq_init th]. apply Nat.ltb_lt in Hv. rewrite Hv. reflexivity. Qed.
Lemma workers_calls xs : forall c c' H t, workers c -> t < nw -> wq_run nw c xs = Some (c', H) -> call_steps nw t xs = 0.
Proof.
  induction xs as [|x xs IH]; intros c c' H t Hw Ht; unfold wq_run; cbn [run]; [reflexivity|].
  destruct (exec _ _ _ c x) as [[c1 e]|] eqn:Ex; [|discriminate]. destruct (run _ _ _ c1 xs) as [[c2 H2]|] eqn:Er; [|discriminate]. intros [= <- <-].
  cbn [call_steps fold_right]. fold (call_steps nw t xs). rewrite (IH c1 c2 H2 t (workers_exec _ _ _ _ Hw Ex) Ht Er).
  destruct x as [u [o|k|]]; cbn [snd fst]; try reflexivity. destruct (Nat.eqb_spec u t) as [->|]; [|reflexivity]. cbn in Ex. destruct (proj2 Hw t Ht) as (pc & E & _). rewrite E in Ex. discriminate.
Qed.

(** Once the queue is halted, a worker does at most [B] more steps, plus 85 for every piece of work users still bring. *)
Theorem C57_worker_bound f c H n : halted f c H -> nw <= n -> exists B, forall xs c' H' t, onn n xs -> wq_run nw c xs = Some (c', H') -> t < nw ->
  n_int t xs <= B + 85 * all_work xs.
Proof.
  intros (xs0 & E0 & Hh) Hn. exists (lap * alltok nw n c + tsum n (own nw c)). intros xs c' H' t Hx Er Ht.
  pose proof (workers_run _ _ _ _ (workers_init f) E0) as Hw.
  pose proof (bound_run nw n xs c c' H' t (proj1 Hw) Hh Hx Er) as Hb. pose proof (workers_calls _ _ _ _ _ Hw Ht Er).
  pose proof (call_tok_work xs) as Hct. pose proof (tsum_ge n (own nw c) t ltac:(lia)) as Ho. unfold lap in *. lia.
Qed.

(** Nobody calls any more: the whole rest of the run is bounded. *)
Lemma len_sum n xs : onn n xs -> calls xs = [] -> length xs = tsum n (fun t => n_int t xs) + length (List.filter (fun x => match snd x with ARet => true | _ => false end) xs).
Proof.
  induction xs as [|[u a] xs IH]; intros Hx Hc.
  - cbn. rewrite tsum_zero; [reflexivity|]. intros t _. reflexivity.
  - inversion Hx as [|? ? H1 H2]; subst. cbn in H1. destruct a as [o|k|]; cbn in Hc; [discriminate| |].
    + specialize (IH H2 Hc). cbn [length List.filter snd]. enough (tsum n (fun t => n_int t ((u, AInt k) :: xs)) = S (tsum n (fun t => n_int t xs))) by lia.
      clear IH Hc Hx H2. revert H1. induction n as [|m IHm]; intros H1; [lia|]. cbn [tsum n_int]. destruct (Nat.eq_dec u m) as [->|Hne].
      * rewrite Nat.eqb_refl. rewrite (tsum_ext m _ (fun t => n_int t xs)); [lia|]. intros t Ht. cbn. destruct (Nat.eqb_spec m t); [lia|reflexivity].
      * specialize (IHm ltac:(lia)). cbn [n_int] in IHm. destruct (Nat.eqb_spec u m); [congruence|]. lia.
    + specialize (IH H2 Hc). cbn [length List.filter snd]. enough (tsum n (fun t => n_int t ((u, ARet) :: xs)) = tsum n (fun t => n_int t xs)) by lia.
      apply tsum_ext. intros t _. reflexivity.
Qed.
Lemma rets_sum n xs : forall c c' H, onn n xs -> calls xs = [] -> wq_run nw c xs = Some (c', H) ->
  length (List.filter (fun x => match snd x with ARet => true | _ => false end) xs) + tsum n (fun t => opt (fun _ => 1) (th c' t)) = tsum n (fun t => opt (fun _ => 1) (th c t)).
Proof.
  induction xs as [|[u a] xs IH]; intros c c' H Hx Hc; unfold wq_run; cbn [run]; [intros [= <- <-]; reflexivity|].
  destruct (exec _ _ _ c (u, a)) as [[c1 e]|] eqn:Ex; [|discriminate]. destruct (run _ _ _ c1 xs) as [[c2 H2]|] eqn:Er; [|discriminate]. intros [= <- <-].
  inversion Hx as [|? ? H1 H3]; subst. cbn in H1. destruct a as [o|k|]; cbn in Hc; [discriminate| |]; pose proof (IH _ _ _ H3 Hc Er) as E; cbn in Ex;
    destruct (th c u) as [pc|] eqn:Eu; try discriminate; cbn [List.filter snd length].
  - destruct (wq_step nw (sh c) u pc k) as [[s' pc']|]; [|discriminate]. injection Ex as <- <-. pose proof (tsum_upd n (opt (fun _ : wqpc => 1)) (th c) u (Some pc') H1) as E1. rewrite Eu in E1. cbn in E1, E. lia.
  - destruct (wq_fin pc); [|discriminate]. injection Ex as <- <-. pose proof (tsum_upd n (opt (fun _ : wqpc => 1)) (th c) u None H1) as E1. rewrite Eu in E1. cbn in E1, E. lia.
Qed.
Lemma call_steps_nil xs t : calls xs = [] -> call_steps nw t xs = 0 /\ call_tok nw xs = 0.
Proof. induction xs as [|[u [o|k|]] xs IH]; cbn; try discriminate; auto. Qed.

Theorem C57_all_bound f c H n : halted f c H -> exists B, forall xs c' H', onn n xs -> calls xs = [] -> wq_run nw c xs = Some (c', H') -> length xs <= B.
Proof.
  intros (xs0 & E0 & Hh). exists (tsum n (fun t => lap * alltok nw n c + own nw c t) + tsum n (fun t => opt (fun _ => 1) (th c t))). intros xs c' H' Hx Hc Er.
  rewrite (len_sum n xs Hx Hc). pose proof (rets_sum n xs _ _ _ Hx Hc Er). enough (tsum n (fun t => n_int t xs) <= tsum n (fun t => lap * alltok nw n c + own nw c t)) by lia.
  apply tsum_le. intros t Ht. pose proof (bound_run nw n xs c c' H' t (shaped_run nw _ _ _ _ (shaped_init nw f) E0) Hh Hx Er) as Hb.
  destruct (call_steps_nil xs t Hc) as [E1 E2]. rewrite E1, E2 in Hb. lia.
Qed.

Lemma run_calls xs : forall c c' H, wq_run nw c xs = Some (c', H) -> forall i t o, H !! i = Some (HInv t o) -> In o (calls xs).
Proof.
  unfold wq_run. induction xs as [|[u a] xs IH]; intros c c' H; cbn [run].
  - intros [= <- <-] i t o E. rewrite lookup_nil in E. discriminate.
  - destruct (exec _ _ _ c (u, a)) as [[c1 e]|] eqn:Ex; [|discriminate]. destruct (run _ _ _ c1 xs) as [[c2 H2]|] eqn:Er; [|discriminate]. intros [= <- <-] i t o E.
    assert (Hin : forall j, H2 !! j = Some (HInv t o) -> In o (calls ((u, a) :: xs))).
    { intros j Ej. specialize (IH _ _ _ Er _ _ _ Ej). unfold calls in *. destruct a; cbn; auto. }
    cbn in Ex. destruct a as [o'|k|]; destruct (th c u) as [pc|]; try discriminate.
    + injection Ex as <- <-. destruct i as [|i]; [|eapply Hin, E]. injection E as <- <-. left. reflexivity.
    + destruct (wq_step nw (sh c) u pc k) as [[s' pc']|]; [|discriminate]. injection Ex as <- <-. eapply Hin, E.
    + destruct (wq_fin pc); [|discriminate]. injection Ex as <- <-. destruct i as [|i]; [discriminate|]. eapply Hin, E.
Qed.

(** [can_go]: some thread can take a step, without timeouts and spurious wakeups.  If no two closeWorkerQueue overlap, there
    is such a step until all workers have ended and all calls have returned (or a null block was executed). *)
Theorem C57_progress_partial f xs c H : wq_run nw (wq_init nw f) xs = Some (c, H) -> no_overlap H -> halt (sh c) = true ->
  (exists t pc, th c t = Some pc /\ ~ dead pc) -> can_go nw c.
Proof.
  intros Er Hn Hh (t & pc & Et & Hd). eapply (go_any nw H c); [eapply shaped_run; [apply shaped_init|exact Er]| |eapply (liveI_run nw xs []); [apply shaped_init|apply liveI_init|exact Er|exact Hn]|exact Et|exact Hd|auto|auto].
  intros i. eapply qproj_run; [|exact Er]. intros j. apply qproj_init.
Qed.

Theorem C57_shutdown_partial f c H n : halted f c H -> no_overlap H -> exists B, forall xs c' H', onn n xs -> calls xs = [] -> wq_run nw c xs = Some (c', H') ->
  length xs <= B /\ (~ can_go nw c' -> (forall t, t < nw -> th c' t = Some WE) /\ forall t pc, nw <= t -> th c' t = Some pc -> dead pc).
Proof.
  intros Hc Hn. destruct (C57_all_bound f c H n Hc) as [B HB]. exists B. intros xs c' H' Hx Hnc Er. split; [eauto|]. intros Hg.
  destruct Hc as (xs0 & E0 & Hh). assert (Er' : wq_run nw (wq_init nw f) (xs0 ++ xs) = Some (c', H ++ H')). { unfold wq_run in *. rewrite run_app, E0, Er. reflexivity. }
  assert (Hn' : no_overlap (H ++ H')).
  { intros i j t u Hij Ei Ej. assert (Hk : forall k v, (H ++ H') !! k = Some (HInv v OClose) -> k < length H).
    { intros k v Ek. destruct (decide (k < length H)) as [|Hge]; [assumption|]. rewrite lookup_app_r in Ek by lia. pose proof (run_calls _ _ _ _ Er _ _ _ Ek) as Hi. rewrite Hnc in Hi. destruct Hi. }
    pose proof (Hk _ _ Ei). pose proof (Hk _ _ Ej). rewrite lookup_app_l in Ei, Ej by lia. destruct (Hn _ _ _ _ Hij Ei Ej) as (k & r & Hkk & Ek). exists k, r. split; [exact Hkk|]. rewrite lookup_app_l by lia. exact Ek. }
  assert (Hh' : halt (sh c') = true).
  { eapply (inv_run (wq_start nw) (wq_step nw) wq_fin (fun _ => True) (fun c => halt (sh c) = true)); [..|exact Hh| |exact Er]; auto; [|apply Forall_forall; auto].
    intros c0 t k pc s' pc' I0 Et Es. apply (proj1 (step_data _ _ _ _ _ _ _ Es)), I0. }
  assert (Hd : forall t pc, th c' t = Some pc -> dead pc).
  { intros t pc Et. assert (Hdd : dead pc \/ ~ dead pc) by (destruct pc; cbn; auto). destruct Hdd as [|Hdd]; [assumption|]. destruct Hg. eapply C57_progress_partial; eauto. }
  split; [|eauto]. intros t Ht. destruct (proj2 (workers_run _ _ _ _ (workers_init f) Er') t Ht) as (pc & E1 & E2). pose proof (Hd _ _ E1). destruct pc; cbn in *; try contradiction; try discriminate. exact E1.
Qed.
End props.

(** *** Without workers *)
(** The blocks a call submits *)
Definition blocks (o : wqop) : list ptr := match o with OAdd x _ => [x] | OAddV l _ => l | _ => [] end.

Section zero.
Notation wqcfg := (cfg wqsh wqpc).
Implicit Types (c : wqcfg) (H : list (hev wqop wqret)).
Definition retI H c : Prop := forall i j t o r, ret_of H i j t o r -> all_fin (sh c) (blocks o).
Lemma retI_exec H c x c' e : zeroI H c -> retI H c -> wq_exec 0 c x = Some (c', e) -> retI (H ++ e) c'.
Proof.
  intros Hz Hr. destruct x as [t [o|k|]]; unfold wq_exec; cbn.
  - destruct (th c t) eqn:Et; [discriminate|]. intros [= <- <-] i j u o' r E. apply (ret_snoc (Q := unit) (fun _ _ _ _ => True)) in E as [E|(_ & [=] & _)]. exact (Hr _ _ _ _ _ E).
  - destruct (th c t) as [pc|] eqn:Et; [|discriminate]. destruct (wq_step 0 (sh c) t pc k) as [[s' pc']|] eqn:Es; [|discriminate]. intros [= <- <-]. rewrite app_nil_r.
    intros i j u o' r E b Hb. apply (proj1 (proj2 (step_data _ _ _ _ _ _ _ Es))). exact (Hr _ _ _ _ _ E b Hb).
  - destruct (th c t) as [pc|] eqn:Et; [|discriminate]. destruct (wq_fin pc) as [r|] eqn:Ef; [|discriminate]. intros [= <- <-] i j u o' r' E. cbn [sh].
    apply (ret_snoc (Q := unit) (fun _ _ _ _ => True)) in E as [E|(_ & [= -> ->] & E)]; [exact (Hr _ _ _ _ _ E)|]. destruct (Hz _ _ Et) as (i' & o'' & Hl & Hk). destruct (last_uniq _ _ _ _ _ _ E Hl) as [-> [= <-]].
    destruct pc; try discriminate. destruct o'; cbn in Hk |- *; try exact Hk; try (intros b []; fail). destruct Hk as [|Hk]; [discriminate|exact Hk].
Qed.
Lemma retI_run xs : forall H c c' H', zeroI H c -> retI H c -> wq_run 0 c xs = Some (c', H') -> retI (H ++ H') c'.
Proof.
  induction xs as [|x xs IH]; intros H c c' H' Hz Hr; unfold wq_run; cbn [run].
  - intros [= <- <-]. rewrite app_nil_r. exact Hr.
  - destruct (exec _ _ _ c x) as [[c1 e]|] eqn:Ex; [|discriminate]. destruct (run _ _ _ c1 xs) as [[c2 H2]|] eqn:Er; [|discriminate]. intros [= <- <-].
    rewrite app_assoc. eapply IH; [eapply zeroI_exec; eassumption|eapply retI_exec; eassumption|exact Er].
Qed.

(** addWorkBlock returned: its blocks are finished, and those not finished from the start were run. *)
Theorem C56_no_workers f xs c H i j t o r b : wq_run 0 (wq_init 0 f) xs = Some (c, H) -> ret_of H i j t o r -> In (Some (BWork b)) (blocks o) ->
  bfin (sh c) b = true /\ (f b = true \/ In b (ran (sh c))).
Proof.
  intros Er Hr Hb. assert (Hf : bfin (sh c) b = true).
  { assert (H0 : retI [] (wq_init 0 f)) by (intros ? ? ? ? ? (_ & E & _); discriminate). exact (retI_run xs [] _ _ _ (zeroI_init f) H0 Er _ _ _ _ _ Hr b Hb). }
  split; [exact Hf|]. apply (fi_fin _ _ (finI_run 0 f _ _ _ _ (finI_init 0 f) Er)), Hf.
Qed.
End zero.

(** ** Examples *)
Definition ints (t n : nat) : list (nat * act cvc wqop) := repeat (t, AInt CStep) n.
Definition no_fin : nat -> bool := fun _ => false.

(** One worker; thread 1 submits block 7, which the worker then runs. *)
Example C56_ex : exists c H, wq_run 1 (wq_init 1 no_fin) ((1, ACall (OAdd (Some (BWork 7)) PMed)) :: ints 1 17 ++ [(1, ARet)] ++ ints 0 39) = Some (c, H) /\
  submitted 7 H = 1 /\ got (sh c) = [(0, Some (BWork 7))] /\ ran (sh c) = [7].
Proof. eexists _, _. split; [vm_compute; reflexivity|]. split; [reflexivity|]. split; reflexivity. Qed.

(** ** Two threads in closeWorkerQueue *)
(** The worker has found the queues empty and is about to take queueLock.  Thread 1 closes and waits for the worker to end.
    Thread 2 closes as well: it sees that the queue is halted, and waits for the worker while holding queueLock.  Nothing can
    happen any more. *)
Definition two_closers : list (nat * act cvc wqop) :=
  ints 0 6 ++ (1, ACall OClose) :: ints 1 46 ++ (2, ACall OClose) :: ints 2 2.
Theorem C57_refuted : exists c H, wq_run 1 (wq_init 1 no_fin) two_closers = Some (c, H) /\ halt (sh c) = true /\
  th c 0 = Some W1 /\ th c 1 = Some (CJ 0 false) /\ th c 2 = Some (CJ 0 true) /\ (forall t, 3 <= t -> th c t = None) /\
  forall t a, th c t <> None -> wq_exec 1 c (t, a) = None.
Proof.
  eexists _, _. split; [vm_compute; reflexivity|]. cbn [sh th halt]. 
  split; [reflexivity|]. split; [reflexivity|]. split; [reflexivity|]. split; [reflexivity|]. split.
  - intros t Ht. destruct t as [|[|[|t]]]; [lia|lia|lia|reflexivity].
  - intros t a Hn. destruct t as [|[|[|t]]]; [destruct a as [o|[]|]; reflexivity..|]. exfalso. apply Hn. reflexivity.
Qed.

(** One worker, asleep when thread 1 closes: the worker ends, the call returns. *)
Definition one_closer : list (nat * act cvc wqop) :=
  ints 0 9 ++ (1, ACall OClose) :: ints 1 46 ++ ints 0 5 ++ ints 1 2 ++ [(1, ARet)].
Example C57_ex : exists c H, wq_run 1 (wq_init 1 no_fin) one_closer = Some (c, H) /\ no_overlap H /\ halt (sh c) = true /\ th c 0 = Some WE /\ th c 1 = None.
Proof.
  eexists _, _. split; [vm_compute; reflexivity|]. split; [|split; [reflexivity|split; reflexivity]].
  intros i j t u Hij Hi Hj. destruct i as [|[|i]], j as [|[|j]]; try lia; discriminate.
Qed.
(** The hypotheses of C57_shutdown_partial at the moment the flag is set *)
Example C57_halted_ex : exists c H, halted 1 no_fin c H /\ no_overlap H.
Proof.
  destruct C57_ex as (c & H & Er & Hn & Hh & _). exists c, H. split; [|exact Hn]. exists one_closer. auto.
Qed.
(** Without workers *)
Example C56_zero_ex : exists c H, wq_run 0 (wq_init 0 no_fin) ((1, ACall (OAdd (Some (BWork 7)) PLow)) :: ints 1 5 ++ [(1, ARet)]) = Some (c, H) /\
  ret_of H 0 1 1 (OAdd (Some (BWork 7)) PLow) RUnit /\ ran (sh c) = [7].
Proof.
  eexists _, _. split; [vm_compute; reflexivity|]. split; [|reflexivity]. split; [lia|]. split; [reflexivity|]. split; [reflexivity|]. intros k e Hk. lia.
Qed.

Print Assumptions C56_accounting.
Print Assumptions C56_discarded_by_close.
Print Assumptions C56_once.
Print Assumptions C56_one_worker.
Print Assumptions C56_no_workers.
Print Assumptions C57_worker_bound.
Print Assumptions C57_all_bound.
Print Assumptions C57_progress_partial.
Print Assumptions C57_shutdown_partial.
Print Assumptions C57_refuted.
