(** WorkQueue: C119 *)
From stdpp Require Import list.
From Verif Require Import Base Conc CondVar SqModel SqSpec SqProofs WqModel WqProofs WqCount WqMore WqLive Props_Wq NestModel NestSq NestWq.
Local Open Scope nat_scope.

Section props.
Variable nw : nat.
Implicit Types (f : nat -> bool) (N : ncfg (Sh := wqsh) (Pc := wqpc)) (zs : list (nat * nact (Ch := cvc) (Op := wqop))) (H : list (hev wqop wqret)).

(** C119.  The destructors of the work blocks that closeWorkerQueue throws away may use the WorkQueue.

    The points at which they run are those whose step throws blocks away. *)
Theorem C119_runs s t pc : wq_runs s pc = true <-> exists s' pc', wq_step nw s t pc CStep = Some (s', pc') /\ dropped s' <> dropped s /\ (exists i p, pc = Sub i p KClr).
Proof.
  assert (Hne : forall (l m : list ptr), l ++ m <> l <-> m <> []).
  { intros l m. split; [intros Hx ->; apply Hx, app_nil_r|]. intros Hm E. apply Hm. apply (app_inv_head l). rewrite E, app_nil_r. reflexivity. }
  split.
  - destruct pc as [i p k| | | | | | | | | | | | | | | | | | | | | | | | | | | | | | | | |]; try discriminate. cbn [wq_runs]. destruct k; try discriminate. intros Hr. destruct p; try discriminate; cbn [sq_runs] in Hr;
      do 2 eexists; (split; [reflexivity|]); (split; [|eauto]); cbn [dropped log_drop dropping]; (replace (dropped (set_q i _ s)) with (dropped s) by (destruct i; reflexivity)); apply Hne; intros E; rewrite E in Hr; discriminate.
  - intros (s' & pc' & Es & Hd & i & p & ->). cbn [wq_step wq_step0 wq_runs] in *. destruct (sq_fin p) as [r|] eqn:Ef.
    + exfalso. cbn [resume] in Es. destruct r; try discriminate. injection Es as <- _. congruence.
    + destruct (sq_step (qof i s) t p tt) as [[q' p']|]; [|discriminate]. injection Es as <- _. revert Hd. cbn [dropped log_drop]. replace (dropped (set_q i q' s)) with (dropped s) by (destruct i; reflexivity).
      rewrite Hne. destruct p; cbn [dropping sq_runs]; try congruence; [destruct (pullE (qof i s))|destruct (pushE (qof i s))]; cbn; congruence.
Qed.

(** Every such execution has the same calls, returns and states as one in which each call is made by a thread of its own ... *)
Theorem C119_same f zs N H : wn_run nw (wn_init nw f) zs = Some (N, H) -> exists xs, wq_run nw (wq_init nw f) xs = Some (fl N, H) /\ calls xs = ncalls zs.
Proof. intros E. exact (nrun_flat _ _ _ _ _ _ _ _ E). Qed.
(** ... so that, for instance, a block submitted once is run at most once. *)
Theorem C119_once f zs N H b : wn_run nw (wn_init nw f) zs = Some (N, H) -> submitted b H <= 1 -> rcount b (sh (fl N)) <= 1.
Proof.
  intros Er Hs. destruct (C119_same f zs N H Er) as (xs & Ex & _). set (n := S (list_max (map fst xs))).
  assert (Hon : onn n xs).
  { apply Forall_forall. intros x Hx'. apply elem_of_list_In in Hx'. apply (in_map fst) in Hx'. pose proof (proj1 (list_max_le (map fst xs) (list_max (map fst xs))) (le_n _)) as HM.
    eapply List.Forall_forall in HM; [|exact Hx']. unfold n. lia. }
  pose proof (C56_accounting nw f n xs _ _ b Hon Ex) as Ea. pose proof (runs_run b nw n _ _ _ _ Hon Ex (proj2 (everything_init b nw n f))) as Hr. unfold runs_bound in Hr. lia.
Qed.

(** If the destructors call nothing but isEmpty, getWorkerCount and setPriorityRatio and closeWorkerQueue calls do not overlap (C57), the
    shutdown goes on: as long as a call is not over, or a worker has not ended, the topmost call of some thread makes a step without any
    timeout or spurious wakeup. *)
Theorem C119_closing_partial f zs N H u pc : wn_calm nw (wn_init nw f) zs -> wn_run nw (wn_init nw f) zs = Some (N, H) -> no_overlap H -> halt (sh (fl N)) = true ->
  th (fl N) u = Some pc -> ~ dead pc ->
  exists t a N' e, ((exists k, (k <> CSpur /\ k <> CTime) /\ a = NInt k) \/ a = NRet) /\ wn_exec nw N (t, a) = Some (N', e).
Proof. apply wn_live. Qed.

(** A destructor that runs while the queue of level [i] is cleared and comes to need a lock of that queue never returns, and neither does
    closeWorkerQueue. *)
Theorem C119_stuck f zs N H t u p pi i l pc : wn_run nw (wn_init nw f) zs = Some (N, H) -> stk N t = u :: p :: l ->
  th (fl N) p = Some (Sub i pi KClr) -> (pi = L2 \/ pi = L3) -> th (fl N) u = Some pc -> needs nw i pc ->
  forall zs' N' H', wn_run nw N zs' = Some (N', H') -> stk N' t = u :: p :: l /\ forall v r, v ∈ u :: p :: l -> ~ In (HRet v r) H'.
Proof. intros E Es Ep Hpi. apply (wn_stuck nw f zs N H t u p pi i l pc E Es Ep). destruct Hpi as [->| ->]; reflexivity. Qed.

(** With workers these are: addWorkBlock of several blocks to that level, numBlock, getWorkBlock when the first queue is cleared, addWorkBlock
    with priority required likewise, and with another priority of that level unless the block is finished. *)
Theorem C119_which i o : 0 < nw ->
  match o with OAdd (Some _) PReq => i = Hi | OAddV _ p => lvl_of p = i | ONum => True | OGet => i = Hi | _ => False end -> needs nw i (wq_start nw o).
Proof. exact (stuck_needs nw i o). Qed.
Theorem C119_add s t y p s' pc' : 0 < nw -> is_fin s y = false -> wq_step nw s t (A0 (Some y) p) CStep = Some (s', pc') -> needs nw (lvl_of p) pc'.
Proof. intros Hw Hf. cbn. rewrite Hf. destruct (Nat.eqb_spec nw 0); [lia|]. destruct p; intros [= <- <-]; cbn; left; (split; [reflexivity|exact I]). Qed.
End props.

(** It happens: a user adds a block, closes the queue before the worker takes the block, and the destructor of the block adds another. *)
Definition add_then_close : list (nat * nact (Ch := cvc) (Op := wqop)) :=
  ((1, NCall 1 (OAddV [Some (BWork 7)] PHigh)) :: repeat (1, NInt CStep) 10) ++ [(1, NRet); (1, NCall 2 OClose)] ++ repeat (1, NInt CStep) 6 ++ [(1, NCall 3 (OAdd (Some (BWork 8)) PHigh)); (1, NInt CStep)].
Theorem C119_refuted : exists N H, wn_run 1 (wn_init 1 no_fin) add_then_close = Some (N, H) /\
  H = [HInv 1 (OAddV [Some (BWork 7)] PHigh); HRet 1 RUnit; HInv 2 OClose; HInv 3 (OAdd (Some (BWork 8)) PHigh)] /\
  forall zs' N' H', wn_run 1 N zs' = Some (N', H') -> stk N' 1 = [3; 2] /\ forall r, ~ In (HRet 2 r) H' /\ ~ In (HRet 3 r) H'.
Proof.
  assert (Hx : exists N H, wn_run 1 (wn_init 1 no_fin) add_then_close = Some (N, H) /\ H = [HInv 1 (OAddV [Some (BWork 7)] PHigh); HRet 1 RUnit; HInv 2 OClose; HInv 3 (OAdd (Some (BWork 8)) PHigh)] /\
    stk N 1 = [3; 2] /\ th (fl N) 2 = Some (Sub Hi L2 KClr) /\ th (fl N) 3 = Some (Sub Hi S0 (KSize (Some (BWork 8)) AUser))).
  { do 2 eexists. split; [lazy; reflexivity|]. repeat (split; [reflexivity|]). reflexivity. }
  destruct Hx as (N & H & E & -> & E1 & E2 & E3). do 2 eexists. split; [exact E|]. split; [reflexivity|]. intros zs' N' H' E'.
  destruct (C119_stuck 1 no_fin _ _ _ 1 3 2 L2 Hi [] _ E E1 E2 (or_introl eq_refl) E3 (or_introl (conj eq_refl I)) _ _ _ E') as [H1 H2]. split; [exact H1|]. intros r. split; apply H2; [right; left|left].
Qed.

(** Not empty: the destructor calls isEmpty instead, and everything ends. *)
Definition empty_in_close : list (nat * nact (Ch := cvc) (Op := wqop)) :=
  ((1, NCall 1 (OAddV [Some (BWork 7)] PHigh)) :: repeat (1, NInt CStep) 10) ++ [(1, NRet); (1, NCall 2 OClose)] ++ repeat (1, NInt CStep) 6 ++
  [(1, NCall 3 OEmpty)] ++ repeat (1, NInt CStep) 2 ++ [(1, NRet)].
Example C119_ex :
  wn_calm 1 (wn_init 1 no_fin) empty_in_close /\
  match wn_run 1 (wn_init 1 no_fin) empty_in_close with
  | Some (N, H) => stk N 1 = [2] /\ halt (sh (fl N)) = true /\ th (fl N) 2 = Some (Sub Hi L2 KClr)
  | None => False
  end /\
  match wn_run 1 (wn_init 1 no_fin) (empty_in_close ++ repeat (1, NInt CStep) 40 ++ repeat (0, NInt CStep) 24 ++ repeat (1, NInt CStep) 2 ++ [(1, NRet)]) with
  | Some (N, H) => H = [HInv 1 (OAddV [Some (BWork 7)] PHigh); HRet 1 RUnit; HInv 2 OClose; HInv 3 OEmpty; HRet 3 (RBool false); HRet 2 RUnit] /\
      stk N 1 = [] /\ th (fl N) 0 = Some WE
  | None => False
  end.
Proof. split; [apply wcalm_b_ok; vm_compute; reflexivity|]. vm_compute. auto 10. Qed.

Print Assumptions C119_runs.
Print Assumptions C119_same.
Print Assumptions C119_once.
Print Assumptions C119_closing_partial.
Print Assumptions C119_stuck.
Print Assumptions C119_which.
Print Assumptions C119_add.
Print Assumptions C119_refuted.
