(** Property C96: a WorkQueue when memory runs out in addWorkBlock or closeWorkerQueue, and when the constructor cannot start a thread
    [WorkQueue.hpp 284-296, 301-336, 344-403].  An addWorkBlock that throws has no effect and the queue goes on working.  A
    closeWorkerQueue that throws has already set [halt]: the threads are not joined, the destructor does not close the queue again
    and ends the program, and a second closeWorkerQueue gets stuck while a worker is in its loop. *)
From stdpp Require Import list.
From Verif Require Import Base Conc CondVar Herlihy Serial SqModel SqSpec SqProofs WqModel WqProofs WqCount WqMore WqBound WqLive WqSeq WqTurn WqPrio WqOpen WqDrain WqMisc WqDtor WqNest WqThrow Props_Wq Props_Wq4 Props_Wq7.
Local Open Scope nat_scope.

Section props.
Variable nw : nat.
Notation wqcfg := (cfg wqsh wqpc).
Implicit Types (f : nat -> bool) (F : fcfg) (zs : list (nat * fact)) (s : wqsh) (pc : wqpc) (c d : wqcfg) (H : list (hev wqop wqret)).

(** Every execution has the calls, the returns and the state of one without exceptions, in which the calls that threw are at the
    beginning of the operation of the queue that failed and make no steps any more. *)
Theorem C96_same f zs F H : frun nw (finit nw f) zs = Some (F, H) -> exists ys d, wq_run nw (wq_init nw f) ys = Some (d, H) /\ sh d = sh (fc F) /\ forall t, th d t = th (fc F) t.
Proof. exact (frun_same nw f zs F H). Qed.
(** Workers do not throw; a call that threw never returns and never does anything else. *)
Theorem C96_user f zs F H t : frun nw (finit nw f) zs = Some (F, H) -> inb t (thrown F) = true -> nw <= t /\ forall a, fexec nw F (t, a) = None.
Proof. intros Er Ht. split; [exact (proj1 (thrown_run nw f zs F H Er t Ht))|]. intros a. unfold fexec. rewrite Ht. reflexivity. Qed.

(** ** The operation that a thread executes *)
Definition carried pc : option (list ptr) :=
  match pc with
  | A0 x _ | Sub _ _ (KSize x AUser) => Some [x]
  | Sub _ p (KPush _ AUser) | Sub _ p KPushV => match unc p with Some o => Some (elems o) | None => None end
  | _ => None
  end.
Lemma unc_back q t p q' p' o : sq_step q t p tt = Some (q', p') -> unc p' = Some o -> unc p = Some o.
Proof.
  destruct q as [a b l1 l2 e]. destruct p; cbn [sq_step pushL pullL pushE pullE eflag]; try discriminate; unfold lock_push, lock_pull, cont; cbn [pushL pullL pushE pullE eflag];
    try (destruct a as [a|]; [discriminate|]); try (destruct b as [b|]; [discriminate|]); try (destruct (rev l2)); intros Es Hu; injection Es as Eq Ep; subst q' p';
    repeat match type of Hu with
    | context [if ?b then _ else _] => destruct b
    | context [match ?k with Some _ => _ | None => _ end] => destruct k
    end; cbn [unc] in Hu; try discriminate; exact Hu.
Qed.
Lemma carried_step s t pc k s' pc' l : wq_step nw s t pc k = Some (s', pc') -> carried pc' = Some l -> carried pc = Some l.
Proof.
  intros Es. destruct pc.
  1: { destruct k; cbn [wq_step wq_step0] in Es; try discriminate. destruct (sq_fin p) as [r|] eqn:Ef.
    - destruct k0; wq_resume Es; unfold gstart, after_add, dummies; repeat match goal with |- context [match ?z with _ => _ end] => is_var z; destruct z | |- context [nextq ?z] => destruct (nextq z) end; cbn; try discriminate; auto.
    - destruct (sq_step (qof i s) t p tt) as [[q' p']|] eqn:Eq; [|discriminate]. inj Es. destruct k0; cbn; try discriminate; auto; try (destruct a; [|discriminate]); (destruct (unc p') as [o|] eqn:Eu; [|discriminate]); rewrite (unc_back _ _ _ _ _ _ Eq Eu); auto. }
  all: destruct k; cbn [wq_step wq_step0] in Es; try discriminate; wq_cases Es; inj Es; unfold after_exec, after_add, dummies, loop, gstart in *;
    repeat match goal with |- context [match ?z with _ => _ end] => is_var z; destruct z | |- context [if ?z then _ else _] => destruct z end; cbn; try discriminate; auto.
Qed.
Definition opI H c : Prop := forall t pc, th c t = Some pc ->
  (forall l, carried pc = Some l -> exists i o, last_ev H t i (HInv t o) /\ blocks o = l /\ o <> OClose) /\ (in_close pc = true -> exists i, last_ev H t i (HInv t OClose)).
Lemma opI_run f xs : forall c H, wq_run nw (wq_init nw f) xs = Some (c, H) -> opI H c.
Proof.
  induction xs as [|x xs IH] using rev_ind; intros c H Er.
  - injection Er as <- <-. intros t pc. cbn [wq_init th]. destruct (Nat.ltb t nw); [intros [= <-]|discriminate]. split; discriminate.
  - unfold wq_run in Er. rewrite run_app in Er. destruct (run _ _ _ (wq_init nw f) xs) as [[c1 H1]|] eqn:E1; [|discriminate]. cbn [run] in Er.
    destruct (exec _ _ _ c1 x) as [[c2 e]|] eqn:Ex; [|discriminate]. injection Er as <- <-. rewrite app_nil_r. specialize (IH _ _ E1). pose proof (shaped_run nw _ _ _ _ (shaped_init nw f) E1) as Hs.
    destruct x as [t [o|k|]]; cbn [exec] in Ex; (destruct (th c1 t) as [pc|] eqn:Et; try discriminate).
    + injection Ex as <- <-. pose proof (start_live nw o) as (_ & _ & _ & _ & S5). intros u pu. cbn [th]. unfold fupd. destruct (Nat.eqb_spec u t) as [->|Hne].
      * intros [= <-]. split.
        -- intros l El. exists (length H1), o. split; [apply last_new; reflexivity|]. destruct o; cbn in El; try discriminate; try (destruct (Nat.eqb nw 0); [discriminate|]); cbn in El; injection El as <-; split; try reflexivity; discriminate.
        -- intros Ei. rewrite (S5 Ei). exists (length H1). apply last_new. reflexivity.
      * intros Eu. destruct (IH u pu Eu) as [J1 J2]. split.
        -- intros l El. destruct (J1 l El) as (i & o' & Hl & E). exists i, o'. split; [apply last_old; [cbn; congruence|exact Hl]|exact E].
        -- intros Ei. destruct (J2 Ei) as (i & Hl). exists i. apply last_old; [cbn; congruence|exact Hl].
    + destruct (wq_step nw (sh c1) t pc k) as [[s' pc']|] eqn:Es; [|discriminate]. injection Ex as <- <-. rewrite app_nil_r. intros u pu. cbn [th]. unfold fupd. destruct (Nat.eqb_spec u t) as [->|Hne]; [|apply IH].
      intros [= <-]. destruct (IH t pc Et) as [J1 J2]. split.
      * intros l El. apply J1. eapply carried_step; eassumption.
      * intros Ei. apply J2. exact (sl_close _ _ _ _ _ _ (step_live nw _ _ _ _ _ _ Es (Hs _ _ Et)) Ei).
    + destruct (wq_fin pc) as [r|]; [|discriminate]. injection Ex as <- <-. intros u pu. cbn [th]. unfold fupd. destruct (Nat.eqb_spec u t) as [->|Hne]; [discriminate|].
      intros Eu. destruct (IH u pu Eu) as [J1 J2]. split.
      * intros l El. destruct (J1 l El) as (i & o' & Hl & E). exists i, o'. split; [apply last_old; [cbn; congruence|exact Hl]|exact E].
      * intros Ei. destruct (J2 Ei) as (i & Hl). exists i. apply last_old; [cbn; congruence|exact Hl].
Qed.
Lemma failed_cases pc : failed pc = true -> in_close pc = true \/ exists o, carried pc = Some (elems o) /\ forall b, coming b pc = occ b (elems o).
Proof. destruct pc; try discriminate. destruct p; try (destruct i; discriminate); destruct k; try (destruct i; discriminate); auto; try (destruct a; auto); intros _; right; exists o; auto. Qed.

Lemma on_some (xs : list (nat * act cvc wqop)) t : exists n, t < n /\ onn n xs.
Proof.
  exists (S (Nat.max t (list_max (map fst xs)))). split; [lia|].
  apply Forall_forall. intros x Hx'. apply elem_of_list_In in Hx'. apply (in_map fst) in Hx'. pose proof (proj1 (list_max_le (map fst xs) (list_max (map fst xs))) (le_n _)) as HM.
  eapply List.Forall_forall in HM; [|exact Hx']. lia.
Qed.

(** ** addWorkBlock *)
(** A block submitted once is executed at most once. *)
Theorem C96_once f zs F H b : frun nw (finit nw f) zs = Some (F, H) -> submitted b H <= 1 -> rcount b (sh (fc F)) <= 1.
Proof.
  intros Er Hs. destruct (frun_same nw f zs F H Er) as (xs & d & Ex & [S1 _]). rewrite <- S1. destruct (on_some xs 0) as (n & _ & Hon).
  pose proof (C56_accounting nw f n xs _ _ b Hon Ex) as Ea. pose proof (runs_run b nw n _ _ _ _ Hon Ex (proj2 (everything_init b nw n f))) as Hr. unfold runs_bound in Hr. lia.
Qed.
(** If the call that submitted it threw, it is not in a queue and nobody gets or executes it, now or later. *)
Theorem C96_dropped f zs F H t i o b : frun nw (finit nw f) zs = Some (F, H) -> inb t (thrown F) = true -> last_ev H t i (HInv t o) -> In (Some (BWork b)) (blocks o) -> submitted b H <= 1 ->
  queued b (sh (fc F)) = 0 /\ handed b (sh (fc F)) = 0 /\ rcount b (sh (fc F)) = 0.
Proof.
  intros Er Ht Hl Hb Hs. destruct (thrown_run nw f zs F H Er t Ht) as (_ & pc & Et & Hf). destruct (frun_same nw f zs F H Er) as (xs & d & Ex & [S1 S2]). rewrite <- S1. rewrite <- S2 in Et.
  destruct (opI_run f xs d H Ex t pc Et) as [J1 J2]. destruct (failed_cases pc Hf) as [Hc|(o' & Hc & Hco)].
  - destruct (J2 Hc) as (i' & Hl'). destruct (last_uniq _ _ _ _ _ _ Hl Hl') as [_ [= ->]]. destruct Hb.
  - destruct (J1 _ Hc) as (i' & o2 & Hl' & E2 & _). destruct (last_uniq _ _ _ _ _ _ Hl Hl') as [_ [= ->]]. specialize (Hco b). rewrite <- E2 in Hco. apply occ_in in Hb.
    destruct (on_some xs t) as (n & Hn & Hon). pose proof (C56_accounting nw f n xs _ _ b Hon Ex) as Ea. pose proof (runs_run b nw n _ _ _ _ Hon Ex (proj2 (everything_init b nw n f))) as Hr. unfold runs_bound in Hr.
    pose proof (tsum_ge n (fun t => opt (coming b) (th d t)) t Hn) as Hg. cbn beta in Hg. rewrite Et in Hg. cbn [opt] in Hg. lia.
Qed.
(** The queue is open: a call or a worker that is not asleep and has not thrown is not stuck; it or another one can step. *)
Theorem C96_open f zs F H t pc : 0 < nw -> frun nw (finit nw f) zs = Some (F, H) -> halt (sh (fc F)) = false -> th (fc F) t = Some pc -> inb t (thrown F) = false -> ~ asleep (sh (fc F)) t pc -> fgo nw F.
Proof.
  intros Hn Er Hh Et Ht Ha. eapply throw_open; try eassumption. intros xs ->. destruct (frun_same nw f zs F H Er) as (ys & d & Ed & [_ S2]). rewrite <- S2 in Et.
  pose proof (direct_run nw f ys _ _ Hn Ed _ _ Et). discriminate.
Qed.
(** When nobody can step, all workers sleep, and every call has returned or thrown. *)
Theorem C96_rest f zs F H : 0 < nw -> frun nw (finit nw f) zs = Some (F, H) -> halt (sh (fc F)) = false -> ~ fgo nw F ->
  (forall w, w < nw -> exists pc, th (fc F) w = Some pc /\ asleep (sh (fc F)) w pc) /\ forall t, nw <= t -> th (fc F) t = None \/ inb t (thrown F) = true.
Proof.
  intros Hn Er Hh Hg. destruct (frun_same nw f zs F H Er) as (ys & d & Ed & [S1 S2]). pose proof (openI_run nw _ _ _ _ (openI_init nw f) Ed) as Ho.
  assert (Ha : forall t pc, th (fc F) t = Some pc -> inb t (thrown F) = false -> asleep (sh (fc F)) t pc).
  { intros t pc Et Ht. assert (Hd : asleep (sh (fc F)) t pc \/ ~ asleep (sh (fc F)) t pc) by (unfold asleep; destruct pc; try (right; intros [? _]; discriminate); destruct (inb t (waits (sh (fc F)))); [left; auto|right; intros [_ ?]; discriminate]).
    destruct Hd as [Hd|Hd]; [exact Hd|]. destruct (Hg (C96_open f zs F H t pc Hn Er Hh Et Ht Hd)). }
  split.
  - intros w Hw. destruct (op_work _ _ Ho w Hw) as (pc & E & _). rewrite S2 in E. exists pc. split; [exact E|]. apply Ha; [exact E|]. destruct (inb w (thrown F)) eqn:Ew; [|reflexivity]. pose proof (proj1 (thrown_run nw f zs F H Er w Ew)). lia.
  - intros t Hge. destruct (th (fc F) t) as [pc|] eqn:Et; [|auto]. right. destruct (inb t (thrown F)) eqn:Ew; [reflexivity|]. pose proof (Ha t pc Et Ew) as [-> _]. rewrite <- S1 in Hh. rewrite <- S2 in Et. pose proof (op_user _ _ Ho Hh _ _ Hge Et). discriminate.
Qed.

(** ** closeWorkerQueue, as long as no call of it has thrown *)
Theorem C96_closing_partial f zs F H t pc : frun nw (finit nw f) zs = Some (F, H) -> no_overlap H -> (forall u i, inb u (thrown F) = true -> ~ last_ev H u i (HInv u OClose)) -> halt (sh (fc F)) = true ->
  th (fc F) t = Some pc -> inb t (thrown F) = false -> ~ dead pc -> fgo nw F.
Proof.
  intros Er Hno Hcl. eapply throw_closing; [exact Er|exact Hno|]. intros u pu Hu Eu. destruct (in_close pu) eqn:Ei; [exfalso|reflexivity].
  destruct (frun_same nw f zs F H Er) as (ys & d & Ed & [_ S2]). rewrite <- S2 in Eu. destruct (proj2 (opI_run f ys d H Ed u pu Eu) Ei) as (i & Hl). exact (Hcl u i Hu Hl).
Qed.

Lemma fexec_halt F x F' e : fexec nw F x = Some (F', e) -> halt (sh (fc F)) = true -> halt (sh (fc F')) = true.
Proof.
  destruct x as [t a]. unfold fexec. destruct (inb t (thrown F)); [discriminate|]. destruct a as [a|].
  - destruct (wq_exec nw (fc F) (t, a)) as [[c' e']|] eqn:Ex; [|discriminate]. intros [= <- <-] Hh. cbn [fc]. destruct (halt (sh c')) eqn:Hh'; [reflexivity|]. rewrite (halt_run nw [(t, a)] (fc F) c' e') in Hh; [discriminate| |exact Hh'].
    unfold wq_run, wq_exec in *. cbn [run]. rewrite Ex, app_nil_r. reflexivity.
  - destruct (th (fc F) t) as [pc|]; [|discriminate]. destruct (fthrow (sh (fc F)) pc) as [[s' pc']|] eqn:Ef; [|discriminate]. intros [= <- <-] Hh. cbn [fc sh]. unfold fthrow in Ef.
    destruct pc; try discriminate. destruct p; try (destruct i; discriminate); try (destruct i; injection Ef as <- _; exact Hh). destruct i, k; try discriminate. injection Ef as <- _. exact Hh.
Qed.

(** ** Without new calls the steps end: there is no infinite sequence of them, whatever throws. *)
Definition next_halted := nextF nw (fun _ _ => True).
Theorem C96_ends_closing f zs F H : frun nw (finit nw f) zs = Some (F, H) -> halt (sh (fc F)) = true -> Acc next_halted F.
Proof.
  intros Er Hh. destruct (below_reach nw f zs F H Er) as (n & Hn). apply (ends_acc nw f n (fun _ _ => True) (fun F => halt (sh (fc F)) = true)) with (m := S n); [| |exists zs, H; exact Er|exact Hn|exact Hh|lia].
  - intros F1 (zs1 & H1 & Er1) Hb1 Hh1. destruct (frun_same nw f zs1 F1 H1 Er1) as (ys & d & Ed & Sd). destruct (C57_all_bound nw f d H1 n) as [B HB]; [exists ys; destruct Sd as [S1 _]; rewrite S1; auto|].
    exists B. intros xs F' H' Ex Hc _. apply fdo_run in Ex as [Ex _]. destruct (same_run nw xs d _ _ _ Sd Ex) as (d' & Ed' & _). eapply HB; [|exact Hc|exact Ed'].
    exact (proj1 (above_run nw xs _ _ _ n Ex Hc Hb1)).
  - intros F1 F2 Hh1 (x & e & Ex & _). exact (fexec_halt _ _ _ _ Ex Hh1).
Qed.
(** The queue is open, and no wait times out or ends spuriously. *)
Definition calm_step (x : nat * fact) F : Prop := snd x <> FDo (AInt CTime) /\ snd x <> FDo (AInt CSpur) /\ halt (sh (fc F)) = false.
Definition next_open := nextF nw calm_step.
Theorem C96_ends_open f zs F H : frun nw (finit nw f) zs = Some (F, H) -> Acc next_open F.
Proof.
  intros Er. destruct (below_reach nw f zs F H Er) as (n & Hn). apply (ends_acc nw f n calm_step (fun _ => True)) with (m := S n); [|auto|exists zs, H; exact Er|exact Hn|exact I|lia].
  intros F1 (zs1 & H1 & Er1) Hb1 _. destruct (frun_same nw f zs1 F1 H1 Er1) as (ys & d & Ed & Sd). destruct (C64_bounded nw f n ys d H1 Ed) as [B HB].
  exists (tsum n (fun _ => B) + tsum n (fun t => opt (fun _ => 1) (th (fc F1) t))). intros xs F' H' Ex Hc Hok.
  destruct (rev xs) as [|x xs'] eqn:Exs; [apply (f_equal (@rev _)) in Exs; rewrite rev_involutive in Exs; subst xs; cbn; lia|]. apply (f_equal (@rev _)) in Exs. rewrite rev_involutive in Exs. cbn in Exs.
  assert (Hh : halt (sh (fc F')) = false). { subst xs. destruct (Hok (rev xs') x [] F' H' eq_refl Ex) as (_ & _ & E). exact E. }
  assert (Ew : Forall (fun y => snd y <> AInt CTime /\ snd y <> AInt CSpur) xs).
  { apply Forall_forall. intros y Hy. apply elem_of_list_split in Hy as (l1 & l2 & El). rewrite El in Ex. assert (Ex' := Ex). replace (l1 ++ y :: l2) with ((l1 ++ [y]) ++ l2) in Ex' by (rewrite <- app_assoc; reflexivity). rewrite map_app, frun_app in Ex'.
    destruct (frun nw F1 (map _ (l1 ++ [y]))) as [[F3 H3]|] eqn:E3; [|discriminate]. destruct (Hok l1 y l2 F3 H3 El E3) as (J1 & J2 & _). cbn in J1, J2. split; congruence. }
  clear Exs Hok. apply fdo_run in Ex as [Ex _]. pose proof (proj1 (above_run nw xs _ _ _ n Ex Hc Hb1)) as Hon. rewrite (len_sum n xs Hon Hc). pose proof (rets_sum nw n xs _ _ _ Hon Hc Ex) as Hr.
  destruct (same_run nw xs d _ _ _ Sd Ex) as (d' & Ed' & [S1 _]). rewrite <- S1 in Hh.
  enough (tsum n (fun t => n_int t xs) <= tsum n (fun _ => B)) by lia. apply tsum_le. intros t Ht. pose proof (HB xs _ _ t Hc Hon Ed' Hh Ht) as Hb. rewrite (no_wakes t xs Ew) in Hb. lia.
Qed.

(** ** closeWorkerQueue has thrown *)
Lemma threw_late f zs F H t i : frun nw (finit nw f) zs = Some (F, H) -> inb t (thrown F) = true -> last_ev H t i (HInv t OClose) -> halt (sh (fc F)) = true /\ exists pc, th (fc F) t = Some pc /\ in_close pc = true /\ joining pc = false.
Proof.
  intros Er Ht Hl. destruct (thrown_run nw f zs F H Er t Ht) as (_ & pc & Et & Hf). destruct (frun_same nw f zs F H Er) as (xs & d & Ex & [S1 S2]). assert (Et' := Et). rewrite <- S2 in Et'.
  destruct (opI_run f xs d H Ex t pc Et') as [J1 _]. destruct (failed_cases pc Hf) as [Hc|(o & Hc & _)].
  - split; [|exists pc; splits; [exact Et|exact Hc|destruct pc; try discriminate; reflexivity]]. rewrite <- S1. destruct (halt (sh d)) eqn:Hh; [reflexivity|]. pose proof (op_late _ _ (openI_run nw _ _ _ _ (openI_init nw f) Ex) Hh _ _ Et') as Hla.
    destruct pc; try discriminate. destruct p; try (destruct i0; discriminate); destruct k; try (destruct i0; discriminate); try discriminate; destruct a; discriminate.
  - destruct (J1 _ Hc) as (i' & o' & Hl' & _ & Hne). destruct (last_uniq _ _ _ _ _ _ Hl Hl') as [_ [= <-]]. congruence.
Qed.
(** If it was the only call of closeWorkerQueue so far, then at every later moment no thread has been joined, the destructor will not
    close the queue, and will end the program. *)
Theorem C96_close_threw f zs F H t i : 0 < nw -> frun nw (finit nw f) zs = Some (F, H) -> inb t (thrown F) = true -> last_ev H t i (HInv t OClose) -> closes H <= 1 ->
  halt (sh (fc F)) = true /\ joined (sh (fc F)) = [] /\ dtor_calls (sh (fc F)) = None /\ terminates nw (sh (fc F)).
Proof.
  intros Hn Er Ht Hl Hc. destruct (threw_late f zs F H t i Er Ht Hl) as (Hh & pc & Et & Hi & Hj). destruct (frun_same nw f zs F H Er) as (xs & d & Ex & [S1 S2]). rewrite <- S2 in Et.
  assert (Ej : joined (sh (fc F)) = []). { rewrite <- S1. exact (oi_join _ _ (onceI_run nw f xs d H Ex) Hc _ _ Et Hi Hj). }
  splits; auto; [unfold dtor_calls; rewrite Hh; reflexivity|]. exists 0. split; [exact Hn|]. rewrite Ej. reflexivity.
Qed.
(** Calling closeWorkerQueue again: if it gets queueLock while worker [w] is in its loop, it keeps queueLock and waits for [w], which waits
    for queueLock to see [halt]: the call never returns, whatever happens, and [w] is never joined. *)
Theorem C96_retry f zs F H u w pw zs2 F' H' : frun nw (finit nw f) zs = Some (F, H) -> th (fc F) u = Some CL1 -> halt (sh (fc F)) = true -> w < nw -> th (fc F) w = Some pw -> pw <> W8 -> pw <> WE ->
  frun nw F zs2 = Some (F', H') -> (forall r, ~ In (HRet u r) H') /\ th (fc F') u <> None /\ inb w (joined (sh (fc F'))) = false.
Proof.
  intros Er Eu Hh Hw Ew H8 HE Er2. destruct (frun_same nw f zs F H Er) as (xs & d & Ex & [S1 S2]). pose proof (miscI_run nw f _ _ _ Ex) as HM.
  assert (Hg : inb w (gone (sh (fc F))) = false). { destruct (inb w (gone (sh (fc F)))) eqn:E; [|reflexivity]. rewrite <- S1 in E. apply (mi_gone _ _ _ _ _ HM) in E. rewrite S2 in E. congruence. }
  assert (Hlk : qlock (sh (fc F)) = Some u) by (apply (flock nw f zs F H Er); exists CL1; auto).
  destruct (stuck_run nw f zs2 u w zs F H F' H' Er) as [Hs Hr]; [|exact Er2|].
  - constructor; [exact Hw|exists CL1; auto|exact Hlk| |exact Hg|].
    + exists pw. splits; auto; [|].
      * destruct (op_work _ _ (openI_run nw _ _ _ _ (openI_init nw f) Ex) w Hw) as (pw' & E & E'). rewrite S2 in E. congruence.
      * destruct (hq pw) eqn:E; [|reflexivity]. pose proof (proj2 (flock nw f zs F H Er w) (ex_intro _ pw (conj Ew E))) as E'. rewrite E' in Hlk. injection Hlk as ->. rewrite Eu in Ew. injection Ew as <-.
        destruct (op_work _ _ (openI_run nw _ _ _ _ (openI_init nw f) Ex) u Hw) as (pw' & E2 & E3). rewrite S2 in E2. rewrite Eu in E2. injection E2 as <-. discriminate.
    + destruct (inb w (joined (sh (fc F)))) eqn:E; [|reflexivity]. rewrite <- S1 in E. apply (mi_joined _ _ _ _ _ HM) in E. rewrite S1 in E. congruence.
  - destruct Hs as [_ (pu & E & _) _ _ _ Hj]. splits; [exact Hr|rewrite E; discriminate|exact Hj].
Qed.

(** ** The constructor *)
(** It has started [k] threads and cannot start the next one [293]: no thread has been joined, so that the destructor of threadpool ends
    the program, at whatever points of workerLoop the threads are. *)
Theorem C96_constructor f k xs c H : 0 < k <= nw -> wq_run nw (wq_init nw f) xs = Some (c, H) -> Forall (fun x => fst x < k) xs -> calls xs = [] -> joined (sh c) = [] /\ terminates k (sh c).
Proof.
  intros Hk Er _ Hc. assert (E0 : closes H = 0).
  { unfold closes. destruct (List.filter _ H) as [|e l] eqn:E; [reflexivity|exfalso]. assert (Hin : In e (e :: l)) by (left; reflexivity). rewrite <- E in Hin. apply filter_In in Hin as [Hin He]. destruct e as [t o|t r]; [|discriminate].
    apply elem_of_list_In, elem_of_list_lookup in Hin as (i & Ei). pose proof (run_calls nw _ _ _ _ Er _ _ _ Ei) as Hi. rewrite Hc in Hi. destruct Hi. }
  destruct (oi_none _ _ (onceI_run nw f xs c H Er) E0) as [E _]. split; [exact E|]. exists 0. split; [lia|]. rewrite E. reflexivity.
Qed.
End props.
Print Assumptions C96_same.
Print Assumptions C96_user.
Print Assumptions C96_once.
Print Assumptions C96_dropped.
Print Assumptions C96_open.
Print Assumptions C96_rest.
Print Assumptions C96_closing_partial.
Print Assumptions C96_ends_closing.
Print Assumptions C96_ends_open.
Print Assumptions C96_close_threw.
Print Assumptions C96_retry.
Print Assumptions C96_constructor.

Definition fints (t n : nat) : list (nat * fact) := repeat (t, FDo (AInt CStep)) n.
Definition fcall_ret (t : nat) (o : wqop) (n : nat) : list (nat * fact) := (t, FDo (ACall o)) :: fints t n ++ [(t, FDo ARet)].

(** One worker.  The call 1 of addWorkBlock for block 7 throws in push_back; the call 2 submits block 8, which is executed; then the worker
    goes to sleep and nobody can step. *)
Definition add_throws : list (nat * fact) := (1, FDo (ACall (OAdd (Some (BWork 7)) PMed))) :: fints 1 12 ++ [(1, FThrow)].
Example C96_add_case : exists F H, frun 1 (finit 1 no_fin) (add_throws ++ fcall_ret 2 (OAdd (Some (BWork 8)) PMed) 17 ++ fints 0 39) = Some (F, H) /\
  inb 1 (thrown F) = true /\ last_ev H 1 0 (HInv 1 (OAdd (Some (BWork 7)) PMed)) /\ submitted 7 H = 1 /\ submitted 8 H = 1 /\ ran (sh (fc F)) = [8] /\ halt (sh (fc F)) = false /\
  queued 7 (sh (fc F)) = 0 /\ th (fc F) 0 = Some W4 /\ waits (sh (fc F)) = [0] /\ ~ fgo 1 F.
Proof.
  eexists _, _. split; [vm_compute; reflexivity|]. splits.
  - split; [reflexivity|]. split; [reflexivity|]. intros [|[|[|k]]] e' Hk E; cbn in E; try lia; try discriminate; injection E as <-; cbn; lia.
  - intros (t & a & F' & e & Ha & Hc & Ex). destruct t as [|[|[|t]]]; destruct a as [o|k|]; try (destruct (Hc _ eq_refl)); try (vm_compute in Ex; discriminate).
    destruct (Ha _ eq_refl) as [H1 H2]. destruct k; try congruence; vm_compute in Ex; discriminate.
Qed.
(** In the middle of it: the call 2 is in push_back and the worker in pop. *)
Example C96_open_case : exists F H, frun 1 (finit 1 no_fin) (add_throws ++ (2, FDo (ACall (OAdd (Some (BWork 8)) PMed))) :: fints 2 12 ++ fints 0 3) = Some (F, H) /\
  halt (sh (fc F)) = false /\ (exists pc, th (fc F) 2 = Some pc /\ ~ asleep (sh (fc F)) 2 pc) /\ inb 2 (thrown F) = false /\ inb 1 (thrown F) = true.
Proof. eexists _, _. split; [vm_compute; reflexivity|]. splits. eexists. split; [reflexivity|]. intros [E _]. discriminate. Qed.
(** The call 3 of closeWorkerQueue after that; everybody ends. *)
Definition one_close : list (hev wqop wqret) -> Prop := fun H => forall i j t u, H !! i = Some (HInv t OClose) -> H !! j = Some (HInv u OClose) -> i = j.
Lemma one_no_overlap H : one_close H -> no_overlap H.
Proof. intros Ho i j t u Hij Ei Ej. pose proof (Ho _ _ _ _ Ei Ej). lia. Qed.
Example C96_closing_case : exists F H, frun 1 (finit 1 no_fin) (add_throws ++ (3, FDo (ACall OClose)) :: fints 3 46) = Some (F, H) /\
  no_overlap H /\ (forall u i, inb u (thrown F) = true -> ~ last_ev H u i (HInv u OClose)) /\ halt (sh (fc F)) = true /\ th (fc F) 3 = Some (CJ 0 false) /\ inb 3 (thrown F) = false /\ thrown F = [1].
Proof.
  eexists _, _. split; [vm_compute; reflexivity|]. splits.
  - apply one_no_overlap. intros [|[|i]] [|[|j]] t u; cbn; try discriminate; reflexivity.
  - intros u i Hu (E & _). cbn in Hu. destruct u as [|[|u]]; try discriminate. destruct i as [|[|i]]; discriminate.
Qed.

(** One worker, asleep.  The only closeWorkerQueue throws in make_shared, or in the addWorkBlock of the dummy.  The worker may end or not; it
    has not been joined, the destructor does not call closeWorkerQueue, and ends the program. *)
Definition close_throws (n : nat) : list (nat * fact) := fints 0 9 ++ (1, FDo (ACall OClose)) :: fints 1 n ++ [(1, FThrow)].
Theorem C96_refuted : exists F H, frun 1 (finit 1 no_fin) (close_throws 4) = Some (F, H) /\ inb 1 (thrown F) = true /\ last_ev H 1 0 (HInv 1 OClose) /\ closes H <= 1 /\
  th (fc F) 0 = Some W4 /\ (forall t, 1 < t -> th (fc F) t = None) /\ dtor_calls (sh (fc F)) = None /\ terminates 1 (sh (fc F)).
Proof.
  eexists _, _. split; [vm_compute; reflexivity|]. splits.
  - split; [reflexivity|]. split; [reflexivity|]. intros [|k] e' Hk E; [lia|discriminate].
  - intros [|[|t]] Ht; try lia; reflexivity.
  - exists 0. split; [lia|reflexivity].
Qed.
Example C96_close_case : exists F H, frun 1 (finit 1 no_fin) (close_throws 40) = Some (F, H) /\ inb 1 (thrown F) = true /\ last_ev H 1 0 (HInv 1 OClose) /\ closes H <= 1.
Proof. eexists _, _. split; [vm_compute; reflexivity|]. splits. split; [reflexivity|]. split; [reflexivity|]. intros [|k] e' Hk E; [lia|discriminate]. Qed.
(** After that the call 2 of closeWorkerQueue gets queueLock before the worker that has been woken; both are stuck. *)
Theorem C96_retry_refuted : exists F H F' H', frun 1 (finit 1 no_fin) (close_throws 40 ++ (2, FDo (ACall OClose)) :: fints 2 1) = Some (F, H) /\ inb 1 (thrown F) = true /\
  th (fc F) 2 = Some CL1 /\ halt (sh (fc F)) = true /\ th (fc F) 0 = Some W4 /\ frun 1 F (fints 2 1 ++ fints 0 1) = Some (F', H') /\
  th (fc F') 2 = Some (CJ 0 true) /\ th (fc F') 0 = Some W4b /\ ~ fgo 1 F'.
Proof.
  eexists _, _, _, _. split; [vm_compute; reflexivity|]. do 4 (split; [reflexivity|]). split; [vm_compute; reflexivity|]. do 2 (split; [reflexivity|]).
  intros (t & a & F2 & e & Ha & Hc & Ex). destruct t as [|[|[|t]]]; destruct a as [o|k|]; try (destruct (Hc _ eq_refl)); try (vm_compute in Ex; discriminate);
    destruct (Ha _ eq_refl) as [H1 H2]; destruct k; try congruence; vm_compute in Ex; discriminate.
Qed.
(** Two threads have been started, one of them has gone to sleep and the other one is about to take queueLock. *)
Example C96_constructor_case : exists c H, wq_run 3 (wq_init 3 no_fin) (ints 0 8 ++ ints 1 6) = Some (c, H) /\ th c 0 = Some W3 /\ th c 1 = Some W1 /\
  Forall (fun x => fst x < 2) (ints 0 8 ++ ints 1 6) /\ calls (ints 0 8 ++ ints 1 6) = [].
Proof. eexists _, _. split; [vm_compute; reflexivity|]. splits. cbn. repeat (constructor; [cbn; lia|]). constructor. Qed.
Print Assumptions C96_refuted.
Print Assumptions C96_retry_refuted.
