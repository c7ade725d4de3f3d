(** The destructor of WorkQueue [WorkQueue.hpp 301-306]: closeWorkerQueue() unless [halt] is set; then the members are destroyed,
    and the destructor of a std::thread that is joinable (neither joined nor moved from) calls std::terminate. *)
From stdpp Require Import list.
From Verif Require Import Base Conc CondVar Herlihy SqModel SqSpec SqProofs WqModel WqProofs WqCount WqMore WqBound WqLive WqSeq WqPrio WqOpen WqDrain WqMisc.
Local Open Scope nat_scope.

Section wq.
Variable nw : nat.
Notation wqcfg := (cfg wqsh wqpc).
Implicit Types (s : wqsh) (pc : wqpc) (c : wqcfg) (H : list (hev wqop wqret)) (xs ys zs : list (nat * act cvc wqop)).

(** What the destructor calls [303-305] *)
Definition dtor_calls s : option wqop := if halt s then None else Some OClose.
(** Destroying [threadpool] now would end the program. *)
Definition terminates s : Prop := exists w, w < nw /\ inb w (joined s) = false.
(** No user is inside a call. *)
Definition at_rest c : Prop := forall t, nw <= t -> th c t = None.

Definition early pc : bool := match pc with CL0 | CL1 | CL2 => true | _ => false end.
Record dtorI H c : Prop := {
  dt_done : halt (sh c) = true -> all_joined nw (sh c) \/ exists u pc, th c u = Some pc /\ closer pc = true;
  dt_cf : forall u k, th c u = Some (CJ k false) -> forall j, j < k -> inb j (joined (sh c)) = true;
  dt_hist : forall i t, H !! i = Some (HInv t OClose) -> halt (sh c) = true \/ exists pc, th c t = Some pc /\ early pc = true;
}.

Lemma early_step s t pc k s' pc' : wq_step nw s t pc k = Some (s', pc') -> early pc = true -> early pc' = true \/ halt s' = true.
Proof.
  intros Es He. destruct pc; try discriminate; destruct k; cbn in Es; try discriminate.
  - unfold lock_q in Es. destruct (qlock s); [discriminate|]. injection Es as <- <-. auto.
  - injection Es as <- <-. destruct (halt s) eqn:E; auto.
  - injection Es as <- <-. auto.
Qed.

Lemma dtorI_exec H c x c' e : shaped c -> dtorI H c -> wq_exec nw c x = Some (c', e) -> dtorI (H ++ e) c'.
Proof.
  intros Hsh [L6 L8 L9]. destruct x as [t [o|k|]]; unfold wq_exec; cbn.
  - destruct (th c t) eqn:Et; [discriminate|]. intros [= <- <-]. pose proof (start_live nw o) as (S1 & S2 & S3 & S4 & S5). constructor; cbn [sh th].
    + intros Hh. destruct (L6 Hh) as [E|(u & pc & E1 & E2)]; [auto|right]. exists u, pc. rewrite fupd_other; [auto|congruence].
    + intros u k. unfold fupd. destruct (Nat.eqb u t); [intros [= E]; destruct (S4 _ _ E)|apply L8].
    + intros i u Ei. apply lookup_snoc in Ei as [Ei|[-> Ei]].
      * destruct (L9 _ _ Ei) as [Hh|(pc & E1 & E2)]; [auto|right]. exists pc. rewrite fupd_other; [auto|congruence].
      * injection Ei as <- <-. right. exists CL0. rewrite fupd_same. auto.
  - destruct (th c t) as [pc|] eqn:Et; [|discriminate]. destruct (wq_step nw (sh c) t pc k) as [[s' pc']|] eqn:Es; [|discriminate]. intros [= <- <-]. rewrite app_nil_r in *.
    destruct (step_live nw _ _ _ _ _ _ Es (Hsh _ _ Et)) as [T1 T2 T3 T4 T5 T6 T7 T8 T9 T10 T11 T12 T13 T14]. constructor; cbn [sh th].
    + intros Hh. destruct (T8 Hh) as [E'|[_ E']]; [|right; exists t, pc'; rewrite fupd_same; split; [reflexivity|apply pre_closer, E']].
      destruct (L6 E') as [E|(u & pu & E1 & E2)]; [left; intros j Hj; apply T3; auto|]. destruct (Nat.eq_dec u t) as [->|Hne].
      * rewrite Et in E1. injection E1 as <-. destruct (T12 E2) as [E3|(k' & -> & Hk)]; [right; exists t, pc'; rewrite fupd_same; auto|].
        left. intros j Hj. apply T3. eapply L8; [exact Et|clear - Hk Hj; lia].
      * right. exists u, pu. rewrite fupd_other by exact Hne. auto.
    + intros u k'. unfold fupd. destruct (Nat.eqb_spec u t) as [->|Hne].
      * intros [= E] j Hj. destruct (T14 _ E) as [[-> ->]|(k'' & -> & -> & E3)]; [clear - Hj; lia|]. destruct (Nat.eq_dec j k'') as [->|Hjk]; [exact E3|]. apply T3. eapply L8; [exact Et|clear - Hj Hjk; lia].
      * intros E j Hj. apply T3. eauto.
    + intros i u Ei. destruct (L9 _ _ Ei) as [Hh|(pu & E1 & E2)]; [left; auto|]. destruct (Nat.eq_dec u t) as [->|Hne]; [|right; exists pu; rewrite fupd_other by exact Hne; auto].
      rewrite Et in E1. injection E1 as <-. destruct (early_step _ _ _ _ _ _ Es E2) as [E3|E3]; [right; exists pc'; rewrite fupd_same; auto|auto].
  - destruct (th c t) as [pc|] eqn:Et; [|discriminate]. destruct (wq_fin pc) as [r|] eqn:Ef; [|discriminate]. intros [= <- <-]. destruct pc; try discriminate. constructor; cbn [sh th].
    + intros Hh. destruct (L6 Hh) as [E|(u & pu & E1 & E2)]; [auto|right]. exists u, pu. rewrite fupd_other; [auto|]. intros ->. rewrite Et in E1. injection E1 as <-. discriminate.
    + intros u k. unfold fupd. destruct (Nat.eqb u t); [discriminate|apply L8].
    + intros i u Ei. apply lookup_snoc in Ei as [Ei|[_ Ei]]; [|discriminate].
      destruct (L9 _ _ Ei) as [Hh|(pu & E1 & E2)]; [auto|right]. exists pu. rewrite fupd_other; [auto|]. intros ->. rewrite Et in E1. injection E1 as <-. discriminate.
Qed.

Lemma dtorI_run f xs : forall c H, wq_run nw (wq_init nw f) xs = Some (c, H) -> dtorI H c.
Proof.
  enough (G : forall xs c H c' H', shaped c -> dtorI H c -> wq_run nw c xs = Some (c', H') -> dtorI (H ++ H') c').
  { intros c H Er. apply (G xs (wq_init nw f) []) in Er; [exact Er|apply shaped_init|]. constructor; cbn [wq_init sh wq0 halt]; try discriminate.
    intros u k. cbn [wq_init th]. destruct (Nat.ltb u nw); discriminate. }
  clear xs. induction xs as [|x xs IH]; intros c H c' H' Hs Hl; unfold wq_run; cbn [run].
  - intros [= <- <-]. rewrite app_nil_r. exact Hl.
  - destruct (exec _ _ _ c x) as [[c1 e]|] eqn:Ex; [|discriminate]. destruct (run _ _ _ c1 xs) as [[c2 H2]|] eqn:Er; [|discriminate]. intros [= <- <-].
    rewrite app_assoc. eapply IH; [eapply shaped_exec; eassumption| |exact Er]. eapply dtorI_exec; [exact Hs|exact Hl|exact Ex].
Qed.

Lemma work_closer pc : workpc pc = true -> closer pc = true -> False.
Proof. destruct pc; cbn; try discriminate; destruct k; try discriminate. Qed.

Lemma joined_ended f xs c H : wq_run nw (wq_init nw f) xs = Some (c, H) -> all_joined nw (sh c) -> forall w, w < nw -> th c w = Some WE.
Proof. intros Er Ha w Hw. pose proof (miscI_run nw f _ _ _ Er) as HM. apply (mi_gone _ _ _ _ _ HM), (mi_joined _ _ _ _ _ HM), Ha, Hw. Qed.

Lemma rest_joined f xs c H : wq_run nw (wq_init nw f) xs = Some (c, H) -> at_rest c -> halt (sh c) = true -> all_joined nw (sh c).
Proof.
  intros Er Hr Hh. destruct (dt_done _ _ (dtorI_run f xs c H Er) Hh) as [Ha|(u & pc & E1 & E2)]; [exact Ha|]. exfalso.
  destruct (Nat.lt_ge_cases u nw) as [Hu|Hu]; [|rewrite (Hr u Hu) in E1; discriminate].
  destruct (op_work _ _ (openI_run nw _ _ _ _ (openI_init nw f) Er) u Hu) as (pc' & E3 & E4). rewrite E1 in E3. injection E3 as <-. eapply work_closer; eauto.
Qed.

Lemma rest_unclosed f xs c H : wq_run nw (wq_init nw f) xs = Some (c, H) -> at_rest c -> halt (sh c) = false -> forall i t, H !! i <> Some (HInv t OClose).
Proof.
  intros Er Hr Hh i t Ei. destruct (dt_hist _ _ (dtorI_run f xs c H Er) _ _ Ei) as [E|(pc & E1 & E2)]; [congruence|].
  destruct (Nat.lt_ge_cases t nw) as [Hu|Hu]; [|rewrite (Hr t Hu) in E1; discriminate].
  destruct (op_work _ _ (openI_run nw _ _ _ _ (openI_init nw f) Er) t Hu) as (pc' & E3 & E4). rewrite E1 in E3. injection E3 as <-. destruct pc; discriminate.
Qed.

(** Without calls no user gets into the queue. *)
Lemma no_calls_users ys : forall c c' H' u, calls ys = [] -> wq_run nw c ys = Some (c', H') -> th c u = None -> th c' u = None.
Proof.
  induction ys as [|[v a] ys IH]; intros c c' H' u Hc; unfold wq_run; cbn [run]; [intros [= <- _]; auto|].
  destruct (exec _ _ _ c (v, a)) as [[c1 e]|] eqn:Ex; [|discriminate]. destruct (run _ _ _ c1 ys) as [[c2 H2]|] eqn:Er; [|discriminate]. intros [= <- _] Hu.
  unfold calls in Hc. cbn in Hc. destruct a as [o|k|]; [discriminate|..]; (eapply IH; [exact Hc|exact Er|]); cbn in Ex.
  - destruct (th c v) eqn:Ev; [|discriminate]. destruct (wq_step nw (sh c) v w k) as [[??]|]; [|discriminate]. injection Ex as <- _. cbn. rewrite fupd_other; [exact Hu|congruence].
  - destruct (th c v) eqn:Ev; [|discriminate]. destruct (wq_fin w); [|discriminate]. injection Ex as <- _. cbn. unfold fupd. destruct (Nat.eqb u v); [reflexivity|exact Hu].
Qed.
Lemma no_calls_hist ys : forall c c' H', calls ys = [] -> wq_run nw c ys = Some (c', H') -> forall i t o, H' !! i <> Some (HInv t o).
Proof.
  induction ys as [|[v a] ys IH]; intros c c' H' Hc; unfold wq_run; cbn [run]; [intros [= _ <-] i t o; rewrite lookup_nil; discriminate|].
  destruct (exec _ _ _ c (v, a)) as [[c1 e]|] eqn:Ex; [|discriminate]. destruct (run _ _ _ c1 ys) as [[c2 H2]|] eqn:Er; [|discriminate]. intros [= _ <-] i t o.
  unfold calls in Hc. cbn in Hc. destruct a as [o'|k|]; [discriminate|..]; cbn in Ex; (destruct (th c v); [|discriminate]).
  - destruct (wq_step nw (sh c) v w k) as [[??]|]; [|discriminate]. injection Ex as _ <-. eapply IH; [exact Hc|exact Er].
  - destruct (wq_fin w); [|discriminate]. injection Ex as _ <-. destruct i as [|i]; [discriminate|]. exact (IH _ _ _ Hc Er i t o).
Qed.

Lemma no_calls_ret ys : forall c c' H' u i r, calls ys = [] -> wq_run nw c ys = Some (c', H') -> H' !! i = Some (HRet u r) -> th c' u = None.
Proof.
  induction ys as [|[v a] ys IH]; intros c c' H' u i r Hc; unfold wq_run; cbn [run]; [intros [= _ <-]; rewrite lookup_nil; discriminate|].
  destruct (exec _ _ _ c (v, a)) as [[c1 e]|] eqn:Ex; [|discriminate]. destruct (run _ _ _ c1 ys) as [[c2 H2]|] eqn:Er; [|discriminate]. intros [= <- <-].
  unfold calls in Hc. cbn in Hc. destruct a as [o'|k|]; [discriminate|..]; cbn in Ex; (destruct (th c v); [|discriminate]).
  - destruct (wq_step nw (sh c) v w k) as [[??]|]; [|discriminate]. injection Ex as _ <-. intros Ei. exact (IH _ _ _ _ _ _ Hc Er Ei).
  - destruct (wq_fin w); [|discriminate]. injection Ex as <- <-. destruct i as [|i]; cbn.
    + intros [= -> _]. eapply no_calls_users; [exact Hc|exact Er|]. cbn. apply fupd_same.
    + intros Ei. exact (IH _ _ _ _ _ _ Hc Er Ei).
Qed.

Section dtor.
Context (f : nat -> bool) (xs : list (nat * act cvc wqop)) (c : wqcfg) (H : list (hev wqop wqret)) (t : nat) (ys : list (nat * act cvc wqop)) (c' : wqcfg) (H' : list (hev wqop wqret)).
Hypothesis Er : wq_run nw (wq_init nw f) xs = Some (c, H).
Hypothesis Hr : at_rest c.
Hypothesis Ht : nw <= t.
Hypothesis Hh : halt (sh c) = false.
Hypothesis Er' : wq_run nw c ((t, ACall OClose) :: ys) = Some (c', H').
Hypothesis Hc : calls ys = [].

Lemma dt_run : wq_run nw (wq_init nw f) (xs ++ (t, ACall OClose) :: ys) = Some (c', H ++ H').
Proof. unfold wq_run in *. rewrite run_app, Er, Er'. reflexivity. Qed.
Lemma dt_split : exists c1 H1, c1 = Cfg (sh c) (fupd t (Some CL0) (th c)) /\ H' = HInv t OClose :: H1 /\ wq_run nw c1 ys = Some (c', H1).
Proof.
  unfold wq_run in Er'. cbn [run] in Er'. cbn [exec] in Er'. rewrite (Hr t Ht) in Er'. cbn [wq_start] in Er'.
  destruct (run _ _ _ _ ys) as [[c2 H2]|] eqn:E; [|discriminate]. injection Er' as <- <-. eexists _, H2. split; [reflexivity|]. split; [reflexivity|exact E].
Qed.
Lemma dt_once i u : (H ++ H') !! i = Some (HInv u OClose) -> i = length H.
Proof.
  intros Ei. destruct (Nat.lt_ge_cases i (length H)) as [Hi|Hi].
  - rewrite lookup_app_l in Ei by exact Hi. destruct (rest_unclosed f xs c H Er Hr Hh i u Ei).
  - rewrite lookup_app_r in Ei by exact Hi. destruct dt_split as (c1 & H1 & _ & -> & E1). destruct (i - length H) as [|k] eqn:Ek; [lia|]. cbn in Ei.
    destruct (no_calls_hist _ _ _ _ Hc E1 _ _ _ Ei).
Qed.
Lemma dt_no_overlap : no_overlap (H ++ H').
Proof. intros i j u v Hij Ei Ej. pose proof (dt_once _ _ Ei). pose proof (dt_once _ _ Ej). lia. Qed.
Lemma dt_users u : nw <= u -> u <> t -> th c' u = None.
Proof. intros Hu Hne. destruct dt_split as (c1 & H1 & -> & _ & E1). eapply no_calls_users; [exact Hc|exact E1|]. cbn. rewrite fupd_other by exact Hne. auto. Qed.
Lemma dt_live : liveI nw (H ++ H') c'.
Proof. apply (liveI_run nw (xs ++ (t, ACall OClose) :: ys) [] (wq_init nw f)); [apply shaped_init|apply liveI_init|exact dt_run|exact dt_no_overlap]. Qed.

(** It has returned: every worker has ended and was joined. *)
Lemma dt_returned : th c' t = None -> all_joined nw (sh c').
Proof.
  intros Hn. assert (Hr' : at_rest c') by (intros u Hu; destruct (Nat.eq_dec u t) as [->|Hne]; [exact Hn|apply dt_users; assumption]).
  eapply rest_joined; [exact dt_run|exact Hr'|].
  assert (E0 : (H ++ H') !! length H = Some (HInv t OClose)). { destruct dt_split as (c1 & H1 & _ & -> & _). rewrite lookup_app_r, Nat.sub_diag by lia. reflexivity. }
  destruct (dt_hist _ _ (dtorI_run f _ c' _ dt_run) _ _ E0) as [E|(pc & E1 & _)]; [exact E|congruence].
Qed.

(** [halt] is not set yet: the destructor is at its first lines and can go on, or a worker holds queueLock and gives it back in at most two steps. *)
Lemma dt_early : halt (sh c') = false -> exists pc, th c' t = Some pc /\ early pc = true /\
  ((exists c2, wq_exec nw c' (t, AInt CStep) = Some (c2, [])) \/
   exists w n c2, w < nw /\ qlock (sh c') = Some w /\ n <= 2 /\ wq_run nw c' (repeat (w, AInt CStep) n) = Some (c2, []) /\ qlock (sh c2) = None /\ th c2 t = Some pc).
Proof.
  intros Hf. assert (E0 : (H ++ H') !! length H = Some (HInv t OClose)). { destruct dt_split as (c1 & H1 & _ & -> & _). rewrite lookup_app_r, Nat.sub_diag by lia. reflexivity. }
  destruct (dt_hist _ _ (dtorI_run f _ c' _ dt_run) _ _ E0) as [E|(pc & E1 & E2)]; [congruence|]. exists pc. split; [exact E1|]. split; [exact E2|].
  destruct pc; try discriminate.
  - destruct (qlock (sh c')) as [w|] eqn:El.
    + right. destruct (proj1 (lv_lock _ _ _ dt_live w) El) as (pw & Ew & Hq).
      assert (Hw : w < nw). { destruct (Nat.lt_ge_cases w nw); [assumption|]. destruct (Nat.eq_dec w t) as [->|Hne]; [rewrite E1 in Ew; injection Ew as <-; discriminate|rewrite (dt_users w) in Ew by assumption; discriminate]. }
      destruct (lv_work _ _ _ dt_live w Hw) as (pw' & Ew' & Hwk). rewrite Ew in Ew'. injection Ew' as <-.
      assert (Hnt : t <> w) by lia. exists w.
      destruct pw; try discriminate Hq; try discriminate Hwk.
      all: try (eexists 1, _; split; [exact Hw|]; split; [reflexivity|]; split; [lia|]; cbn [repeat]; unfold wq_run; cbn [run exec]; rewrite Ew; split; [reflexivity|]; split; [reflexivity|]; cbn; rewrite fupd_other by exact Hnt; exact E1).
      all: eexists 2, _; split; [exact Hw|]; split; [reflexivity|]; split; [lia|]; cbn [repeat]; unfold wq_run; cbn [run exec]; rewrite Ew; cbn [wq_step wq_step0]; rewrite Hf; cbn [th sh]; rewrite fupd_same; split; [reflexivity|]; split; [reflexivity|]; cbn; rewrite !fupd_other by exact Hnt; exact E1.
    + left. eexists. unfold wq_exec. cbn [exec]. rewrite E1. cbn. unfold lock_q. rewrite El. reflexivity.
  - left. eexists. unfold wq_exec. cbn [exec]. rewrite E1. reflexivity.
  - left. eexists. unfold wq_exec. cbn [exec]. rewrite E1. reflexivity.
Qed.
(** The destructor is never at a dead end. *)
Lemma dt_alive pc : th c' t = Some pc -> ~ dead pc.
Proof.
  intros E1 Hd. destruct dt_split as (c1 & H1 & _ & EH & E2).
  assert (Hl : last_ev (H ++ H') t (length H) (HInv t OClose)).
  { rewrite EH. split; [rewrite lookup_app_r, Nat.sub_diag by lia; reflexivity|]. split; [reflexivity|]. intros k e Hk Ek Hte.
    rewrite lookup_app_r in Ek by lia. destruct (k - length H) as [|m] eqn:Em; [lia|]. cbn in Ek. destruct e as [v o|v r]; cbn in Hte; subst v.
    - exact (no_calls_hist _ _ _ _ Hc E2 _ _ _ Ek).
    - rewrite (no_calls_ret _ _ _ _ _ _ _ Hc E2 Ek) in E1. discriminate. }
  pose proof (mi_tells _ _ _ _ _ (miscI_run nw f _ _ _ dt_run) _ _ _ _ E1 Hl) as Hk. destruct pc; try contradiction; cbn in Hk; discriminate.
Qed.
End dtor.
End wq.
