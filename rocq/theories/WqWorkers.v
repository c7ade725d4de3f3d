(** WorkQueue: what getWorkerCount reports [WorkQueue.hpp 311] *)
From stdpp Require Import list.
From Verif Require Import Base Conc CondVar Herlihy SqModel SqSpec SqProofs WqModel WqProofs WqCount WqMore WqBound WqLive WqSeq WqPrio WqOpen WqDrain WqMisc WqDtor.
Local Open Scope nat_scope.

Section wq.
Variable nw : nat.
Notation wqcfg := (cfg wqsh wqpc).
Implicit Types (s : wqsh) (pc : wqpc) (c : wqcfg) (H : list (hev wqop wqret)) (xs : list (nat * act cvc wqop)).

(** A call that shows the queue closed: closeWorkerQueue has returned, or getWorkerCount has returned 0 although there are workers *)
Definition tells_closed (o : wqop) (r : wqret) : Prop := o = OClose \/ (o = OCount /\ r = RNum 0 /\ 0 < nw).
(** ... before position [i] of the history *)
Definition closed_before H (i : nat) : Prop := exists a b t o r, ret_of H a b t o r /\ tells_closed o r /\ b < i.
(** closeWorkerQueue has been called before position [i]. *)
Definition close_called H (i : nat) : Prop := exists a t, H !! a = Some (HInv t OClose) /\ a < i.

Definition answer H (i : nat) (h : bool) (n : Z) : Prop :=
  (n = Z.of_nat nw \/ (n = 0%Z /\ h = true)) /\ (closed_before H i -> n = 0%Z).

Record workI H c : Prop := {
  wi_halt : halt (sh c) = true -> close_called H (length H);
  wi_in : forall t pc, th c t = Some pc -> in_close pc = true -> close_called H (length H);
  wi_late : forall t pc i, th c t = Some pc -> last_ev H t i (HInv t OClose) -> early pc = true \/ halt (sh c) = true;
  wi_ret : forall i j t o r, ret_of H i j t o r -> tells_closed o r -> halt (sh c) = true;
  wi_ans : forall t pc i, th c t = Some pc -> last_ev H t i (HInv t OCount) -> pc = H0 \/ exists n, pc = Ret (RNum n) /\ answer H i (halt (sh c)) n;
  wi_done : forall i j t r, ret_of H i j t OCount r -> exists n, r = RNum n /\ (n = Z.of_nat nw \/ (n = 0%Z /\ close_called H j)) /\ (closed_before H i -> n = 0%Z);
}.

Lemma called_snoc H e i : close_called H i -> close_called (H ++ [e]) i.
Proof. intros (a & t & Ha & Hi). exists a, t. split; [apply lookup_old, Ha|exact Hi]. Qed.
Lemma called_len H e : close_called H (length H) -> close_called (H ++ [e]) (length (H ++ [e])).
Proof. intros (a & t & Ha & Hi). exists a, t. split; [apply lookup_old, Ha|]. rewrite app_length. cbn. lia. Qed.
Lemma closed_snoc H e i : i <= length H -> closed_before (H ++ [e]) i -> closed_before H i.
Proof.
  intros Hi (a & b & t & o & r & Hr & Ho & Hb). exists a, b, t, o, r. split; [|auto].
  apply (ret_snoc (Q := unit) (fun _ _ _ _ => True)) in Hr as [Hr|(-> & _)]; [exact Hr|lia].
Qed.
Lemma last_lt H t i (e : hev wqop wqret) : last_ev H t i e -> i < length H.
Proof. intros (E & _). eapply lookup_lt, E. Qed.
Lemma ret_lt H i j t o r : ret_of (Op := wqop) (Rt := wqret) H i j t o r -> i < length H.
Proof. intros (_ & E & _). eapply lookup_lt, E. Qed.

Lemma done_snoc H e c : workI H c ->
  forall i j t r, ret_of H i j t OCount r -> exists n, r = RNum n /\ (n = Z.of_nat nw \/ (n = 0%Z /\ close_called (H ++ [e]) j)) /\ (closed_before (H ++ [e]) i -> n = 0%Z).
Proof.
  intros Hw i j t r Hr. destruct (wi_done _ _ Hw _ _ _ _ Hr) as (n & E1 & E2 & E3). exists n. splits.
  - exact E1.
  - destruct E2 as [E2|[E2 E4]]; [auto|right]. split; [exact E2|apply called_snoc, E4].
  - intros Hc. apply E3. eapply closed_snoc; [|exact Hc]. apply ret_lt in Hr. lia.
Qed.

Lemma workI_exec H c x c' e : shaped c -> workI H c -> wq_exec nw c x = Some (c', e) -> workI (H ++ e) c'.
Proof.
  intros Hsh Hw. destruct x as [t [o|k|]]; unfold wq_exec; cbn.
  - destruct (th c t) eqn:Et; [discriminate|]. intros [= <- <-]. pose proof (start_live nw o) as (S1 & S2 & S3 & S4 & S5). constructor; cbn [sh th].
    + intros Hh. apply called_len, (wi_halt _ _ Hw Hh).
    + intros u pu Eu Hc. destruct (Nat.eqb_spec u t) as [->|Hne].
      * rewrite fupd_same in Eu. injection Eu as <-. rewrite (S5 Hc). exists (length H), t. split; [apply lookup_new|]. rewrite app_length. cbn. lia.
      * rewrite fupd_other in Eu by exact Hne. apply called_len. eapply wi_in; eassumption.
    + intros u pu i Eu El. destruct (Nat.eqb_spec u t) as [->|Hne].
      * rewrite fupd_same in Eu. injection Eu as <-. destruct (last_uniq _ _ _ _ _ _ El (last_new H (HInv t o) t eq_refl)) as [_ [= <-]]. auto.
      * rewrite fupd_other in Eu by exact Hne. apply last_old in El; [|cbn; congruence]. eapply wi_late; eassumption.
    + intros i j u o' r Hr. apply (ret_snoc (Q := unit) (fun _ _ _ _ => True)) in Hr as [Hr|(_ & [=] & _)]. eapply wi_ret; eassumption.
    + intros u pu i Eu El. destruct (Nat.eqb_spec u t) as [->|Hne].
      * rewrite fupd_same in Eu. injection Eu as <-. destruct (last_uniq _ _ _ _ _ _ El (last_new H (HInv t o) t eq_refl)) as [_ [= <-]]. auto.
      * rewrite fupd_other in Eu by exact Hne. apply last_old in El; [|cbn; congruence]. destruct (wi_ans _ _ Hw _ _ _ Eu El) as [E|(n & E & A1 & A2)]; [auto|right].
        exists n. split; [exact E|]. split; [exact A1|]. intros Hc. apply A2. eapply closed_snoc; [|exact Hc]. apply last_lt in El. lia.
    + intros i j u r Hr. apply (ret_snoc (Q := unit) (fun _ _ _ _ => True)) in Hr as [Hr|(_ & [=] & _)]. eapply done_snoc; eassumption.
  - destruct (th c t) as [pc|] eqn:Et; [|discriminate]. destruct (wq_step nw (sh c) t pc k) as [[s' pc']|] eqn:Es; [|discriminate]. intros [= <- <-]. rewrite app_nil_r in *.
    pose proof (step_live nw _ _ _ _ _ _ Es (Hsh _ _ Et)) as T. constructor; cbn [sh th].
    + intros Hh. destruct (sl_set _ _ _ _ _ _ T Hh) as [E|[-> _]]; [eapply wi_halt; eassumption|]. eapply wi_in; [exact Hw|exact Et|reflexivity].
    + intros u pu Eu Hc. destruct (Nat.eqb_spec u t) as [->|Hne].
      * rewrite fupd_same in Eu. injection Eu as <-. eapply wi_in; [exact Hw|exact Et|]. apply (sl_close _ _ _ _ _ _ T), Hc.
      * rewrite fupd_other in Eu by exact Hne. eapply wi_in; eassumption.
    + intros u pu i Eu El. destruct (Nat.eqb_spec u t) as [->|Hne].
      * rewrite fupd_same in Eu. injection Eu as <-. destruct (wi_late _ _ Hw _ _ _ Et El) as [E|E]; [eapply early_step; eassumption|right; apply (sl_halt _ _ _ _ _ _ T), E].
      * rewrite fupd_other in Eu by exact Hne. destruct (wi_late _ _ Hw _ _ _ Eu El) as [E|E]; [auto|right; apply (sl_halt _ _ _ _ _ _ T), E].
    + intros i j u o r Hr Ho. apply (sl_halt _ _ _ _ _ _ T). eapply wi_ret; eassumption.
    + intros u pu i Eu El. destruct (Nat.eqb_spec u t) as [->|Hne].
      * rewrite fupd_same in Eu. injection Eu as <-. destruct (wi_ans _ _ Hw _ _ _ Et El) as [->|(n & -> & _)]; [|destruct k; discriminate Es].
        right. destruct k; cbn in Es; try discriminate. injection Es as <- <-. eexists. split; [reflexivity|]. split.
        -- destruct (halt (sh c)); auto.
        -- intros (a & b & v & o & r & Hr & Ho & _). rewrite (wi_ret _ _ Hw _ _ _ _ _ Hr Ho). reflexivity.
      * rewrite fupd_other in Eu by exact Hne. destruct (wi_ans _ _ Hw _ _ _ Eu El) as [E|(n & E & A1 & A2)]; [auto|right].
        exists n. split; [exact E|]. split; [|exact A2]. destruct A1 as [A1|[A1 A3]]; [auto|right]. split; [exact A1|apply (sl_halt _ _ _ _ _ _ T), A3].
    + exact (wi_done _ _ Hw).
  - destruct (th c t) as [pc|] eqn:Et; [|discriminate]. destruct (wq_fin pc) as [r0|] eqn:Ef; [|discriminate]. intros [= <- <-]. destruct pc; try discriminate. injection Ef as <-.
    constructor; cbn [sh th].
    + intros Hh. apply called_len, (wi_halt _ _ Hw Hh).
    + intros u pu Eu Hc. unfold fupd in Eu. destruct (Nat.eqb_spec u t) as [->|Hne]; [discriminate|]. apply called_len. eapply wi_in; eassumption.
    + intros u pu i Eu El. unfold fupd in Eu. destruct (Nat.eqb_spec u t) as [->|Hne]; [discriminate|]. apply last_old in El; [|cbn; congruence]. eapply wi_late; eassumption.
    + intros i j u o r' Hr Ho. apply (ret_snoc (Q := unit) (fun _ _ _ _ => True)) in Hr as [Hr|(_ & [= <- <-] & Hr)]; [eapply wi_ret; eassumption|].
      destruct Ho as [->|(-> & -> & Hn)].
      * destruct (wi_late _ _ Hw _ _ _ Et Hr) as [E|E]; [discriminate|exact E].
      * destruct (wi_ans _ _ Hw _ _ _ Et Hr) as [[=]|(n & [= <-] & [E|[_ E]] & _)]; [lia|exact E].
    + intros u pu i Eu El. unfold fupd in Eu. destruct (Nat.eqb_spec u t) as [->|Hne]; [discriminate|]. apply last_old in El; [|cbn; congruence].
      destruct (wi_ans _ _ Hw _ _ _ Eu El) as [E|(n & E & A1 & A2)]; [auto|right].
      exists n. split; [exact E|]. split; [exact A1|]. intros Hc. apply A2. eapply closed_snoc; [|exact Hc]. apply last_lt in El. lia.
    + intros i j u r' Hr. apply (ret_snoc (Q := unit) (fun _ _ _ _ => True)) in Hr as [Hr|(-> & [= <- <-] & Hr)]; [eapply done_snoc; eassumption|].
      destruct (wi_ans _ _ Hw _ _ _ Et Hr) as [[=]|(n & [= ->] & A1 & A2)]. exists n. split; [reflexivity|split].
      * destruct A1 as [A1|[A1 A3]]; [auto|right]. split; [exact A1|]. apply called_snoc. apply (wi_halt _ _ Hw A3).
      * intros Hc. apply A2. eapply closed_snoc; [|exact Hc]. apply last_lt in Hr. lia.
Qed.

Lemma workI_run f xs c H : wq_run nw (wq_init nw f) xs = Some (c, H) -> workI H c.
Proof.
  revert c H. induction xs as [|x xs IH] using rev_ind; intros c H Er.
  - injection Er as <- <-. constructor.
    + discriminate.
    + intros t pc. cbn [wq_init th]. destruct (Nat.ltb t nw); [intros [= <-]; discriminate|discriminate].
    + intros t pc i _ (E & _). rewrite lookup_nil in E. discriminate.
    + intros i j t o r (_ & E & _). rewrite lookup_nil in E. discriminate.
    + intros t pc i _ (E & _). rewrite lookup_nil in E. discriminate.
    + intros i j t r (_ & E & _). rewrite lookup_nil in E. discriminate.
  - assert (E0 : exists c0 H0, wq_run nw (wq_init nw f) xs = Some (c0, H0)).
    { unfold wq_run in *. rewrite run_app in Er. destruct (run _ _ _ _ xs) as [[c0 H0]|]; [eauto|discriminate]. }
    destruct E0 as (c0 & H0 & E0). rewrite (run_snoc nw _ _ _ _ _ E0) in Er. destruct (wq_exec nw c0 x) as [[c1 e]|] eqn:Ex; [|discriminate]. injection Er as <- <-.
    eapply workI_exec; [exact (shaped_run nw _ _ _ _ (shaped_init nw f) E0)|exact (IH _ _ E0)|exact Ex].
Qed.
End wq.
