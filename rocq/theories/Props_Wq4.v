(** WorkQueue while it is open: C64, C65 *)
From stdpp Require Import list.
From Verif Require Import Base Conc CondVar Herlihy Serial SqModel SqSpec SqProofs WqModel WqProofs WqCount WqMore WqBound WqLive WqSeq WqTurn WqPrio WqOpen WqDrain Props_Wq Props_Wq2 Props_Wq3.
Local Open Scope nat_scope.

Section props.
Variable nw : nat.
Notation wqcfg := (cfg wqsh wqpc).
Implicit Types (s : wqsh) (c : wqcfg) (f : nat -> bool) (xs ys : list (nat * act cvc wqop)).

(** ** C64 *)
(** [can_go]: some thread can take a step that is neither a timeout nor a spurious wake-up.  [quiet]: all workers are asleep and
    nobody is inside an operation. *)
Theorem C64_no_deadlock f xs c H : 0 < nw -> wq_run nw (wq_init nw f) xs = Some (c, H) -> halt (sh c) = false -> can_go nw c \/ quiet nw c.
Proof.
  intros Hn Er Hh. set (n := S (list_max (map fst xs) + nw)).
  assert (Hth : forall t, n <= t -> th c t = None).
  { enough (Hx : forall zs c0 c1 H1 m, Forall (fun x => fst x < m) zs -> (forall t, m <= t -> th c0 t = None) -> wq_run nw c0 zs = Some (c1, H1) -> forall t, m <= t -> th c1 t = None).
    { eapply Hx; [| |exact Er].
      - apply Forall_forall. intros x Hx'. apply elem_of_list_In in Hx'. apply (in_map fst) in Hx'. pose proof (proj1 (list_max_le (map fst xs) (list_max (map fst xs))) (le_n _)) as HM.
        eapply List.Forall_forall in HM; [|exact Hx']. unfold n. lia.
      - intros t Ht. cbn [wq_init th]. destruct (Nat.ltb_spec t nw); [unfold n in Ht; lia|reflexivity]. }
    clear. induction zs as [|x zs IH]; intros c c' H m Hx Hc; unfold wq_run; cbn [run]; [intros [= <- <-]; exact Hc|].
    destruct (exec _ _ _ c x) as [[c1 e]|] eqn:Ex; [|discriminate]. destruct (run _ _ _ c1 zs) as [[c2 H2]|] eqn:Er; [|discriminate]. intros [= <- <-].
    inversion Hx; subst. eapply IH; [eassumption| |exact Er]. intros t Ht. pose proof (Hc t Ht) as Et. cbn in *. assert (t <> fst x) by lia. destruct x as [u [o|k|]]; cbn in *.
    - destruct (th c u); [discriminate|]. injection Ex as <- _. cbn. rewrite fupd_other by assumption. exact Et.
    - destruct (th c u); [|discriminate]. destruct (wq_step nw (sh c) u w k) as [[]|]; [|discriminate]. injection Ex as <- _. cbn. rewrite fupd_other by assumption. exact Et.
    - destruct (th c u); [|discriminate]. destruct (wq_fin w); [|discriminate]. injection Ex as <- _. cbn. rewrite fupd_other by assumption. exact Et. }
  assert (Hd : (exists t pc, th c t = Some pc /\ ~ asleep (sh c) t pc) \/ forall t pc, t < n -> th c t = Some pc -> asleep (sh c) t pc).
  { clear Hth. induction n as [|m IH]; [right; lia|]. destruct IH as [IH|IH]; [auto|]. destruct (th c m) as [pc|] eqn:Et.
    - assert (Hs : asleep (sh c) m pc \/ ~ asleep (sh c) m pc).
      { unfold asleep. destruct pc; try (right; intros [? _]; discriminate). destruct (inb m (waits (sh c))); [left; auto|right; intros [_ ?]; discriminate]. }
      destruct Hs as [Hs|Hs]; [right|left; eauto]. intros t pt Ht E. assert (Hc : t < m \/ t = m) by lia. destruct Hc as [Hc| ->]; [eauto|]. congruence.
    - right. intros t pt Ht E. assert (Hc : t < m \/ t = m) by lia. destruct Hc as [Hc| ->]; [eauto|]. congruence. }
  pose proof (openI_run nw _ _ _ _ (openI_init nw f) Er) as Ho.
  destruct Hd as [(t & pc & Et & Ha)|Hd].
  - left. refine (open_go nw c _ Ho Hh t pc Et _ Ha); [intros i; eapply qproj_run; [|exact Er]; intros j; apply qproj_init|].
    intros l ->. pose proof (direct_run nw _ _ _ _ Hn Er _ _ Et). discriminate.
  - right. split.
    + intros t Ht. destruct (op_work _ _ Ho t Ht) as (pc & Et & _). exists pc. split; [exact Et|]. apply Hd; [unfold n; lia|exact Et].
    + intros t Ht. destruct (th c t) as [pc|] eqn:Et; [|reflexivity]. destruct (le_lt_dec n t) as [Hge|Hlt]; [rewrite Hth in Et by exact Hge; discriminate|].
      destruct (Hd t pc Hlt Et) as [-> _]. pose proof (op_user _ _ Ho Hh _ _ Ht Et). discriminate.
Qed.

(** Nobody takes more than a bounded number of steps without a new call, unless a wait of its own times out (or ends spuriously), which
    allows 170 more. *)
Theorem C64_bounded f n xs c H : wq_run nw (wq_init nw f) xs = Some (c, H) ->
  exists B, forall ys c' H' t, calls ys = [] -> onn n ys -> wq_run nw c ys = Some (c', H') -> halt (sh c') = false -> t < n -> n_int t ys <= B + 170 * wakes t ys.
Proof.
  intros Er. exists (tsum n (fun t => wlap * oalltok nw n c + oown nw c t)). intros ys c' H' t Hc Hy Er' Hh Ht.
  pose proof (obound_run nw n ys c c' H' t (openI_run nw _ _ _ _ (openI_init nw f) Er) Hc Hy Er' Hh) as Hb.
  enough (wlap * oalltok nw n c + oown nw c t <= tsum n (fun t => wlap * oalltok nw n c + oown nw c t)) by (unfold wlap in *; lia).
  exact (tsum_ge n (fun t => wlap * oalltok nw n c + oown nw c t) t Ht).
Qed.

(** [done c b]: block [b] is finished, or a user got it from getWorkBlock. *)
Definition done c (b : nat) : Prop := bfin (sh c) b = true \/ exists t, nw <= t /\ In (t, Some (BWork b)) (got (sh c)).

(** [past s w pc]: worker [w] has found one of the queues empty and will not look at it again before it waits. *)
Definition past s (w : nat) pc : Prop :=
  match pc with
  | Sub Hi (SqModel.Ret (QBool true)) (KE EWork) | Sub Med _ (KE EWork) | Sub Lo _ (KE EWork) | W1 | W2 | W3 => True
  | W4 => inb w (waits s) = true
  | _ => False
  end.

Lemma drained f xs c H w pc ys c' H' : 0 < nw -> wq_run nw (wq_init nw f) xs = Some (c, H) -> halt (sh c) = false ->
  (forall t, nw <= t -> th c t = None) -> w < nw -> th c w = Some pc -> ~ past (sh c) w pc ->
  wq_run nw c ys = Some (c', H') -> calls ys = [] -> ~ can_go nw c' ->
  quiet nw c' /\ halt (sh c') = false /\ (forall i, content i (sh c') = []) /\ forall b, 1 <= submitted b (H ++ H') -> done c' b.
Proof.
  intros Hn Er Hh Hu Hw Ew Hp Er' Hc Hg.
  assert (Er2 : wq_run nw (wq_init nw f) (xs ++ ys) = Some (c', H ++ H')) by (unfold wq_run in *; rewrite run_app, Er, Er'; reflexivity).
  pose proof (openI_run nw _ _ _ _ (openI_init nw f) Er) as Ho.
  assert (Hi0 : drainI w c).
  { constructor.
    - intros t pt Et. destruct (le_lt_dec nw t) as [Hge|Hlt]; [rewrite Hu in Et by exact Hge; discriminate|]. destruct (op_work _ _ Ho t Hlt) as (p2 & E1 & E2). congruence.
    - exact Hh.
    - exact (shaped_run nw _ _ _ _ (shaped_init nw f) Er).
    - intros i. eapply qproj_run; [|exact Er]. intros j. apply qproj_init.
    - intros p0 Ep. rewrite Ew in Ep. injection Ep as <-. destruct pc; cbn in Hp |- *; try exact I; try tauto. destruct k; try exact I. destruct e; [exact I|].
      destruct i; [|tauto|tauto]. split; [exact I|]. intros ->. destruct (Hp I). }
  pose proof (drainI_run nw w ys _ _ _ Hi0 Hc Er') as Hi1. pose proof (dr_halt _ _ Hi1) as Hh1.
  pose proof (no_go_quiet nw f _ _ _ Hn Er2 Hh1 Hg) as Hq. destruct Hq as [Q1 Q2].
  assert (Hvoid : forall i, void (sh c') i). { destruct (Q1 w Hw) as (p1 & E1 & -> & E2). exact (dr_known _ _ Hi1 _ E1 E2). }
  split; [split; assumption|]. split; [exact Hh1|]. split; [intros i; apply void_content, Hvoid|].
  intros b Hb.
  set (n := S (list_max (map fst (xs ++ ys)))).
  assert (Hon : onn n (xs ++ ys)).
  { apply Forall_forall. intros x Hx'. apply elem_of_list_In in Hx'. apply (in_map fst) in Hx'. pose proof (proj1 (list_max_le (map fst (xs ++ ys)) (list_max (map fst (xs ++ ys)))) (le_n _)) as HM.
    eapply List.Forall_forall in HM; [|exact Hx']. unfold n. lia. }
  pose proof (C56_accounting nw f n _ _ _ b Hon Er2) as Ea.
  assert (Hcfg : forall t pt, th c' t = Some pt -> pt = W4).
  { intros t pt Et. destruct (le_lt_dec nw t) as [Hge|Hlt]; [rewrite Q2 in Et by exact Hge; discriminate|]. destruct (Q1 t Hlt) as (p2 & E1 & -> & _). congruence. }
  rewrite (tsum_zero n (fun t => opt (coming b) (th c' t))) in Ea by (intros t _; destruct (th c' t) as [pt|] eqn:Et; [rewrite (Hcfg _ _ Et)|]; reflexivity).
  rewrite (tsum_zero n (fun t => opt (leaving b) (th c' t))) in Ea by (intros t _; destruct (th c' t) as [pt|] eqn:Et; [rewrite (Hcfg _ _ Et)|]; reflexivity).
  assert (Eq : queued b (sh c') = 0).
  { unfold queued, in_queue. destruct (Hvoid Hi) as [E1 E2], (Hvoid Med) as [E3 E4], (Hvoid Lo) as [E5 E6]. cbn [qof] in *. rewrite E1, E2, E3, E4, E5, E6. reflexivity. }
  assert (El : lost b (sh c') = 0).
  { destruct (lost b (sh c')) as [|m] eqn:E; [reflexivity|]. pose proof (C56_discarded_by_close nw f _ _ _ b Er2) as E'. rewrite E, Hh1 in E'. specialize (E' ltac:(lia)). discriminate. }
  rewrite Eq, El in Ea.
  assert (Hor : 1 <= handed b (sh c') \/ 1 <= refused b (sh c')) by lia. destruct Hor as [Hor|Hor].
  - unfold handed in Hor. apply occ_in in Hor. apply in_map_iff in Hor as ([t x] & E & Hx). cbn in E. subst x. unfold done.
    destruct (le_lt_dec nw t) as [Hge|Hlt]; [right; eauto|]. left. destruct (gotI_run nw f _ _ _ Er2 _ _ Hx Hlt) as [E|(pt & E1 & E2)]; [exact E|].
    rewrite (Hcfg _ _ E1) in E2. destruct E2 as [|[|]]; discriminate.
  - left. apply (fi_ign _ _ (finI_run nw f _ _ _ _ (finI_init nw f) Er2)). apply occ_in. exact Hor.
Qed.

(** Everybody is asleep, and the wait of some worker ends by timeout (or spuriously).  When the queue comes to rest again without new
    calls, all queues are empty and all work ever submitted has been done. *)
Theorem C64_drained f xs c H w k ys c' H' : 0 < nw -> wq_run nw (wq_init nw f) xs = Some (c, H) -> halt (sh c) = false -> ~ can_go nw c ->
  w < nw -> k = CTime \/ k = CSpur -> wq_run nw c ((w, AInt k) :: ys) = Some (c', H') -> calls ys = [] -> ~ can_go nw c' ->
  quiet nw c' /\ halt (sh c') = false /\ (forall i, content i (sh c') = []) /\ forall b, 1 <= submitted b H -> done c' b.
Proof.
  intros Hn Er Hh Hg Hw Hk Er' Hc Hg'. destruct (no_go_quiet nw f _ _ _ Hn Er Hh Hg) as [Q1 Q2]. destruct (Q1 w Hw) as (pc & Ew & -> & Hwt).
  assert (Es : wq_step nw (sh c) w W4 k = Some (set_waits (rm w (waits (sh c))) (sh c), W4b)) by (destruct Hk as [-> | ->]; cbn; rewrite Hwt; reflexivity).
  set (c1 := Cfg (set_waits (rm w (waits (sh c))) (sh c)) (fupd w (Some W4b) (th c))).
  assert (Ex : wq_exec nw c (w, AInt k) = Some (c1, [])) by (unfold wq_exec; cbn [exec]; rewrite Ew, Es; reflexivity).
  assert (E1 : wq_run nw (wq_init nw f) (xs ++ [(w, AInt k)]) = Some (c1, H)).
  { unfold wq_run, wq_exec in *. rewrite run_app, Er. cbn [run]. rewrite Ex. cbn. rewrite app_nil_r. reflexivity. }
  unfold wq_run, wq_exec in Er'. cbn [run] in Er'. unfold wq_exec in Ex. rewrite Ex in Er'. destruct (run _ _ _ c1 ys) as [[c2 H2]|] eqn:E2; [|discriminate]. injection Er' as <- <-.
  destruct (drained f _ c1 H w W4b ys c2 H2 Hn E1 Hh) as (D1 & D2 & D3 & D4); try assumption.
  - intros t Ht. cbn. rewrite fupd_other by lia. auto.
  - cbn. apply fupd_same.
  - intros [].
  - splits; try assumption. intros b Hb. apply D4. rewrite submitted_app. lia.
Qed.

(** ** C65 *)
(** Without waiting for a timeout: if, when the last call has returned, some worker still has to look at all three queues before it
    waits (it has just been notified, or is executing something), all the work is done. *)
Theorem C65_woken_partial f xs c H w pc ys c' H' : 0 < nw -> wq_run nw (wq_init nw f) xs = Some (c, H) -> halt (sh c) = false ->
  (forall t, nw <= t -> th c t = None) -> w < nw -> th c w = Some pc -> ~ past (sh c) w pc ->
  wq_run nw c ys = Some (c', H') -> calls ys = [] -> ~ can_go nw c' ->
  quiet nw c' /\ (forall i, content i (sh c') = []) /\ forall b, 1 <= submitted b H -> done c' b.
Proof.
  intros Hn Er Hh Hu Hw Ew Hp Er' Hc Hg. destruct (drained f _ _ _ _ _ _ _ _ Hn Er Hh Hu Hw Ew Hp Er' Hc Hg) as (D1 & D2 & D3 & D4). splits; try assumption.
  intros b Hb. apply D4. rewrite submitted_app. lia.
Qed.

Ltac onestep Es := match type of Es with Serial.solo _ _ _ _ _ ?ks = _ => destruct ks as [|[|?| |] ?] end; cbn [Serial.solo wq_fin wq_step] in Es; try discriminate Es.
(** addWorkBlock with more than numWorkers blocks of this priority in the queue wakes nobody, even if all workers are asleep. *)
Theorem C65_no_notify c t x p ks c' H : reach nw c -> unlocked (sh c) -> 0 < nw -> nw < length (content (queue_for p) (sh c)) ->
  wq_run nw c (block (t, OAdd x p, ks)) = Some (c', H) -> waits (sh c') = waits (sh c).
Proof.
  rewrite <- queue_for_ok. intros Hc Hu Hn Hl Er. destruct (run_block _ _ _ _ _ _ _ _ _ Er) as (r & _ & Es & _). pose proof (reach_rests nw _ Hc Hu) as Hr. revert Hr Hl Es. generalize (sh c) as s, (sh c') as s'. clear Er Hc Hu c c'.
  intros s s' Hr Hl Es. cbn [wq_start] in Es. onestep Es. cbn [wq_step0] in Es. assert (En : Nat.eqb nw 0 = false) by (destruct nw; [lia|reflexivity]). rewrite En in Es.
  assert (Hrun : forall ks s', Serial.solo (wq_step nw) wq_fin s t (Sub (lvl_of p) (sq_start QSize) (KSize x AUser)) ks = Some (s', r) -> waits s' = waits s).
  { clear Es. intros ks1 s1 Es. destruct (size_alone (qof (lvl_of p) s) t (Hr _)) as (n1 & E1). destruct (solo_sub nw _ _ _ _ S0 _ _ _ _ _ _ I E1 Es) as [k2 E2]. rewrite set_q_same in E2.
    onestep E2. cbn [wq_step0 sq_fin resume] in E2. destruct (push_alone (qof (lvl_of p) s) t (QPush x) (Hr _) I) as (n3 & q' & Hq & E3 & Hc).
    destruct (solo_sub nw _ _ _ _ (P0 (QPush x)) _ _ _ _ _ _ I E3 E2) as [k4 E4]. onestep E4. cbn [wq_step0 sq_fin resume] in E4.
    unfold content in Hl. destruct (Z.leb_spec (zlen (sq_content (qof (lvl_of p) s))) (Z.of_nat nw)) as [Hz|Hz]; [unfold zlen in Hz; lia|].
    match type of E4 with Serial.solo _ _ _ _ _ ?ks = _ => destruct ks as [|[|?| |] ?] end; cbn in E4; try discriminate. injection E4 as <- _. destruct p; reflexivity. }
  assert (Hign : forall ks s1, Serial.solo (wq_step nw) wq_fin (log_ign x s) t (Ret RUnit) ks = Some (s1, r) -> waits s1 = waits s).
  { intros [|[|?| |] ?] s1 E; cbn in E; try discriminate. injection E as <- _. reflexivity. }
  destruct x as [y|]; [destruct p|]; try (eapply Hign; exact Es); try (eapply Hrun; exact Es); destruct (is_fin s y); (eapply Hign; exact Es) || (eapply Hrun; exact Es).
Qed.
End props.

(** ** Examples *)
(** One worker.  It finds the three queues empty; before it waits, thread 1 adds block 7: notify_one wakes nobody.  The worker goes to
    sleep.  The queue is open, block 7 stays where it is, and nothing will happen until the wait times out. *)
Definition add (b : nat) (ks : list cvc) : list (nat * act cvc wqop) := block (1, OAdd (Some (BWork b)) PHigh, ks).
Definition missed : list (nat * act cvc wqop) := ints 0 6 ++ add 7 (repeat CStep 17) ++ ints 0 3.
Lemma quiet_1 c : th c 0 = Some W4 -> waits (sh c) = [0] -> (forall t, 1 <= t -> th c t = None) -> quiet 1 c.
Proof. intros E1 E2 E3. split; [|exact E3]. intros t Ht. assert (t = 0) as -> by lia. exists W4. split; [exact E1|]. split; [reflexivity|rewrite E2; reflexivity]. Qed.
Lemma users_gone nw m xs : forall c c' H, Forall (fun x => fst x < m) xs -> (forall t, m <= t -> th c t = None) -> wq_run nw c xs = Some (c', H) -> forall t, m <= t -> th c' t = None.
Proof.
  induction xs as [|x xs IH]; intros c c' H Hx Hc; unfold wq_run; cbn [run]; [intros [= <- <-]; exact Hc|].
  destruct (exec _ _ _ c x) as [[c1 e]|] eqn:Ex; [|discriminate]. destruct (run _ _ _ c1 xs) as [[c2 H2]|] eqn:Er; [|discriminate]. intros [= <- <-].
  inversion Hx; subst. eapply IH; [eassumption| |exact Er]. intros t Ht. pose proof (Hc t Ht) as Et. assert (t <> fst x) by lia. destruct x as [u [o|k|]]; cbn in *.
  - destruct (th c u); [discriminate|]. injection Ex as <- _. cbn. rewrite fupd_other by assumption. exact Et.
  - destruct (th c u); [|discriminate]. destruct (wq_step nw (sh c) u w k) as [[]|]; [|discriminate]. injection Ex as <- _. cbn. rewrite fupd_other by assumption. exact Et.
  - destruct (th c u); [|discriminate]. destruct (wq_fin w); [|discriminate]. injection Ex as <- _. cbn. rewrite fupd_other by assumption. exact Et.
Qed.
(** Two threads: worker 0 and user 1 *)
Lemma gone_1 xs c H : Forall (fun x => fst x < 2) xs -> wq_run 1 (wq_init 1 no_fin) xs = Some (c, H) -> th c 1 = None -> forall t, 1 <= t -> th c t = None.
Proof.
  intros Hx Er E t Ht. assert (Hc : t = 1 \/ 2 <= t) by lia. destruct Hc as [->|Hc]; [exact E|]. eapply users_gone; [exact Hx| |exact Er|exact Hc].
  intros u Hu. destruct u as [|[|u]]; [lia|lia|reflexivity].
Qed.

Theorem C65_refuted : exists xs c H, wq_run 1 (wq_init 1 no_fin) xs = Some (c, H) /\ halt (sh c) = false /\ ~ can_go 1 c /\
  submitted 7 H = 1 /\ ~ done 1 c 7 /\ content Hi (sh c) = [Some (BWork 7)].
Proof.
  assert (E : option_map (fun '(c, H) => (th c 0, th c 1, waits (sh c), halt (sh c), submitted 7 H, (bfin (sh c) 7, got (sh c), content Hi (sh c)))) (wq_run 1 (wq_init 1 no_fin) missed) =
    Some (Some W4, None, [0], false, 1, (false, [], [Some (BWork 7)]))) by (vm_compute; reflexivity).
  apply map_some in E as ([c H] & Er & E). injection E as E1 E2 E3 E4 E5 E6 E7 E8. exists missed, c, H. splits; try assumption.
  - apply quiet_no_go, quiet_1; [assumption|assumption|]. eapply gone_1; [|exact Er|assumption]. apply List.Forall_forall. intros x Hx. vm_compute in Hx. repeat (destruct Hx as [<-|Hx]; [cbn; lia|]). destruct Hx.
  - intros [E|(t & _ & Ht)]; [congruence|]. rewrite E7 in Ht. destruct Ht.
Qed.

(** The same state meets the hypotheses of C64_drained: after the timeout the worker executes the block. *)
Example C64_ex : exists c H c' H', wq_run 1 (wq_init 1 no_fin) missed = Some (c, H) /\ halt (sh c) = false /\ ~ can_go 1 c /\ submitted 7 H = 1 /\
  wq_run 1 c ((0, AInt CTime) :: ints 0 26) = Some (c', H') /\ ~ can_go 1 c' /\ ran (sh c') = [7] /\ bfin (sh c') 7 = true.
Proof.
  assert (E : option_map (fun '(c, H) => (th c 0, th c 1, waits (sh c), halt (sh c), submitted 7 H,
      option_map (fun '(c', H') => (th c' 0, th c' 1, waits (sh c'), ran (sh c'), bfin (sh c') 7)) (wq_run 1 c ((0, AInt CTime) :: ints 0 26)))) (wq_run 1 (wq_init 1 no_fin) missed) =
    Some (Some W4, None, [0], false, 1, Some (Some W4, None, [0], [7], true))) by (vm_compute; reflexivity).
  apply map_some in E as ([c H] & Er & E). apply pair_equal_spec in E as [E E6]. injection E as E1 E2 E3 E4 E5. apply map_some in E6 as ([c' H'] & Er' & E6). injection E6 as F1 F2 F3 F4 F5. exists c, H, c', H'.
  assert (Hc : forall t, 1 <= t -> th c t = None).
  { eapply gone_1; [|exact Er|assumption]. apply List.Forall_forall. intros x Hx. vm_compute in Hx. repeat (destruct Hx as [<-|Hx]; [cbn; lia|]). destruct Hx. }
  splits; try assumption.
  - apply quiet_no_go, quiet_1; assumption.
  - apply quiet_no_go, quiet_1; [assumption|assumption|]. eapply users_gone; [|exact Hc|exact Er']. apply List.Forall_forall. intros x Hx. vm_compute in Hx. repeat (destruct Hx as [<-|Hx]; [cbn; lia|]). destruct Hx.
Qed.

(** The worker is asleep when block 7 is added: it is notified and runs it without a timeout. *)
Example C65_woken_ex : exists c H c' H', wq_run 1 (wq_init 1 no_fin) (ints 0 9 ++ add 7 (repeat CStep 16 ++ [CWake 0])) = Some (c, H) /\ halt (sh c) = false /\
  (forall t, 1 <= t -> th c t = None) /\ th c 0 = Some W4 /\ ~ past (sh c) 0 W4 /\ submitted 7 H = 1 /\
  wq_run 1 c (ints 0 27) = Some (c', H') /\ ~ can_go 1 c' /\ ran (sh c') = [7].
Proof.
  assert (E : option_map (fun '(c, H) => (th c 0, th c 1, waits (sh c), halt (sh c), submitted 7 H,
      option_map (fun '(c', H') => (th c' 0, th c' 1, waits (sh c'), ran (sh c'))) (wq_run 1 c (ints 0 27)))) (wq_run 1 (wq_init 1 no_fin) (ints 0 9 ++ add 7 (repeat CStep 16 ++ [CWake 0]))) =
    Some (Some W4, None, [], false, 1, Some (Some W4, None, [0], [7]))) by (vm_compute; reflexivity).
  apply map_some in E as ([c H] & Er & E). apply pair_equal_spec in E as [E E6]. injection E as E1 E2 E3 E4 E5. apply map_some in E6 as ([c' H'] & Er' & E6). injection E6 as F1 F2 F3 F4. exists c, H, c', H'.
  assert (Hc : forall t, 1 <= t -> th c t = None).
  { eapply gone_1; [|exact Er|assumption]. apply List.Forall_forall. intros x Hx. vm_compute in Hx. repeat (destruct Hx as [<-|Hx]; [cbn; lia|]). destruct Hx. }
  splits; try assumption.
  - cbn. rewrite E3. discriminate.
  - apply quiet_no_go, quiet_1; [assumption|assumption|]. eapply users_gone; [|exact Hc|exact Er']. apply List.Forall_forall. intros x Hx. vm_compute in Hx. repeat (destruct Hx as [<-|Hx]; [cbn; lia|]). destruct Hx.
Qed.

(** Two blocks added while the worker is on its way to sleep: adding block 9 later does not wake it either. *)
Example C65_no_notify_ex : exists c H c' H', wq_run 1 (wq_init 1 no_fin) (ints 0 6 ++ add 7 (repeat CStep 17) ++ add 8 (repeat CStep 18) ++ ints 0 3) = Some (c, H) /\
  unlocked (sh c) /\ length (content Hi (sh c)) = 2 /\ waits (sh c) = [0] /\ wq_run 1 c (add 9 (repeat CStep 12)) = Some (c', H').
Proof.
  assert (E : option_map (fun '(c, H) => (waits (sh c), length (content Hi (sh c)), (pushL (qH (sh c)), pullL (qH (sh c)), pushL (qM (sh c)), pullL (qM (sh c)), pushL (qL (sh c)), pullL (qL (sh c))),
      option_map (fun _ => tt) (wq_run 1 c (add 9 (repeat CStep 12))))) (wq_run 1 (wq_init 1 no_fin) (ints 0 6 ++ add 7 (repeat CStep 17) ++ add 8 (repeat CStep 18) ++ ints 0 3)) =
    Some ([0], 2, (None, None, None, None, None, None), Some tt)) by (vm_compute; reflexivity).
  apply map_some in E as ([c H] & Er & E). apply pair_equal_spec in E as [E E9]. injection E as E1 E2 E3 E4 E5 E6 E7 E8. apply map_some in E9 as ([c' H'] & Er' & _). exists c, H, c', H'. splits; try assumption.
  intros []; split; assumption.
Qed.

Print Assumptions C64_no_deadlock.
Print Assumptions C64_bounded.
Print Assumptions C64_drained.
Print Assumptions C65_woken_partial.
Print Assumptions C65_no_notify.
Print Assumptions C65_refuted.
