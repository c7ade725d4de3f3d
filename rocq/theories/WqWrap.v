(** WorkQueue: the counter of medium priority blocks overflows *)
From stdpp Require Import list.
From Verif Require Import Base Conc CondVar Herlihy Serial SqModel SqSpec SqProofs WqModel WqProofs WqSeq WqTurn.

Local Open Scope nat_scope.

Notation wqcfg := (cfg wqsh wqpc).

Lemma hands_intro nw n c t pc s1 pc1 s2 pc2 x : th c t = Some pc -> witer nw n (sh c) t pc = Some (s1, pc1) -> got s1 = got (sh c) ->
  wq_step nw s1 t pc1 CStep = Some (s2, pc2) -> got s2 = got (sh c) ++ [(t, x)] ->
  exists c', hands nw c t (n + 1) x c' /\ sh c' = s2 /\ th c' t = Some pc2 /\ forall u, u <> t -> th c' u = th c u.
Proof.
  intros Et E E1 E2 Eg. assert (E3 : witer nw (n + 1) (sh c) t pc = Some (s2, pc2)). { rewrite (witer_app _ _ _ _ _ _ _ _ E). cbn [witer]. rewrite E2. reflexivity. }
  destruct (witer_run _ _ _ _ _ _ _ Et E3) as (c' & Er & Esh & Et' & Eo). exists c'. split; [|split; [exact Esh|split; [exact Et'|exact Eo]]].
  split; [exact Er|]. split; [rewrite Esh; exact Eg|]. intros m d Hm Ed. destruct (run_ints_Some _ _ _ _ _ _ _ Et Ed) as (pcd & Ew & _). destruct (witer_prefix _ _ m _ _ _ _ _ E) as (sm & pm & Em & En); [lia|].
  rewrite Ew in Em. injection Em as <- <-. destruct (witer_got _ _ _ _ _ _ _ Ew) as [l El]. destruct (witer_got _ _ _ _ _ _ _ En) as [l' El'].
  rewrite El, E1 in El'. rewrite <- app_assoc in El'. rewrite <- (app_nil_r (got (sh c))) in El' at 1. apply app_inv_head in El'. destruct l; [rewrite El, app_nil_r; reflexivity|discriminate].
Qed.

(** One worker, nothing queued except perhaps medium priority work [q] and low priority work [l] *)
Definition mk (l : list ptr) : sqsh ptr := SqSh None None [] l (negb (nonempty l)).
Record calm (m : Z) (q l : list ptr) (s : wqsh) : Prop := {
  ca_hi : qH s = sq0; ca_med : qM s = mk q; ca_lo : qL s = mk l;
  ca_m : medc s = m; ca_r : ratio s = 4%Z; ca_halt : halt s = false; ca_lock : qlock s = None; ca_waits : waits s = [];
}.
Definition calm_cfg (k : nat) (m : Z) (l : list ptr) (c : wqcfg) : Prop :=
  calm m [] l (sh c) /\ th c 0 = Some loop /\ th c 1 = None /\ forall b, k <= b -> bfin (sh c) b = false.

Ltac opens s := destruct s as [h md lo mc rt hl ql ws bf gn jn gt dr ig rn]; cbn in *; subst.

(** The steps of the submitter and of the worker *)
Lemma add_steps s k m l : calm m [] l s -> bfin s k = false -> exists s1, witer 1 17 s 1 (A0 (Some (BWork k)) PMed) = Some (s1, Ret RUnit) /\
  calm m [Some (BWork k)] l s1 /\ got s1 = got s /\ bfin s1 = bfin s.
Proof.
  intros [A1 A2 A3 A4 A5 A6 A7 A8] Hb. opens s. change 17 with (1 + 16). cbn [witer Nat.add wq_step wq_step0 is_fin bfin]. rewrite Hb.
  eexists. split; [vm_compute; reflexivity|]. split; [constructor; reflexivity|]. split; reflexivity.
Qed.
Lemma see_steps s k m l : calm m [Some (BWork k)] l s -> exists s1, witer 1 4 s 0 loop = Some (s1, gstart (GWork (Some Med))) /\
  calm m [Some (BWork k)] l s1 /\ got s1 = got s /\ bfin s1 = bfin s.
Proof.
  intros [A1 A2 A3 A4 A5 A6 A7 A8]. opens s. eexists. split; [vm_compute; reflexivity|]. split; [constructor; reflexivity|]. split; reflexivity.
Qed.
Lemma get_steps s k m l g : calm m [Some (BWork k)] l s -> (m < 4)%Z \/ l = [] -> exists n s1 pc1 s2, witer 1 n s 0 (gstart g) = Some (s1, pc1) /\ got s1 = got s /\
  wq_step 1 s1 0 pc1 CStep = Some (hand s2 0 (Some (BWork k)) g) /\ got s2 = got s /\ calm (wrap32 (m + 1)) [] l s2 /\ bfin s2 = bfin s.
Proof.
  intros [A1 A2 A3 A4 A5 A6 A7 A8] Hm. opens s.
  assert (Hstart : exists s1, witer 1 11 (WqSh sq0 (mk [Some (BWork k)]) (mk l) m 4 false None [] bf gn jn gt dr ig rn) 0 (gstart g) =
     Some (s1, if (4 <=? m)%Z then Sub Lo (sq_start QEmpty) (KLowE g) else Sub Med (sq_start QPop) (KPop3 g)) /\ calm m [Some (BWork k)] l s1 /\ got s1 = gt /\ bfin s1 = bf).
  { eexists. split; [vm_compute; reflexivity|]. split; [constructor; reflexivity|]. split; reflexivity. }
  destruct Hstart as (s1 & E1 & Hc & Hg & Hf).
  assert (Hmed : forall s, calm m [Some (BWork k)] l s -> exists s3, witer 1 11 s 0 (Sub Med (sq_start QPop) (KPop3 g)) = Some (s3, G3 (Some (BWork k)) g) /\ calm m [] l s3 /\ got s3 = got s /\ bfin s3 = bfin s).
  { clear. intros s [A1 A2 A3 A4 A5 A6 A7 A8]. opens s. eexists. split; [vm_compute; reflexivity|]. split; [constructor; reflexivity|]. split; reflexivity. }
  assert (Hfin : forall n s2, witer 1 n (WqSh sq0 (mk [Some (BWork k)]) (mk l) m 4 false None [] bf gn jn gt dr ig rn) 0 (gstart g) = Some (s2, Sub Med (sq_start QPop) (KPop3 g)) ->
     calm m [Some (BWork k)] l s2 -> got s2 = gt -> bfin s2 = bf ->
     exists n s1 pc1 s2, witer 1 n (WqSh sq0 (mk [Some (BWork k)]) (mk l) m 4 false None [] bf gn jn gt dr ig rn) 0 (gstart g) = Some (s1, pc1) /\ got s1 = gt /\
     wq_step 1 s1 0 pc1 CStep = Some (hand s2 0 (Some (BWork k)) g) /\ got s2 = gt /\ calm (wrap32 (m + 1)) [] l s2 /\ bfin s2 = bf).
  { intros n s2 E2 Hc2 Hg2 Hf2. destruct (Hmed s2 Hc2) as (s3 & E3 & Hc3 & Hg3 & Hf3).
    exists (n + 11), s3, (G3 (Some (BWork k)) g), (set_medc (wrap32 (medc s3 + 1)) s3). split; [rewrite (witer_app _ _ _ _ _ _ _ _ E2); exact E3|]. split; [congruence|]. split; [reflexivity|]. split; [cbn; congruence|].
    split; [|cbn; congruence]. destruct Hc3 as [B1 B2 B3 B4 B5 B6 B7 B8]. constructor; cbn; congruence. }
  destruct (Z.leb_spec 4 m) as [Hle|Hlt].
  - assert (l = []) as -> by (destruct Hm; [lia|assumption]).
    assert (Hlow : exists s2, witer 1 2 s1 0 (Sub Lo (sq_start QEmpty) (KLowE g)) = Some (s2, Sub Med (sq_start QPop) (KPop3 g)) /\ calm m [Some (BWork k)] [] s2 /\ got s2 = got s1 /\ bfin s2 = bfin s1).
    { clear - Hc. destruct Hc as [A1 A2 A3 A4 A5 A6 A7 A8]. opens s1. eexists. split; [vm_compute; reflexivity|]. split; [constructor; reflexivity|]. split; reflexivity. }
    destruct Hlow as (s2 & E2 & Hc2 & Hg2 & Hf2). apply (Hfin (11 + 2) s2); [|exact Hc2|congruence|congruence]. rewrite (witer_app _ _ _ _ _ _ _ _ E1). exact E2.
  - apply (Hfin 11 s1); assumption.
Qed.
Lemma work_steps s k m l : calm m [] l s -> bfin s k = false -> exists s1, witer 1 3 s 0 (X0 (Some (BWork k))) = Some (s1, loop) /\ calm m [] l s1 /\ got s1 = got s /\ bfin s1 = fupd k true (bfin s).
Proof.
  intros [A1 A2 A3 A4 A5 A6 A7 A8] Hb. opens s. cbn [witer wq_step wq_step0 bfin]. rewrite Hb. cbn [witer wq_step wq_step0 bfin]. rewrite Hb.
  eexists. split; [reflexivity|]. split; [constructor; reflexivity|]. split; reflexivity.
Qed.

(** The submitter adds block [k], the worker finds it. *)
Lemma do_add c k m l : calm_cfg k m l c -> exists xs c1 H, wq_run 1 c xs = Some (c1, H) /\ got (sh c1) = got (sh c) /\ bfin (sh c1) = bfin (sh c) /\
  calm m [Some (BWork k)] l (sh c1) /\ th c1 0 = Some (gstart (GWork (Some Med))) /\ th c1 1 = None.
Proof.
  intros (Hc & T0 & T1 & Hb). destruct (add_steps _ k _ _ Hc (Hb _ (Nat.le_refl _))) as (s1 & Eu & Hc1 & Hg1 & Hf1).
  set (op := OAdd (Some (BWork k)) PMed).
  destruct (witer_run 1 17 (Cfg (sh c) (fupd 1 (Some (wq_start 1 op)) (th c))) 1 _ _ _ (fupd_same _ _ _) Eu) as (c1 & Er1 & Es1 & Et1 & Eo1).
  assert (T0' : th c1 0 = Some loop) by (rewrite Eo1 by lia; cbn; exact T0).
  destruct (see_steps _ _ _ _ Hc1) as (s2 & Ew & Hc2 & Hg2 & Hf2). rewrite <- Es1 in Ew.
  destruct (witer_run 1 4 (Cfg (sh c1) (fupd 1 None (th c1))) 0 loop _ _ T0' Ew) as (c2 & Er2 & Es2 & Et2 & Eo2).
  exists ((1, ACall op) :: ints 1 17 ++ (1, ARet) :: ints 0 4), c2, ([HInv 1 op] ++ [] ++ [HRet 1 RUnit] ++ []).
  split.
  { unfold wq_run in *. cbn [run exec th sh]. rewrite T1. rewrite run_app, Er1. cbn [run exec]. rewrite Et1. cbn [wq_fin]. rewrite Er2. reflexivity. }
  rewrite Es2. split; [congruence|]. split; [congruence|]. split; [exact Hc2|]. split; [exact Et2|]. rewrite Eo2 by lia. reflexivity.
Qed.
(** The worker runs it. *)
Lemma do_work c k m l : calm m [] l (sh c) -> th c 0 = Some (X0 (Some (BWork k))) -> th c 1 = None -> (forall b, k <= b -> bfin (sh c) b = false) ->
  exists c1, wq_run 1 c (ints 0 3) = Some (c1, []) /\ got (sh c1) = got (sh c) /\ calm_cfg (S k) m l c1.
Proof.
  intros Hc T0 T1 Hb. destruct (work_steps _ k _ _ Hc (Hb _ (Nat.le_refl _))) as (s1 & E & Hc1 & Hg1 & Hf1). destruct (witer_run 1 3 c 0 _ _ _ T0 E) as (c1 & Er & Es & Et & Eo).
  exists c1. split; [exact Er|]. rewrite Es. split; [exact Hg1|]. split; [rewrite Es; exact Hc1|]. split; [exact Et|]. split; [rewrite Eo by lia; exact T1|].
  intros b Hbk. rewrite Es, Hf1. rewrite fupd_other by lia. apply Hb. lia.
Qed.
Lemma do_get c k m l g : calm m [Some (BWork k)] l (sh c) -> (m < 4)%Z \/ l = [] -> th c 0 = Some (gstart (GWork g)) -> exists n c1, hands 1 c 0 n (Some (BWork k)) c1 /\
  calm (wrap32 (m + 1)) [] l (sh c1) /\ th c1 0 = Some (X0 (Some (BWork k))) /\ th c1 1 = th c 1 /\ bfin (sh c1) = bfin (sh c).
Proof.
  intros Hc Hm T0. destruct (get_steps _ _ _ _ (GWork g) Hc Hm) as (n & s1 & pc1 & s2 & E1 & E2 & E3 & E4 & Hc2 & Hf). unfold hand in E3.
  destruct (hands_intro 1 n c 0 _ s1 pc1 _ _ (Some (BWork k)) T0 E1 E2 E3) as (c1 & Hh & Es & Et & Eo); [cbn; rewrite E4; reflexivity|].
  exists (n + 1), c1. split; [exact Hh|]. rewrite Es. split; [destruct Hc2; constructor; assumption|]. split; [exact Et|]. split; [apply Eo; lia|exact Hf].
Qed.

(** Any number of medium priority blocks: the counter goes up, and wraps. *)
Lemma reach_calm k : exists xs c H, wq_run 1 (wq_init 1 (fun _ => false)) xs = Some (c, H) /\ calm_cfg k (wrap32 (Z.of_nat k)) [] c.
Proof.
  induction k as [|k (xs & c & H & Er & Hc)].
  - exists [], (wq_init 1 (fun _ => false)), []. split; [reflexivity|]. split; [constructor; reflexivity|]. split; [reflexivity|]. split; [reflexivity|]. reflexivity.
  - destruct (do_add _ _ _ _ Hc) as (x1 & c1 & H1 & E1 & _ & Hf1 & Hc1 & T0 & T1). destruct (do_get _ _ _ _ _ Hc1 (or_intror eq_refl) T0) as (n & c2 & (E2 & _) & Hc2 & T0' & T1' & Hf2).
    destruct (do_work _ _ _ _ Hc2 T0') as (c3 & E3 & _ & Hc3); [congruence|rewrite Hf2, Hf1; apply Hc|].
    exists (xs ++ x1 ++ ints 0 n ++ ints 0 3), c3, (H ++ H1 ++ [] ++ []). unfold wq_run in *. rewrite !run_app, Er, !run_app, E1, !run_app, E2, E3. split; [reflexivity|].
    replace (wrap32 (Z.of_nat (S k))) with (wrap32 (wrap32 (Z.of_nat k) + 1)); [exact Hc3|]. unfold wrap32. rewrite Nat2Z.inj_succ. f_equal.
    replace ((Z.of_nat k + 2 ^ 31) mod 2 ^ 32 - 2 ^ 31 + 1 + 2 ^ 31)%Z with ((Z.of_nat k + 2 ^ 31) mod 2 ^ 32 + 1)%Z by lia.
    rewrite Zplus_mod_idemp_l. f_equal. lia.
Qed.

(** A low priority block is submitted. *)
Lemma low_steps s k m : calm m [] [] s -> bfin s k = false -> exists s1, witer 1 17 s 1 (A0 (Some (BWork k)) PLow) = Some (s1, Ret RUnit) /\
  calm m [] [Some (BWork k)] s1 /\ got s1 = got s /\ bfin s1 = bfin s.
Proof.
  intros [A1 A2 A3 A4 A5 A6 A7 A8] Hb. opens s. change 17 with (1 + 16). cbn [witer Nat.add wq_step wq_step0 is_fin bfin]. rewrite Hb.
  eexists. split; [vm_compute; reflexivity|]. split; [constructor; reflexivity|]. split; reflexivity.
Qed.
Lemma do_low c k m : calm_cfg k m [] c -> exists xs c1 H, wq_run 1 c xs = Some (c1, H) /\ calm_cfg (S k) m [Some (BWork k)] c1.
Proof.
  intros (Hc & T0 & T1 & Hb). destruct (low_steps _ k _ Hc (Hb _ (Nat.le_refl _))) as (s1 & Eu & Hc1 & Hg1 & Hf1). set (op := OAdd (Some (BWork k)) PLow).
  destruct (witer_run 1 17 (Cfg (sh c) (fupd 1 (Some (wq_start 1 op)) (th c))) 1 _ _ _ (fupd_same _ _ _) Eu) as (c1 & Er1 & Es1 & Et1 & Eo1).
  exists ((1, ACall op) :: ints 1 17 ++ [(1, ARet)]), (Cfg (sh c1) (fupd 1 None (th c1))), ([HInv 1 op] ++ [] ++ [HRet 1 RUnit]).
  split; [unfold wq_run in *; cbn [run exec th sh]; rewrite T1; rewrite run_app, Er1; cbn [run exec]; rewrite Et1; reflexivity|].
  split; [cbn [sh]; rewrite Es1; exact Hc1|]. split; [cbn [th]; rewrite fupd_other, Eo1 by lia; exact T0|]. split; [apply fupd_same|]. intros b Hbk. cbn [sh]. rewrite Es1, Hf1. apply Hb. lia.
Qed.
