(** Final forms of the StackBuffer results, counterexamples and examples. *)
From stdpp Require Import gmap.
From Verif Require Import Base Heap Own StackModel StackSpec StackProofs StackWorld.

Lemma stack_lifo mem n ops :
  zlen mem = n -> n <= int_max -> Forall kop_legal ops ->
  exists s tr a, stk_run (stk_new mem n) ops = Ok (s, tr) /\ map fst tr = ops /\ lifo_trace n ([], true) tr a.
Proof.
  intros Hm Hn Hl. pose proof (zlen_nonneg mem).
  destruct (krun_ok ops (stk_new mem n) ([], true)) as (s & tr & a & H1 & H2 & H3 & H4 & _);
    [apply stk_new_inv; lia|assumption|]. exists s, tr, a. auto.
Qed.

Lemma stack_memory mem n ops :
  zlen mem = n -> n <= int_max -> Forall kop_legal ops ->
  exists s tr, stk_run (stk_new mem n) ops = Ok (s, tr) /\ zlen (k_mem s) = n /\ k_size s = n.
Proof.
  intros Hm Hn Hl. pose proof (zlen_nonneg mem).
  destruct (krun_ok ops (stk_new mem n) ([], true)) as (s & tr & a & H1 & H2 & H3 & H4 & H5 & H6);
    [apply stk_new_inv; lia|assumption|]. exists s, tr. cbn in *. splits; congruence.
Qed.

(** Where a block is stored after a push, and that nothing already stored is touched. *)
Lemma stack_push_frame mem n ops s tr d k s' :
  zlen mem = n -> n <= int_max -> Forall kop_legal ops ->
  stk_run (stk_new mem n) ops = Ok (s, tr) -> 0 < k -> k <= zlen d -> stk_push s (Some d) k = Ok (s', true) ->
  0 <= k_next s /\ k_next s + k <= k_idx s' + 8 /\ k_idx s' + 8 + 8 * k_count s' = n /\
  (forall a z, a + z <= k_next s \/ (k_next s + k <= a /\ a + z <= k_idx s) \/ k_idx s + 8 <= a ->
     mread (k_mem s') a z = mread (k_mem s) a z).
Proof.
  intros Hm Hn Hl Hr Hk Hd Hp. pose proof (zlen_nonneg mem).
  destruct (krun_ok ops (stk_new mem n) ([], true)) as (s0 & tr0 & a & H1 & H2 & H3 & H4 & H5 & H6);
    [apply stk_new_inv; lia|assumption|]. rewrite Hr in H1. injection H1 as <- <-. cbn in H5, H6.
  destruct H3 as [es Hok]. destruct Hok as [Hsz Hint Hcnt Hidx Hnx Hix Hbl Hdj Hhe Hne Hti Hem Hfl].
  unfold stk_push in Hp. destruct (Z.leb_spec k 0); [lia|]. destruct (stk_space s k) eqn:Hsp; cbn [negb] in Hp; [|discriminate].
  unfold stk_space, diSize in Hsp.
  apply obind_ok in Hp as (bs & Hbs & Hp). apply obind_ok in Hp as (m1 & W1 & Hp).
  apply obind_ok in Hp as (m2 & W2 & Hp). apply obind_ok in Hp as (m3 & W3 & Hp). injection Hp as <-.
  apply mread_inv in Hbs as (_ & _ & _ & Hlb & _). cbn [k_next k_idx k_count k_mem]. unfold diSize.
  splits; try lia. intros a0 z Ha.
  rewrite (mread_mwrite_disj _ _ _ _ a0 z W3) by (rewrite zlen_enc32; lia).
  rewrite (mread_mwrite_disj _ _ _ _ a0 z W2) by (rewrite zlen_enc32; lia).
  rewrite (mread_mwrite_disj _ _ _ _ a0 z W1) by lia. reflexivity.
Qed.

Lemma stack_space_any s d n : 0 < n ->
  (forall s' b, stk_push s (Some d) n = Ok (s', b) -> b = stk_space s n /\ (b = false -> s' = s)) /\
  (stk_space s n = false -> stk_push s (Some d) n = Ok (s, false)) /\
  stk_push s None n = Ok (s, false).
Proof.
  intros Hn. unfold stk_push. destruct (Z.leb_spec n 0); [lia|]. destruct (stk_space s n); cbn [negb].
  - splits; try discriminate. intros s' b HH.
    apply obind_ok in HH as (bs & Hbs & HH). apply obind_ok in HH as (m1 & W1 & HH).
    apply obind_ok in HH as (m2 & W2 & HH). apply obind_ok in HH as (m3 & W3 & HH). injection HH as <- <-. split; [reflexivity|discriminate].
  - splits. intros s' b HH; injection HH as <- <-; auto.
Qed.

Lemma stack_push_bad s d n : n <= 0 -> stk_push s d n = Ok (s, false).
Proof. intros Hn. destruct d; cbn; [|reflexivity]. destruct (Z.leb_spec n 0); [reflexivity|lia]. Qed.

Lemma stack_pop_any s k :
  (k_count s <= 0 -> stk_pop s k = Ok (s, 0, [])) /\
  (forall z, 0 < k_count s -> stk_next_size s = Ok z -> k < z -> stk_pop s k = Ok (s, - z, [])).
Proof.
  unfold stk_pop, stk_next_size. split.
  - intros H. destruct (Z.ltb_spec 0 (k_count s)); [lia|reflexivity].
  - intros z H. destruct (Z.ltb_spec 0 (k_count s)); [|lia]. intros -> Hk. cbn [obind].
    destruct (Z.leb_spec z k); [lia|reflexivity].
Qed.

Lemma stack_push_reach mem n ops s tr d k :
  zlen mem = n -> n <= int_max -> Forall kop_legal ops -> stk_run (stk_new mem n) ops = Ok (s, tr) ->
  0 < k -> k <= zlen d -> exists s', stk_push s (Some d) k = Ok (s', stk_space s k).
Proof.
  intros Hm Hn Hl Hr Hk Hd. pose proof (zlen_nonneg mem).
  destruct (krun_ok ops (stk_new mem n) ([], true)) as (s0 & tr0 & [q e] & H1 & H2 & H3 & _);
    [apply stk_new_inv; lia|assumption|]. rewrite Hr in H1. injection H1 as <- <-.
  destruct (stk_space s k) eqn:E.
  - destruct (push_ok s q e d k H3 Hk Hd E) as (s' & -> & _). eauto.
  - exists s. apply stack_space_any; assumption.
Qed.

(** ** Programs over several stacks, with purely static hypotheses *)
Definition snames (L : gmap nat unit) (p : swop) : gmap nat unit :=
  match p with
  | SDefault o | SCopy o _ | SMove o _ => <[o := tt]> L
  | SNew o n => if n <? 0 then L else <[o := tt]> L
  | SDestroy o => delete o L
  | _ => L
  end.

(** Objects are used within their lifetimes, int arguments are in range, no self copy-assignment. *)
Fixpoint sstatic (L : gmap nat unit) (ps : list swop) : Prop :=
  match ps with [] => True | p :: ps' => swop_legal L p /\ sstatic (snames L p) ps' end.

Definition no_move_assign (p : swop) : Prop := match p with SMoveAssign _ _ => False | _ => True end.

Lemma legal_dom {V W} (A : gmap nat V) (B : gmap nat W) p :
  (forall o, A !! o = None <-> B !! o = None) -> swop_legal A p -> swop_legal B p.
Proof.
  intros Hd.
  assert (Hs : forall o, is_Some (A !! o) -> is_Some (B !! o)).
  { intros o [b Hb]. destruct (B !! o) as [v|] eqn:E; [eauto|]. apply Hd in E. congruence. }
  assert (Hn : forall o, A !! o = None -> B !! o = None) by (intros o; apply Hd).
  destruct p; cbn [swop_legal]; intuition auto.
Qed.

Ltac dom_tac Hd o2 :=
  repeat match goal with
  | |- context [<[?o := _]> _ !! o2] => destruct (decide (o = o2)) as [<-|]; [rewrite !lookup_insert; split; congruence|rewrite !(lookup_insert_ne _ o o2) by assumption]
  end; try apply Hd.

Lemma sws_dom A p x A' (L : gmap nat unit) :
  (forall o, A !! o = None <-> L !! o = None) -> swop_legal A p -> sws_step A p x A' ->
  forall o, A' !! o = None <-> snames L p !! o = None.
Proof.
  intros Hd Hl Hs o2.
  assert (Hex : forall o v, A !! o = Some v -> L !! o = Some tt).
  { intros o v Hv. destruct (L !! o) as [[]|] eqn:E; [reflexivity|]. apply Hd in E. congruence. }
  assert (Hset : forall (o : nat) (v v' : sval), A !! o = Some v -> (<[o := v']> A !! o2 = None <-> L !! o2 = None)).
  { intros o v v' Hv. destruct (decide (o = o2)) as [<-|Hne].
    - rewrite lookup_insert. rewrite (Hex _ _ Hv). split; discriminate.
    - rewrite lookup_insert_ne by assumption. apply Hd. }
  assert (Hset2 : forall (o o' : nat) (v v' w w' : sval), A !! o = Some v -> A !! o' = Some v' ->
            (<[o := w]> (<[o' := w']> A) !! o2 = None <-> L !! o2 = None)).
  { intros o o' v v' w w' Hv Hv'. destruct (decide (o = o2)) as [<-|Hne].
    - rewrite lookup_insert. rewrite (Hex _ _ Hv). split; discriminate.
    - rewrite lookup_insert_ne by assumption. eapply Hset; eassumption. }
  destruct Hs; cbn [snames swop_legal] in *.
  - dom_tac Hd o2.
  - destruct (Z.ltb_spec n 0); [lia|]. dom_tac Hd o2.
  - destruct (Z.ltb_spec n 0); [|lia]. apply Hd.
  - dom_tac Hd o2.
  - destruct (decide (o = o2)) as [<-|Hne]; [rewrite !lookup_insert; split; congruence|].
    rewrite !(lookup_insert_ne _ o o2) by assumption. eapply Hset; eassumption.
  - destruct Hl as (_ & [v0 Hv0] & _). eapply Hset; eassumption.
  - destruct Hl as ([v0 Hv0] & _). eapply Hset2; eassumption.
  - eapply Hset2; eassumption.
  - apply Hd.
  - apply Hd.
  - eapply Hset; eassumption.
  - apply Hd.
  - eapply Hset; eassumption.
  - destruct (decide (o = o2)) as [<-|Hne]; [rewrite !lookup_delete; tauto|].
    rewrite !lookup_delete_ne by assumption. apply Hd.
Qed.

Lemma stack_static_run ps : forall w A L,
  swi False w A -> (forall o, A !! o = None <-> L !! o = None) -> sstatic L ps -> Forall no_move_assign ps ->
  exists w' tr A', swrun w ps = Ok (w', tr) /\ sws_trace A tr A' /\ map fst tr = ps.
Proof.
  induction ps as [|p ps IH]; intros w A L Hw Hd Hst Hnm; cbn [swrun].
  - exists w, [], A. splits. constructor.
  - destruct Hst as [Hl Hst]. inversion Hnm as [|? ? Hp Hnm']; subst.
    assert (Hl' : swop_legal A p) by (eapply legal_dom; [|exact Hl]; intros o; symmetry; apply Hd).
    assert (Hs : swop_safe False w p).
    { destruct p; cbn in *; try exact I; try contradiction; intros; right; right; auto. }
    destruct (swstep_ok False w A p Hw Hl' Hs) as (w1 & x & A1 & Hstep & Hsp & Hw1). rewrite Hstep; cbn [obind].
    destruct (IH w1 A1 (snames L p) Hw1) as (w2 & tr & A2 & -> & Ht & Hm); [|assumption|assumption|].
    + intros o. eapply sws_dom; eassumption.
    + cbn [obind]. exists w2, ((p, x) :: tr), A2. splits; [econstructor; eassumption|cbn; congruence].
Qed.

Lemma stack_world_static junk ps :
  sstatic ∅ ps -> Forall no_move_assign ps ->
  exists w tr A, swrun (sworld0 junk) ps = Ok (w, tr) /\ map fst tr = ps /\ sws_trace ∅ tr A.
Proof.
  intros Hst Hnm. destruct (stack_static_run ps (sworld0 junk) ∅ ∅) as (w & tr & A & H1 & H2 & H3); try assumption.
  - apply sworld0_inv.
  - intros o. rewrite !lookup_empty. tauto.
  - exists w, tr, A. auto.
Qed.

Lemma stack_world_ok junk ps :
  swprog_ok True (sworld0 junk) ps ->
  exists w tr A, swrun (sworld0 junk) ps = Ok (w, tr) /\ map fst tr = ps /\ sws_trace ∅ tr A.
Proof.
  intros Hp. destruct (swrun_ok True ps _ _ (sworld0_inv True junk) Hp) as (w & tr & A & H1 & H2 & H3 & H4).
  exists w, tr, A. auto.
Qed.

Lemma swprog_ok_app D ps1 ps2 : forall w w1 tr,
  swprog_ok D w (ps1 ++ ps2) -> swrun w ps1 = Ok (w1, tr) -> swprog_ok D w ps1 /\ swprog_ok D w1 ps2.
Proof.
  induction ps1 as [|p ps1 IH]; intros w w1 tr Hok Hr; cbn [app swprog_ok swrun] in *.
  - injection Hr as <- <-. split; [exact I|exact Hok].
  - destruct Hok as (Hl & Hs & Hrest).
    destruct (swstep w p) as [[w' x]| |] eqn:E; cbn [obind] in Hr; try discriminate.
    destruct (swrun w' ps1) as [[w2 tr2]| |] eqn:E2; cbn [obind] in Hr; try discriminate.
    injection Hr as <- <-. destruct (IH w' w2 tr2 (Hrest _ _ eq_refl) E2) as [Ha Hb].
    split; [|exact Hb]. splits; try assumption. intros w'' x' [= <- <-]. exact Ha.
Qed.

(** The state of one stack after a guarded program followed by a resize. *)
Lemma stack_resize junk ps o n w tr :
  swprog_ok True (sworld0 junk) (ps ++ [SResize o n]) -> swrun (sworld0 junk) ps = Ok (w, tr) ->
  exists A c q e, sws_trace ∅ tr A /\ A !! o = Some (c, (q, e)) /\
    ((n < 0 /\ swstep w (SResize o n) = Ok (w, SResized false)) \/
     (n = c /\ swstep w (SResize o n) = Ok (w, SResized true)) \/
     (swstep w (SResize o n) = Ok (w, SThrew) /\ 0 <= n < c /\ q <> [] /\ (e = true -> n < need q)) \/
     (0 <= n /\ need q <= n /\ exists w', swstep w (SResize o n) = Ok (w', SResized true) /\
        forall more, swprog_ok True w' more -> exists w2 tr2 A2, swrun w' more = Ok (w2, tr2) /\
          sws_trace (<[o := (n, (q, exact_if_empty q false))]> A) tr2 A2)).
Proof.
  intros Hok Hr. destruct (swprog_ok_app _ _ _ _ _ _ Hok Hr) as [Hok1 (Hl & Hs & _)].
  destruct (swrun_ok True ps _ _ (sworld0_inv True junk) Hok1) as (w0 & tr0 & A & H1 & H2 & Hw & H4).
  rewrite Hr in H1. injection H1 as <- <-.
  pose proof (slegal_transfer True _ _ _ Hw Hl) as Hl'. cbn in Hl'. destruct Hl' as [[[c [q e]] Hv] Hn].
  exists A, c, q, e. split; [exact H2|]. split; [exact Hv|].
  destruct (own_lookup _ _ _ _ _ _ _ Hw Hv) as (b & Hb & Hobj).
  assert (Hh : heap_ok (s_heap w)) by apply Hw.
  assert (Hsafe : sresize_safe b n).
  { split; [assumption|]. intros Hd. destruct (acap_nonneg True _ _ _ Hobj Hd) as [A1 A2].
    destruct (Hs b Hb Hd) as [?|[?|HD]]; [lia|auto|]. tauto. }
  cbn [swstep]. unfold sget. rewrite Hb; cbn [obind].
  destruct (sresize_ok True (s_heap w) b c q e n Hh Hobj Hsafe)
    as [(E1 & ->)|[(E1 & ->)|[(-> & E2 & E3 & E4)|(E1 & E2 & h' & b' & -> & Hloc & Hobj')]]]; cbn [obind].
  - left. split; [assumption|]. rewrite insert_id by assumption. destruct w; reflexivity.
  - right. left. split; [assumption|]. rewrite insert_id by assumption. destruct w; reflexivity.
  - right. right. left. rewrite insert_id by assumption. splits; try (destruct w; reflexivity); try assumption; try (intros ->; destruct E4; [discriminate|assumption]); try lia.
  - right. right. right. splits; try assumption. eexists. split; [reflexivity|]. intros more Hmore.
    assert (Hw' : swi True (SWorld h' (<[o := b']> (s_objs w))) (<[o := (n, (q, exact_if_empty q false))]> A)).
    { unfold swi; cbn. eapply own_update with (d := b_data b); [exact (sobj_frame True)|exact (sobj_old True)|exact Hw| | |exact Hloc|exact Hobj'].
      - intros b2 Hb2. congruence.
      - congruence. }
    destruct (swrun_ok True more _ _ Hw' Hmore) as (w2 & tr2 & A2 & R1 & R2 & _).
    exists w2, tr2, A2. auto.
Qed.

(** ** Counterexamples *)
Lemma stack_resize_throw_refuted :
  exists ps w, swrun (sworld0 (fun _ _ => 0)) ps = Ok (w, combine ps [SDone; SRet (RBool true); SResized true; SThrew]) /\
    ps = [SNew 0 100; SCall 0 (KPush (Some [1;2;3;4]) 4); SResize 0 200; SResize 0 100] /\
    need [[1;2;3;4]] <= 100.
Proof. eexists _, _. split; [|split; [reflexivity|vm_compute; discriminate]]. vm_compute. reflexivity. Qed.

Lemma stack_resize_space_refuted :
  exists ps w, swrun (sworld0 (fun _ _ => 0)) ps =
      Ok (w, combine ps [SDone; SRet (RBool true); SResized true; SRet (RInt 1000); SRet (RBool false); SRet (RBool false)]) /\
    ps = [SNew 0 20; SCall 0 (KPush (Some [1;2;3;4]) 4); SResize 0 1000; SCall 0 KCapacity;
          SCall 0 (KSpace 1); SCall 0 (KPush (Some [9]) 1)] /\
    fits 1000 [[1;2;3;4]] 1 = true.
Proof. eexists _, _. split; [|split; [reflexivity|vm_compute; reflexivity]]. vm_compute. reflexivity. Qed.

Lemma stack_moved_from_refuted :
  exists ps, ps = [SNew 0 64; SDefault 1; SMoveAssign 1 0; SResize 0 32; SCall 0 (KPush (Some [1]) 1)] /\
    sstatic ∅ ps /\ swrun (sworld0 (fun _ _ => 0)) ps = UB /\
    exists w tr, swrun (sworld0 (fun _ _ => 0)) (take 4 ps) = Ok (w, tr) /\ last tr = Some (SResize 0 32, SResized true).
Proof.
  eexists. split; [reflexivity|]. split; [|split; [vm_compute; reflexivity|eexists _, _; vm_compute; split; reflexivity]].
  cbn [sstatic swop_legal snames kop_legal]. splits; try reflexivity; try (eexists; reflexivity);
    try (vm_compute; discriminate).
Qed.

(** After a successful resize of a stack that holds blocks nothing is accepted until it is emptied. *)
Lemma stack_resize_stuck h b n h' b' k :
  b_count b <> 0 -> 0 <= b_count b -> n <> b_size b -> 0 < k ->
  sb_resize h b n = Ok (h', b', RRet true) -> stk_space (sraw_of h' b') k = false.
Proof.
  intros Hc Hc0 Hn Hk. unfold sb_resize.
  destruct (Z.ltb_spec n 0); [discriminate|]. destruct (Z.eqb_spec n (b_size b)); [contradiction|].
  destruct (Z.eqb_spec (b_count b) 0); [contradiction|].
  destruct (b_stated b <? n).
  - intros H0. apply obind_ok in H0 as ([h1 b1] & _ & H0). apply obind_ok in H0 as (m & _ & H0). injection H0 as <- <- _.
    unfold stk_space, sraw_of, diSize; cbn. lia.
  - destruct (n <? _); [discriminate|].
    intros H0. apply obind_ok in H0 as (m & _ & H0). injection H0 as <- <-.
    unfold stk_space, sraw_of, diSize; cbn. lia.
Qed.

(** Resizing an empty stack makes all of the new capacity usable. *)
Lemma stack_resize_empty h b n h' b' k :
  b_count b = 0 -> 0 <= n -> n <> b_size b ->
  sb_resize h b n = Ok (h', b', RRet true) ->
  stk_space (sraw_of h' b') k = fits n [] k /\ b_size b' = n /\ b_count b' = 0.
Proof.
  intros Hc Hn0 Hn. unfold sb_resize.
  destruct (Z.ltb_spec n 0); [discriminate|]. destruct (Z.eqb_spec n (b_size b)); [contradiction|].
  rewrite Hc. cbn [Z.eqb].
  intros H0. apply obind_ok in H0 as ([h1 b1] & _ & H0). injection H0 as <- <- _.
  unfold stk_space, sraw_of, diSize, fits, need; cbn. unfold zlen; cbn. splits. lia.
Qed.

(** ** Examples *)
Lemma stack_example :
  exists s, let ops := [KPush (Some [1;2]) 2; KPush (Some [3;4;5]) 3; KPush (Some [6]) 1; KReverse; KCount; KPop 2;
     KPush (Some [7;8]) 2; KPop 1; KPop 5; KPop 5; KPop 5; KEmpty] in
    Forall kop_legal ops /\
    stk_run (stk_new (repeat 0 40) 40) ops = Ok (s, combine ops
      [RBool true; RBool true; RBool true; RUnit; RInt 3; RPop 2 [1;2]; RBool true; RPop (-2) []; RPop 2 [7;8];
       RPop 3 [3;4;5]; RPop 1 [6]; RBool true]).
Proof.
  eexists. cbn zeta. split; [repeat constructor; vm_compute; discriminate|]. vm_compute. reflexivity.
Qed.

Lemma stack_world_example :
  exists w, let ps := [SNew 0 40; SCall 0 (KPush (Some [1;2;3]) 3); SCopy 1 0; SCall 1 (KPush (Some [4;5]) 2);
      SMove 2 1; SResize 2 64; SDefault 3; SCopyAssign 3 2; SSwap 0 3; SResize 1 30; SCall 1 (KPush (Some [8]) 1);
      SCall 0 (KPop 10); SCall 0 (KPop 10); SCall 3 (KPop 10); SCall 1 (KPop 10); SDestroy 0; SDestroy 1; SDestroy 2; SDestroy 3] in
    sstatic ∅ ps /\ Forall no_move_assign ps /\
    swrun (sworld0 (fun _ _ => 7)) ps = Ok (w, combine ps
      [SDone; SRet (RBool true); SDone; SRet (RBool true); SDone; SResized true; SDone; SDone; SDone; SResized true; SRet (RBool true);
       SRet (RPop 2 [4;5]); SRet (RPop 3 [1;2;3]); SRet (RPop 3 [1;2;3]); SRet (RPop 1 [8]); SDone; SDone; SDone; SDone]).
Proof.
  eexists. cbn zeta. split; [|split; [repeat constructor|vm_compute; reflexivity]].
  cbn [sstatic swop_legal snames kop_legal Z.ltb Z.compare]. splits; try reflexivity; try (eexists; reflexivity);
    try (vm_compute; discriminate); try lia.
Qed.

(** A guarded program with move assignments. *)
Lemma stack_guarded_example :
  exists w, let ps := [SNew 0 40; SCall 0 (KPush (Some [1;2;3]) 3); SDefault 1; SMoveAssign 1 0; SResize 0 50;
      SCall 0 (KPush (Some [9]) 1); SMoveAssign 0 1; SDestroy 1; SCall 0 (KPop 9)] in
    swprog_ok True (sworld0 (fun _ _ => 7)) ps /\
    swrun (sworld0 (fun _ _ => 7)) ps = Ok (w, combine ps
      [SDone; SRet (RBool true); SDone; SDone; SResized true; SRet (RBool true); SDone; SDone; SRet (RPop 3 [1;2;3])]).
Proof.
  eexists. cbn zeta. split; [|vm_compute; reflexivity].
  repeat (cbn [swprog_ok]; split; [cbn [swop_legal kop_legal]; splits; try reflexivity; try (eexists; reflexivity); try (vm_compute; discriminate)|];
    split; [cbn [swop_safe]; try exact I; try (intros b E; vm_compute in E; injection E as <-; cbn; intros; lia)|];
    intros w' x E; vm_compute in E; injection E as <- <-).
  exact I.
Qed.
