(** int arithmetic: C74 (StackBuffer), C75 (CircularBuffer) *)
From stdpp Require Import gmap.
From Verif Require Import Base Heap CircModel CircBufModel CircInts StackModel StackSpec StackProofs StackWorld StackFinal StackInts.

(** ** C74
    Full statement: every int that StackBufferRaw and StackBuffer compute, from int arguments, is within int.
    Missing: resize to a smaller size of a stack that was resized before while it held blocks and is nearly as large as the
    largest int, see [C74_refuted]. *)
Theorem C74_stack_raw :
  forall mem n ops s tr o zs, zlen mem = n -> n <= int_max -> Forall kop_legal ops -> stk_run (stk_new mem n) ops = Ok (s, tr) ->
    stk_ints s o = Ok zs -> Forall int_ok zs.
Proof. exact stack_raw_ints. Qed.

Theorem C74_stack_partial :
  forall junk ps p w tr zs, swprog_ok True (sworld0 junk) (ps ++ [p]) -> swrun (sworld0 junk) ps = Ok (w, tr) -> sw_ints w p = Ok zs ->
    exists A, sws_trace ∅ tr A /\ (roomy A p -> Forall int_ok zs).
Proof. exact stack_world_ints. Qed.

Example C74_nonvacuous :
  let ps := [SNew 0 100; SCall 0 (KPush (Some [1;2;3;4]) 4); SCall 0 (KPush (Some [5;6]) 2); SResize 0 200; SCall 0 (KPop 1)] in
  match swrun (sworld0 (fun _ _ => 0)) ps with
  | Ok (w, _) => sw_ints w (SResize 0 150) = Ok [16; 184; 134; 200; 216] /\ sw_ints w (SCall 0 (KPop 2)) = Ok [6; 200; 1] /\ sw_ints w (SCall 0 (KPop 1)) = Ok [-2]
  | _ => False
  end.
Proof. vm_compute. auto. Qed.
Ltac prog := repeat (cbn [swprog_ok]; split; [cbn [swop_legal kop_legal]; splits; try reflexivity; try (eexists; reflexivity); try (vm_compute; discriminate)|];
    split; [cbn [swop_safe]; try exact I; try (intros b E; vm_compute in E; injection E as <-; cbn; intros; discriminate)|];
    intros ?w ?x E; vm_compute in E; injection E as <- <-).
Example C74_nonvacuous_guard :
  let ps := [SNew 0 100; SCall 0 (KPush (Some [1;2;3;4]) 4); SResize 0 200] in
  swprog_ok True (sworld0 (fun _ _ => 0)) (ps ++ [SResize 0 150]) /\
  exists A, sws_trace ∅ (combine ps [SDone; SRet (RBool true); SResized true]) A /\ A !! 0%nat = Some (200, ([[1;2;3;4]], false)) /\ roomy A (SResize 0 150).
Proof.
  split; [cbn [app]; prog; exact I|]. eexists. split; [|split].
  - cbn. econstructor; [apply sws_new; lia|]. econstructor; [eapply sws_call; [reflexivity|apply ls_push_ok; reflexivity || (vm_compute; congruence)]|].
    econstructor; [eapply sws_resize; [lia|reflexivity|vm_compute; congruence]|constructor].
  - reflexivity.
  - intros c q e E _ _. vm_compute in E. injection E as <- <- <-. right. vm_compute. congruence.
Qed.

Lemma swrun_last w ps p w1 tr1 w2 tr2 : swrun w ps = Ok (w1, tr1) -> swrun w (ps ++ [p]) = Ok (w2, tr2) -> exists x, swstep w1 p = Ok (w2, x).
Proof.
  revert w w1 tr1 w2 tr2. induction ps as [|q ps IH]; intros w w1 tr1 w2 tr2 E1 E2; cbn [app swrun] in *.
  - injection E1 as <- _. apply obind_ok in E2 as ([w3 x] & S & E2). cbn [obind] in E2. injection E2 as <- _. eauto.
  - apply obind_ok in E1 as ([wa xa] & S & E1). rewrite S in E2. cbn [obind] in E2.
    apply obind_ok in E1 as ([wb tb] & Ra & E1). apply obind_ok in E2 as ([wc tc] & Rb & E2). injection E1 as <- _. injection E2 as <- _. eapply IH; eauto.
Qed.
Lemma swstep_resize_inv w o n w' x b : s_objs w !! o = Some b -> swstep w (SResize o n) = Ok (w', x) ->
  exists h' b' r, sb_resize (s_heap w) b n = Ok (h', b', r) /\ s_objs w' !! o = Some b'.
Proof.
  intros Hb E. cbn [swstep] in E. unfold sget in E. rewrite Hb in E. cbn [obind] in E. apply obind_ok in E as ([[h' b'] r] & Hr & E). injection E as <- _.
  exists h', b', r. split; [exact Hr|]. apply lookup_insert.
Qed.

(** One block, resize to the largest int, resize back: line 248 adds 2147483647 + 8. *)
Theorem C74_refuted :
  exists ps w tr zs z, ps = [SNew 0 100; SCall 0 (KPush (Some [1;2;3;4]) 4); SResize 0 int_max] /\
    swprog_ok True (sworld0 (fun _ _ => 0)) ps /\ swrun (sworld0 (fun _ _ => 0)) ps = Ok (w, tr) /\
    sw_ints w (SResize 0 100) = Ok zs /\ In z zs /\ ~ int_ok z.
Proof.
  set (ps := [SNew 0 100; SCall 0 (KPush (Some [1;2;3;4]) 4); SResize 0 int_max]).
  assert (Hok : swprog_ok True (sworld0 (fun _ _ => 0)) ps).
  { subst ps. do 2 (cbn [swprog_ok]; split; [cbn [swop_legal kop_legal]; splits; try reflexivity; try (eexists; reflexivity); try (vm_compute; discriminate)|];
    split; [cbn [swop_safe]; exact I|]; intros ?w ?x E; vm_compute in E; injection E as <- <-).
    cbn [swprog_ok]. split; [split; [eexists; reflexivity|reflexivity]|]. split; [|auto]. intros b E; vm_compute in E; injection E as <-; discriminate. }
  destruct (stack_world_ok _ _ Hok) as (w & tr & _ & Er & _). exists ps, w, tr.
  destruct (swrun (sworld0 (fun _ _ => 0)) [SNew 0 100; SCall 0 (KPush (Some [1;2;3;4]) 4)]) as [[w1 tr1]| |] eqn:E1; [|vm_compute in E1; discriminate..].
  destruct (swrun_last _ _ _ _ _ _ _ E1 Er) as (x & E2).
  assert (H1 : exists b, s_objs w1 !! 0%nat = Some b /\ b_count b = 1 /\ b_size b = 100 /\ b_stated b = 100).
  { vm_compute in E1. injection E1 as <- <-. eexists. repeat split. }
  destruct H1 as (b & Hb & Hc & Hs & Hst). destruct (swstep_resize_inv _ _ _ _ _ _ Hb E2) as (h' & b' & r & Hr & Hb').
  assert (Hz : exists z, In z (sb_resize_ints b' 100) /\ ~ int_ok z).
  { eapply (stack_resize_leaves_int (s_heap w1) b int_max h' b' r); rewrite ?Hc, ?Hs, ?Hst; [reflexivity|discriminate|reflexivity|reflexivity|split; [discriminate|reflexivity]|exact Hr]. }
  destruct Hz as (z & Hz & Hnz).
  exists (sb_resize_ints b' 100), z. split; [reflexivity|]. split; [exact Hok|]. split; [exact Er|]. split; [|auto]. cbn [sw_ints]. unfold sget. rewrite Hb'. reflexivity.
Qed.

(** ** C75 *)
Theorem C75_circ_ints :
  forall junk ps p w tr zs, (forall i j, 0 <= junk i j < 256) -> Forall wop_args ps -> wop_args p -> wrun (world0 junk) ps = Ok (w, tr) -> cw_ints w p = Ok zs -> Forall int_ok zs.
Proof. intros junk ps p w tr zs H1 H2 H3. apply circ_world_ints; assumption. Qed.

Theorem C75_circ_raw_ints :
  forall mem n ops s tr o zs, bytes_ok mem -> zlen mem = n -> n <= int_max -> Forall cop_args ops -> cop_args o -> circ_run (circ_new mem n) ops = Ok (s, tr) ->
    circ_ints s o = Ok zs -> Forall int_ok zs.
Proof. exact circ_raw_ints. Qed.

(** Offsets and lengths stay within int too, so that the casts of lines 226-229 and 247-271 lose nothing. *)
Theorem C75_circ_offsets :
  forall junk ps w tr o b, (forall i j, 0 <= junk i j < 256) -> Forall wop_args ps -> wrun (world0 junk) ps = Ok (w, tr) -> w_objs w !! o = Some b ->
    0 <= CircBufModel.b_w b <= int_max /\ 0 <= CircBufModel.b_r b <= int_max /\ zlen (hget (w_heap w) (CircBufModel.b_org b)) <= int_max.
Proof.
  intros junk ps w tr o b Hj Hps Er Hb. pose proof (run_small _ _ _ _ (world0_small _ Hj) Hps Er) as [Hh Ho]. destruct (Ho _ _ Hb) as ((Hw & Hr & _) & _).
  split; [exact Hw|]. split; [exact Hr|]. apply small_get, Hh.
Qed.

Example C75_nonvacuous :
  let ps := [WNew 0 40; WCall 0 (CPush (Some [1;2;3;4;5;6;7;8;9;10]) 10); WCall 0 (CPush (Some [1;2;3;4;5;6;7;8]) 8); WCall 0 (CPop 10); WCall 0 (CPush (Some [11;12;13]) 3); WCall 0 (CPush (Some [14;15]) 2)] in
  Forall wop_args ps /\
  match wrun (world0 (fun _ _ => 0)) ps with
  | Ok (w, _) => cw_ints w (WResize 0 35) = Ok [14; 6; 26; 32] /\ cw_ints w (WResize 0 50) = Ok [14; 6; 26] /\ cw_ints w (WCall 0 (CPop 3)) = Ok [-8]
  | _ => False
  end.
Proof.
  split; [|vm_compute; auto].
  repeat (constructor; [cbn; unfold int_ok, int_min, int_max, bytes_ok; try (split; [lia|repeat constructor; lia]); lia|]). constructor.
Qed.

Print Assumptions C74_stack_raw.
Print Assumptions C74_stack_partial.
Print Assumptions C74_refuted.
Print Assumptions C75_circ_ints.
Print Assumptions C75_circ_raw_ints.
Print Assumptions C75_circ_offsets.
