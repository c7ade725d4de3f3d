(** Property C89: assigning a container to itself.
    Full statement: x = x leaves x unchanged, and x = std::move(x) leaves x in a state in which every call without
    precondition works.  False in both parts: the two buffers call memcpy with the same region as source and destination
    ([C89_buffers_self_copy_refuted]), the block containers cannot be traversed when the table is full (C18), and after
    x = std::move(x) a vector reports its old size but has no elements, a StackBuffer accepts a resize but has no memory. *)
From stdpp Require Import gmap.
From Verif Require Import Base Heap Own BlkHeap BlkIter VecModel VecSpec VecProofs VecWorld VecFinal DeqModel DeqSpec DeqProofs DeqMore DeqWorld DeqFinal SelfBlock.
From Verif Require CircModel CircBufModel CircBufSpec CircBufProofs CircBufWorld CircCheck CircFinal StackModel StackSpec StackWorld StackFinal SelfAssign.

Import CircModel CircBufModel CircBufSpec CircBufProofs CircBufWorld CircCheck CircFinal SelfAssign.

(** With memcpy of a region onto itself taken to do nothing ([cb_self_copy]): after any program [ps] (as in C06), x = x for
    any buffer succeeds and leaves the memory as it was, and any program [ps'] that follows behaves as if there had been no
    assignment ([A] is what the buffers hold, before and after). *)
Theorem C89_circ_self_copy_partial :
  forall junk M ps, 4 <= M -> wprog_ok True M (world0 junk) ps ->
    exists w tr A, wrun (world0 junk) ps = Ok (w, tr) /\ ws_trace M ∅ tr A /\
      forall o b, w_objs w !! o = Some b ->
        exists b', cb_self_copy (w_heap w) b = Ok (w_heap w, b') /\
          forall ps', wprog_ok True M (World (w_heap w) (<[o := b']> (w_objs w))) ps' ->
            exists w' tr' A', wrun (World (w_heap w) (<[o := b']> (w_objs w))) ps' = Ok (w', tr') /\ map fst tr' = ps' /\ ws_trace M A tr' A'.
Proof.
  intros junk M ps HM Hok. destruct (wrun_ok True M _ _ ps HM (world0_inv True M junk) Hok) as (w & tr & A & E & Ht & Hw & _).
  exists w, tr, A. split; [exact E|]. split; [exact Ht|]. intros o b Ho. destruct (cb_self_ok _ _ _ _ _ _ Hw Ho) as (b' & Eb & Hw'). exists b'. split; [exact Eb|].
  intros ps' Hok'. destruct (wrun_ok True M _ _ ps' HM Hw' Hok') as (w' & tr' & A' & E' & Ht' & _ & Hm). eauto 10.
Qed.
Print Assumptions C89_circ_self_copy_partial.

(** Strictly, it is undefined for every buffer that has a size. *)
Theorem C89_circ_self_copy_refuted :
  forall junk M ps w tr, 4 <= M -> wprog_ok True M (world0 junk) ps -> wrun (world0 junk) ps = Ok (w, tr) ->
    forall o b, w_objs w !! o = Some b -> b_asize b <> 0 -> wstep w (WCopyAssign o o) = UB.
Proof.
  intros junk M ps w tr HM Hok E o b Ho Hb. destruct (wrun_ok True M _ _ ps HM (world0_inv True M junk) Hok) as (w1 & tr1 & A & E1 & _ & Hw & _).
  rewrite E in E1. injection E1 as <- <-. rewrite (cb_self_strict _ _ _ _ _ _ Hw Ho). destruct (Z.eqb_spec (b_asize b) 0); [contradiction|reflexivity].
Qed.
Print Assumptions C89_circ_self_copy_refuted.

(** x = std::move(x): an empty buffer of capacity 0, which can be given memory again.  C06 covers the programs with it. *)
Example C89_circ_self_move :
  exists ps w, wprog_ok True 100 (world0 (fun _ _ => 3)) ps /\
    wrun (world0 (fun _ _ => 3)) ps = Ok (w, [(WNew 0 40, WDone); (WCall 0 (CPush (Some [1;2;3]) 3), WRet (RBool true)); (WMoveAssign 0 0, WDone);
      (WCall 0 CEmpty, WRet (RBool true)); (WCall 0 (CPush (Some [1]) 1), WRet (RBool false)); (WResize 0 64, WDone);
      (WCall 0 (CPush (Some [4]) 1), WRet (RBool true)); (WCall 0 (CPop 5), WRet (RPop 1 [4])); (WDestroy 0, WDone)]).
Proof.
  exists [WNew 0 40; WCall 0 (CPush (Some [1;2;3]) 3); WMoveAssign 0 0; WCall 0 CEmpty; WCall 0 (CPush (Some [1]) 1); WResize 0 64;
    WCall 0 (CPush (Some [4]) 1); WCall 0 (CPop 5); WDestroy 0]. eexists. split; [apply wprog_okb_ok; vm_compute; reflexivity|vm_compute; reflexivity].
Qed.

Example C89_circ_self_copy_nonvacuous :
  exists ps w tr b b', wprog_ok True 100 (world0 (fun _ _ => 3)) ps /\ wrun (world0 (fun _ _ => 3)) ps = Ok (w, tr) /\
    w_objs w !! 0%nat = Some b /\ b_asize b = 40 /\ wstep w (WCopyAssign 0 0) = UB /\ cb_self_copy (w_heap w) b = Ok (w_heap w, b') /\
    wprog_ok True 100 (World (w_heap w) (<[0%nat := b']> (w_objs w))) [WCall 0 (CPop 5)] /\
    exists w', wrun (World (w_heap w) (<[0%nat := b']> (w_objs w))) [WCall 0 (CPop 5)] = Ok (w', [(WCall 0 (CPop 5), WRet (RPop 3 [1;2;3]))]).
Proof.
  exists [WNew 0 40; WCall 0 (CPush (Some [1;2;3]) 3)]. eexists _, _, _, _. split; [apply wprog_okb_ok; vm_compute; reflexivity|].
  split; [vm_compute; reflexivity|]. split; [reflexivity|]. split; [reflexivity|]. split; [vm_compute; reflexivity|]. split; [vm_compute; reflexivity|].
  split; [apply wprog_okb_ok; vm_compute; reflexivity|]. eexists. vm_compute; reflexivity.
Qed.

(** StackBuffer *)
Import StackModel StackSpec StackWorld StackFinal.

Theorem C89_stack_self_copy_partial :
  forall junk ps, swprog_ok True (sworld0 junk) ps ->
    exists w tr A, swrun (sworld0 junk) ps = Ok (w, tr) /\ sws_trace ∅ tr A /\
      forall o b, s_objs w !! o = Some b ->
        exists b', sb_self_copy (s_heap w) b = Ok (s_heap w, b') /\
          forall ps', swprog_ok True (SWorld (s_heap w) (<[o := b']> (s_objs w))) ps' ->
            exists w' tr' A', swrun (SWorld (s_heap w) (<[o := b']> (s_objs w))) ps' = Ok (w', tr') /\ map fst tr' = ps' /\ sws_trace A tr' A'.
Proof.
  intros junk ps Hok. destruct (swrun_ok True ps _ _ (sworld0_inv True junk) Hok) as (w & tr & A & E & Ht & Hw & _).
  exists w, tr, A. split; [exact E|]. split; [exact Ht|]. intros o b Ho. destruct (sb_self_ok _ _ _ _ _ Hw Ho) as (b' & Eb & Hw'). exists b'. split; [exact Eb|].
  intros ps' Hok'. destruct (swrun_ok True ps' _ _ Hw' Hok') as (w' & tr' & A' & E' & Ht' & _ & Hm). eauto 10.
Qed.
Print Assumptions C89_stack_self_copy_partial.

Theorem C89_stack_self_copy_refuted :
  forall junk ps w tr, swprog_ok True (sworld0 junk) ps -> swrun (sworld0 junk) ps = Ok (w, tr) ->
    forall o b, s_objs w !! o = Some b -> b_stated b <> 0 -> swstep w (SCopyAssign o o) = UB.
Proof.
  intros junk ps w tr Hok E o b Ho Hb. destruct (swrun_ok True ps _ _ (sworld0_inv True junk) Hok) as (w1 & tr1 & A & E1 & _ & Hw & _).
  rewrite E in E1. injection E1 as <- <-. exact (sb_self_strict _ _ _ _ _ Hw Ho Hb).
Qed.
Print Assumptions C89_stack_self_copy_refuted.

Theorem C89_stack_self_move_refuted :
  exists ps w, ps = [SNew 0 64; SMoveAssign 0 0; SResize 0 32] /\
    swrun (sworld0 (fun _ _ => 0)) ps = Ok (w, combine ps [SDone; SDone; SResized true]) /\ swstep w (SCall 0 (KPush (Some [1]) 1)) = UB.
Proof. eexists _, _. split; [reflexivity|]. split; [vm_compute; reflexivity|]. vm_compute; reflexivity. Qed.
Print Assumptions C89_stack_self_move_refuted.

Lemma prog2_ok : swprog_ok True (sworld0 (fun _ _ => 3)) [SNew 0 40; SCall 0 (KPush (Some [1;2;3]) 3)].
Proof.
  cbn [swprog_ok]. split; [cbn [swop_legal]; split; [reflexivity|vm_compute; discriminate]|].
  split; [exact I|]. intros w' x E; vm_compute in E; injection E as <- <-. split.
  - cbn [swop_legal StackProofs.kop_legal]. split; [eexists; reflexivity|]. reflexivity.
  - split; [exact I|]. intros; exact I.
Qed.

Example C89_stack_self_copy_nonvacuous :
  exists ps w tr b b', swprog_ok True (sworld0 (fun _ _ => 3)) ps /\ swrun (sworld0 (fun _ _ => 3)) ps = Ok (w, tr) /\
    s_objs w !! 0%nat = Some b /\ b_stated b = 40 /\ sb_self_copy (s_heap w) b = Ok (s_heap w, b') /\
    exists w', swrun (SWorld (s_heap w) (<[0%nat := b']> (s_objs w))) [SCall 0 (KPop 5)] = Ok (w', [(SCall 0 (KPop 5), SRet (RPop 3 [1;2;3]))]).
Proof.
  exists [SNew 0 40; SCall 0 (KPush (Some [1;2;3]) 3)]. eexists _, _, _, _. split; [apply prog2_ok|].
  split; [vm_compute; reflexivity|]. split; [reflexivity|]. split; [reflexivity|]. split; [vm_compute; reflexivity|].
  eexists. vm_compute; reflexivity.
Qed.

(** The block containers.  x = x is the identity, down to the memory (so references stay valid), exactly when the table is
    not full. *)
Theorem C89_vector_self_copy_partial :
  forall (V : Type) P, 0 <= expo P <= 30 -> forall (h0 : bheap V) v0 xs0 ops h v tr,
    vstart P h0 v0 xs0 -> seq_ok xs0 ops -> Forall no_walk ops -> vec_run P h0 v0 ops = Ok (h, v, tr) ->
    (~ vfull P v -> vec_copy_assign P h v v = Ok (h, v)) /\ (vfull P v -> vec_copy_assign P h v v = UB).
Proof. intros V P HP. exact (vec_self_copy P HP). Qed.
Print Assumptions C89_vector_self_copy_partial.

Theorem C89_deque_self_copy_partial :
  forall (V : Type) P, 0 <= expo P <= 30 -> forall (h0 : bheap V) d0 xs0 ops h d tr,
    dstart P h0 d0 xs0 -> dq_ok xs0 ops -> deq_run P h0 d0 ops = Ok (h, d, tr) ->
    (~ dfull P d -> deq_copy_assign P h d d = Ok (h, d)) /\ (dfull P d -> deq_copy_assign P h d d = UB).
Proof. intros V P HP. exact (deq_self_copy P HP). Qed.
Print Assumptions C89_deque_self_copy_partial.

(** x = std::move(x): the vector frees everything, can be destroyed and assigned to by move, but size() is still what it
    was and every access is undefined; the deque becomes the moved-from deque of C86. *)
Theorem C89_vector_self_move_refuted :
  forall (V : Type) P, 0 <= expo P <= 30 -> forall (h0 : bheap V) v0 xs0 ops h v tr,
    vstart P h0 v0 xs0 -> seq_ok xs0 ops -> Forall no_walk ops -> vec_run P h0 v0 ops = Ok (h, v, tr) ->
    exists h' v', vec_move_assign P h v v = Ok (h', v, v') /\ v_size v' = zlen (seq_after xs0 ops) /\
      vec_free_all P h' v' = Ok h' /\ (forall s, exists s', vec_move_assign P h' v' s = Ok (h', s, s')) /\ (forall n, vec_get P h' v' n = UB).
Proof. intros V P HP. exact (vec_self_move P HP). Qed.
Print Assumptions C89_vector_self_move_refuted.

Theorem C89_deque_self_move_partial :
  forall (V : Type) P, 0 <= expo P <= 30 -> forall (h0 : bheap V) d0 xs0 ops h d tr,
    dstart P h0 d0 xs0 -> dq_ok xs0 ops -> deq_run P h0 d0 ops = Ok (h, d, tr) ->
    exists h', deq_move_assign P h d d = Ok (h', d, deq_husk d).
Proof. intros V P HP. exact (deq_self_move P HP). Qed.
Print Assumptions C89_deque_self_move_partial.

Example C89_blocks_nonvacuous :
  let P := Params 1 true true in
  (exists h v tr, vstart P (@bheap0 Z) (vec_default P) [] /\ seq_ok (@nil Z) [VPush 4; VPush 5; VPush 6] /\ Forall no_walk [VPush 4; VPush 5; VPush 6] /\
    vec_run P bheap0 (vec_default P) [VPush 4; VPush 5; VPush 6] = Ok (h, v, tr) /\ ~ vfull P v /\ v_size v = 3) /\
  (exists h d tr, dstart P (@bheap0 Z) (deq_default P) [] /\ dq_ok (@nil Z) [DPushF 4; DV (VPush 5); DPushF 6] /\
    deq_run P bheap0 (deq_default P) [DPushF 4; DV (VPush 5); DPushF 6] = Ok (h, d, tr) /\ ~ dfull P d /\ d_size d = 3).
Proof.
  cbv zeta. split.
  - eexists _, _, _. split; [apply vst_default|]. split; [cbn; auto|]. split; [repeat constructor|]. split; [vm_compute; reflexivity|].
    split; [|reflexivity]. intros (_ & _ & F). vm_compute in F. discriminate.
  - eexists _, _, _. split; [apply dst_default|]. split; [cbn; auto|]. split; [vm_compute; reflexivity|].
    split; [|reflexivity]. intros F. vm_compute in F. destruct F as (_ & _ & F). discriminate.
Qed.
