(** Property C105: functions declared noexcept and memory requests. *)
From stdpp Require Import gmap.
From Verif Require Import Base Heap BlkHeap BlkProofs BlkRun BlkIter VecModel VecSpec VecProofs VecFinal DeqModel DeqSpec DeqProofs DeqMore DeqWorld DeqFinal NoAlloc.
From Verif Require CircBufModel StackModel.

Definition PN (n : Z) : params := Params n false false.

(** ** C105
    Full statement: a function declared noexcept asks for no memory, so it cannot be left by bad_alloc, which would end the
    program (std::terminate).  Of StableBlockVector these are, for elements whose copies and destructors do not throw: the sized
    constructor (:51-54), push_back (:144-157), pop_back (:159), clear (:216), shrink_to_fit (:248), moves (:92, :113); of
    StableBlockDeque clear (:319) and moves (:133, :154); of CircularBuffer and StackBuffer the moves and swap.
    [nx h] is the name of the next allocation: it is unchanged just when nothing is allocated.

    Proved: shrink_to_fit, the moves and swap ask for none; for the others exactly when they do. *)
Theorem C105_shrink :
  forall (V : Type) P (h : bheap V),
    (forall v h1 v1 r, vec_step P h v VShrink = Ok (h1, v1, r) -> nx h1 = nx h) /\
    (forall d h1 d1 r, deq_step P h d (DV VShrink) = Ok (h1, d1, r) -> nx h1 = nx h).
Proof.
  intros V P h. split; intros v h1 v1 r E; cbn [vec_step deq_step] in E; unfold fl_shrink in E; apply obind_ok in E as ([h2 f] & E & F); injection F as <- <- <-;
    apply obind_ok in E as (h3 & E & F); injection F as <- <-; eapply fl_free_nx; exact E.
Qed.
Print Assumptions C105_shrink.

(** Default constructors, moves, move assignment (which destroys what the destination held) and the destructors, in any program. *)
Theorem C105_vector_moves :
  forall (V : Type) P (w w1 : vworld V) p r, vwstep P w p = Ok (w1, r) ->
    match p with VDefault _ | VMove _ _ | VMoveAssign _ _ | VDestroy _ => True | _ => False end -> nx (w_heap w1) = nx (w_heap w).
Proof.
  intros V P w w1 p r E Hp. destruct p; try contradiction; cbn [vwstep] in E.
  - injection E as <- <-. reflexivity.
  - apply obind_ok in E as (v & _ & E). destruct (vec_move v) as [v1 v2]. injection E as <- <-. reflexivity.
  - apply obind_ok in E as (v & _ & E). apply obind_ok in E as (v2 & _ & E). apply obind_ok in E as ([[h d1] d2] & E & F). injection F as <- <-.
    unfold vec_move_assign in E. apply obind_ok in E as (h2 & E & F). injection F as <- <- <-. eapply vfree_nx; exact E.
  - apply obind_ok in E as (v & _ & E). apply obind_ok in E as (h & E & F). injection F as <- <-. eapply vfree_nx; exact E.
Qed.
Print Assumptions C105_vector_moves.

Theorem C105_deque_moves :
  forall (V : Type) P (w w1 : dworld V) p r, dwstep P w p = Ok (w1, r) ->
    match p with DDefault _ | DMove _ _ | DMoveAssign _ _ | DDestroy _ => True | _ => False end -> nx (dw_heap w1) = nx (dw_heap w).
Proof.
  intros V P w w1 p r E Hp. destruct p; try contradiction; cbn [dwstep] in E.
  - injection E as <- <-. reflexivity.
  - apply obind_ok in E as (v & _ & E). injection E as <- <-. reflexivity.
  - apply obind_ok in E as (v & _ & E). apply obind_ok in E as (v2 & _ & E). apply obind_ok in E as ([[h d1] d2] & E & F). injection F as <- <-.
    unfold deq_move_assign in E. apply obind_ok in E as (h2 & E & F). injection F as <- <- <-. eapply dfree_nx; exact E.
  - apply obind_ok in E as (v & _ & E). apply obind_ok in E as (h & E & F). injection F as <- <-. eapply dfree_nx; exact E.
Qed.
Print Assumptions C105_deque_moves.

Lemma hfree_next h p h1 : hfree h p = Ok h1 -> h_next h1 = h_next h.
Proof. unfold hfree. destruct p; [|intros E; injection E as <-; reflexivity]. destruct (h_live h !! n); [|discriminate]. intros E. injection E as <-. reflexivity. Qed.

Theorem C105_circ_moves :
  forall w w1 p r, CircBufModel.wstep w p = Ok (w1, r) ->
    match p with CircBufModel.WDefault _ | CircBufModel.WMove _ _ | CircBufModel.WMoveAssign _ _ | CircBufModel.WDestroy _ => True | _ => False end ->
    h_next (CircBufModel.w_heap w1) = h_next (CircBufModel.w_heap w).
Proof.
  intros w w1 p r E Hp. destruct p; try contradiction; cbn [CircBufModel.wstep] in E.
  - injection E as <- <-. reflexivity.
  - apply obind_ok in E as (v & _ & E). destruct (CircBufModel.cb_move v) as [v1 v2]. injection E as <- <-. reflexivity.
  - apply obind_ok in E as (v & _ & E). apply obind_ok in E as (v2 & _ & E). apply obind_ok in E as ([[h d1] d2] & E & F). injection F as <- <-.
    unfold CircBufModel.cb_move_assign in E. apply obind_ok in E as (h2 & E & F). injection F as <- <- <-. eapply hfree_next; exact E.
  - apply obind_ok in E as (v & _ & E). apply obind_ok in E as (h & E & F). injection F as <- <-. unfold CircBufModel.cb_destroy in E. repeat case_match; first [injection E as <-; reflexivity|eapply hfree_next; exact E].
Qed.
Print Assumptions C105_circ_moves.

Theorem C105_stack_moves :
  forall w w1 p r, StackModel.swstep w p = Ok (w1, r) ->
    match p with StackModel.SDefault _ | StackModel.SMove _ _ | StackModel.SMoveAssign _ _ | StackModel.SSwap _ _ | StackModel.SDestroy _ => True | _ => False end ->
    h_next (StackModel.s_heap w1) = h_next (StackModel.s_heap w).
Proof.
  intros w w1 p r E Hp. destruct p; try contradiction; cbn [StackModel.swstep] in E.
  - injection E as <- <-. reflexivity.
  - apply obind_ok in E as (v & _ & E). destruct (StackModel.sb_move v) as [v1 v2]. injection E as <- <-. reflexivity.
  - apply obind_ok in E as (v & _ & E). apply obind_ok in E as (v2 & _ & E). apply obind_ok in E as ([[h d1] d2] & E & F). injection F as <- <-.
    unfold StackModel.sb_move_assign in E. apply obind_ok in E as (h2 & E & F). injection F as <- <- <-. eapply hfree_next; exact E.
  - apply obind_ok in E as (v & _ & E). apply obind_ok in E as (v2 & _ & E). injection E as <- <-. reflexivity.
  - apply obind_ok in E as (v & _ & E). apply obind_ok in E as (h & E & F). injection F as <- <-. unfold StackModel.sb_destroy in E. repeat case_match; first [injection E as <-; reflexivity|eapply hfree_next; exact E].
Qed.
Print Assumptions C105_stack_moves.

(** push_back asks for none just when the last block has room, or there is a free block and a free slot in the table. *)
Theorem C105_vec_push_partial :
  forall (V : Type) P (h : bheap V) v x h1 v1, vec_push P h v x = Ok (h1, v1) ->
    (nx h <= nx h1)%nat /\
    (nx h1 = nx h <-> v_bsize v < bsz P \/ (f_idx (v_fl v) <> 0 /\ v_slots v <> 0 /\ v_idx v < v_slots v - 1)).
Proof. intros V P. apply (vpush_nx P). Qed.
Print Assumptions C105_vec_push_partial.

(** pop_back asks for none just when the vector is empty, the last block keeps its place, or the list of free blocks has room. *)
Theorem C105_vec_pop_partial :
  forall (V : Type) P (h : bheap V) v h1 v1, vec_pop P h v = Ok (h1, v1) ->
    (nx h <= nx h1)%nat /\ (nx h1 = nx h <-> v_size v = 0 \/ 0 < v_bsize v \/ f_idx (v_fl v) < f_slots (v_fl v)).
Proof. intros V P. apply (vpop_nx P). Qed.
Print Assumptions C105_vec_pop_partial.

(** clear asks for none just when the list of free blocks has room for all blocks but the first. *)
Theorem C105_vec_clear_partial :
  forall (V : Type) P (h : bheap V) v h1 v1, vec_clear P h v = Ok (h1, v1) ->
    nx h1 = nx h <-> v_slots v <= 0 \/ v_idx v <= 0 \/ f_idx (v_fl v) + v_idx v <= f_slots (v_fl v).
Proof. intros V P. apply (vclear_nx P). Qed.
Print Assumptions C105_vec_clear_partial.

Theorem C105_deq_clear_partial :
  forall (V : Type) P (h : bheap V) d h1 d1, deq_clear P h d = Ok (h1, d1) ->
    nx h1 = nx h <-> d_slots d = 0 \/ d_size d = 0 \/ d_back d <= d_front d \/ f_idx (d_fl d) + (d_back d - d_front d) <= f_slots (d_fl d).
Proof. intros V P. apply (dclear_nx P). Qed.
Print Assumptions C105_deq_clear_partial.

(** The sized constructor always does: the table and n / blockSize + 1 blocks. *)
Theorem C105_sized_refuted :
  forall (V : Type) P (h : bheap V) n x h1 v1, 0 <= expo P -> 0 <= n -> vec_sized P h n x = Ok (h1, v1) ->
    nx h1 = (nx h + 2 + Z.to_nat (n / bsz P))%nat.
Proof. intros V P. apply (vsized_nx P). Qed.
Print Assumptions C105_sized_refuted.

(** So does the first push_back of every vector: the table and a block. *)
Theorem C105_first_push_refuted :
  forall (V : Type) P (h : bheap V) x h1 v1, vec_push P h (vec_default P) x = Ok (h1, v1) -> nx h1 = (nx h + 2)%nat.
Proof.
  intros V P h x h1 v1 E. unfold vec_push in E. apply obind_ok in E as ([h2 v2] & E & F). apply obind_ok in F as (c & _ & F). apply obind_ok in F as (h3 & F & G).
  injection G as <- <-. apply emake_nx in F. unfold vec_block_check, vec_default in E. cbn [v_bsize v_slots] in E. rewrite Z.leb_refl in E.
  apply obind_ok in E as ([h4 v4] & E & G). cbn [talloc Z.eqb] in E. injection E as <- <-. apply obind_ok in G as ([[h5 f5] c5] & E & G).
  apply obind_ok in G as (h6 & G & K). injection K as <- <-. apply fl_get_nx in E. apply tset_nx in G. cbn in E. lia.
Qed.
Print Assumptions C105_first_push_refuted.

Definition pushes (n : Z) : list (vwop Z) := map (fun k => VCall 0 (VPush k)) (map Z.of_nat (seq 0 (Z.to_nat n))).

(** Programs that reach pop_back and clear calls asking for memory. *)
Theorem C105_refuted :
  (exists (w w1 : vworld Z) tr r, vwrun (PN 1) vworld0 (VDefault 0 :: pushes 3 ++ [VCall 0 VPop]) = Ok (w, tr) /\
     vwstep (PN 1) w (VCall 0 VPop) = Ok (w1, r) /\ (nx (w_heap w) < nx (w_heap w1))%nat) /\
  (exists (w w1 : vworld Z) tr r, vwrun (PN 1) vworld0 (VDefault 0 :: pushes 3) = Ok (w, tr) /\
     vwstep (PN 1) w (VCall 0 VClear) = Ok (w1, r) /\ (nx (w_heap w) < nx (w_heap w1))%nat) /\
  (exists (w w1 : dworld Z) tr r, dwrun (PN 1) dworld0 (DDefault 0 :: map (fun k => DCall 0 (DV (VPush k))) [1; 2; 3]) = Ok (w, tr) /\
     dwstep (PN 1) w (DCall 0 (DV VClear)) = Ok (w1, r) /\ (nx (dw_heap w) < nx (dw_heap w1))%nat).
Proof.
  split; [|split].
  - destruct (vwrun (PN 1) vworld0 (VDefault 0 :: pushes 3 ++ [VCall 0 VPop])) as [[w tr]| |] eqn:E; vm_compute in E; try discriminate.
    injection E as <- <-. eexists _, _, _, _. split; [reflexivity|]. split; [vm_compute; reflexivity|]. vm_compute. lia.
  - destruct (vwrun (PN 1) vworld0 (VDefault 0 :: pushes 3)) as [[w tr]| |] eqn:E; vm_compute in E; try discriminate.
    injection E as <- <-. eexists _, _, _, _. split; [reflexivity|]. split; [vm_compute; reflexivity|]. vm_compute. lia.
  - destruct (dwrun (PN 1) dworld0 (DDefault 0 :: map (fun k => DCall 0 (DV (VPush k))) [1; 2; 3])) as [[w tr]| |] eqn:E; vm_compute in E; try discriminate.
    injection E as <- <-. eexists _, _, _, _. split; [reflexivity|]. split; [vm_compute; reflexivity|]. vm_compute. lia.
Qed.
Print Assumptions C105_refuted.

Definition vnx (ps : list (vwop Z)) : option nat := match vwrun (PN 1) vworld0 ps with Ok (w, _) => Some (nx (w_heap w)) | _ => None end.
Definition dnx (ps : list (dwop Z)) : option nat := match dwrun (Params 1 true false) dworld0 ps with Ok (w, _) => Some (nx (dw_heap w)) | _ => None end.

(** The second push finds room, the third needs a block; shrink_to_fit and moves change nothing; a second fill reuses the free
    blocks, and clear then finds room for them.  (The deque holds trivially destructible elements, see C22.) *)
Example C105_ex :
  vnx [VDefault 0] = Some 0%nat /\ vnx (VDefault 0 :: pushes 1) = Some 2%nat /\ vnx (VDefault 0 :: pushes 2) = Some 2%nat /\
  vnx (VDefault 0 :: pushes 3) = Some 3%nat /\ vnx (VDefault 0 :: pushes 3 ++ [VCall 0 VClear]) = Some 4%nat /\
  vnx (VDefault 0 :: pushes 3 ++ [VCall 0 VClear; VCall 0 VShrink; VMove 1 0; VDefault 2; VMoveAssign 2 1]) = Some 4%nat /\
  vnx (VDefault 0 :: pushes 3 ++ VCall 0 VClear :: pushes 3 ++ [VCall 0 VClear]) = Some 4%nat /\
  vnx [VSized 0 5 7] = Some 4%nat /\ dnx [DDefault 0; DCall 0 (DV (VPush 1)); DCall 0 (DV VClear)] = dnx [DDefault 0; DCall 0 (DV (VPush 1))].
Proof. repeat split; vm_compute; reflexivity. Qed.
