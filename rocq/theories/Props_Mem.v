(** How much memory the block containers hold: C76 (StableBlockVector), C77 (StableBlockDeque).  [bl h] and [tb h] are the
    blocks and the tables allocated in the heap of a program that has one container. *)
From stdpp Require Import gmap.
From Verif Require Import Base BlkHeap BlkIter VecModel VecSpec VecFinal DeqModel DeqSpec DeqFinal BlkMem.

(** ** C76 *)
Theorem C76_vector_memory :
  forall (V : Type) P, 0 <= expo P <= 30 -> forall (h0 : bheap V) v0 xs0 ops h v tr p,
    vstart P h0 v0 xs0 -> seq_ok xs0 ops -> Forall no_walk ops -> vec_run P h0 v0 ops = Ok (h, v, tr) ->
    (forall k, zlen (seq_after xs0 (take k ops)) <= p) ->
    Z.of_nat (size (bl h)) <= p / bsz P + 1 /\ (size (tb h) <= 2)%nat /\
    forall t cs, tb h !! t = Some cs -> zlen cs <= Z.max 64 (2 * (p / bsz P + 1)).
Proof.
  intros V P HP h0 v0 xs0 ops h v tr p H0 Hok Hnw E Hp. destruct (vmem P HP _ _ _ _ _ _ _ _ H0 Hok Hnw E Hp) as (H1 & H2 & H3 & _). auto.
Qed.
Print Assumptions C76_vector_memory.

Theorem C76_vector_shrink :
  forall (V : Type) P, 0 <= expo P <= 30 -> forall (h0 : bheap V) v0 xs0 ops h v tr h' v' r,
    vstart P h0 v0 xs0 -> seq_ok xs0 ops -> Forall no_walk ops -> vec_run P h0 v0 ops = Ok (h, v, tr) ->
    vec_step P h v VShrink = Ok (h', v', r) -> Z.of_nat (size (bl h')) <= zlen (seq_after xs0 ops) / bsz P + 1.
Proof. intros V P HP. exact (vmem_shrink P HP). Qed.
Print Assumptions C76_vector_shrink.

(** So the counters of type int do not overflow before there have been about 2^30 blocks. *)
Theorem C76_vector_counters :
  forall (V : Type) P, 0 <= expo P <= 30 -> forall (h0 : bheap V) v0 xs0 ops h v tr p,
    vstart P h0 v0 xs0 -> seq_ok xs0 ops -> Forall no_walk ops -> vec_run P h0 v0 ops = Ok (h, v, tr) ->
    (forall k, zlen (seq_after xs0 (take k ops)) <= p) -> p / bsz P + 1 < 2 ^ 30 ->
    Forall (fun z => 0 <= z < 2 ^ 31) [v_slots v; f_slots (v_fl v); f_idx (v_fl v); v_bsize v] /\ (v_slots v <> 0 -> 0 <= v_idx v < 2 ^ 31).
Proof.
  intros V P HP h0 v0 xs0 ops h v tr p H0 Hok Hnw E Hp Hlt. destruct (vmem P HP _ _ _ _ _ _ _ _ H0 Hok Hnw E Hp) as (_ & _ & _ & [Hf1 Hf2] & Hs & Hc).
  assert (bsz P <= 2 ^ 30) by (unfold bsz; rewrite Z.shiftl_mul_pow2 by lia; rewrite Z.mul_1_l; apply Z.pow_le_mono_r; lia). pose proof (BP P HP).
  change (2 ^ 30) with 1073741824 in *. change (2 ^ 31) with 2147483648.
  split; [repeat constructor; try (destruct Hc as [Hc|Hc]; lia); lia|]. intros Hn. destruct Hc as [Hc|Hc]; lia.
Qed.
Print Assumptions C76_vector_counters.

(** Five elements in blocks of two: three blocks are kept when all are removed, none but the first after shrink_to_fit. *)
Example C76_nonvacuous :
  let P := Params 1 false false in
  let ops := map VPush [1;2;3;4;5] ++ [VPop; VPop; VPop; VPop; VPop] in
  vstart P bheap0 (vec_default P) (@nil Z) /\ seq_ok [] ops /\ Forall no_walk ops /\ Forall (fun k => zlen (seq_after [] (take k ops)) <= 5) (seq 0 11) /\
  match vec_run P bheap0 (vec_default P) ops with
  | Ok (h, v, _) => size (bl h) = 3%nat /\ 5 / bsz P + 1 = 3 /\
      match vec_step P h v VShrink with Ok (h', _, _) => size (bl h') = 1%nat | _ => False end
  | _ => False
  end.
Proof.
  cbv zeta. split; [constructor|]. split; [vm_compute; repeat split|]. split; [repeat constructor|]. split; [apply Forall_forall; intros k Hk; apply elem_of_seq in Hk|].
  - do 11 (destruct k as [|k]; [vm_compute; discriminate|]). lia.
  - vm_compute. repeat split.
Qed.

(** ** C77
    Full statement: the memory a deque holds is bounded by its largest size, however often elements pass through it.
    Missing: runs that meet one of the defects of C20. *)
Theorem C77_deque_memory_partial :
  forall (V : Type) P, 0 <= expo P <= 30 -> forall (h0 : bheap V) d0 xs0 ops h d tr p,
    dstart P h0 d0 xs0 -> dq_ok xs0 ops -> deq_run P h0 d0 ops = Ok (h, d, tr) ->
    (forall k, zlen (dq_after xs0 (take k ops)) <= p) ->
    Z.of_nat (size (bl h)) <= p / bsz P + 2 /\ (size (tb h) <= 2)%nat /\
    forall t cs, tb h !! t = Some cs -> zlen cs <= Z.max 64 (2 * (p / bsz P + 7)).
Proof.
  intros V P HP h0 d0 xs0 ops h d tr p H0 Hok E Hp. destruct (dmem P HP _ _ _ _ _ _ _ _ H0 Hok E Hp) as (H1 & H2 & H3 & _). auto.
Qed.
Print Assumptions C77_deque_memory_partial.

Theorem C77_deque_shrink_partial :
  forall (V : Type) P, 0 <= expo P <= 30 -> forall (h0 : bheap V) d0 xs0 ops h d tr h' d' r,
    dstart P h0 d0 xs0 -> dq_ok xs0 ops -> deq_run P h0 d0 ops = Ok (h, d, tr) ->
    deq_step P h d (DV VShrink) = Ok (h', d', r) -> Z.of_nat (size (bl h')) <= zlen (dq_after xs0 ops) / bsz P + 2.
Proof. intros V P HP. exact (dmem_shrink P HP). Qed.
Print Assumptions C77_deque_shrink_partial.

Theorem C77_deque_counters_partial :
  forall (V : Type) P, 0 <= expo P <= 30 -> forall (h0 : bheap V) d0 xs0 ops h d tr p,
    dstart P h0 d0 xs0 -> dq_ok xs0 ops -> deq_run P h0 d0 ops = Ok (h, d, tr) ->
    (forall k, zlen (dq_after xs0 (take k ops)) <= p) -> p / bsz P + 7 < 2 ^ 30 ->
    Forall (fun z => 0 <= z < 2 ^ 31) [d_slots d; f_slots (d_fl d); f_idx (d_fl d); d_bsize d] /\ -1 <= d_fsize d < 2 ^ 31.
Proof.
  intros V P HP h0 d0 xs0 ops h d tr p H0 Hok E Hp Hlt. destruct (dmem P HP _ _ _ _ _ _ _ _ H0 Hok E Hp) as (_ & _ & _ & [Hf1 Hf2] & Hs & Hc).
  assert (bsz P <= 2 ^ 30) by (unfold bsz; rewrite Z.shiftl_mul_pow2 by lia; rewrite Z.mul_1_l; apply Z.pow_le_mono_r; lia). pose proof (BP P HP).
  change (2 ^ 30) with 1073741824 in *. change (2 ^ 31) with 2147483648.
  split; [repeat constructor; try (destruct Hc as [Hc|Hc]; lia); lia|]. destruct Hc as [Hc|Hc]; lia.
Qed.
Print Assumptions C77_deque_counters_partial.

(** A deque used as a queue: 400 elements pass through, never more than two at a time; the tables stay at 64 entries. *)
Example C77_nonvacuous :
  let P := Params 1 false true in
  let ops := concat (replicate 200 [DV (VPush 1); DV (VPush 2); DPopF; DPopF]) in
  dstart P bheap0 (deq_default P) (@nil Z) /\ dq_ok [] ops /\ forallb (fun k => zlen (dq_after [] (take k ops)) <=? 2) (seq 0 801) = true /\
  match deq_run P bheap0 (deq_default P) ops with
  | Ok (h, _, _) => (size (bl h) <=? 3)%nat && forallb (fun e => Nat.eqb (length (snd e)) 64) (map_to_list (tb h))
  | _ => false
  end = true.
Proof. cbv zeta. split; [constructor|]. split; [vm_compute; repeat split|]. split; vm_compute; reflexivity. Qed.
