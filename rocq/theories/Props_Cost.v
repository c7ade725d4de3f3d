(** Property C109: what the growth of StableBlockVector and StableBlockDeque costs. *)
From stdpp Require Import gmap.
From Verif Require Import Base BlkHeap BlkIter VecModel VecSpec VecFinal DeqModel DeqSpec DeqFinal BlkCost BlkCostF BlkCostP.

(** ** C109
    Full statement: over any history of calls the pushes of a StableBlockVector or StableBlockDeque copy, on average, a bounded number
    of entries of the table of blocks. *)

(** The vector: at most two entries for each block's worth of elements that it held at once, whatever the calls. *)
Theorem C109_vector :
  forall (V : Type) P, 0 <= expo P <= 30 -> forall (h0 : bheap V) v0 xs0 ops h v tr p,
    vstart P h0 v0 xs0 -> seq_ok xs0 ops -> Forall no_walk ops -> vec_run P h0 v0 ops = Ok (h, v, tr) ->
    (forall k, zlen (seq_after xs0 (take k ops)) <= p) ->
    exists n, vec_run_n P h0 v0 ops = Ok (h, v, n) /\ bsz P * n <= 2 * p.
Proof. intros V P HP. exact (vec_cost P HP). Qed.
Print Assumptions C109_vector.

(** The deque, if it is only used at the back.
    Missing: calls at both ends, clear, assign. *)
Theorem C109_deque_back_partial :
  forall (V : Type) P, 0 <= expo P <= 30 -> forall (ops : list (@qop V)) h d tr p,
    Forall back_op ops -> deq_run P bheap0 (deq_default P) (map qdop ops) = Ok (h, d, tr) ->
    (forall k, zlen (dq_after [] (take k (map qdop ops))) <= p) ->
    exists n, deq_run_n P bheap0 (deq_default P) ops = Ok (h, d, n) /\ bsz P * n <= 2 * p + 140 * bsz P.
Proof. intros V P HP. exact (deq_back_cost P HP). Qed.
Print Assumptions C109_deque_back_partial.

(** The same at the front. *)
Theorem C109_deque_front_partial :
  forall (V : Type) P, 0 <= expo P <= 30 -> forall (ops : list (@qop V)) h d tr p,
    Forall front_op ops -> deq_run P bheap0 (deq_default P) (map qdop ops) = Ok (h, d, tr) ->
    (forall k, zlen (dq_after [] (take k (map qdop ops))) <= p) ->
    exists n, deq_run_n P bheap0 (deq_default P) ops = Ok (h, d, n) /\ bsz P * n <= 2 * p + 135 * bsz P.
Proof. intros V P HP. exact (deq_front_cost P HP). Qed.
Print Assumptions C109_deque_front_partial.

(** The count of one call, where the table has no room: the entries of the blocks in use are copied, or, when a push_back doubles
    the table, the whole table. *)
Theorem C109_deque_count :
  forall (V : Type) P (h : bheap V) d x h' d' n,
    (deq_step_n P h d (QPushB x) = Ok (h', d', n) -> bsz P <= d_bsize d -> d_slots d <> 0 -> d_slots d - 1 <= d_back d ->
       n = if 5 <? d_front d then d_back d + 1 - d_front d else d_slots d) /\
    (deq_step_n P h d (QPushF x) = Ok (h', d', n) -> d_fsize d < 0 -> d_slots d <> 0 -> d_front d = 0 -> n = d_back d + 1).
Proof.
  intros V P h d x h' d' n. cbn [deq_step_n]. split.
  - intros E H1 H2 H3. apply push_ctl in E. unfold cpush, ctl in E. destruct (Z.leb_spec (bsz P) (d_bsize d)); [|lia]. destruct (Z.eqb_spec (d_slots d) 0); [lia|].
    destruct (Z.leb_spec (d_slots d - 1) (d_back d)); [|lia]. destruct (5 <? d_front d); injection E; lia.
  - intros E H1 H2 H3. apply pushf_ctl in E as [E _]. unfold cpushf, ctl in E. destruct (Z.ltb_spec (d_fsize d) 0); [|lia]. destruct (Z.eqb_spec (d_slots d) 0); [lia|].
    destruct (Z.eqb_spec (d_front d) 0); [|lia]. destruct (d_back d <? d_slots d - 5); injection E; lia.
Qed.
Print Assumptions C109_deque_count.

(** The deque used as a queue (push_back and pop_front): no bound on the average, for any block size.  When the table is full but
    for six entries at its front, blockCheck makes room for three blocks by moving all the others, and does so again three blocks
    later. *)
Theorem C109_deque_refuted :
  forall (V : Type) (x : V) P, 0 <= expo P <= 30 -> forall K, exists (ops : list (@qop V)) h d n tr,
    Forall queue_op ops /\ deq_run P (@bheap0 V) (deq_default P) (map qdop ops) = Ok (h, d, tr) /\
    deq_run_n P (@bheap0 V) (deq_default P) ops = Ok (h, d, n) /\ K * zlen ops <= n /\ ops <> [].
Proof.
  intros V x P HP K. destruct (deq_dear P HP x (Z.max K 1)) as (ops & h & d & n & Hq & E & Hn & Hne); [lia|]. destruct (run_deq_n P _ _ _ _ _ _ E) as (tr & Et).
  exists ops, h, d, n, tr. split; [exact Hq|]. split; [exact Et|]. split; [exact E|]. split; [|exact Hne]. pose proof (zlen_nonneg ops). nia.
Qed.
Print Assumptions C109_deque_refuted.

(** Pushes only, at both ends: the average grows at most like the logarithm of the number of pushes ...
    Missing: that it is bounded, which is false (below). *)
Theorem C109_deque_push_partial :
  forall (V : Type) P, 0 <= expo P <= 30 -> forall (ops : list (@qop V)) h d tr,
    Forall push_op ops -> deq_run P bheap0 (deq_default P) (map qdop ops) = Ok (h, d, tr) ->
    exists n, deq_run_n P bheap0 (deq_default P) ops = Ok (h, d, n) /\
      let q := 2 * zlen ops + 64 * bsz P in bsz P * n <= 2 * q * (Z.log2 q + 1).
Proof. intros V P HP. exact (deq_push_cost P HP). Qed.
Print Assumptions C109_deque_push_partial.

(** ... and has no bound, for any block size: a table that grew at the front is free in front; pushes at the back then halve the free
    part again and again, and move all blocks each time. *)
Theorem C109_deque_push_refuted :
  forall (V : Type) (x : V) P, 0 <= expo P <= 30 -> forall K, exists (ops : list (@qop V)) h d n tr,
    Forall push_op ops /\ deq_run P (@bheap0 V) (deq_default P) (map qdop ops) = Ok (h, d, tr) /\
    deq_run_n P (@bheap0 V) (deq_default P) ops = Ok (h, d, n) /\ K * zlen ops <= n /\ ops <> [].
Proof.
  intros V x P HP K. destruct (deq_push_dear P HP x (Z.max K 1)) as (ops & h & d & n & Hq & E & Hn & Hne); [lia|]. destruct (run_deq_n P _ _ _ _ _ _ E) as (tr & Et).
  exists ops, h, d, n, tr. split; [exact Hq|]. split; [exact Et|]. split; [exact E|]. split; [|exact Hne]. pose proof (zlen_nonneg ops). nia.
Qed.
Print Assumptions C109_deque_push_refuted.

(** Blocks of one element: 65 pushes into the vector copy 64 entries; 200 pushes at the back of the deque copy 140 and then 64 and
    128; blocks of two elements, 400 pushes at the front (the copies overlap, see C25): 31 + 48 + 56 + 60 + 124; 300 elements going through a deque of 121 copy 12200 more. *)
Example C109_nonvacuous :
  let P := Params 0 false false in
  match vec_run_n P bheap0 (vec_default P) (replicate 65 (VPush 7)) with Ok (_, _, n) => n | _ => -1 end = 64 /\
  match deq_run_n P bheap0 (deq_default P) (replicate 200 (QPushB 7)) with Ok (_, _, n) => n | _ => -1 end = 332 /\
  (let P2 := Params 1 false true in match deq_run_n P2 bheap0 (deq_default P2) (replicate 400 (QPushF 7)) with Ok (_, _, n) => n | _ => -1 end = 319) /\
  match deq_run_n P bheap0 (deq_default P) (replicate 125 (QPushB 7) ++ replicate 4 QPopF ++ concat (replicate 300 [QPushB 7; QPopF])) with
  | Ok (_, _, n) => n | _ => -1 end = 12404.
Proof. cbv zeta. split; [|split; [|split]]; vm_compute; reflexivity. Qed.
(** 125 pushes: the table is doubled by a push_front and then shifted four times: 64 + 65 + 97 + 113 + 121. *)
Example C109_push_ex :
  let P := Params 0 false false in
  match deq_run_n P bheap0 (deq_default P) (replicate 34 (QPushB 7) ++ replicate 31 (QPushF 7) ++ replicate 60 (QPushB 7)) with Ok (_, _, n) => n | _ => -1 end = 460.
Proof. vm_compute. reflexivity. Qed.
