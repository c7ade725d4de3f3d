(** Properties C07-C12: StackBufferRaw and StackBuffer. *)
From stdpp Require Import gmap.
From Verif Require Import Base Heap Own StackModel StackSpec StackProofs StackWorld StackFinal.

(** ** C07 LIFO with reverse.  No guard: every capacity, every sequence of calls. *)
Theorem C07_stack_lifo :
  forall mem n ops, zlen mem = n -> n <= int_max -> Forall kop_legal ops ->
    exists s tr a, stk_run (stk_new mem n) ops = Ok (s, tr) /\ map fst tr = ops /\ lifo_trace n ([], true) tr a.
Proof. exact stack_lifo. Qed.
Print Assumptions C07_stack_lifo.

Example C07_nonvacuous :
  exists s, let ops := [KPush (Some [1;2]) 2; KPush (Some [3;4;5]) 3; KPush (Some [6]) 1; KReverse; KCount; KPop 2;
     KPush (Some [7;8]) 2; KPop 1; KPop 5; KPop 5; KPop 5; KEmpty] in
    Forall kop_legal ops /\
    stk_run (stk_new (repeat 0 40) 40) ops = Ok (s, combine ops
      [RBool true; RBool true; RBool true; RUnit; RInt 3; RPop 2 [1;2]; RBool true; RPop (-2) []; RPop 2 [7;8];
       RPop 3 [3;4;5]; RPop 1 [6]; RBool true]).
Proof. exact stack_example. Qed.

(** ** C08 memory safety: every run over a block of exactly [n] bytes is free of out-of-bounds accesses, and a push
    writes only the free space between the data and the index. *)
Theorem C08_stack_memory :
  forall mem n ops, zlen mem = n -> n <= int_max -> Forall kop_legal ops ->
    exists s tr, stk_run (stk_new mem n) ops = Ok (s, tr) /\ zlen (k_mem s) = n /\ k_size s = n.
Proof. exact stack_memory. Qed.
Print Assumptions C08_stack_memory.

Theorem C08_stack_push_frame :
  forall mem n ops s tr d k s', zlen mem = n -> n <= int_max -> Forall kop_legal ops ->
    stk_run (stk_new mem n) ops = Ok (s, tr) -> 0 < k -> k <= zlen d -> stk_push s (Some d) k = Ok (s', true) ->
    0 <= k_next s /\ k_next s + k <= k_idx s' + 8 /\ k_idx s' + 8 + 8 * k_count s' = n /\
    (forall a z, a + z <= k_next s \/ (k_next s + k <= a /\ a + z <= k_idx s) \/ k_idx s + 8 <= a ->
       mread (k_mem s') a z = mread (k_mem s) a z).
Proof. exact stack_push_frame. Qed.
Print Assumptions C08_stack_push_frame.

(** ** C09 isSpaceAvailable predicts push; refused calls change nothing (any state). *)
Theorem C09_stack_space_predicts_push :
  forall s d n, 0 < n ->
    (forall s' b, stk_push s (Some d) n = Ok (s', b) -> b = stk_space s n /\ (b = false -> s' = s)) /\
    (stk_space s n = false -> stk_push s (Some d) n = Ok (s, false)) /\
    stk_push s None n = Ok (s, false).
Proof. exact stack_space_any. Qed.
Print Assumptions C09_stack_space_predicts_push.

Theorem C09_stack_push_bad_size : forall s d n, n <= 0 -> stk_push s d n = Ok (s, false).
Proof. exact stack_push_bad. Qed.
Print Assumptions C09_stack_push_bad_size.

Theorem C09_stack_push_succeeds :
  forall mem n ops s tr d k, zlen mem = n -> n <= int_max -> Forall kop_legal ops ->
    stk_run (stk_new mem n) ops = Ok (s, tr) -> 0 < k -> k <= zlen d ->
    exists s', stk_push s (Some d) k = Ok (s', stk_space s k).
Proof. exact stack_push_reach. Qed.
Print Assumptions C09_stack_push_succeeds.

Theorem C09_stack_short_pop :
  forall s k,
    (k_count s <= 0 -> stk_pop s k = Ok (s, 0, [])) /\
    (forall z, 0 < k_count s -> stk_next_size s = Ok z -> k < z -> stk_pop s k = Ok (s, - z, [])).
Proof. exact stack_pop_any. Qed.
Print Assumptions C09_stack_short_pop.

(** ** C10 resize.
    Full statement: resize throws only when the stored blocks do not fit.  False ([C10_stack_resize_refuted]: after a
    resize of a non-empty stack every later shrink throws).  Everything else holds: a throw changes nothing, any
    other resize keeps all blocks; and the throw condition is exact while the space accounting is ([e = true]: since
    the stack was last empty it was neither reversed nor resized). *)
Theorem C10_stack_resize_partial :
  forall junk ps o n w tr,
    swprog_ok True (sworld0 junk) (ps ++ [SResize o n]) -> swrun (sworld0 junk) ps = Ok (w, tr) ->
    exists A c q e, sws_trace ∅ tr A /\ A !! o = Some (c, (q, e)) /\
      ((n < 0 /\ swstep w (SResize o n) = Ok (w, SResized false)) \/
       (n = c /\ swstep w (SResize o n) = Ok (w, SResized true)) \/
       (swstep w (SResize o n) = Ok (w, SThrew) /\ 0 <= n < c /\ q <> [] /\ (e = true -> n < need q)) \/
       (0 <= n /\ need q <= n /\ exists w', swstep w (SResize o n) = Ok (w', SResized true) /\
          forall more, swprog_ok True w' more -> exists w2 tr2 A2, swrun w' more = Ok (w2, tr2) /\
            sws_trace (<[o := (n, (q, exact_if_empty q false))]> A) tr2 A2)).
Proof. exact stack_resize. Qed.
Print Assumptions C10_stack_resize_partial.

Theorem C10_stack_resize_refuted :
  exists ps w, swrun (sworld0 (fun _ _ => 0)) ps = Ok (w, combine ps [SDone; SRet (RBool true); SResized true; SThrew]) /\
    ps = [SNew 0 100; SCall 0 (KPush (Some [1;2;3;4]) 4); SResize 0 200; SResize 0 100] /\
    need [[1;2;3;4]] <= 100.
Proof. exact stack_resize_throw_refuted. Qed.
Print Assumptions C10_stack_resize_refuted.

(** ** C11 space gained by resize.
    False for a stack holding blocks ([C11_stack_resize_space_refuted], and always:
    [C11_stack_resize_space_unusable]); for an empty stack it is the exactness flag of [C10_stack_resize_partial],
    restated here for the capacity a fresh stack has. *)
Theorem C11_stack_resize_space_refuted :
  exists ps w, swrun (sworld0 (fun _ _ => 0)) ps =
      Ok (w, combine ps [SDone; SRet (RBool true); SResized true; SRet (RInt 1000); SRet (RBool false); SRet (RBool false)]) /\
    ps = [SNew 0 20; SCall 0 (KPush (Some [1;2;3;4]) 4); SResize 0 1000; SCall 0 KCapacity;
          SCall 0 (KSpace 1); SCall 0 (KPush (Some [9]) 1)] /\
    fits 1000 [[1;2;3;4]] 1 = true.
Proof. exact stack_resize_space_refuted. Qed.
Print Assumptions C11_stack_resize_space_refuted.

Theorem C11_stack_resize_space_unusable :
  forall h b n h' b' k, b_count b <> 0 -> 0 <= b_count b -> n <> b_size b -> 0 < k ->
    sb_resize h b n = Ok (h', b', RRet true) -> stk_space (sraw_of h' b') k = false.
Proof. exact stack_resize_stuck. Qed.
Print Assumptions C11_stack_resize_space_unusable.

Theorem C11_stack_resize_empty_partial :
  forall h b n h' b' k, b_count b = 0 -> 0 <= n -> n <> b_size b ->
    sb_resize h b n = Ok (h', b', RRet true) ->
    stk_space (sraw_of h' b') k = fits n [] k /\ b_size b' = n /\ b_count b' = 0.
Proof. exact stack_resize_empty. Qed.
Print Assumptions C11_stack_resize_empty_partial.

(** ** C12 copies, moves, swaps over any number of stacks.
    The full statement is false ([C12_stack_moved_from_refuted]: a stack moved from by assignment is resized and then
    written through a null pointer).  It holds for every program without move assignment, and for every program that
    does not resize or copy-assign such a stack within its stale capacity. *)
Theorem C12_stack_ownership_no_move_assign_partial :
  forall junk ps, sstatic ∅ ps -> Forall no_move_assign ps ->
    exists w tr A, swrun (sworld0 junk) ps = Ok (w, tr) /\ map fst tr = ps /\ sws_trace ∅ tr A.
Proof. exact stack_world_static. Qed.
Print Assumptions C12_stack_ownership_no_move_assign_partial.

Theorem C12_stack_ownership_partial :
  forall junk ps, swprog_ok True (sworld0 junk) ps ->
    exists w tr A, swrun (sworld0 junk) ps = Ok (w, tr) /\ map fst tr = ps /\ sws_trace ∅ tr A.
Proof. exact stack_world_ok. Qed.
Print Assumptions C12_stack_ownership_partial.

Theorem C12_stack_moved_from_refuted :
  exists ps, ps = [SNew 0 64; SDefault 1; SMoveAssign 1 0; SResize 0 32; SCall 0 (KPush (Some [1]) 1)] /\
    sstatic ∅ ps /\ swrun (sworld0 (fun _ _ => 0)) ps = UB /\
    exists w tr, swrun (sworld0 (fun _ _ => 0)) (take 4 ps) = Ok (w, tr) /\ last tr = Some (SResize 0 32, SResized true).
Proof. exact stack_moved_from_refuted. Qed.
Print Assumptions C12_stack_moved_from_refuted.

Example C12_nonvacuous :
  exists w, let ps := [SNew 0 40; SCall 0 (KPush (Some [1;2;3]) 3); SCopy 1 0; SCall 1 (KPush (Some [4;5]) 2);
      SMove 2 1; SResize 2 64; SDefault 3; SCopyAssign 3 2; SSwap 0 3; SResize 1 30; SCall 1 (KPush (Some [8]) 1);
      SCall 0 (KPop 10); SCall 0 (KPop 10); SCall 3 (KPop 10); SCall 1 (KPop 10); SDestroy 0; SDestroy 1; SDestroy 2; SDestroy 3] in
    sstatic ∅ ps /\ Forall no_move_assign ps /\
    swrun (sworld0 (fun _ _ => 7)) ps = Ok (w, combine ps
      [SDone; SRet (RBool true); SDone; SRet (RBool true); SDone; SResized true; SDone; SDone; SDone; SResized true; SRet (RBool true);
       SRet (RPop 2 [4;5]); SRet (RPop 3 [1;2;3]); SRet (RPop 3 [1;2;3]); SRet (RPop 1 [8]); SDone; SDone; SDone; SDone]).
Proof. exact stack_world_example. Qed.

Example C12_guarded_nonvacuous :
  exists w, let ps := [SNew 0 40; SCall 0 (KPush (Some [1;2;3]) 3); SDefault 1; SMoveAssign 1 0; SResize 0 50;
      SCall 0 (KPush (Some [9]) 1); SMoveAssign 0 1; SDestroy 1; SCall 0 (KPop 9)] in
    swprog_ok True (sworld0 (fun _ _ => 7)) ps /\
    swrun (sworld0 (fun _ _ => 7)) ps = Ok (w, combine ps
      [SDone; SRet (RBool true); SDone; SDone; SResized true; SRet (RBool true); SDone; SDone; SRet (RPop 3 [1;2;3])]).
Proof. exact stack_guarded_example. Qed.
