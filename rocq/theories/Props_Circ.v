(** Properties C01-C06: CircularBufferRaw and CircularBuffer. *)
From stdpp Require Import gmap.
From Verif Require Import Base Heap CircModel CircSpec CircProofs CircMore CircBufModel CircBufSpec CircBufProofs
  CircBufWorld CircCheck CircFinal.

(** ** C01 FIFO.
    Full statement: for every capacity and every sequence of calls the history is a FIFO history.  It is false
    ([C01_circ_fifo_refuted_loss], [C01_circ_fifo_refuted_replay]); it holds exactly as long as every accepted
    push meets the guard [push_safe] ([C01_circ_fifo_partial], [C01_circ_guard_tight]); callers can stay inside
    the guard by a rule that mentions only their own calls ([C01_circ_fifo_disciplined_partial]). *)
Theorem C01_circ_fifo_partial :
  forall mem n ops, zlen mem = n -> n <= int_max ->
    Forall (cop_legal int_max) ops -> safe_run (circ_new mem n) ops ->
    exists s tr q, circ_run (circ_new mem n) ops = Ok (s, tr) /\ map fst tr = ops /\ fifo_trace n [] tr q.
Proof. exact circ_fifo. Qed.
Print Assumptions C01_circ_fifo_partial.

Theorem C01_circ_fifo_disciplined_partial :
  forall mem n M ops, zlen mem = n -> n <= int_max -> 4 <= M -> disciplined M n [] ops ->
    exists s tr q, circ_run (circ_new mem n) ops = Ok (s, tr) /\ map fst tr = ops /\ fifo_trace n [] tr q /\
      Forall push_accepted tr.
Proof. exact circ_fifo_disciplined. Qed.
Print Assumptions C01_circ_fifo_disciplined_partial.

Theorem C01_circ_guard_tight :
  forall mem n ops s tr q d k, zlen mem = n -> n <= int_max ->
    Forall (cop_legal int_max) ops -> safe_run (circ_new mem n) ops ->
    circ_run (circ_new mem n) ops = Ok (s, tr) -> 
    0 < k -> k <= zlen d -> k <= int_max ->
    fifo_trace n [] tr q ->
    circ_space s k = true -> ~ push_safe s k ->
    exists more s' tr', circ_run s (CPush (Some d) k :: more) = Ok (s', tr') /\
      forall q', ~ fifo_trace n q tr' q'.
Proof. exact circ_guard_tight. Qed.
Print Assumptions C01_circ_guard_tight.

Theorem C01_circ_fifo_refuted_loss :
  exists mem n ops s tr, zlen mem = n /\ Forall (cop_legal int_max) ops /\
    circ_run (circ_new mem n) ops = Ok (s, tr) /\ (forall q, ~ fifo_trace n [] tr q) /\
    tr = map (fun b => (CPush (Some b) 4, RBool true)) [[1;1;1;1]; [2;2;2;2]] ++
         [(CPop 100, RPop 4 [1;1;1;1])] ++
         map (fun b => (CPush (Some b) 4, RBool true)) [[3;3;3;3]; [4;4;4;4]] ++
         [(CEmpty, RBool true); (CPop 100, RPop 0 [])].
Proof. exact circ_fifo_loss. Qed.
Print Assumptions C01_circ_fifo_refuted_loss.

Theorem C01_circ_fifo_refuted_replay :
  exists mem n ops s tr, zlen mem = n /\ Forall (cop_legal int_max) ops /\
    circ_run (circ_new mem n) ops = Ok (s, tr) /\ (forall q, ~ fifo_trace n [] tr q) /\
    tr = [(CPush (Some [7;7;7;7]) 4, RBool true); (CPop 100, RPop 4 [7;7;7;7]); (CPop 100, RPop 4 [7;7;7;7])].
Proof. exact circ_fifo_replay. Qed.
Print Assumptions C01_circ_fifo_refuted_replay.

(** The hypotheses of C01 are met by a history that wraps around with a marker and pops everything. *)
Example C01_nonvacuous :
  exists ops s, safe_run (circ_new (repeat 0 40) 40) ops /\ Forall (cop_legal int_max) ops /\
    circ_run (circ_new (repeat 0 40) 40) ops = Ok (s, combine ops
      [RBool true; RBool true; RPop 10 [1;2;3;4;5;6;7;8;9;10]; RBool true; RPop 10 [11;12;13;14;15;16;17;18;19;20];
       RPop (-9) []; RPop 9 [21;22;23;24;25;26;27;28;29]; RBool true]).
Proof. exact circ_fifo_example. Qed.

Example C01_disciplined_nonvacuous :
  disciplined 10 64 [] [CPush (Some [1;2;3;4;5;6;7;8;9;10]) 10; CPush (Some [9;9]) 2; CPop 4; CPop 10;
    CPush (Some [1;2;3;4;5;6;7;8;9;10]) 10; CPush (Some [1;2;3;4;5;6;7;8;9;10]) 10; CPop 10; CPop 10; CPop 10; CEmpty].
Proof. exact circ_disciplined_example. Qed.

(** ** C02 memory safety.
    Full statement: no call ever accesses a byte outside the block.  False ([C02_circ_memory_refuted]: the wrap
    marker is written past the end); it holds under the guard of C01. *)
Theorem C02_circ_memory_partial :
  forall mem n ops, zlen mem = n -> n <= int_max ->
    Forall (cop_legal int_max) ops -> safe_run (circ_new mem n) ops ->
    circ_run (circ_new mem n) ops <> UB /\
    exists s tr, circ_run (circ_new mem n) ops = Ok (s, tr) /\ zlen (c_mem s) = n /\ c_cap s = n.
Proof. exact circ_memory_safe. Qed.
Print Assumptions C02_circ_memory_partial.

Theorem C02_circ_memory_refuted :
  exists mem n ops, zlen mem = n /\ Forall (cop_legal int_max) ops /\ circ_run (circ_new mem n) ops = UB.
Proof. exact circ_memory_ub. Qed.
Print Assumptions C02_circ_memory_refuted.

(** ** C03 isSpaceAvailable predicts push, in every state whatsoever. *)
Theorem C03_circ_space_predicts_push :
  forall s d n, 0 < n ->
    (forall s' b, circ_push s (Some d) n = Ok (s', b) -> b = circ_space s n) /\
    (circ_space s n = false -> circ_push s (Some d) n = Ok (s, false)).
Proof. exact circ_space_push. Qed.
Print Assumptions C03_circ_space_predicts_push.

Theorem C03_circ_refused_push_changes_nothing :
  forall s data n,
    (forall s', circ_push s data n = Ok (s', false) -> s' = s) /\
    (n <= 0 \/ data = None -> circ_push s data n = Ok (s, false)).
Proof. exact circ_refused. Qed.
Print Assumptions C03_circ_refused_push_changes_nothing.

Example C03_nonvacuous :
  circ_space (circ_new (repeat 0 16) 16) 12 = true /\ circ_space (circ_new (repeat 0 16) 16) 13 = false /\
  is_ok (circ_push (circ_new (repeat 0 16) 16) (Some (repeat 5 20)) 12) = true.
Proof. exact circ_space_example. Qed.

(** ** C04 short pops and nextDataSize, in every state reachable through guarded pushes.
    Full statement: in every reachable state.  False ([C04_circ_next_size_refuted]: nextDataSize answers 0 although blocks
    were accepted and not popped).  A short pop itself loses nothing in any state whatsoever ([C04_circ_short_pop_any]). *)
Theorem C04_circ_short_pop_partial :
  forall mem n ops s tr, zlen mem = n -> n <= int_max ->
    Forall (cop_legal int_max) ops -> safe_run (circ_new mem n) ops ->
    circ_run (circ_new mem n) ops = Ok (s, tr) ->
    exists q, fifo_trace n [] tr q /\
      match q with
      | [] => circ_next_size s = Ok 0 /\ forall k, circ_pop s k = Ok (s, 0, [])
      | b :: q' =>
          0 < zlen b /\ circ_next_size s = Ok (zlen b) /\
          (forall k, zlen b <= k -> exists s', circ_pop s k = Ok (s', zlen b, b)) /\
          (forall k, k < zlen b -> exists s1, circ_pop s k = Ok (s1, - zlen b, []) /\
             circ_next_size s1 = Ok (zlen b) /\ circ_empty s1 = false /\
             forall k2, zlen b <= k2 -> exists s2, circ_pop s1 k2 = Ok (s2, zlen b, b))
      end.
Proof. exact circ_short_pop. Qed.
Print Assumptions C04_circ_short_pop_partial.

Theorem C04_circ_short_pop_any :
  forall s k s1 z, circ_pop s k = Ok (s1, z, []) -> z < 0 ->
    circ_next_size s = Ok (- z) /\ k < - z /\ c_mem s1 = c_mem s /\ c_w s1 = c_w s /\
    (circ_empty s1 = false -> circ_next_size s1 = Ok (- z) /\ forall k2, circ_pop s1 k2 = circ_pop s k2).
Proof. exact circ_short_pop_any. Qed.
Print Assumptions C04_circ_short_pop_any.

Theorem C04_circ_next_size_refuted :
  exists mem n ops s tr, zlen mem = n /\ Forall (cop_legal int_max) ops /\
    circ_run (circ_new mem n) ops = Ok (s, tr) /\ (forall q, ~ fifo_trace n [] tr q) /\
    tr = map (fun b => (CPush (Some b) 4, RBool true)) [[1;1;1;1]; [2;2;2;2]] ++
         [(CPop 100, RPop 4 [1;1;1;1])] ++
         map (fun b => (CPush (Some b) 4, RBool true)) [[3;3;3;3]; [4;4;4;4]] ++
         [(CNextSize, RInt 0)].
Proof. exact circ_next_size_loss. Qed.
Print Assumptions C04_circ_next_size_refuted.

Example C04_any_nonvacuous :
  exists s2, circ_pop (Circ (enc32 9 ++ repeat 0 8 ++ enc32 (-1) ++ repeat 0 12) 8 12 28) 3 = Ok (s2, -9, []) /\ c_r s2 = 0 /\ circ_empty s2 = false.
Proof. eexists. split; [vm_compute; reflexivity|]. split; reflexivity. Qed.

(** ** C05 resize.
    Full statement: every resize keeps all blocks or throws, and the buffer stays a FIFO.  False
    ([C05_circ_resize_refuted]); holds under [resize_safe] (growing and resizing a wrapped or empty buffer is
    always fine; shrinking an unwrapped one must leave 8 free bytes behind the data). *)
Theorem C05_circ_resize_partial :
  forall junk M ps o n w tr, 4 <= M ->
    wprog_ok True M (world0 junk) (ps ++ [WResize o n]) ->
    wrun (world0 junk) ps = Ok (w, tr) ->
    exists A c q, ws_trace M ∅ tr A /\ A !! o = Some (c, q) /\
      ((wstep w (WResize o n) = Ok (w, WThrew) /\ q <> [] /\ n < c /\ n < footprint q + M + 4) \/
       (exists w', wstep w (WResize o n) = Ok (w', WDone) /\
          forall more, wprog_ok True M w' more -> exists w2 tr2 A2, wrun w' more = Ok (w2, tr2) /\
            ws_trace M (<[o := (n, q)]> A) tr2 A2)).
Proof. exact circ_resize_ok. Qed.
Print Assumptions C05_circ_resize_partial.

Theorem C05_circ_resize_refuted :
  exists ps w tr, Forall (fun p => match p with WCall _ c => cop_legal int_max c | _ => True end) ps /\
    wrun (world0 (fun _ _ => 0)) ps = Ok (w, tr) /\ (forall A, ~ ws_trace int_max ∅ tr A) /\
    tr = [(WNew 0 24, WDone); (WCall 0 (CPush (Some [7;7;7;7]) 4), WRet (RBool true)); (WResize 0 12, WDone);
          (WCall 0 (CPop 100), WRet (RPop 4 [7;7;7;7])); (WCall 0 (CPop 100), WRet (RPop 4 [7;7;7;7]))].
Proof. exact circ_resize_replay. Qed.
Print Assumptions C05_circ_resize_refuted.

(** ** C06 copies, moves and ownership over any number of buffers.
    [ws_trace] has no memory at all: each buffer is its own queue, so following it means copies are equal and
    independent and moved-from buffers are empty; an [Ok] run contains no double free and no access to freed or
    foreign memory. *)
Theorem C06_circ_ownership_partial :
  forall junk M ps, 4 <= M -> wprog_ok True M (world0 junk) ps ->
    exists w tr A, wrun (world0 junk) ps = Ok (w, tr) /\ map fst tr = ps /\ ws_trace M ∅ tr A.
Proof. exact circ_world_ok. Qed.
Print Assumptions C06_circ_ownership_partial.

Theorem C06_circ_ownership_disciplined_partial :
  forall junk M ps, 4 <= M -> wdisciplined M ∅ ps ->
    exists w tr A, wrun (world0 junk) ps = Ok (w, tr) /\ map fst tr = ps /\ ws_trace M ∅ tr A /\
      Forall wpush_accepted tr.
Proof. exact circ_world_disciplined. Qed.
Print Assumptions C06_circ_ownership_disciplined_partial.

Theorem C06_circ_ownership_refuted :
  exists ps, wrun (world0 (fun _ _ => 0)) ps = UB /\ ps = [WDefault 0; WCopy 1 0; WDefault 2; WMoveAssign 1 2].
Proof. exact circ_double_free. Qed.
Print Assumptions C06_circ_ownership_refuted.

Example C06_nonvacuous :
  exists ps w tr, wprog_ok True 100 (world0 (fun _ _ => 3)) ps /\
    wrun (world0 (fun _ _ => 3)) ps = Ok (w, tr) /\
    tr = [(WNew 0 40, WDone); (WCall 0 (CPush (Some [1;2;3]) 3), WRet (RBool true)); (WCopy 1 0, WDone);
          (WCall 1 (CPush (Some [4;5]) 2), WRet (RBool true)); (WMove 2 1, WDone); (WResize 2 64, WDone);
          (WDefault 3, WDone); (WCopyAssign 3 2, WDone); (WMoveAssign 0 3, WDone);
          (WCall 0 (CPop 10), WRet (RPop 3 [1;2;3])); (WCall 2 (CPop 10), WRet (RPop 3 [1;2;3]));
          (WCall 0 (CPop 10), WRet (RPop 2 [4;5])); (WCall 1 CEmpty, WRet (RBool true));
          (WDestroy 0, WDone); (WDestroy 1, WDone); (WDestroy 2, WDone); (WDestroy 3, WDone)].
Proof. exact circ_world_example. Qed.

Example C06_disciplined_nonvacuous :
  wdisciplined 8 ∅ [WNew 0 40; WCall 0 (CPush (Some [1;2;3]) 3); WCopy 1 0; WResize 1 80;
    WCall 1 (CPush (Some [1;2;3;4;5;6;7;8]) 8); WDefault 2; WMoveAssign 2 1; WCall 2 (CPop 8); WDestroy 2].
Proof. exact circ_wdisciplined_example. Qed.
