(** Properties C86, C87: containers that were moved from, or to. *)
From stdpp Require Import gmap.
From Verif Require Import Base BlkHeap BlkIter VecModel VecSpec DeqModel DeqSpec DeqProofs DeqMore DeqWorld DeqFinal DeqMoved.

(** ** C86
    Full property: a StableBlockDeque that was moved from (by construction or by assignment) is an empty deque and can be
    used like a new one.  False ([C86_moved_from_refuted]): bsize and freeIndex keep their values.  What holds is given
    here call by call, with the exact condition, and for whole histories.  [deq_husk d]: what is left of [d]. *)
Theorem C86_moved_from_partial :
  forall (V : Type) P, 0 <= expo P <= 30 -> forall (h0 : bheap V) d0 xs0 ops h d tr,
    dstart P h0 d0 xs0 -> dq_ok xs0 ops -> deq_run P h0 d0 ops = Ok (h, d, tr) ->
    let m := deq_husk d in
    deq_step P h m (DV VSize) = Ok (h, m, VInt 0) /\ deq_step P h m (DV VEmpty) = Ok (h, m, VBool true) /\
    deq_step P h m (DV VPop) = Ok (h, m, VUnit) /\ deq_step P h m DPopF = Ok (h, m, VUnit) /\ deq_step P h m (DV VClear) = Ok (h, m, VUnit) /\
    (forall n, 0 <= n -> deq_step P h m (DV (VAt n)) = Ok (h, m, VOutOfRange)) /\
    deq_free_all P h m = Ok h /\ (forall s, exists s', deq_move_assign P h m s = Ok (h, s, s')).
Proof.
  intros V P HP h0 d0 xs0 ops h d tr _ _ _ m.
  repeat match goal with |- _ /\ _ => split end; try (apply husk_idle; reflexivity); try reflexivity.
  - intros n Hn. apply husk_idle. auto.
  - intros s. eexists. reflexivity.
Qed.
Print Assumptions C86_moved_from_partial.

(** The other calls, exactly: push_back needs bsize = blockSize and no spare blocks; push_front and shrink_to_fit need that
    there are no spare blocks (push_front also N > 0, as for a new deque: C20); begin() and end() need bsize = blockSize. *)
Theorem C86_moved_from_exact :
  forall (V : Type) P, 0 <= expo P <= 30 -> forall (h0 : bheap V) d0 xs0 ops h d tr,
    dstart P h0 d0 xs0 -> dq_ok xs0 ops -> deq_run P h0 d0 ops = Ok (h, d, tr) ->
    (forall x, deq_step P h (deq_husk d) (DV (VPush x)) = UB <-> ~ (d_bsize d = bsz P /\ f_idx (d_fl d) = 0)) /\
    (forall x, deq_step P h (deq_husk d) (DPushF x) = UB <-> f_idx (d_fl d) <> 0 \/ expo P = 0) /\
    (deq_step P h (deq_husk d) (DV VShrink) = UB <-> f_idx (d_fl d) <> 0) /\
    (deq_step P h (deq_husk d) (DV VWalk) = UB <-> d_bsize d <> bsz P).
Proof.
  intros V P HP h0 d0 xs0 ops h d tr H0 Hok E. destruct (husk_facts P HP _ _ _ _ _ _ _ H0 Hok E) as (F1 & F2 & F3). exact (husk_exact P HP h d F1 F2 F3).
Qed.
Print Assumptions C86_moved_from_exact.

(** Whole histories.  With bsize = blockSize and no spare blocks, any history that a new deque could have; without the first,
    any such history that begins with push_front. *)
Theorem C86_moved_from_history_partial :
  forall (V : Type) P, 0 <= expo P <= 30 -> forall (h0 : bheap V) d0 xs0 ops h d tr ops',
    dstart P h0 d0 xs0 -> dq_ok xs0 ops -> deq_run P h0 d0 ops = Ok (h, d, tr) ->
    f_idx (d_fl d) = 0 -> (d_bsize d = bsz P \/ exists x ops1, ops' = DPushF x :: ops1) -> dok P h (deq_default P) [] ops' ->
    exists h' d' tr', deq_run P h (deq_husk d) ops' = Ok (h', d', tr') /\ map fst tr' = ops' /\ dq_trace [] tr' (dq_after [] ops').
Proof.
  intros V P HP h0 d0 xs0 ops h d tr ops' H0 Hok E. destruct (husk_facts P HP _ _ _ _ _ _ _ H0 Hok E) as (F1 & _ & _). exact (husk_sequence P HP h d ops' F1).
Qed.
Print Assumptions C86_moved_from_history_partial.

(** [dok] is met by the histories of C20: *)
Theorem C86_moved_from_plain_partial :
  forall (V : Type) P, 1 <= expo P <= 30 -> overlap_ok P = true -> forall (h0 : bheap V) d0 xs0 ops h d tr ops',
    dstart P h0 d0 xs0 -> dq_ok xs0 ops -> deq_run P h0 d0 ops = Ok (h, d, tr) ->
    f_idx (d_fl d) = 0 -> (d_bsize d = bsz P \/ exists x ops1, ops' = DPushF x :: ops1) -> dq_ok [] ops' -> Forall (plain P) ops' ->
    exists h' d' tr', deq_run P h (deq_husk d) ops' = Ok (h', d', tr') /\ map fst tr' = ops' /\ dq_trace [] tr' (dq_after [] ops').
Proof.
  intros V P HP Ho h0 d0 xs0 ops h d tr ops' H0 Hok E Hf Hc Hok' Hp. eapply C86_moved_from_history_partial; try eassumption; [lia|].
  apply plain_dok; try assumption; lia.
Qed.
Print Assumptions C86_moved_from_plain_partial.

Definition PM (n : Z) : params := Params n false true.

(** Blocks of 4: a new deque has bsize = 3 after one push_back and bsize = 4 after two. *)
Example C86_case :
  (exists h d tr, deq_run (PM 2) (@bheap0 Z) (deq_default (PM 2)) (map (fun n => DV (VPush n)) [1; 2]) = Ok (h, d, tr) /\
     d_bsize d = bsz (PM 2) /\ f_idx (d_fl d) = 0 /\
     exists h' d' tr', deq_run (PM 2) h (deq_husk d) [DV VWalk; DV (VPush 5); DPushF 4; DV VWalk] = Ok (h', d', tr') /\
       map snd tr' = [VList []; VUnit; VUnit; VList [4; 5]]) /\
  (exists h d tr, deq_run (PM 2) (@bheap0 Z) (deq_default (PM 2)) (map (fun n => DV (VPush n)) [1]) = Ok (h, d, tr) /\
     d_bsize d = 3 /\ f_idx (d_fl d) = 0 /\
     exists h' d' tr', deq_run (PM 2) h (deq_husk d) [DPushF 4; DV (VPush 5); DV (VPush 6); DV VWalk] = Ok (h', d', tr') /\
       map snd tr' = [VUnit; VUnit; VUnit; VList [4; 5; 6]]).
Proof.
  split; eexists _, _, _; (split; [vm_compute; reflexivity|]; split; [reflexivity|]; split; [reflexivity|]; eexists _, _, _; split; [vm_compute; reflexivity|reflexivity]).
Qed.

(** A deque with one element is moved from; the next push_back writes through a null pointer; so does end().  A deque with a
    spare block is moved from: push_front and shrink_to_fit read the table of spare blocks, which is gone. *)
Theorem C86_moved_from_refuted :
  (exists ps w tr, ps = [DDefault 0; DCall 0 (DV (VPush 7)); DMove 1 0] /\ dwrun (PM 2) (@dworld0 Z) ps = Ok (w, tr) /\
     dwstep (PM 2) w (DCall 0 (DV (VPush 8))) = UB /\ dwstep (PM 2) w (DCall 0 (DV VWalk)) = UB) /\
  (exists ps w tr, ps = [DSized 0 6 7; DDefault 1] ++ replicate 6 (DCall 0 (DV VPop)) ++ [DMoveAssign 1 0] /\ dwrun (PM 2) (@dworld0 Z) ps = Ok (w, tr) /\
     dwstep (PM 2) w (DCall 0 (DPushF 8)) = UB /\ dwstep (PM 2) w (DCall 0 (DV VShrink)) = UB).
Proof. split; eexists _, _, _; (split; [reflexivity|]; split; [vm_compute; reflexivity|]; split; vm_compute; reflexivity). Qed.
Print Assumptions C86_moved_from_refuted.
