(** Property C87: a BlockingQueue or BlockingPriorityQueue that was moved. *)
From stdpp Require Import list.
From Verif Require Import Base Conc CondVar Herlihy Serial BqModel BqSpec BqInv BqMore BqWake BqFlag BqSerial BqMore2 Props_Bq Props_Bq2.

Section props.
Context {V : Type}.
Implicit Types (s : bqsh V) (xs : list (nat * act cvc (bqop V))).

(** Full property: moving a queue that no thread is using gives the destination exactly the elements, in order, leaves the
    source empty, and both can then be used by any number of threads like any other queue, empty() included.  False for
    empty() only, see [C87_moved_empty_refuted]. *)
Theorem C87_moved_partial bp s : rest bp s ->
  let '(d, m) := bq_move s in
  rest bp d /\ rest bp m /\ pullE d = pullE s /\ pushE d = pushE s /\ prioE d = prioE s /\ bq_content d = bq_content s /\ nothing_held m.
Proof. intros (E1 & E2 & E3 & E4). cbn. unfold rest, nothing_held, bq_content. cbn. repeat split; auto. Qed.

(** Every execution of any number of threads on the destination is that of a queue with the contents of the source, and every
    execution on the source is that of an empty queue. *)
Theorem C87_moved_to_partial bp s xs c H : rest bp s -> Forall (has_op bp) (calls xs) -> bq_run bp (init (fst (bq_move s))) xs = Some (c, H) ->
  exists L q, linearization bq_spec H (bq_content s) L q /\
    (forall i o r, In (i, o, r) L -> (exists j t, ret_of H i j t o r) \/ under_way H c i o) /\
    (~ clearing c -> Permutation (fst q ++ snd q) (prioE (sh c) ++ pullE (sh c) ++ pushE (sh c))).
Proof.
  intros Hs Hok Er. pose proof (C87_moved_partial bp s Hs) as Hm. cbn in Hm. destruct Hm as (Hd & _).
  destruct (bq_lin_content bp _ _ _ _ Hd Hok Er) as (L & q & E1 & E2 & E3 & _). exists L, q. auto.
Qed.
Theorem C87_moved_from_partial bp s xs c H : rest bp s -> Forall (has_op bp) (calls xs) -> bq_run bp (init (snd (bq_move s))) xs = Some (c, H) ->
  exists L q, linearization bq_spec H ([], []) L q /\
    (forall i o r, In (i, o, r) L -> (exists j t, ret_of H i j t o r) \/ under_way H c i o) /\
    (~ clearing c -> Permutation (fst q ++ snd q) (prioE (sh c) ++ pullE (sh c) ++ pushE (sh c))).
Proof.
  intros Hs Hok Er. pose proof (C87_moved_partial bp s Hs) as Hm. cbn in Hm. destruct Hm as (_ & Hd & _).
  destruct (bq_lin_content bp _ _ _ _ Hd Hok Er) as (L & q & E1 & E2 & E3 & _). exists L, q. auto.
Qed.

(** Their single consumers are not left waiting. *)
Theorem C87_no_lost_wakeup_partial bp t0 s s' xs c H : rest bp s -> s' = fst (bq_move s) \/ s' = snd (bq_move s) ->
  Forall (has_op bp) (calls xs) -> sole_consumer bp t0 xs -> bq_run bp (init s') xs = Some (c, H) ->
  bq_waits c t0 -> (forall i o, under_way H c i o -> bval o = None) -> nothing_held (sh c).
Proof.
  intros Hs Hd. pose proof (C87_moved_partial bp s Hs) as Hm. cbn in Hm. destruct Hm as (H1 & H2 & _). apply bq_wakeup. destruct Hd as [->| ->]; assumption.
Qed.

(** empty() of the destination answers false only if there is an element; true is right if pushElements is empty. *)
Theorem C87_moved_empty_partial s : let d := fst (bq_move s) in
  (eflag d = false -> ~ nothing_held d) /\ (eflag d = true -> pushE s = [] -> nothing_held d).
Proof.
  cbn. unfold nothing_held. cbn. destruct (pullE s); cbn; [|split; [intros _ (? & _); discriminate|discriminate]].
  destruct (prioE s); cbn; split; try discriminate; auto. intros _ (_ & _ & ?). discriminate.
Qed.
End props.
Print Assumptions C87_moved_partial.
Print Assumptions C87_moved_to_partial.
Print Assumptions C87_moved_from_partial.
Print Assumptions C87_no_lost_wakeup_partial.
Print Assumptions C87_moved_empty_partial.

(** popOrCall whose callback pushes 10 and 20 returns 10; nobody is inside.  The queue is moved.  The destination holds 20 and
    its empty() answers true; a queue with one element is moved from: it is empty and its empty() answers false. *)
Definition one_call : list (nat * act cvc (bqop Z)) :=
  ((1, ACall BPopCall) :: steps 1 8 ++ push_by 2 10 10 ++ push_by 2 20 6 ++ steps 1 5 ++ [(1, ARet)])%nat.
Theorem C87_moved_empty_refuted :
  (exists c H, bq_run false (init (bq0 (V := Z))) one_call = Some (c, H) /\ (forall t, th c t = None) /\
     let d := fst (bq_move (sh c)) in pushE d = [20%Z] /\
     exists c', bq_run false (init d) (block (1%nat, BEmpty, [CStep])) = Some (c', [HInv 1%nat BEmpty; HRet 1%nat (BBool true)])) /\
  (exists c H, bq_run false (init (bq0 (V := Z))) (push_by 1 10 10) = Some (c, H) /\ (forall t, th c t = None) /\
     let m := snd (bq_move (sh c)) in nothing_held m /\
     exists c', bq_run false (init m) (block (1%nat, BEmpty, [CStep])) = Some (c', [HInv 1%nat BEmpty; HRet 1%nat (BBool false)])).
Proof.
  split; eexists _, _; (split; [vm_compute; reflexivity|]).
  - split; [intros [|[|[|t]]]; reflexivity|]. split; [reflexivity|]. eexists. vm_compute. reflexivity.
  - split; [intros [|[|t]]; reflexivity|]. split; [repeat split|]. eexists. vm_compute. reflexivity.
Qed.
Print Assumptions C87_moved_empty_refuted.

(** A queue with three elements is moved; two threads then use the destination, another the source. *)
Example C87_case : exists c H, bq_run false (init (bq0 (V := Z))) (push_by 1 10 10 ++ push_by 1 20 6 ++ push_by 1 30 4) = Some (c, H) /\
  rest false (sh c) /\ bq_content (fst (bq_move (sh c))) = ([], [10; 20; 30]%Z) /\ eflag (snd (bq_move (sh c))) = false /\
  (exists c' H', bq_run false (init (fst (bq_move (sh c)))) (block (1%nat, BTryPop, repeat CStep 11) ++ push_by 2 40 6) = Some (c', H') /\
     bq_content (sh c') = ([], [20; 30; 40]%Z)) /\
  (exists c' H', bq_run false (init (snd (bq_move (sh c)))) (push_by 2 40 6) = Some (c', H') /\ bq_content (sh c') = ([], [40]%Z)).
Proof.
  eexists _, _. split; [vm_compute; reflexivity|]. split; [repeat split; discriminate || reflexivity|]. split; [reflexivity|]. split; [reflexivity|].
  split; eexists _, _; (split; [vm_compute; reflexivity|reflexivity]).
Qed.
