(** WorkQueue: data races (C116) *)
From stdpp Require Import list.
From Verif Require Import Base Conc CondVar Herlihy Serial SqModel SqSpec SqProofs WqModel WqProofs WqCount WqMore WqBound WqLive Props_Wq Props_Wq5 WqRace.
Local Open Scope nat_scope.

Section props.
Variable nw : nat.
Notation wqcfg := (cfg wqsh wqpc).
Implicit Types (s : wqsh) (c : wqcfg) (f : nat -> bool) (xs : list (nat * act cvc wqop)).

(** The access lists are what the steps do: a step changes nothing else, and what it does depends on nothing else that is not atomic. *)
Theorem C116_writes s t pc k s' pc' x : wq_step nw s t pc k = Some (s', pc') -> ~ In (x, true) (wq_acc nw s pc) -> same_at s s' x.
Proof. apply acc_writes. Qed.
Theorem C116_reads s1 s2 t pc k : same_atomics s1 s2 -> (forall x w, In (x, w) (wq_acc nw s1 pc) -> same_at s1 s2 x) ->
  wq_acc nw s1 pc = wq_acc nw s2 pc /\
  match wq_step nw s1 t pc k, wq_step nw s2 t pc k with
  | Some (s1', p1), Some (s2', p2) => p1 = p2 /\ same_atomics s1' s2' /\ forall x w, In (x, w) (wq_acc nw s1 pc) -> same_at s1' s2' x
  | None, None => True
  | _, _ => False
  end.
Proof. apply acc_reads. Qed.

(** The vectors of the three queues: never accessed by two threads at once, whatever is called. *)
Theorem C116_vectors f xs c H i x t u pt pu w w' : wq_run nw (wq_init nw f) xs = Some (c, H) -> th c t = Some pt -> th c u = Some pu ->
  In (LVec i x, w) (wq_acc nw (sh c) pt) -> In (LVec i x, w') (wq_acc nw (sh c) pu) -> t = u.
Proof. apply race_vec. Qed.

(** No data race on the queues; none on the thread objects unless calls of closeWorkerQueue overlap; none on a block that was not submitted
    twice. *)
Theorem C116_race_free_partial f xs c H x : wq_run nw (wq_init nw f) xs = Some (c, H) ->
  match x with LVec _ _ => True | LThread _ => no_overlap H | LFin b => submitted b H <= 1 end -> ~ wq_race nw c x.
Proof.
  intros Er Hx (t & u & pt & pu & w & w' & Hne & Et & Eu & Ht & Hu & _). apply Hne. destruct x as [i y|k|b].
  - eapply race_vec; eassumption.
  - eapply race_thread; eassumption.
  - eapply race_fin; eassumption.
Qed.
End props.

(** Two threads close the queue: one is in join(), the other asks the same thread object whether it is joinable and then joins it too. *)
Theorem C116_threads_refuted : exists c H, wq_run 1 (wq_init 1 no_fin) two_closers = Some (c, H) /\ (forall b, submitted b H = 0) /\ wq_race 1 c (LThread 0).
Proof.
  eexists _, _. split; [vm_compute; reflexivity|]. split; [intros b; reflexivity|]. exists 1, 2, (CJ 0 false), (CJ 0 true), true, true. splits; try reflexivity; [discriminate|left; reflexivity|left; reflexivity|left; reflexivity].
Qed.
(** A block is submitted again while a worker is about to mark it as finished: addWorkBlock asks isFinished() at that moment. *)
Theorem C116_blocks_refuted : exists c H, wq_run 1 (wq_init 1 no_fin) (adds 1 7 PHigh 17 ++ ints 0 15 ++ [(1, ACall (OAdd (Some (BWork 7)) PMed))]) = Some (c, H) /\
  no_overlap H /\ submitted 7 H = 2 /\ wq_race 1 c (LFin 7).
Proof.
  eexists _, _. split; [vm_compute; reflexivity|]. split; [|split; [reflexivity|]].
  - intros i j t u Hij Hi. destruct i as [|[|[|]]]; discriminate.
  - exists 0, 1, (X2 7 XWork), (A0 (Some (BWork 7)) PMed), true, false. splits; try reflexivity; [discriminate|left; reflexivity|left; reflexivity|left; reflexivity].
Qed.

(** The hypotheses are met: worker 0 is about to mark block 7 as finished, user 2 submits block 8, user 3 has set halt in closeWorkerQueue. *)
Example C116_ex : exists c H, wq_run 2 (wq_init 2 no_fin) (adds 2 7 PHigh 17 ++ ints 0 15 ++ ints 1 3 ++ [(2, ACall (OAdd (Some (BWork 8)) PMed))] ++ (3, ACall OClose) :: ints 3 3) = Some (c, H) /\
  submitted 7 H = 1 /\ submitted 8 H = 1 /\ wq_acc 2 (sh c) (X2 7 XWork) = [(LFin 7, true)] /\ th c 0 = Some (X2 7 XWork) /\ th c 2 = Some (A0 (Some (BWork 8)) PMed) /\ halt (sh c) = true.
Proof. eexists _, _. split; [vm_compute; reflexivity|]. splits; reflexivity. Qed.

Print Assumptions C116_writes.
Print Assumptions C116_reads.
Print Assumptions C116_vectors.
Print Assumptions C116_race_free_partial.
Print Assumptions C116_threads_refuted.
Print Assumptions C116_blocks_refuted.
