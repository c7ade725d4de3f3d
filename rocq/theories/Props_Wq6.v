(** Property C92: destroying a WorkQueue that no thread is using ends, and ends well [WorkQueue.hpp 301-306, 313-336]: the
    destructor returns, every worker thread has ended and was joined (so the destruction of [threadpool] does not terminate the
    program and no thread touches the destroyed queue).  Works end (see DESIGN.md). *)
From stdpp Require Import list.
From Verif Require Import Base Conc CondVar Herlihy SqModel SqSpec SqProofs WqModel WqProofs WqCount WqMore WqBound WqLive WqSeq WqPrio WqOpen WqDrain WqMisc WqDtor Props_Wq.
Local Open Scope nat_scope.

Section props.
Variable nw : nat.
Notation wqcfg := (cfg wqsh wqpc).

(** The queue was closed before: the destructor calls nothing, and nothing is left to do. *)
Theorem C92_closed_before f xs c H : wq_run nw (wq_init nw f) xs = Some (c, H) -> at_rest nw c -> dtor_calls (sh c) = None ->
  ~ terminates nw (sh c) /\ forall w, w < nw -> th c w = Some WE.
Proof.
  unfold dtor_calls. intros Er Hr Hd. destruct (halt (sh c)) eqn:Hh; [|discriminate]. pose proof (rest_joined nw f xs c H Er Hr Hh) as Ha. split.
  - intros (w & Hw & E). rewrite (Ha w Hw) in E. discriminate.
  - eapply joined_ended; eassumption.
Qed.

(** Otherwise it calls closeWorkerQueue.  [c']: any moment from then on, nobody else calling anything. *)
Theorem C92_destructor f xs c H t o ys c' H' : wq_run nw (wq_init nw f) xs = Some (c, H) -> at_rest nw c -> nw <= t -> dtor_calls (sh c) = Some o ->
  wq_run nw c ((t, ACall o) :: ys) = Some (c', H') -> calls ys = [] ->
  (* it has returned: all is well *)
  (th c' t = None -> ~ terminates nw (sh c') /\ forall w, w < nw -> th c' w = Some WE) /\
  (* halt is not set yet: the destructor can step, or can do so once a worker has given back queueLock, at most two steps of that worker later *)
  (halt (sh c') = false -> exists pc, th c' t = Some pc /\
    ((exists c2, wq_exec nw c' (t, AInt CStep) = Some (c2, [])) \/
     exists w n c2, w < nw /\ n <= 2 /\ wq_run nw c' (repeat (w, AInt CStep) n) = Some (c2, []) /\ qlock (sh c2) = None /\ th c2 t = Some pc)) /\
  (* halt is set: only boundedly many steps are left, and when no thread can step any more the destructor has returned *)
  (halt (sh c') = true -> (forall n, exists B, forall zs c2 H2, onn n zs -> calls zs = [] -> wq_run nw c' zs = Some (c2, H2) -> length zs <= B) /\
    (~ can_go nw c' -> th c' t = None)).
Proof.
  unfold dtor_calls. intros Er Hr Ht Hd Er' Hc. destruct (halt (sh c)) eqn:Hh; [discriminate|]. injection Hd as <-.
  assert (Erun := dt_run nw f xs c H t ys c' H' Er Er'). assert (Hno := dt_no_overlap nw f xs c H t ys c' H' Er Hr Ht Hh Er' Hc). splits.
  - intros Hn. pose proof (dt_returned nw f xs c H t ys c' H' Er Hr Ht Hh Er' Hc Hn) as Ha. split.
    + intros (w & Hw & E). rewrite (Ha w Hw) in E. discriminate.
    + eapply joined_ended; eassumption.
  - intros Hf. destruct (dt_early nw f xs c H t ys c' H' Er Hr Ht Hh Er' Hc Hf) as (pc & E1 & _ & [E|(w & n & c2 & E2 & _ & E3 & E4 & E5 & E6)]); exists pc; split; auto. right. exists w, n, c2. auto.
  - intros Hf. split.
    + intros n. destruct (C57_all_bound nw f c' (H ++ H') n) as [B HB]; [exists (xs ++ (t, ACall OClose) :: ys); split; [exact Erun|exact Hf]|]. exists B. intros zs c2 H2 Hz Hcz Ez. eapply HB; eassumption.
    + intros Hg. destruct (th c' t) as [pc|] eqn:Et; [|reflexivity]. exfalso. apply Hg. eapply C57_progress_partial; [exact Erun|exact Hno|exact Hf|]. exists t, pc. split; [exact Et|].
      exact (dt_alive nw f xs c H t ys c' H' Er Hr Ht Hh Er' Hc pc Et).
Qed.
End props.
Print Assumptions C92_closed_before.
Print Assumptions C92_destructor.

(** One worker, asleep; the destructor (thread 1) wakes it, it ends and is joined.  A second destructor has nothing to do. *)
Example C92_case : exists c H c' H', wq_run 1 (wq_init 1 no_fin) (ints 0 9) = Some (c, H) /\ at_rest 1 c /\ dtor_calls (sh c) = Some OClose /\ terminates 1 (sh c) /\
  wq_run 1 c ((1, ACall OClose) :: ints 1 46 ++ ints 0 5 ++ ints 1 2 ++ [(1, ARet)]) = Some (c', H') /\ th c' 1 = None /\ th c' 0 = Some WE /\ at_rest 1 c' /\ dtor_calls (sh c') = None.
Proof.
  eexists _, _, _, _. split; [vm_compute; reflexivity|]. cbn [sh th]. split; [intros [|t] Ht; [lia|reflexivity]|]. split; [reflexivity|]. split; [exists 0; split; [lia|reflexivity]|].
  split; [vm_compute; reflexivity|]. split; [reflexivity|]. split; [reflexivity|]. split; [|reflexivity]. intros [|[|t]] Ht; [lia|reflexivity|reflexivity].
Qed.
(** The destructor meets a worker that is about to sleep and holds queueLock. *)
Example C92_case_early : exists c H c' H', wq_run 1 (wq_init 1 no_fin) (ints 0 8) = Some (c, H) /\ at_rest 1 c /\ dtor_calls (sh c) = Some OClose /\
  wq_run 1 c [(1, ACall OClose)] = Some (c', H') /\ halt (sh c') = false /\ wq_exec 1 c' (1, AInt CStep) = None /\ qlock (sh c') = Some 0.
Proof.
  eexists _, _, _, _. split; [vm_compute; reflexivity|]. cbn [sh th]. split; [intros [|t] Ht; [lia|reflexivity]|]. split; [reflexivity|].
  split; [vm_compute; reflexivity|]. split; [reflexivity|]. split; reflexivity.
Qed.
