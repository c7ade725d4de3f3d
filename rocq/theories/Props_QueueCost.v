(** C110: what checkPullandSwap costs the queues *)
From stdpp Require Import list.
From Verif Require Import Base Conc CondVar ConcCost.
From Verif Require SqModel SqSpec SqProofs SqCost BqModel BqSpec BqInv BqCost.
Local Open Scope nat_scope.

(** ** SimpleQueue *)
(** In every execution, by any number of threads, the vectors given to std::reverse have at most as many elements in total
    as were handed to push, emplace and pushVector (those still in pushElements excluded), beyond what was waiting in
    pushElements at the start. *)
Theorem C110_simple {V} (s : SqModel.sqsh V) xs c H : SqModel.sq_reach false s -> SqModel.sq_run (init s) xs = Some (c, H) ->
  SqCost.sq_reversed (init s) xs + length (SqModel.pushE (sh c)) <= length (SqModel.pushE s) + list_sum (map (fun o => length (SqModel.elems o)) (calls xs)).
Proof. intros Hs Er. eapply SqCost.sq_reversed_le; [apply SqProofs.reach_rest, Hs|exact Er]. Qed.

(** On a new queue: no more than what was pushed. *)
Theorem C110_simple_new {V} xs c H : SqModel.sq_run (init (SqModel.sq0 (V := V))) xs = Some (c, H) ->
  SqCost.sq_reversed (init SqModel.sq0) xs <= list_sum (map (fun o => length (SqModel.elems o)) (calls xs)).
Proof. intros Er. pose proof (C110_simple _ _ _ _ (SqModel.sqr_new false) Er) as L. cbn [SqModel.sq0 SqModel.pushE length] in L. lia. Qed.

(** A single pop is not of bounded cost: after a push and a pushVector it may reverse everything that was pushed. *)
Definition sq_two_pushes {V} (v : V) (vs : list V) : list (nat * act unit (SqModel.sqop V)) :=
  [(0, ACall (SqModel.QPush v))] ++ repeat (0, AInt tt) 8 ++ [(0, ARet); (0, ACall (SqModel.QPushVec vs))] ++ repeat (0, AInt tt) 9 ++ [(0, ARet)].
Definition sq_one_pop {V} : list (nat * act unit (SqModel.sqop V)) := [(1, ACall SqModel.QPop)] ++ repeat (1, AInt tt) 11 ++ [(1, ARet)].
Theorem C110_simple_pop {V} (v w : V) (vs : list V) :
  exists c H c' H', SqModel.sq_run (init SqModel.sq0) (sq_two_pushes v (w :: vs)) = Some (c, H) /\
    SqModel.sq_run c sq_one_pop = Some (c', H') /\ H' = [HInv 1 SqModel.QPop; HRet 1 (SqModel.QVal (Some v))] /\
    SqCost.sq_reversed c sq_one_pop = S (length vs).
Proof.
  assert (E : match SqModel.sq_run (init SqModel.sq0) (sq_two_pushes v (w :: vs)) with
    | Some (c, _) => match SqModel.sq_run c sq_one_pop with
                     | Some (_, H') => H' = [HInv 1 SqModel.QPop; HRet 1 (SqModel.QVal (Some v))] /\ SqCost.sq_reversed c sq_one_pop = S (length vs)
                     | None => False end
    | None => False end) by (vm_compute; split; [reflexivity|exact (f_equal S (Nat.add_0_r (length vs)))]).
  destruct (SqModel.sq_run (init SqModel.sq0) (sq_two_pushes v (w :: vs))) as [[c H]|]; [|contradiction].
  destruct (SqModel.sq_run c sq_one_pop) as [[c' H']|] eqn:E2; [|contradiction]. destruct E as [E3 E4]. exists c, H, c', H'. auto.
Qed.

(** ** BlockingQueue and BlockingPriorityQueue *)
(** Elements given to pushPriority and emplacePriority are never reversed. *)
Theorem C110_blocking {V} bp (s : BqModel.bqsh V) xs c H : BqInv.rest bp s -> Forall (BqModel.has_op bp) (calls xs) -> BqModel.bq_run bp (init s) xs = Some (c, H) ->
  BqCost.bq_reversed bp (init s) xs + length (BqModel.pushE (sh c)) <=
  length (BqModel.pushE s) + list_sum (map (fun o => match o with BqModel.BPush _ | BqModel.BEmplace _ => 1 | _ => 0 end) (calls xs)).
Proof. apply BqCost.bq_reversed_le. Qed.

Theorem C110_blocking_new {V} bp xs c H : Forall (BqModel.has_op bp) (calls xs) -> BqModel.bq_run bp (init (BqModel.bq0 (V := V))) xs = Some (c, H) ->
  BqCost.bq_reversed bp (init BqModel.bq0) xs <= list_sum (map (fun o => match o with BqModel.BPush _ | BqModel.BEmplace _ => 1 | _ => 0 end) (calls xs)).
Proof.
  intros Ho Er. assert (Hr : BqInv.rest bp (BqModel.bq0 (V := V))) by (repeat split).
  pose proof (C110_blocking _ _ _ _ _ Hr Ho Er) as L. cbn [BqModel.bq0 BqModel.pushE length] in L. lia.
Qed.

Definition bq_one_pop {V} (bp : bool) : list (nat * act cvc (BqModel.bqop V)) := [(1, ACall BqModel.BTryPop)] ++ repeat (1, AInt CStep) (if bp then 12 else 11) ++ [(1, ARet)].
Theorem C110_blocking_pop {V} bp (v w : V) (vs : list V) :
  exists s c' H', BqInv.rest bp s /\ BqModel.pullE s = [v] /\ BqModel.pushE s = w :: vs /\
    BqModel.bq_run bp (init s) (bq_one_pop bp) = Some (c', H') /\ H' = [HInv 1 BqModel.BTryPop; HRet 1 (BqModel.BVal (Some v))] /\
    BqCost.bq_reversed bp (init s) (bq_one_pop bp) = S (length vs).
Proof.
  set (s := BqModel.BqSh None None (w :: vs) [v] [] false []). exists s.
  assert (E : match BqModel.bq_run bp (init s) (bq_one_pop bp) with
    | Some (_, H') => H' = [HInv 1 BqModel.BTryPop; HRet 1 (BqModel.BVal (Some v))] /\ BqCost.bq_reversed bp (init s) (bq_one_pop bp) = S (length vs)
    | None => False end) by (destruct bp; (vm_compute; split; [reflexivity|exact (f_equal S (Nat.add_0_r (length vs)))])).
  destruct (BqModel.bq_run bp (init s) (bq_one_pop bp)) as [[c' H']|]; [|contradiction]. destruct E as [E3 E4]. exists c', H'. split; [repeat split|]. auto.
Qed.

(** ** Cases *)
(** Two pushes, two pops on a new queue: the second element is reversed once; nothing is left. *)
Example C110_simple_case : match SqModel.sq_run (init (SqModel.sq0 (V := Z))) (sq_two_pushes 5%Z [6%Z; 7%Z] ++ sq_one_pop) with
  | Some (c, H) => SqModel.pullE (sh c) = [7%Z; 6%Z] /\ SqModel.pushE (sh c) = [] /\
      SqCost.sq_reversed (init (SqModel.sq0 (V := Z))) (sq_two_pushes 5%Z [6%Z; 7%Z] ++ sq_one_pop) = 2 /\
      list_sum (map (fun o => length (SqModel.elems o)) (calls (sq_two_pushes 5%Z [6%Z; 7%Z] ++ sq_one_pop))) = 3
  | None => False end.
Proof. vm_compute. splits; reflexivity. Qed.

(** Two threads: the second pushes while the first has taken the last element and is about to refill. *)
Definition bq_mixed : list (nat * act cvc (BqModel.bqop Z)) :=
  [(0, ACall (BqModel.BPush 5%Z))] ++ repeat (0, AInt CStep) 10 ++ [(0, ARet)] ++
  [(1, ACall BqModel.BTryPop)] ++ repeat (1, AInt CStep) 5 ++
  [(0, ACall (BqModel.BPush 6%Z))] ++ repeat (0, AInt CStep) 6 ++ [(0, ARet)] ++
  repeat (1, AInt CStep) 7 ++ [(1, ARet)].
Definition bq_mixed_res := match BqModel.bq_run true (init BqModel.bq0) bq_mixed with
  | Some (c, H) => Some (BqModel.pullE (sh c), BqModel.pushE (sh c), BqCost.bq_reversed true (init BqModel.bq0) bq_mixed, H) | None => None end.
Example C110_blocking_case : exists H, bq_mixed_res = Some ([6%Z], [], 1, H).
Proof. eexists. vm_compute. reflexivity. Qed.

Print Assumptions C110_simple. Print Assumptions C110_simple_new. Print Assumptions C110_simple_pop.
Print Assumptions C110_blocking. Print Assumptions C110_blocking_new. Print Assumptions C110_blocking_pop.
