(** C122: move assignment to a SimpleQueue that threads are using *)
From stdpp Require Import list.
From Verif Require Import Base Conc SqModel SqSpec SqProofs SqAssign.

Section props.
Context {V : Type}.
Implicit Types (s src : sqsh V) (xs : list (@yact V)) (E : list (@yev V)).

(** Every execution, with assignments of any queues at any moments, is one of an atomic FIFO queue whose content is replaced
    by that of the source at the assignment; when nobody is inside a call the vectors hold what that queue holds.  With
    [strict] (no empty batches) also the answers of empty() are exact. *)
Theorem C122_atomic strict s xs c E : sq_reach strict s -> Forall (y_ok strict) xs -> y_run (init s) xs = Some (c, E) ->
  exists q f, atomicY strict (rev (pullE s) ++ pushE s) (fun _ => AIdle) E q f /\ ((forall t, th c t = None) -> q = rev (pullE (sh c)) ++ pushE (sh c)).
Proof.
  intros Hs Hok Er. destruct (y_sim strict xs (init s) (sq_content s) (fun _ => AIdle) c E) as (q & f & Ha & HR & _); [apply rest_R, reach_rest, Hs|reflexivity|exact Hok|exact Er|].
  exists q, f. split; [exact Ha|]. intros Hn. apply (R_rest _ _ _ HR Hn).
Qed.

(** No operation takes an element that is not there, no two threads are about to access the same vector, somebody can make a
    step if anybody is inside a call, and an assignment can be made if nobody is. *)
Theorem C122_safe s xs c E : sq_reach false s -> Forall (y_ok false) xs -> y_run (init s) xs = Some (c, E) ->
  (forall t, th c t <> Some Crash) /\
  (forall t u pt pu x w w', th c t = Some pt -> th c u = Some pu -> In (x, w) (sq_acc pt) -> In (x, w') (sq_acc pu) -> t = u) /\
  ((exists t, th c t <> None) -> exists t, can_step sq_start sq_step sq_fin c t) /\
  ((forall t, th c t = None) -> forall src, exists c1, y_exec c (YMove src) = Some (c1, [YMoved src])).
Proof.
  intros Hs Hok Er. destruct (y_sim false xs (init s) (sq_content s) (fun _ => AIdle) c E) as (q & f & Ha & HR & _); [apply rest_R, reach_rest, Hs|reflexivity|exact Hok|exact Er|].
  split; [|split; [|split]].
  - intros t Et. exact (hinv_nocrash _ _ _ _ _ HR Et eq_refl).
  - intros t u pt pu x w w'. eapply sq_norace; exact HR.
  - apply (sq_live false c q HR).
  - intros Hn src. destruct (R_rest _ _ _ HR Hn) as [(E1 & E2 & _) _]. cbn. rewrite E1, E2. eauto.
Qed.
(** While an assignment holds the locks nobody accesses the vectors. *)
Theorem C122_alone s xs c E src c1 e : sq_reach false s -> Forall (y_ok false) xs -> y_run (init s) xs = Some (c, E) -> y_exec c (YMove src) = Some (c1, e) ->
  forall t pc, th c t = Some pc -> sq_acc pc = [].
Proof.
  intros Hs Hok Er Ex t pc Et. destruct (y_sim false xs (init s) (sq_content s) (fun _ => AIdle) c E) as (q & f & Ha & HR & _); [apply rest_R, reach_rest, Hs|reflexivity|exact Hok|exact Er|].
  apply y_move_inv in Ex as (El & Ep & _). destruct (sq_acc pc) as [|[x w] l] eqn:Ea; [reflexivity|exfalso].
  pose proof (acc_lock pc x w) as Hl. rewrite Ea in Hl. specialize (Hl (or_introl eq_refl)). destruct x.
  - pose proof (proj2 (r_pull _ _ _ HR t) (ex_intro _ pc (conj Et Hl))). congruence.
  - pose proof (proj2 (r_push _ _ _ HR t) (ex_intro _ pc (conj Et Hl))). congruence.
Qed.
End props.

(** Thread 1 is between its two locks in push(10); a queue holding 7, 8, 9 is assigned; then everything is popped. *)
Notation yacts l := (map (@YAct Z) l).
Definition ysteps (t n : nat) : list (nat * act unit (sqop Z)) := repeat (t, AInt tt) n.
Definition source : list (nat * act unit (sqop Z)) := ([(1, ACall (QPushVec [7; 8]%Z))] ++ ysteps 1 8 ++ [(1, ARet); (2, ACall (QPush 9%Z))] ++ ysteps 2 9 ++ [(2, ARet)])%nat.
Definition assigned (src : sqsh Z) : list (@yact Z) :=
  (yacts ((1, ACall (QPush 10%Z)) :: ysteps 1 3) ++ [YMove src] ++ yacts (ysteps 1 6 ++ [(1, ARet); (3, ACall QPop)] ++ ysteps 3 6 ++ [(3, ARet); (2, ACall QSize)] ++ ysteps 2 5 ++ [(2, ARet)]))%nat.
Example C122_ex : exists c, sq_reach false (SqSh None None [9]%Z [8; 7]%Z false) /\
  y_run (init sq0) (assigned (SqSh None None [9]%Z [8; 7]%Z false)) =
    Some (c, [YEv (HInv 1%nat (QPush 10%Z)); YMoved (SqSh None None [9]%Z [8; 7]%Z false); YEv (HRet 1%nat QUnit); YEv (HInv 3%nat QPop); YEv (HRet 3%nat (QVal (Some 7%Z)));
              YEv (HInv 2%nat QSize); YEv (HRet 2%nat (QNum 3))]) /\
  rev (pullE (sh c)) ++ pushE (sh c) = [8; 9; 10]%Z /\ Forall (y_ok true) (assigned (SqSh None None [9]%Z [8; 7]%Z false)) /\ forall t, th c t = None.
Proof.
  assert (Hs : sq_reach false (SqSh None None [9]%Z [8; 7]%Z false)).
  { destruct (sq_run (init (sq0 (V := Z))) source) as [[c H]|] eqn:Er; [|vm_compute in Er; discriminate].
    assert (Hc : sh c = SqSh None None [9]%Z [8; 7]%Z false /\ forall t, th c t = None).
    { vm_compute in Er. injection Er as <- _. split; [reflexivity|]. intros [|[|[|t]]]; reflexivity. }
    destruct Hc as [<- Hn]. eapply sqr_use; [apply sqr_new|discriminate|exact Er|exact Hn]. }
  eexists. split; [exact Hs|]. split; [vm_compute; reflexivity|]. split; [reflexivity|]. split.
  - unfold assigned. repeat (apply Forall_app; split); [repeat constructor|constructor; [exact Hs|constructor]|repeat constructor].
  - intros [|[|[|[|t]]]]; reflexivity.
Qed.

Print Assumptions C122_atomic.
Print Assumptions C122_safe.
Print Assumptions C122_alone.
