(** SimpleQueue when elements throw: C84, C85 *)
From stdpp Require Import list.
From Verif Require Import Base Conc Herlihy SqModel SqSpec SqProofs SqThrow SqThrow2.

Section props.
Context {V : Type}.
Implicit Types (s : sqsh V) (c : cfg (sqsh V) (ypc V)) (xs : list (nat * act ych (sqop V))) (H : list (hev (sqop V) (option (sqret V)))).

(** C84.  If swapping two elements does not throw, every history of any threads whose calls may throw is a history of an atomic
    FIFO queue in which a call that throws does nothing else (and pop and peek of an empty queue do not throw). *)
Theorem C84_throw_partial s xs c H : y_reach false false s -> y_run false (init s) xs = Some (c, H) ->
  linearizable (y_spec false) (sq_content s) H.
Proof.
  intros Hs Er. destruct (y_sim false _ _ _ _ (y_reach_rest _ _ Hs) (fun E => False_rect _ (Bool.diff_false_true E)) Er) as (q & f & Ha & _). exists q, f. exact Ha.
Qed.
Theorem C84_content_partial s xs c H : y_reach false false s -> y_run false (init s) xs = Some (c, H) -> (forall t, th c t = None) ->
  exists f, atomic (y_spec false) (sq_content s) (fun _ => AIdle) H (sq_content (sh c)) f.
Proof.
  intros Hs Er Hn. destruct (y_sim false _ _ _ _ (y_reach_rest _ _ Hs) (fun E => False_rect _ (Bool.diff_false_true E)) Er) as (q & f & Ha & Hr).
  destruct (yR_rest _ _ _ Hr Hn) as [_ ->]. exists f. exact Ha.
Qed.
(** ... and empty() stays exact under the guard of C41, unlike that of the blocking queues (C73). *)
Theorem C84_empty_partial s xs c H : y_reach false true s -> Forall no_empty_batch (calls xs) -> y_run false (init s) xs = Some (c, H) ->
  linearizable (y_spec true) (sq_content s) H.
Proof. intros Hs Hok Er. destruct (y_sim true _ _ _ _ (y_reach_rest _ _ Hs) (fun _ => Hok) Er) as (q & f & Ha & _). exists q, f. exact Ha. Qed.

(** If swapping may throw too: a pop may lose its element and change the order of elements behind it, nothing else. *)
Theorem C84_swap_throw s xs c H : y_reach true false s -> y_run true (init s) xs = Some (c, H) ->
  linearizable (y_spec_swap false) (sq_content s) H.
Proof.
  intros Hs Er. destruct (z_sim false _ _ _ _ (z_reach_rest _ _ Hs) (fun E => False_rect _ (Bool.diff_false_true E)) Er) as (q & f & Ha & _). exists q, f. exact Ha.
Qed.
Theorem C84_swap_content s xs c H : y_reach true false s -> y_run true (init s) xs = Some (c, H) -> (forall t, th c t = None) ->
  exists f, atomic (y_spec_swap false) (sq_content s) (fun _ => AIdle) H (sq_content (sh c)) f.
Proof.
  intros Hs Er Hn. destruct (z_sim false _ _ _ _ (z_reach_rest _ _ Hs) (fun E => False_rect _ (Bool.diff_false_true E)) Er) as (q & f & Ha & Hr).
  destruct (zR_rest _ _ _ Hr Hn) as [_ ->]. exists f. exact Ha.
Qed.

(** C85.  Whatever throws: some thread inside an operation can take a step, an operation takes at most 17 steps, two threads are
    never about to access the same vector at once, and pop never takes the last element of an empty vector. *)
Theorem C85_no_deadlock s xs c H : y_reach true false s -> y_run true (init s) xs = Some (c, H) -> (exists t, th c t <> None) ->
  exists t, can_step y_start (y_step true) y_fin c t.
Proof.
  intros Hs Er Ht. destruct (z_sim false _ _ _ _ (z_reach_rest _ _ Hs) (fun E => False_rect _ (Bool.diff_false_true E)) Er) as (q & f & _ & Hr). eapply z_live; eassumption.
Qed.
Theorem C85_bounded s xs c H t : y_run true (init s) xs = Some (c, H) -> (n_int t xs <= 17 * n_call t xs)%nat.
Proof.
  intros Er. pose proof (steps_run (y_start (V := V)) (y_step true) y_fin ytodo 17) as Hx. specialize (Hx (fun o => ltac:(destruct o; cbn; lia)) (fun s t pc k s' pc' => ztodo_step s t pc k s' pc') _ _ _ _ t Er).
  unfold todo_at in Hx at 2. cbn in Hx. lia.
Qed.
Theorem C85_lock_discipline s xs c H : y_reach true false s -> y_run true (init s) xs = Some (c, H) ->
  (forall t u pt pu x w w', th c t = Some pt -> th c u = Some pu -> In (x, w) (sq_acc (ypt pt)) -> In (x, w') (sq_acc (ypt pu)) -> t = u) /\
  (forall t y, th c t = Some y -> ypt y <> Crash).
Proof.
  intros Hs Er. destruct (z_sim false _ _ _ _ (z_reach_rest _ _ Hs) (fun E => False_rect _ (Bool.diff_false_true E)) Er) as (q & f & _ & Hr). split.
  - intros t u pt pu x w w'. eapply z_norace; exact Hr.
  - intros t y. eapply z_nocrash; exact Hr.
Qed.
(** When nobody is inside an operation no lock is held, whatever threw before: the queue can be used and destroyed. *)
Theorem C85_locks_released s xs c H : y_reach true false s -> y_run true (init s) xs = Some (c, H) -> (forall t, th c t = None) ->
  pushL (sh c) = None /\ pullL (sh c) = None.
Proof.
  intros Hs Er Hn. destruct (z_sim false _ _ _ _ (z_reach_rest _ _ Hs) (fun E => False_rect _ (Bool.diff_false_true E)) Er) as (q & f & _ & Hr).
  destruct (zR_rest _ _ _ Hr Hn) as [(E1 & E2 & _) _]. auto.
Qed.
End props.

(** Three elements are pushed; pop is left by an exception of the swap in std::reverse: the first element is lost and the other
    two have changed places. *)
Definition one (o : sqop Z) (n : nat) : list (nat * act ych (sqop Z)) := ((0%nat, ACall o) :: repeat (0%nat, AInt YStep) n ++ [(0%nat, ARet)]).
Definition three : list (nat * act ych (sqop Z)) := one (QPush 1) 8 ++ one (QPush 2) 9 ++ one (QPush 3) 4.
Theorem C84_refuted : exists (s s' : sqsh Z) xs H c,
  y_reach false true s /\ sq_content s = [1; 2; 3]%Z /\ y_run true (init s) xs = Some (c, H) /\ H = [HInv 0%nat QPop; HRet 0%nat None] /\
  (forall t, th c t = None) /\ s' = sh c /\ sq_content s' = [3; 2]%Z.
Proof.
  exists (SqSh None None [2; 3]%Z [1]%Z false), (SqSh None None [] [2; 3]%Z false),
    ((0%nat, ACall QPop) :: repeat (0%nat, AInt YStep) 9 ++ [(0%nat, AInt (YRev 0)); (0%nat, AInt YStep); (0%nat, ARet)]).
  eexists _, _. split; [|split; [reflexivity|split; [vm_compute; reflexivity|split; [reflexivity|split; [|split; reflexivity]]]]].
  - eassert (Er : y_run false (init (sq0 (V := Z))) three = Some (_, _)) by (vm_compute; reflexivity).
    refine (yr_use false true _ _ _ _ (yr_new _ _) _ Er _); [intros _; repeat constructor|]. intros [|t]; reflexivity.
  - intros [|t]; reflexivity.
Qed.

(** Two producers and a consumer; the push of 10 and the first pop throw. *)
Example C84_case : result y_start (y_step false) y_fin (init (sq0 (V := Z)))
    ([(1, ACall (QPush 10%Z)); (2, ACall (QPushVec [20; 21]%Z))] ++ repeat (1, AInt YStep) 5 ++ [(1, AInt YThrow); (1, AInt YStep); (1, ARet)] ++
     repeat (2, AInt YStep) 8 ++ [(2, ARet); (3, ACall QPop)] ++ repeat (3, AInt YStep) 3 ++ [(3, AInt YThrow); (3, AInt YStep); (3, ARet)] ++
     [(3, ACall QPop)] ++ repeat (3, AInt YStep) 6 ++ [(3, ARet)])%nat
    = Some (SqSh None None [] [21%Z] false, [HInv 1 (QPush 10%Z); HInv 2 (QPushVec [20; 21]%Z); HRet 1 None; HRet 2 (Some QUnit); HInv 3 QPop; HRet 3 None; HInv 3 QPop; HRet 3 (Some (QVal (Some 20%Z)))])%nat.
Proof. vm_compute. reflexivity. Qed.

Print Assumptions C84_throw_partial.
Print Assumptions C84_content_partial.
Print Assumptions C84_empty_partial.
Print Assumptions C84_swap_throw.
Print Assumptions C84_swap_content.
Print Assumptions C84_refuted.
Print Assumptions C85_no_deadlock.
Print Assumptions C85_bounded.
Print Assumptions C85_lock_discipline.
Print Assumptions C85_locks_released.
