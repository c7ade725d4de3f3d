(** SimpleQueue: C38 to C41 *)
From stdpp Require Import list.
From Verif Require Import Base Conc Herlihy SqModel SqSpec SqProofs.

Section props.
Context {V : Type}.
Implicit Types (s : sqsh V) (c : cfg (sqsh V) (sqpc V)) (xs : list (nat * act unit (sqop V))) (H : list (hev (sqop V) (sqret V))).

(** C38.  Every history of any threads calling push, emplace, pushVector, pop, peek, size, clear, reserve and empty, from
    any state the queue can be in, is a history of an atomic FIFO queue; when all calls have returned, the queue holds what
    the atomic queue holds. *)
Theorem C38_linearizable s xs c H : sq_reach false s -> sq_run (init s) xs = Some (c, H) ->
  linearizable (sq_spec false) (sq_content s) H.
Proof.
  intros Hs Er. destruct (sq_sim false _ _ _ _ (reach_rest _ _ Hs) (fun E => False_rect _ (Bool.diff_false_true E)) Er) as (q & f & Ha & _).
  exists q, f. exact Ha.
Qed.

(** In the words of Herlihy and Wing *)
Theorem C38_herlihy_wing s xs c H : sq_reach false s -> sq_run (init s) xs = Some (c, H) ->
  exists L q, linearization (sq_spec false) H (sq_content s) L q.
Proof. intros Hs Er. eapply linearizable_hw, C38_linearizable; eassumption. Qed.

Theorem C38_content s xs c H : sq_reach false s -> sq_run (init s) xs = Some (c, H) -> (forall t, th c t = None) ->
  exists f, atomic (sq_spec false) (sq_content s) (fun _ => AIdle) H (sq_content (sh c)) f /\ sq_reach false (sh c).
Proof.
  intros Hs Er Hn. destruct (sq_sim false _ _ _ _ (reach_rest _ _ Hs) (fun E => False_rect _ (Bool.diff_false_true E)) Er) as (q & f & Ha & Hr).
  destruct (R_rest _ _ _ Hr Hn) as [_ ->]. exists f. split; [exact Ha|]. eapply sqr_use; [exact Hs|discriminate|exact Er|exact Hn].
Qed.

(** C39.  Whenever a thread is inside an operation some thread inside an operation can take a step, and an operation takes
    at most 17 steps of its own. *)
Theorem C39_no_deadlock s xs c H : sq_reach false s -> sq_run (init s) xs = Some (c, H) -> (exists t, th c t <> None) ->
  exists t, can_step sq_start sq_step sq_fin c t.
Proof.
  intros Hs Er Ht. destruct (sq_sim false _ _ _ _ (reach_rest _ _ Hs) (fun E => False_rect _ (Bool.diff_false_true E)) Er) as (q & f & _ & Hr).
  eapply sq_live; eassumption.
Qed.

Theorem C39_bounded s xs c H t : sq_run (init s) xs = Some (c, H) -> (n_int t xs <= 17 * n_call t xs)%nat.
Proof.
  intros Er. pose proof (steps_run (sq_start (V := V)) sq_step sq_fin todo 17) as Hx. specialize (Hx (fun o => ltac:(destruct o; cbn; lia)) (fun s t pc k s' pc' => todo_step s t pc k s' pc') _ _ _ _ t Er).
  unfold todo_at in Hx at 2. cbn in Hx. lia.
Qed.

(** C40.  Two threads are never about to access the same vector at once (not even both reading), and pop never reaches the
    point where it would take the last element of an empty vector. *)
Theorem C40_lock_discipline s xs c H : sq_reach false s -> sq_run (init s) xs = Some (c, H) ->
  (forall t u pt pu x w w', th c t = Some pt -> th c u = Some pu -> In (x, w) (sq_acc pt) -> In (x, w') (sq_acc pu) -> t = u) /\
  (forall t, th c t <> Some Crash).
Proof.
  intros Hs Er. destruct (sq_sim false _ _ _ _ (reach_rest _ _ Hs) (fun E => False_rect _ (Bool.diff_false_true E)) Er) as (q & f & _ & Hr). split.
  - intros t u pt pu x w w'. eapply sq_norace; exact Hr.
  - intros t Et. eapply hinv_nocrash; [exact Hr|exact Et|reflexivity].
Qed.

(** C41.  [lone s o r]: called when nothing else is going on, [o] can return [r]. *)
Definition lone s (o : sqop V) (r : sqret V) : Prop :=
  exists n c, sq_run (init s) ((0, ACall o) :: repeat (0, AInt tt) n ++ [(0, ARet)])%nat = Some (c, [HInv 0%nat o; HRet 0%nat r]).

Lemma lone_spec strict s o r : sq_reach strict s -> no_empty_batch o -> lone s o r -> exists q', sq_spec strict (sq_content s) o r q'.
Proof.
  intros Hs Ho (n & c & Er). assert (Hc : forall n, calls (repeat (0%nat, AInt tt) n ++ [(0%nat, ARet)]) = @nil (sqop V)).
  { intros m. induction m as [|m IH]; cbn; [reflexivity|exact IH]. }
  edestruct (sq_sim strict s) as (q & f & Ha & _); [apply (reach_rest _ _ Hs)| |exact Er|].
  { intros _. apply (Forall_cons_2 no_empty_batch o (calls (repeat (0%nat, AInt tt) n ++ [(0%nat, ARet)]))); [exact Ho|]. rewrite Hc. constructor. }
  eapply atomic_lone; exact Ha.
Qed.

(** The calls return. *)
Lemma lone_empty s : lone s QEmpty (QBool (eflag s)).
Proof. exists 1%nat. eexists. reflexivity. Qed.
Lemma lone_size s : sq_reach false s -> lone s QSize (QNum (zlen (pullE s) + zlen (pushE s))).
Proof. intros Hs. destruct (reach_rest _ _ Hs) as (E1 & E2 & _). exists 5%nat. destruct s as [a b l1 l2 f]. cbn in *. subst a b. eexists. reflexivity. Qed.

(** Proved when no empty vector was given to pushVector and the queue was not moved from; then empty() is even
    linearizable.  What is missing of C41 is false, see below. *)
Theorem C41_empty_partial s b n : sq_reach true s -> lone s QEmpty (QBool b) -> lone s QSize (QNum n) ->
  (b = true <-> sq_content s = []) /\ (b = true <-> n = 0%Z).
Proof.
  intros Hs H1 H2. apply (lone_spec true) in H1 as (q1 & H1); [|exact Hs|exact I]. apply (lone_spec true) in H2 as (q2 & H2); [|exact Hs|exact I].
  assert (Hb : (b = true -> sq_content s = []) /\ (sq_content s = [] -> b = true)) by (inversion H1; auto).
  assert (Hn : n = zlen (sq_content s)) by (inversion H2; auto). subst n. split; [exact Hb|].
  destruct (sq_content s) as [|v l]; unfold zlen; cbn; split; [auto|tauto| |lia]. intros E. apply Hb in E. discriminate.
Qed.

Theorem C41_empty_linearizable_partial s xs c H : sq_reach true s -> Forall no_empty_batch (calls xs) -> sq_run (init s) xs = Some (c, H) ->
  linearizable (sq_spec true) (sq_content s) H.
Proof. intros Hs Hok Er. destruct (sq_sim true _ _ _ _ (reach_rest _ _ Hs) (fun _ => Hok) Er) as (q & f & Ha & _). exists q, f. exact Ha. Qed.

(** Without any guard, empty() never claims that a non-empty queue is empty. *)
Theorem C41_true_means_empty s : sq_reach false s -> lone s QEmpty (QBool true) -> sq_content s = [].
Proof. intros Hs H1. apply (lone_spec false) in H1 as (q1 & H1); [|exact Hs|exact I]. inversion H1; subst; auto. Qed.
End props.

(** pushVector of an empty vector, called on a new queue: empty() is false although size() is 0. *)
Theorem C41_empty_batch_refuted : exists s : sqsh Z, sq_reach false s /\ lone s QEmpty (QBool false) /\ lone s QSize (QNum 0).
Proof.
  exists (SqSh None None [] [] false). split; [|split].
  - eassert (Er : sq_run (init (sq0 (V := Z))) ((0, ACall (QPushVec [])) :: repeat (0, AInt tt) 8 ++ [(0, ARet)])%nat = Some (_, _)) by (vm_compute; reflexivity).
    refine (sqr_use false _ _ _ _ (sqr_new _) _ Er _); [discriminate|].
    intros [|t]; reflexivity.
  - exists 1%nat. eexists. vm_compute. reflexivity.
  - exists 5%nat. eexists. vm_compute. reflexivity.
Qed.

(** The same for a queue whose elements were moved away. *)
Theorem C41_moved_from_refuted : exists s : sqsh Z, sq_reach true s /\ sq_content s = [7%Z] /\
  lone (snd (sq_move s)) QEmpty (QBool false) /\ lone (snd (sq_move s)) QSize (QNum 0).
Proof.
  exists (SqSh None None [] [7%Z] false). split; [|split; [reflexivity|split]].
  - eassert (Er : sq_run (init (sq0 (V := Z))) ((0, ACall (QPush 7%Z)) :: repeat (0, AInt tt) 8 ++ [(0, ARet)])%nat = Some (_, _)) by (vm_compute; reflexivity).
    refine (sqr_use true _ _ _ _ (sqr_new _) _ Er _); [repeat constructor|].
    intros [|t]; reflexivity.
  - exists 1%nat. eexists. vm_compute. reflexivity.
  - exists 5%nat. eexists. vm_compute. reflexivity.
Qed.

(** Two producers and a consumer whose steps interleave; the last pop swaps the vectors. *)
Example C38_case : result sq_start sq_step sq_fin (init (sq0 (V := Z)))
    ([(1, ACall (QPush 10%Z)); (2, ACall (QPushVec [20; 21]%Z)); (1, AInt tt); (1, AInt tt); (1, AInt tt); (2, AInt tt); (2, AInt tt); (2, AInt tt); (2, AInt tt);
      (3, ACall QPop); (2, AInt tt); (2, AInt tt); (2, AInt tt); (2, AInt tt); (1, AInt tt); (2, ARet); (1, AInt tt); (1, AInt tt); (1, AInt tt);
      (3, AInt tt); (3, AInt tt); (3, AInt tt); (3, AInt tt); (1, AInt tt); (1, AInt tt); (1, ARet); (3, AInt tt); (3, AInt tt); (3, ARet);
      (4, ACall QSize); (4, AInt tt); (4, AInt tt); (4, AInt tt); (4, AInt tt); (4, AInt tt); (4, ARet);
      (3, ACall QPop)] ++ repeat (3, AInt tt) 11 ++ [(3, ARet)])%nat
    = Some (SqSh None None [] [10%Z] false, [HInv 1 (QPush 10%Z); HInv 2 (QPushVec [20; 21]%Z); HInv 3 QPop; HRet 2 QUnit; HRet 1 QUnit; HRet 3 (QVal (Some 20%Z));
                HInv 4 QSize; HRet 4 (QNum 2); HInv 3 QPop; HRet 3 (QVal (Some 21%Z))])%nat.
Proof. vm_compute. reflexivity. Qed.

(** Producer 1 is blocked by producer 2, which holds the pull lock and is about to write to the pull vector. *)
Example C39_C40_case : match sq_run (init (sq0 (V := Z)))
    [(1, ACall (QPush 10%Z)); (2, ACall (QPush 20%Z)); (1, AInt tt); (1, AInt tt); (1, AInt tt); (2, AInt tt); (2, AInt tt); (2, AInt tt); (2, AInt tt); (2, AInt tt)]%nat with
  | Some (c, _) => th c 1%nat = Some (P3 (QPush 10%Z)) /\ th c 2%nat = Some (P5 (QPush 20%Z)) /\ sq_exec c (1%nat, AInt tt) = None /\ sq_acc (P5 (QPush 20%Z)) = [(true, true)]
  | None => False
  end.
Proof. vm_compute. auto. Qed.

Print Assumptions C38_linearizable.
Print Assumptions C38_herlihy_wing.
Print Assumptions C38_content.
Print Assumptions C39_no_deadlock.
Print Assumptions C39_bounded.
Print Assumptions C40_lock_discipline.
Print Assumptions C41_empty_partial.
Print Assumptions C41_empty_linearizable_partial.
Print Assumptions C41_true_means_empty.
Print Assumptions C41_empty_batch_refuted.
Print Assumptions C41_moved_from_refuted.
