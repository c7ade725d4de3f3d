(** C123: constructing a WorkQueue *)
From stdpp Require Import list.
From Verif Require Import Base WqCtor.

(** When every request is granted, the queue has as many running workers as asked for (for a negative number: one more than
    the hardware has), each in its own thread object; when there is no memory, or not even the first thread, the caller gets
    an exception.  Missing: a later thread that cannot be started, see [C123_terminates]. *)
Theorem C123_partial hc mem can tc : 0 <= hc ->
  let n := if 0 <=? tc then tc else hc + 1 in
  ((n = 0 \/ mem n = true) -> (forall k, (k < Z.to_nat n)%nat -> can k = true) -> wq_ctor hc mem can tc = Built n (map Worker (seq 0 (Z.to_nat n)))) /\
  (n <> 0 -> (mem n = false \/ can 0%nat = false) -> wq_ctor hc mem can tc = Threw).
Proof.
  intros Hh n. assert (Hn : 0 <= n) by (unfold n; destruct (Z.leb_spec 0 tc); lia). unfold wq_ctor, num_workers. fold n. split.
  - intros Hm Hc. destruct (Z.eqb_spec n 0) as [->|Hz]; [reflexivity|]. destruct Hm as [?|Hm]; [congruence|]. rewrite Hm.
    change (replicate (Z.to_nat n) NoThread) with (pool_at 0 (Z.to_nat n)). rewrite loop_all by (intros; apply Hc; lia). unfold pool_at. cbn. rewrite app_nil_r. reflexivity.
  - intros Hz Hf. destruct (Z.eqb_spec n 0); [congruence|]. destruct (mem n) eqn:Hm; [|reflexivity]. destruct Hf as [?|Hf]; [congruence|].
    change (replicate (Z.to_nat n) NoThread) with (pool_at 0 (Z.to_nat n)). apply (loop_fail can (Z.to_nat n) 0 n 0); [lia|exact Hf|lia].
Qed.

(** A thread other than the first that cannot be started: the exception destroys running std::threads, the program ends. *)
Theorem C123_terminates hc mem can tc j : let n := if 0 <=? tc then tc else hc + 1 in
  mem n = true -> (0 < j < Z.to_nat n)%nat -> (forall i, (i < j)%nat -> can i = true) -> can j = false -> wq_ctor hc mem can tc = Terminated.
Proof.
  intros n Hm Hj Hc Hf. unfold wq_ctor, num_workers. fold n. destruct (Z.eqb_spec n 0) as [E|_]; [rewrite E in Hj; cbn in Hj; lia|]. rewrite Hm.
  change (replicate (Z.to_nat n) NoThread) with (pool_at 0 (Z.to_nat n)). rewrite (loop_fail can (Z.to_nat n) 0 n j); [|lia|exact Hf|intros; apply Hc; lia].
  destruct j; [lia|reflexivity].
Qed.
(** These are all cases: the construction never ends in another way. *)
Theorem C123_ends hc mem can tc : 0 <= hc -> wq_ctor hc mem can tc = Terminated ->
  let n := if 0 <=? tc then tc else hc + 1 in mem n = true /\ exists j, (0 < j < Z.to_nat n)%nat /\ can j = false /\ forall i, (i < j)%nat -> can i = true.
Proof.
  intros Hh E n. destruct (C123_partial hc mem can tc Hh) as [H1 H2]. fold n in H1, H2.
  assert (Hd : forall m, (forall k, (k < m)%nat -> can k = true) \/ exists j, (j < m)%nat /\ can j = false /\ forall i, (i < j)%nat -> can i = true).
  { induction m as [|m [IH|(j & Hj & Hx)]]; [left; intros; lia| |right; exists j; split; [lia|exact Hx]].
    destruct (can m) eqn:Em; [left|right; exists m; auto with lia]. intros k Hk. destruct (Nat.eq_dec k m) as [->|]; [exact Em|apply IH; lia]. }
  destruct (Z.eq_dec n 0) as [Hz|Hz]; [rewrite H1 in E; [discriminate|auto|rewrite Hz; cbn; lia]|].
  destruct (mem n) eqn:Hm; [|rewrite H2 in E by auto; discriminate]. split; [reflexivity|].
  destruct (Hd (Z.to_nat n)) as [Ha|(j & Hj & Hf & Hc)]; [rewrite H1 in E by auto; discriminate|]. exists j. split; [|auto].
  destruct j; [rewrite H2 in E by auto; discriminate|lia].
Qed.
Theorem C123_refuted : exists hc mem can tc, 0 <= hc /\ wq_ctor hc mem can tc = Terminated.
Proof. exists 4, (fun _ => true), (fun k => negb (Nat.eqb k 3)), (-1). split; [lia|]. vm_compute. reflexivity. Qed.

Example C123_ex : wq_ctor 4 (fun _ => true) (fun k => Nat.ltb k 7) (-3) = Built 5 [Worker 0; Worker 1; Worker 2; Worker 3; Worker 4] /\
  wq_ctor 4 (fun _ => true) (fun _ => false) 0 = Built 0 [] /\ wq_ctor 4 (fun n => n <? 3) (fun _ => true) 3 = Threw /\
  wq_ctor 4 (fun _ => true) (fun k => Nat.ltb k 1) 2 = Terminated /\ wq_ctor 4 (fun _ => true) (fun _ => false) 2 = Threw.
Proof. vm_compute. auto. Qed.

Print Assumptions C123_partial.
Print Assumptions C123_terminates.
Print Assumptions C123_ends.
Print Assumptions C123_refuted.
