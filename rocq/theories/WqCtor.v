(** Constructor of WorkQueue (WorkQueue.hpp:284-296), with requests that fail.

    Starting a std::thread throws std::system_error when the system gives no thread, and threadpool.resize throws
    std::bad_alloc when there is no memory.  An exception that leaves the constructor destroys the members built so far;
    destroying a joinable std::thread calls std::terminate.  What the started workers do meanwhile is left out: they wait
    (nothing was submitted), and no worker ends before halt is set. *)
From stdpp Require Import list.
From Verif Require Import Base.

(** A std::thread object: of no thread, or of the worker started as number [k] *)
Inductive thr := NoThread | Worker (k : nat).
Definition joinable (x : thr) : bool := match x with NoThread => false | Worker _ => true end.

(** How the construction ends: with a queue (numWorkers, threadpool), with an exception, with std::terminate *)
Inductive ctor_end := Built (n : Z) (pool : list thr) | Threw | Terminated.

Section ctor.
(** std::thread::hardware_concurrency(); is there memory for [n] std::thread objects; can the [k]-th thread be started *)
Variables (hc : Z) (mem : Z -> bool) (can : nat -> bool).

(** WQ:285-288 *)
Definition num_workers (threadCount : Z) : Z := if 0 <=? threadCount then threadCount else hc + 1.

(** The destructor of threadpool while an exception leaves the constructor *)
Definition unwind (pool : list thr) : ctor_end := if existsb joinable pool then Terminated else Threw.

(** WQ:292-294; [k]: the loop variable, [fuel]: rounds left *)
Fixpoint start_loop (fuel k : nat) (n : Z) (pool : list thr) : ctor_end :=
  match fuel with
  | 0%nat => Built n pool
  | S fuel' => if can k then start_loop fuel' (S k) n (<[k := Worker k]> pool) else unwind pool
  end.

(** WQ:290-295 *)
Definition wq_ctor (threadCount : Z) : ctor_end :=
  let n := num_workers threadCount in
  if n =? 0 then Built n []
  else if mem n then start_loop (Z.to_nat n) 0 n (replicate (Z.to_nat n) NoThread) else Threw.
End ctor.

(** Workers 0 .. k-1 are running. *)
Definition pool_at (k m : nat) : list thr := map Worker (seq 0 k) ++ replicate m NoThread.

Lemma pool_step k m : <[k := Worker k]> (pool_at k (S m)) = pool_at (S k) m.
Proof.
  unfold pool_at. rewrite seq_S, map_app, <- app_assoc. rewrite insert_app_r_alt by (rewrite map_length, seq_length; lia). rewrite map_length, seq_length, Nat.sub_diag. reflexivity.
Qed.
Lemma pool_unwind k m : unwind (pool_at k m) = if Nat.eqb k 0 then Threw else Terminated.
Proof.
  unfold unwind, pool_at. rewrite existsb_app. assert (E : existsb joinable (replicate m NoThread) = false) by (induction m; auto). rewrite E, Bool.orb_false_r.
  destruct k; reflexivity.
Qed.
Lemma loop_all can fuel : forall k n, (forall j, (k <= j < k + fuel)%nat -> can j = true) -> start_loop can fuel k n (pool_at k fuel) = Built n (pool_at (k + fuel) 0).
Proof.
  induction fuel as [|fuel IH]; intros k n Hc; cbn [start_loop]; [rewrite Nat.add_0_r; reflexivity|].
  rewrite Hc by lia. rewrite pool_step, IH by (intros; apply Hc; lia). f_equal. f_equal. lia.
Qed.
Lemma loop_fail can fuel : forall k n j, (k <= j < k + fuel)%nat -> can j = false -> (forall i, (k <= i < j)%nat -> can i = true) ->
  start_loop can fuel k n (pool_at k fuel) = if Nat.eqb j 0 then Threw else Terminated.
Proof.
  induction fuel as [|fuel IH]; intros k n j Hj Hf Hc; cbn [start_loop]; [lia|]. destruct (Nat.eq_dec k j) as [->|Hne].
  - rewrite Hf. apply pool_unwind.
  - rewrite Hc by lia. rewrite pool_step. apply IH; [lia|exact Hf|intros; apply Hc; lia].
Qed.
