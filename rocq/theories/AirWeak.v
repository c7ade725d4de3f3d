(** AirLock.hpp in the release/acquire memory model of C++.

    The accesses of [loaded] are acquire loads and release stores [45-97], so a load need not return the newest value: it
    may return any value that is not older than what the thread already knows.  Here the values written to [loaded] are
    kept in modification order; every thread has a view, the number of the newest write it knows of, and so has the mutex:
    unlocking passes the view of the thread to the mutex, locking passes the view of the mutex to the thread.  A load
    returns the write with any number from the view of the thread on, and the thread then knows that write.  All stores
    are made under the lock, so a store is newer than all earlier ones.  [data] is only accessed under the lock.  A thread
    may also learn what other threads know by means outside the class (a message, starting or joining a thread); this may
    happen before a call, and is put here as a first step of the call.  Accesses made under the lock follow the same rule
    as the others. *)
From stdpp Require Import list.
From Verif Require Import Base Conc CondVar AirModel.
Local Open Scope nat_scope.

(** What is left open: an ordinary step, which write a load returns, and that the thread learns what thread [u] knew when it
    knew write [n]. *)
Inductive wch := WStep (k : cvc) | WRead (i : nat) | WLearn (u n : nat).

Section weak.
Context {V : Type}.

(** [wair]: the lock, the data and the waiting threads; its [loaded] is the newest value (loads do not use it);
    [whist]: the values written to [loaded]; [wview t]: view of thread t; [wdoor]: view of the mutex;
    [wfresh t]: thread t, in its present call, has learnt everything up to the newest write (no step depends on it unless
    [strict], see below) *)
Record wsh := WSh { wair : airsh V; whist : list bool; wview : nat -> nat; wdoor : nat; wfresh : nat -> bool }.
Definition weak0 : wsh := WSh air0 [false] (fun _ => 0) 0 (fun _ => false).

(** Points of a load of [loaded]: at the start of a call, without the lock [45, 81, 97]; under the lock [47, 63, 67, 84] *)
Definition open_load (pc : airpc V) : bool := match pc with AT0 _ | AU0 | AI0 => true | _ => false end.
Definition locked_load (pc : airpc V) : bool := match pc with AT2 _ | AL1 _ | AL2 _ | AU2 => true | _ => false end.

(** Points of a store of [loaded] [49, 65, 71, 86] *)
Definition stores (pc : airpc V) : option bool := match pc with AT4 _ | AL6 _ _ => Some true | AU4 _ => Some false | _ => None end.
(** Points where the mutex is locked [46, 62, 68, 82] and unlocked [52, 68, 72, 90] *)
Definition locks (pc : airpc V) : bool := match pc with AT1 _ | AL0 _ | AL4 _ | AU1 => true | _ => false end.
Definition unlocks (pc : airpc V) : bool := match pc with AT5 _ _ | AL3 _ | AL7 | AU6 _ => true | _ => false end.

(** The program point after a load that returned [b] *)
Definition loads (s : airsh V) (t : nat) (pc : airpc V) (b : bool) : option (airpc V) :=
  match air_step0 (set_loaded s b) t pc with Some (_, pc') => Some pc' | None => None end.

Definition view_after (w : wsh) (t : nat) (pc : airpc V) (k : cvc) : nat -> nat :=
  match stores pc with
  | Some _ => fupd t (length (whist w)) (wview w)
  | None => match k with CStep => if locks pc then fupd t (Nat.max (wview w t) (wdoor w)) (wview w) else wview w | _ => wview w end
  end.

(** With [strict], a thread loads without the lock only after it has learnt, in the same call, everything up to the newest
    write: all that happened before the call in time also happened before it in the sense of the memory model. *)
Definition weak_step (strict : bool) (w : wsh) (t : nat) (pc : airpc V) (k : wch) : option (wsh * airpc V) :=
  match k with
  | WLearn u n =>
      if open_load pc && (n <=? wview w u) then
        let m := Nat.max (wview w t) n in
        Some (WSh (wair w) (whist w) (fupd t m (wview w)) (wdoor w) (fupd t (wfresh w t || Nat.eqb (S m) (length (whist w))) (wfresh w)), pc)
      else None
  | WRead i =>
      if (open_load pc && (negb strict || wfresh w t) || locked_load pc) && (wview w t <=? i) then
        match whist w !! i with
        | Some b => match loads (wair w) t pc b with
                    | Some pc' => Some (WSh (wair w) (whist w) (fupd t i (wview w)) (wdoor w) (fupd t false (wfresh w)), pc')
                    | None => None end
        | None => None end
      else None
  | WStep k =>
      if open_load pc || locked_load pc then None else
      match air_step (wair w) t pc k with
      | Some (s', pc') => Some (WSh s' (match stores pc with Some b => whist w ++ [b] | None => whist w end) (view_after w t pc k)
                                     (if unlocks pc then Nat.max (wdoor w) (wview w t) else wdoor w) (wfresh w), pc')
      | None => None end
  end.

Definition weak_run (strict : bool) : cfg wsh (airpc V) -> list (nat * act wch (airop V)) -> option (cfg wsh (airpc V) * list (hev (airop V) (airret V))) :=
  run air_start (weak_step strict) air_fin.
Definition weak_exec (strict : bool) : cfg wsh (airpc V) -> nat * act wch (airop V) -> option (cfg wsh (airpc V) * list (hev (airop V) (airret V))) :=
  exec air_start (weak_step strict) air_fin.

(** Blocked in condition.wait, not yet woken *)
Definition weak_waits (c : cfg wsh (airpc V)) (t : nat) : Prop := exists v, th c t = Some (AL4 v) /\ In t (await (wair (sh c))).
End weak.
Arguments wsh : clear implicits.
