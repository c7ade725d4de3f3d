(** Model of WorkBlock [WorkQueue.hpp 59-139] and WorkBlock<void> [145-213]; lines in brackets are those of the former, the
    latter has the same functions except that getReturnVal() waits and returns nothing.

    The parts of the standard library used are modelled after the C++ standard: std::packaged_task with the states it shares
    with futures, std::future_error, std::shared_future.  Works are known by numbers; a work that throws and one that returns
    are the same here, since both make the future ready.  Works do not use the block they are run by.  One thread. *)
From stdpp Require Import list.
From Verif Require Import Base Conc.
Local Open Scope nat_scope.

(** ** std::packaged_task *)
Inductive fstat := FWait | FDone (f : nat) | FBroken.       (* not ready; result of work [f]; broken_promise *)
Record fstate := FS { fwork : nat; fstat_ : fstat; taken : bool }.   (* stored task, result, get_future() called *)
Notation store := (list fstate).                            (* all shared states ever made *)
Inductive ferr := NoState | Retrieved | Satisfied.          (* std::future_errc *)

Definition at_ (S : store) (i : nat) : fstate := nth i S (FS 0 FBroken true).
Definition set_at (S : store) (i : nat) (x : fstate) : store := <[i := x]> S.

(** The packaged_task gives up its shared state. *)
Definition abandon (S : store) (t : option nat) : store :=
  match t with
  | Some i => match fstat_ (at_ S i) with FWait => set_at S i (FS (fwork (at_ S i)) FBroken (taken (at_ S i))) | _ => S end
  | None => S
  end.
(** packaged_task(f) *)
Definition pt_new (S : store) (f : nat) : store * option nat := (S ++ [FS f FWait false], Some (length S)).
(** operator(): the new store and the work that was run *)
Definition pt_call (S : store) (t : option nat) : store * option nat * option ferr :=
  match t with
  | None => (S, None, Some NoState)
  | Some i => match fstat_ (at_ S i) with
              | FWait => (set_at S i (FS (fwork (at_ S i)) (FDone (fwork (at_ S i))) (taken (at_ S i))), Some (fwork (at_ S i)), None)
              | _ => (S, None, Some Satisfied)
              end
  end.
(** reset(): *this = packaged_task(std::move(f)) *)
Definition pt_reset (S : store) (t : option nat) : store * option nat * option ferr :=
  match t with
  | None => (S, None, Some NoState)
  | Some i => let '(S', t') := pt_new S (fwork (at_ S i)) in (abandon S' t, t', None)
  end.
(** get_future() *)
Definition pt_future (S : store) (t : option nat) : store * option nat * option ferr :=
  match t with
  | None => (S, None, Some NoState)
  | Some i => if taken (at_ S i) then (S, None, Some Retrieved) else (set_at S i (FS (fwork (at_ S i)) (fstat_ (at_ S i)) true), Some i, None)
  end.

(** ** WorkBlock [135-138] *)
Record wb := WB { tk : option nat; fut : option nat; finished : bool; loaded : bool }.

(** reset() [123-130]: an exception leaves the fields as they are at that moment. *)
Definition wb_reset (S : store) (w : wb) : store * wb * option ferr :=
  let '(S1, t1, e1) := if loaded w then pt_reset S (tk w) else (S, tk w, None) in
  match e1 with
  | Some e => (S, w, Some e)
  | None =>
      let '(S2, f2, e2) := pt_future S1 t1 in
      match e2 with
      | Some e => (S2, WB t1 (fut w) false (loaded w), Some e)
      | None => (S2, WB t1 f2 false (loaded w), None)
      end
  end.
(** execute() [85-93] *)
Definition wb_execute (S : store) (w : wb) : store * wb * option nat * option ferr :=
  if finished w then (S, w, None, None)
  else if loaded w then
    let '(S1, r, e) := pt_call S (tk w) in
    match e with
    | Some _ => (S1, w, r, e)
    | None => (S1, WB (tk w) (fut w) true (loaded w), r, None)
    end
  else (S, WB (tk w) (fut w) true (loaded w), None, None).
(** updateWorkFunction [98-108] and updateTask [111-117]: [task = ...; reset(); loaded = true] *)
Definition wb_update (S : store) (w : wb) (t : option nat) : store * wb * option ferr :=
  let '(S1, w1, e) := wb_reset (abandon S (tk w)) (WB t (fut w) (finished w) false) in
  match e with
  | Some _ => (S1, w1, e)
  | None => (S1, WB (tk w1) (fut w1) (finished w1) true, None)
  end.

(** ** Programs *)
(** User variables: packaged tasks (all default constructed in the beginning) and work blocks.  [mem] is what an
    uninitialised bool holds [137]. *)
Record world := World { st : store; ut : nat -> option nat; bl : nat -> option wb; ran : list nat (* ghost: works run *) }.
Definition world0 : world := World [] (fun _ => None) (fun _ => None) [].

Inductive wbop :=
| TNew (p f : nat) | TFut (p : nat) | TRun (p : nat) | TDel (p : nat)         (* p = packaged_task(f), p.get_future(), p(), p = packaged_task() *)
| BNew (b : nat)                                                             (* WorkBlock() [62] *)
| BTask (b p : nat)                                                          (* WorkBlock(std::move(p)) [67-71] *)
| BFunc (b f : nat)                                                          (* WorkBlock(f) [73-81] *)
| BMoveC (b b' : nat) | BMoveA (b b' : nat)                                  (* move construction [65] and assignment [83] *)
| BExec (b : nat) | BReset (b : nat) | BUpdF (b f : nat) | BUpdT (b p : nat)
| BFin (b : nat)                                                             (* isFinished() [119] *)
| BFut (b : nat)                                                             (* get_future() [132] *)
| BGet (b : nat)                                                             (* getReturnVal() [95], wait() [121] *)
| FGet (i : nat)                                                             (* status of a shared_future obtained earlier *)
| BDel (b : nat).                                                            (* destructor *)
Inductive wbout :=
| Nothing | Ran (f : nat) | Bool (x : bool) | Fut (i : option nat) | Throws (e : ferr)
| Value (f : nat) | Broken | Blocks                                          (* get() of a future *)
| Undef.                                                                     (* get() or wait() of a future without state *)

Definition look (S : store) (i : option nat) : wbout :=
  match i with None => Undef | Some j => match fstat_ (at_ S j) with FWait => Blocks | FDone f => Value f | FBroken => Broken end end.

(** A constructor: [w] with the task and [loaded] set, then reset(); if it throws there is no object and its task is destroyed. *)
Definition construct (W : world) (S : store) (U : nat -> option nat) (b : nat) (t : option nat) (ld : bool) (mem : bool) : world * wbout :=
  let '(S1, w1, e) := wb_reset S (WB t None mem ld) in
  match e with
  | None => (World S1 U (fupd b (Some w1) (bl W)) (ran W), Nothing)
  | Some e => (World (abandon S1 (tk w1)) U (bl W) (ran W), Throws e)
  end.

Definition put (W : world) (S : store) (b : nat) (w : wb) : world := World S (ut W) (fupd b (Some w) (bl W)) (ran W).
Definition log (W : world) (r : option nat) : world := World (st W) (ut W) (bl W) (ran W ++ match r with Some f => [f] | None => [] end).

(** [None]: the program uses a block that does not exist, or creates one that does. *)
Definition wb_step (mem : bool) (W : world) (o : wbop) : option (world * wbout) :=
  let S := st W in
  match o with
  | TNew p f => let '(S1, t1) := pt_new S f in Some (World (abandon S1 (ut W p)) (fupd p t1 (ut W)) (bl W) (ran W), Nothing)
  | TDel p => Some (World (abandon S (ut W p)) (fupd p None (ut W)) (bl W) (ran W), Nothing)
  | TFut p => let '(S1, i, e) := pt_future S (ut W p) in Some (World S1 (ut W) (bl W) (ran W), match e with Some x => Throws x | None => Fut i end)
  | TRun p => let '(S1, r, e) := pt_call S (ut W p) in Some (log (World S1 (ut W) (bl W) (ran W)) r, match e, r with Some x, _ => Throws x | None, Some f => Ran f | None, None => Nothing end)
  | BNew b => match bl W b with Some _ => None | None => Some (construct W S (ut W) b None false mem) end
  | BTask b p => match bl W b with Some _ => None | None => Some (construct W S (fupd p None (ut W)) b (ut W p) true mem) end
  | BFunc b f => match bl W b with Some _ => None | None => let '(S1, t1) := pt_new S f in Some (construct W S1 (ut W) b t1 true mem) end
  | BMoveC b b' =>
      match bl W b, bl W b' with
      | None, Some w' => Some (World S (ut W) (fupd b (Some w') (fupd b' (Some (WB None None (finished w') (loaded w'))) (bl W))) (ran W), Nothing)
      | _, _ => None
      end
  | BMoveA b b' =>
      if Nat.eqb b b' then None
      else match bl W b, bl W b' with
      | Some w, Some w' => Some (World (abandon S (tk w)) (ut W) (fupd b (Some w') (fupd b' (Some (WB None None (finished w') (loaded w'))) (bl W))) (ran W), Nothing)
      | _, _ => None
      end
  | BExec b =>
      match bl W b with
      | None => None
      | Some w => let '(S1, w1, r, e) := wb_execute S w in
                  Some (log (put W S1 b w1) r, match e, r with Some x, _ => Throws x | None, Some f => Ran f | None, None => Nothing end)
      end
  | BReset b =>
      match bl W b with
      | None => None
      | Some w => let '(S1, w1, e) := wb_reset S w in Some (put W S1 b w1, match e with Some x => Throws x | None => Nothing end)
      end
  | BUpdF b f =>
      match bl W b with
      | None => None
      | Some w => let '(S0, t) := pt_new S f in
                  let '(S1, w1, e) := wb_update S0 w t in Some (put W S1 b w1, match e with Some x => Throws x | None => Nothing end)
      end
  | BUpdT b p =>
      match bl W b with
      | None => None
      | Some w => let '(S1, w1, e) := wb_update S w (ut W p) in
                  Some (World S1 (fupd p None (ut W)) (fupd b (Some w1) (bl W)) (ran W), match e with Some x => Throws x | None => Nothing end)
      end
  | BFin b => match bl W b with None => None | Some w => Some (W, Bool (finished w)) end
  | BFut b => match bl W b with None => None | Some w => Some (W, Fut (fut w)) end
  | BGet b => match bl W b with None => None | Some w => Some (W, look S (fut w)) end
  | FGet i => Some (W, look S (Some i))
  | BDel b => match bl W b with None => None | Some w => Some (World (abandon S (tk w)) (ut W) (fupd b None (bl W)) (ran W), Nothing) end
  end.

Fixpoint wb_run (mem : bool) (W : world) (os : list wbop) : option (world * list wbout) :=
  match os with
  | [] => Some (W, [])
  | o :: os' =>
      match wb_step mem W o with
      | None => None
      | Some (W1, r) => match wb_run mem W1 os' with None => None | Some (W2, rs) => Some (W2, r :: rs) end
      end
  end.
