(** Model of BlockingQueue.hpp ([bp = false], lines [q ..]) and BlockingPriorityQueue.hpp ([bp = true], lines [p ..]).

    The two classes have the same code up to the priority channel; the points only BlockingPriorityQueue has are reached
    only if [bp].  Elements are copied or moved without exceptions and memory never
    runs out (but see BqThrow.v).  The vectors are lists in index
    order, so [pullE] is consumed from its end. *)
From stdpp Require Import list.
From Verif Require Import Base Conc CondVar.

Section bq.
Context {V : Type}.

Inductive bqop :=
| BPush (v : V) | BEmplace (v : V)
| BPushPri (v : V) | BEmplacePri (v : V)     (* BlockingPriorityQueue only *)
| BTryPop | BPop | BPopFor | BPopCall         (* pop(), pop(timeout), popOrCall *)
| BPeek | BEmpty | BClear | BReserve (n : Z)
| BSize.                                      (* BlockingQueue only *)
Inductive bqret := BUnit | BVal (r : option V) | BNum (n : Z) | BBool (b : bool).

(** The operations of the two classes *)
Definition has_op (bp : bool) (o : bqop) : Prop :=
  match o with BPushPri _ | BEmplacePri _ => bp = true | BSize => bp = false | _ => True end.

Definition bval (o : bqop) : option V :=
  match o with BPush v | BEmplace v | BPushPri v | BEmplacePri v => Some v | _ => None end.
Definition bvals (o : bqop) : list V := match bval o with Some v => [v] | None => [] end.

(** [q 37-45], [p 36-45]: owners of the locks, the vectors, priorityQueue (front first), queueEmptyFlag, the threads waiting
    on the condition *)
Record bqsh := BqSh { pushL : option nat; pullL : option nat; pushE : list V; pullE : list V; prioE : list V; eflag : bool; bwait : list nat }.
Definition bq0 : bqsh := BqSh None None [] [] [] true [].

(** Which pop operation; [MFor true]: pop(timeout) whose wait has timed out *)
Inductive mode := MTry | MPop | MFor (late : bool) | MCall.
Definition mop (m : mode) : bqop := match m with MTry => BTryPop | MPop => BPop | MFor _ => BPopFor | MCall => BPopCall end.

Inductive bqpc :=
(* push, emplace [q 115-187], [p 114-148, 175-210] *)
| P0 (o : bqop)            (* lock m_pushLock [q 118, 155], [p 117, 178] *)
| P1 (o : bqop)            (* pushElements.empty()? [q 120, 157], [p 119, 180] *)
| P2 (o : bqop)            (* compare_exchange [q 122, 159], [p 121, 182] *)
| P3 (o : bqop)            (* pushLock.unlock() [q 125, 162], [p 124, 185] *)
| P4 (o : bqop)            (* lock m_pullLock [q 126, 163], [p 125, 186] *)
| P5 (o : bqop)            (* queueEmptyFlag = false [q 128, 165], [p 127, 188] *)
| P6 (o : bqop)            (* pullElements.empty()? [q 129, 166], [p 128, 190] *)
| P7 (o : bqop)            (* pullElements.push_back [q 130, 167], [p 129, 191] *)
| P8 (o : bqop)            (* pushLock.lock() [q 132, 169], [p 132, 193] *)
| PA (o : bqop)            (* pushElements.push_back [q 133, 170], [p 133, 194] *)
| P9 (b : bool)            (* notify_all [q 136, 174], [p 135, 197]; [b]: owns the push lock *)
| PB (b : bool)            (* return: ~pullLock *)
| PC                       (* ... ~pushLock *)
| PD (o : bqop)            (* pushElements.push_back [q 139, 177], [p 138, 200] *)
| PE                       (* compare_exchange [q 141, 179], [p 140, 202] *)
| PF                       (* notify_all [q 143, 181], [p 142, 204] *)
| PH (o : bqop)            (* pushElements.push_back [q 148, 186], [p 147, 209] *)
| PG                       (* return: ~pushLock *)
(* pushPriority, emplacePriority [p 153-172, 215-234] *)
| R0 (o : bqop)            (* compare_exchange [p 157, 219] *)
| R1 (o : bqop)            (* lock m_pullLock [p 158, 220] *)
| R2 (o : bqop)            (* queueEmptyFlag = false [p 159, 221] *)
| R3 (o : bqop)            (* priorityQueue.push [p 161, 223] *)
| R4                       (* notify_all [p 163, 169, 225, 231] *)
| R5 (o : bqop)            (* lock m_pullLock [p 165, 227] *)
| R6 (o : bqop)            (* priorityQueue.push [p 166, 228] *)
| R7                       (* compare_exchange [p 168, 230] *)
| R8                       (* ~pullLock *)
(* try_pop [q 339-353], [p 417-435] *)
| O0 (m : mode)            (* lock m_pullLock [q 342], [p 420] *)
| OP (m : mode)            (* !priorityQueue.empty()? [p 421] *)
| OQ (m : mode)            (* take priorityQueue.front() [p 422-423] *)
(* checkPullAndSwap [q 320-336], [p 398-414]; [None]: the first call, [Some v]: the second one, with [v] taken *)
| C0 (m : mode) (k : option V)   (* pullElements.empty()? [q 322], [p 400] *)
| C1 (m : mode) (k : option V)   (* lock m_pushLock [q 323], [p 401] *)
| C2 (m : mode) (k : option V)   (* !pushElements.empty()? [q 325], [p 403] *)
| C3 (m : mode) (k : option V)   (* swap [q 327], [p 405] *)
| C4 (m : mode) (k : option V)   (* pushLock.unlock() [q 330], [p 408] *)
| C5 (m : mode) (k : option V)   (* reverse [q 331], [p 409] *)
| C6 (m : mode) (k : option V)   (* queueEmptyFlag = true [q 333], [p 411] *)
| C7 (m : mode) (k : option V)   (* ~pushLock *)
| O1 (m : mode) (e : bool)   (* pullElements.empty()? [q 344], [p 427]; [e] only records that line q 333 (p 411) was passed *)
| O2 (m : mode)            (* take pullElements.back() [q 347-350], [p 431-432] *)
| O3 (m : mode) (r : option V)   (* return: ~pullLock *)
(* the loop of pop [q 213-237], [p 261-297], pop(timeout) [q 240-268], [p 300-341], popOrCall [q 277-303], [p 350-386] *)
| CB                       (* callOnWaitFunction() [q 283], [p 356] *)
| W0 (m : mode)            (* lock m_pullLock [q 217, 245, 284], [p 266, 305, 357] *)
| WP (m : mode) (b : bool) (* !priorityQueue.empty()? [p 268, 307, 358]; with [b], after the wait [p 280, 320, 372] *)
| WQ (m : mode)            (* take priorityQueue.front() *)
| W1 (m : mode) (b : bool) (* !pullElements.empty()? [q 219, 247, 285], [p 273, 312, 363]; with [b] [q 226, 254, 294], [p 285, 325, 377] *)
| W2 (m : mode)            (* take pullElements.back() *)
| W3 (v : V)               (* return: ~pullLock *)
| W4 (m : mode)            (* wait [q 225, 253, 292], [p 279, 318, 370]: release the lock and wait *)
| W5 (m : mode)            (* waiting; then lock again *)
| W7 (m : mode)            (* pullLock.unlock() [q 232, 260, 299], [p 291, 331, 382], then try_pop *)
(* try_peek [q 194-204], [p 240-252] *)
| K0 | K1 | K2 (r : option V)
(* size [q 355-361] *)
| S0 | S1 | S2 | S3 (n : Z) | S4 (n : Z)
(* clear [q 91-98], [p 51-61]: lock pull, push, clear pullElements, pushElements, priorityQueue, set the flag, unlock *)
| L0 | L1 | L2 | L3 | LP | L4 | L5 | L6
(* reserve [q 104-110], [p 103-109] *)
| V0 (n : Z) | V1 (n : Z) | V2 (n : Z) | V3 (n : Z) | V4 (n : Z)
(* empty [q 363-367], [p 437-441] *)
| E0
| Ret (r : bqret)
| Crash.                   (* back() of an empty vector, front() of an empty queue *)

Variable bp : bool.

Definition bq_start (o : bqop) : bqpc :=
  match o with
  | BPush _ | BEmplace _ => P0 o
  | BPushPri _ | BEmplacePri _ => R0 o
  | BTryPop => O0 MTry | BPop => O0 MPop | BPopFor => O0 (MFor false) | BPopCall => O0 MCall
  | BPeek => K0 | BSize => S0 | BEmpty => E0 | BClear => L0 | BReserve n => V0 n
  end.

Definition lock_push (s : bqsh) (t : nat) (pc : bqpc) : option (bqsh * bqpc) :=
  match pushL s with None => Some (BqSh (Some t) (pullL s) (pushE s) (pullE s) (prioE s) (eflag s) (bwait s), pc) | Some _ => None end.
Definition lock_pull (s : bqsh) (t : nat) (pc : bqpc) : option (bqsh * bqpc) :=
  match pullL s with None => Some (BqSh (pushL s) (Some t) (pushE s) (pullE s) (prioE s) (eflag s) (bwait s), pc) | Some _ => None end.
Definition unlock_push (s : bqsh) : bqsh := BqSh None (pullL s) (pushE s) (pullE s) (prioE s) (eflag s) (bwait s).
Definition unlock_pull (s : bqsh) : bqsh := BqSh (pushL s) None (pushE s) (pullE s) (prioE s) (eflag s) (bwait s).
Definition set_push (s : bqsh) (l : list V) : bqsh := BqSh (pushL s) (pullL s) l (pullE s) (prioE s) (eflag s) (bwait s).
Definition set_pull (s : bqsh) (l : list V) : bqsh := BqSh (pushL s) (pullL s) (pushE s) l (prioE s) (eflag s) (bwait s).
Definition set_prio (s : bqsh) (l : list V) : bqsh := BqSh (pushL s) (pullL s) (pushE s) (pullE s) l (eflag s) (bwait s).
Definition set_flag (s : bqsh) (b : bool) : bqsh := BqSh (pushL s) (pullL s) (pushE s) (pullE s) (prioE s) b (bwait s).
Definition set_wait (s : bqsh) (ws : list nat) : bqsh := BqSh (pushL s) (pullL s) (pushE s) (pullE s) (prioE s) (eflag s) ws.

Definition nonempty (l : list V) : bool := match l with [] => false | _ => true end.

(** Where checkPullAndSwap returns to *)
Definition cont (m : mode) (k : option V) (e : bool) : bqpc := match k with None => O1 m e | Some v => O3 m (Some v) end.
(** Where try_pop returns to *)
Definition after (m : mode) (r : option V) : bqpc :=
  match r, m with
  | Some _, _ | None, MTry | None, MFor true => Ret (BVal r)
  | None, MPop | None, MFor false => W0 m
  | None, MCall => CB
  end.
(** The first test under the pull lock in the loop, before and after the wait *)
Definition test (m : mode) (b : bool) : bqpc := if bp then WP m b else W1 m b.

Definition bq_step0 (s : bqsh) (t : nat) (pc : bqpc) : option (bqsh * bqpc) :=
  match pc with
  | P0 o => lock_push s t (P1 o)
  | P1 o => Some (s, if nonempty (pushE s) then PH o else P2 o)
  | P2 o => if eflag s then Some (set_flag s false, P3 o) else Some (s, PD o)
  | P3 o => Some (unlock_push s, P4 o)
  | P4 o => lock_pull s t (P5 o)
  | P5 o => Some (set_flag s false, P6 o)
  | P6 o => Some (s, if nonempty (pullE s) then P8 o else P7 o)
  | P7 o => Some (set_pull s (pullE s ++ bvals o), P9 false)
  | P8 o => lock_push s t (PA o)
  | PA o => Some (set_push s (pushE s ++ bvals o), P9 true)
  | P9 b => Some (set_wait s [], PB b)
  | PB b => Some (unlock_pull s, if b then PC else Ret BUnit)
  | PC => Some (unlock_push s, Ret BUnit)
  | PD o => Some (set_push s (pushE s ++ bvals o), PE)
  | PE => if eflag s then Some (set_flag s false, PF) else Some (s, PG)
  | PF => Some (set_wait s [], PG)
  | PH o => Some (set_push s (pushE s ++ bvals o), PG)
  | PG => Some (unlock_push s, Ret BUnit)
  | R0 o => if eflag s then Some (set_flag s false, R1 o) else Some (s, R5 o)
  | R1 o => lock_pull s t (R2 o)
  | R2 o => Some (set_flag s false, R3 o)
  | R3 o => Some (set_prio s (prioE s ++ bvals o), R4)
  | R4 => Some (set_wait s [], R8)
  | R5 o => lock_pull s t (R6 o)
  | R6 o => Some (set_prio s (prioE s ++ bvals o), R7)
  | R7 => if eflag s then Some (set_flag s false, R4) else Some (s, R8)
  | R8 => Some (unlock_pull s, Ret BUnit)
  | O0 m => lock_pull s t (if bp then OP m else C0 m None)
  | OP m => Some (s, if nonempty (prioE s) then OQ m else C0 m None)
  | OQ m => match prioE s with v :: l => Some (set_prio s l, O3 m (Some v)) | [] => Some (s, Crash) end
  | C0 m k => Some (s, if nonempty (pullE s) then cont m k false else C1 m k)
  | C1 m k => lock_push s t (C2 m k)
  | C2 m k => Some (s, if nonempty (pushE s) then C3 m k else C6 m k)
  | C3 m k => Some (set_push (set_pull s (pushE s)) (pullE s), C4 m k)
  | C4 m k => Some (unlock_push s, C5 m k)
  | C5 m k => Some (set_pull s (rev (pullE s)), cont m k false)
  | C6 m k => Some (set_flag s true, C7 m k)
  | C7 m k => Some (unlock_push s, cont m k true)
  | O1 m e => Some (s, if nonempty (pullE s) then O2 m else O3 m None)
  | O2 m => match rev (pullE s) with v :: l => Some (set_pull s (rev l), C0 m (Some v)) | [] => Some (s, Crash) end
  | O3 m r => Some (unlock_pull s, after m r)
  | CB => Some (s, W0 MCall)
  | W0 m => lock_pull s t (test m false)
  | WP m b => Some (s, if nonempty (prioE s) then WQ m else W1 m b)
  | WQ m => match prioE s with v :: l => Some (set_prio s l, W3 v) | [] => Some (s, Crash) end
  | W1 m b => Some (s, if nonempty (pullE s) then W2 m else if b then W7 m else W4 m)
  | W2 m => match rev (pullE s) with v :: l => Some (set_pull s (rev l), W3 v) | [] => Some (s, Crash) end
  | W3 v => Some (unlock_pull s, Ret (BVal (Some v)))
  | W4 m => Some (set_wait (unlock_pull s) (t :: bwait s), W5 m)
  | W5 m => if inb t (bwait s) then None else lock_pull s t (test m true)
  | W7 m => Some (unlock_pull s, O0 m)
  | K0 => lock_pull s t K1
  | K1 => Some (s, K2 (match prioE s with v :: _ => Some v | [] => last (pullE s) end))
  | K2 r => Some (unlock_pull s, Ret (BVal r))
  | S0 => lock_pull s t S1
  | S1 => lock_push s t S2
  | S2 => Some (s, S3 (zlen (pullE s) + zlen (pushE s)))
  | S3 n => Some (unlock_push s, S4 n)
  | S4 n => Some (unlock_pull s, Ret (BNum n))
  | L0 => lock_pull s t L1
  | L1 => lock_push s t L2
  | L2 => Some (set_pull s [], L3)
  | L3 => Some (set_push s [], if bp then LP else L4)
  | LP => Some (set_prio s [], L4)
  | L4 => Some (set_flag s true, L5)
  | L5 => Some (unlock_push s, L6)
  | L6 => Some (unlock_pull s, Ret BUnit)
  | V0 n => lock_pull s t (V1 n)
  | V1 n => lock_push s t (V2 n)
  | V2 n => Some (s, V3 n)
  | V3 n => Some (unlock_push s, V4 n)
  | V4 n => Some (unlock_pull s, Ret BUnit)
  | E0 => Some (s, Ret (BBool (eflag s)))
  | Ret _ | Crash => None
  end.

(** A waiting thread may wake up spuriously; the wait of pop(timeout) may time out (also when already woken). *)
Definition bq_step (s : bqsh) (t : nat) (pc : bqpc) (k : cvc) : option (bqsh * bqpc) :=
  match k, pc with
  | CStep, _ => bq_step0 s t pc
  | CSpur, W5 m => if inb t (bwait s) then Some (set_wait s (rm t (bwait s)), W5 m) else None
  | CTime, W5 (MFor false) => Some (set_wait s (rm t (bwait s)), W5 (MFor true))
  | _, _ => None
  end.

Definition bq_fin (pc : bqpc) : option bqret := match pc with Ret r => Some r | _ => None end.

Definition bq_run : cfg bqsh bqpc -> list (nat * act cvc bqop) -> option (cfg bqsh bqpc * list (hev bqop bqret)) := run bq_start bq_step bq_fin.
Definition bq_exec : cfg bqsh bqpc -> nat * act cvc bqop -> option (cfg bqsh bqpc * list (hev bqop bqret)) := exec bq_start bq_step bq_fin.

(** Blocked in condition.wait, not yet woken *)
Definition bq_waits (c : cfg bqsh bqpc) (t : nat) : Prop := exists m, th c t = Some (W5 m) /\ In t (bwait (sh c)).

(** Move constructor [q 69-74], [p 75-81] and move assignment [q 77-85], [p 84-93] of a queue no thread is using: the
    destination and the source afterwards.  Self-move is not modelled. *)
Definition bq_move (src : bqsh) : bqsh * bqsh :=
  (BqSh None None (pushE src) (pullE src) (prioE src) (negb (nonempty (pullE src)) && negb (nonempty (prioE src))) [],
   BqSh (pushL src) (pullL src) [] [] [] (eflag src) (bwait src)).

(** Non-atomic accesses of the step a thread is about to make, and whether it writes *)
Inductive res := RPush | RPull | RPrio.
Definition bq_acc (pc : bqpc) : list (res * bool) :=
  match pc with
  | P1 _ | C2 _ _ => [(RPush, false)]
  | P6 _ | C0 _ _ | O1 _ _ | W1 _ _ => [(RPull, false)]
  | P7 _ | C5 _ _ | O2 _ | W2 _ | L2 => [(RPull, true)]
  | PA _ | PD _ | PH _ | L3 => [(RPush, true)]
  | C3 _ _ | V2 _ => [(RPull, true); (RPush, true)]
  | R3 _ | R6 _ | OQ _ | WQ _ | LP => [(RPrio, true)]
  | OP _ | WP _ _ => [(RPrio, false)]
  | K1 => [(RPrio, false); (RPull, false)]
  | S2 => [(RPull, false); (RPush, false)]
  | _ => []
  end.
End bq.
Arguments bqop : clear implicits. Arguments bqret : clear implicits. Arguments bqsh : clear implicits. Arguments bqpc : clear implicits.
