(** Model of WorkQueue [WorkQueue.hpp 258-518] (lines in brackets).

    The three SimpleQueues are the ones of SqModel.v, step by step.  Work blocks are known by numbers; what is modelled of
    them here is isFinished() and execute() (see WbModel.v for WorkBlock itself): execute() runs the work unless the block is
    finished [85-93] and then sets [finished].  The work itself always ends and does not call the queue: calls made by work
    are calls of other threads here (see WqNest.v).  A null pointer and the NullWorkBlock of closeWorkerQueue are elements too.  The workers
    are threads 0 .. nw-1, running workerLoop from the start; std::thread::join waits until the thread has left workerLoop.
    The cast of a size to int [370] is exact.  The parts named ghost only record what happened. *)
From stdpp Require Import list.
From Verif Require Import Base Conc CondVar SqModel.

Inductive blk := BNull | BWork (b : nat).
Notation ptr := (option blk).

Inductive lvl := Hi | Med | Lo.                             (* the three queues *)
Inductive wprio := PMed | PLow | PHigh | PReq.              (* WorkPriority [270-278] *)
Definition lvl_of (p : wprio) : lvl := match p with PHigh | PReq => Hi | PMed => Med | PLow => Lo end.

Inductive wqop :=
| OAdd (x : ptr) (p : wprio) | OAddV (xs : list ptr) (p : wprio)   (* addWorkBlock *)
| OEmpty | ONum | ORatio (n : Z) | OGet | OClose | OCount.
Inductive wqret := RUnit | RBool (b : bool) | RNum (n : Z) | RBlk (x : ptr).

(** std::atomic<int> arithmetic wraps *)
Definition wrap32 (z : Z) : Z := (z + 2 ^ 31) mod 2 ^ 32 - 2 ^ 31.

(** [496-517] *)
Record wqsh := WqSh {
  qH : sqsh ptr; qM : sqsh ptr; qL : sqsh ptr;
  medc : Z; ratio : Z; halt : bool;
  qlock : option nat; waits : list nat;                     (* queueLock; threads waiting on queueCondition *)
  bfin : nat -> bool;                                       (* isFinished() of each block *)
  gone : list nat; joined : list nat;                       (* workers that have ended, that were joined *)
  (* ghost *)
  got : list (nat * ptr);                                   (* handed out by getWorkBlock, and to whom *)
  dropped : list ptr;                                       (* thrown away by clear() *)
  ign : list ptr;                                           (* not accepted by addWorkBlock *)
  ran : list nat                                            (* blocks whose work was run *)
}.

Definition wq0 (f : nat -> bool) : wqsh := WqSh sq0 sq0 sq0 0 4 false None [] f [] [] [] [] [] [].

Definition qof (i : lvl) (s : wqsh) : sqsh ptr := match i with Hi => qH s | Med => qM s | Lo => qL s end.
Definition set_q (i : lvl) (q : sqsh ptr) (s : wqsh) : wqsh :=
  match i with
  | Hi => WqSh q (qM s) (qL s) (medc s) (ratio s) (halt s) (qlock s) (waits s) (bfin s) (gone s) (joined s) (got s) (dropped s) (ign s) (ran s)
  | Med => WqSh (qH s) q (qL s) (medc s) (ratio s) (halt s) (qlock s) (waits s) (bfin s) (gone s) (joined s) (got s) (dropped s) (ign s) (ran s)
  | Lo => WqSh (qH s) (qM s) q (medc s) (ratio s) (halt s) (qlock s) (waits s) (bfin s) (gone s) (joined s) (got s) (dropped s) (ign s) (ran s)
  end.
Definition set_medc (x : Z) (s : wqsh) : wqsh := WqSh (qH s) (qM s) (qL s) x (ratio s) (halt s) (qlock s) (waits s) (bfin s) (gone s) (joined s) (got s) (dropped s) (ign s) (ran s).
Definition set_ratio (x : Z) (s : wqsh) : wqsh := WqSh (qH s) (qM s) (qL s) (medc s) x (halt s) (qlock s) (waits s) (bfin s) (gone s) (joined s) (got s) (dropped s) (ign s) (ran s).
Definition set_halt (x : bool) (s : wqsh) : wqsh := WqSh (qH s) (qM s) (qL s) (medc s) (ratio s) x (qlock s) (waits s) (bfin s) (gone s) (joined s) (got s) (dropped s) (ign s) (ran s).
Definition set_lock (x : option nat) (s : wqsh) : wqsh := WqSh (qH s) (qM s) (qL s) (medc s) (ratio s) (halt s) x (waits s) (bfin s) (gone s) (joined s) (got s) (dropped s) (ign s) (ran s).
Definition set_waits (x : list nat) (s : wqsh) : wqsh := WqSh (qH s) (qM s) (qL s) (medc s) (ratio s) (halt s) (qlock s) x (bfin s) (gone s) (joined s) (got s) (dropped s) (ign s) (ran s).
Definition set_bfin (x : nat -> bool) (s : wqsh) : wqsh := WqSh (qH s) (qM s) (qL s) (medc s) (ratio s) (halt s) (qlock s) (waits s) x (gone s) (joined s) (got s) (dropped s) (ign s) (ran s).
Definition set_gone (x : list nat) (s : wqsh) : wqsh := WqSh (qH s) (qM s) (qL s) (medc s) (ratio s) (halt s) (qlock s) (waits s) (bfin s) x (joined s) (got s) (dropped s) (ign s) (ran s).
Definition set_joined (x : list nat) (s : wqsh) : wqsh := WqSh (qH s) (qM s) (qL s) (medc s) (ratio s) (halt s) (qlock s) (waits s) (bfin s) (gone s) x (got s) (dropped s) (ign s) (ran s).
Definition log_got (t : nat) (x : ptr) (s : wqsh) : wqsh := WqSh (qH s) (qM s) (qL s) (medc s) (ratio s) (halt s) (qlock s) (waits s) (bfin s) (gone s) (joined s) (got s ++ [(t, x)]) (dropped s) (ign s) (ran s).
Definition log_drop (l : list ptr) (s : wqsh) : wqsh := WqSh (qH s) (qM s) (qL s) (medc s) (ratio s) (halt s) (qlock s) (waits s) (bfin s) (gone s) (joined s) (got s) (dropped s ++ l) (ign s) (ran s).
Definition log_ign (x : ptr) (s : wqsh) : wqsh := WqSh (qH s) (qM s) (qL s) (medc s) (ratio s) (halt s) (qlock s) (waits s) (bfin s) (gone s) (joined s) (got s) (dropped s) (ign s ++ [x]) (ran s).
Definition log_ran (b : nat) (s : wqsh) : wqsh := WqSh (qH s) (qM s) (qL s) (medc s) (ratio s) (halt s) (qlock s) (waits s) (bfin s) (gone s) (joined s) (got s) (dropped s) (ign s) (ran s ++ [b]).

(** Who called addWorkBlock: a user, or closeWorkerQueue [327] with [r] more dummies to add *)
Inductive actx := AUser | AClose (r : nat).
(** Who called isEmpty *)
Inductive ectx := EUser | EWork.
(** Who called getWorkBlock: a user, or a worker; [saw] only records which queue isEmpty() found not empty *)
Inductive gctx := GUser | GWork (saw : option lvl).
(** Who called execute: a worker [487], or addWorkBlock without workers [374, 401] with [xs] still to execute *)
Inductive xctx := XWork | XAdd (xs : list ptr).

(** Where a call of a SimpleQueue operation returns to *)
Inductive kont :=
| KSize (x : ptr) (a : actx)       (* ccount = size() [357, 361, 366] *)
| KPush (few : bool) (a : actx)    (* push [358, 362, 367]; [few]: ccount <= numWorkers *)
| KPushV                           (* pushVector [388, 391, 395] *)
| KE (e : ectx) | KN (n : Z)       (* empty() in isEmpty [413-414], size() in numBlock [423] *)
| KPop1 (g : gctx)                 (* workToDoHigh.pop() [440] *)
| KLowE (g : gctx)                 (* workToDoLow.empty() [446] *)
| KPop2 (g : gctx)                 (* workToDoLow.pop() [447] *)
| KPop3 (g : gctx)                 (* workToDoMed.pop() [454] *)
| KPop4 (g : gctx)                 (* workToDoLow.pop() [459] *)
| KClr.                            (* clear() [321-323] *)

Inductive wqpc :=
| Sub (i : lvl) (p : sqpc ptr) (k : kont)   (* inside an operation of queue [i] *)
(* addWorkBlock [344-403] *)
| A0 (x : ptr) (p : wprio)         (* null or finished? [348-351] *)
| AN (a : actx)                    (* notify_one [371] *)
| NV                               (* notify_all [398] *)
| XV (xs : list ptr)               (* execute [374], or the loop of line 400 *)
(* execute [85-93] *)
| X1 (b : nat) (e : xctx)          (* if not finished, run the task *)
| X2 (b : nat) (e : xctx)          (* finished = true *)
(* getWorkBlock [437-465] *)
| G1 (g : gctx) | G1b (g : gctx) (m : Z)    (* MedCounter >= priorityRatio [445]: the two loads *)
| G2 (x : ptr) (g : gctx)          (* MedCounter = 0 [449] *)
| G3 (x : ptr) (g : gctx)          (* ++MedCounter [456] *)
(* workerLoop [469-490] *)
| W1                               (* lock queueLock [473] *)
| W2                               (* halt.load() [474] *)
| W3                               (* wait_for: release the lock and wait [477] *)
| W4 | W4b                         (* waiting; woken, lock again *)
| W5                               (* if (halt) [479] *)
| W6                               (* ~lv, then getWorkBlock [482-484] *)
| W7 | W8                          (* ~lv, return *)
| WE                               (* the thread has ended *)
| X0 (x : ptr)                     (* wb && !wb->isFinished() [486] *)
(* closeWorkerQueue [313-336] *)
| CL0 | CL1 | CL2 | CL3            (* lock [315], halt.load() [316], halt.store(true) [317], unlock [318] *)
| CN1 | CN2                        (* notify_all [325, 329] *)
| CJ (k : nat) (h : bool)          (* the loop of line 331 at thread [k]; [h]: queueLock is held *)
| CU                               (* return: ~lv *)
| R0 (n : Z)                       (* setPriorityRatio [429-433] *)
| H0                               (* getWorkerCount [311] *)
| Ret (r : wqret)
| Crash (xs : list ptr).           (* a null pointer is dereferenced [401] *)

Section wq.
Variable nw : nat.                 (* numWorkers *)

Notation call i o k := (Sub i (sq_start o) k).

Definition loop : wqpc := call Hi QEmpty (KE EWork).
Definition gstart (g : gctx) : wqpc := call Hi QPop (KPop1 g).

Definition wq_start (o : wqop) : wqpc :=
  match o with
  | OAdd x p => A0 x p
  | OAddV xs p => if Nat.eqb nw 0 then XV xs else call (lvl_of p) (QPushVec xs) KPushV
  | OEmpty => call Hi QEmpty (KE EUser)
  | ONum => call Hi QSize (KN 0)
  | ORatio n => R0 n
  | OGet => gstart GUser
  | OClose => CL0
  | OCount => H0
  end.

(** The loop of line 326 with [r] dummies to go *)
Definition dummies (r : nat) : wqpc := match r with O => CN2 | S r' => call Hi QSize (KSize (Some BNull) (AClose r')) end.
Definition after_add (a : actx) : wqpc := match a with AUser => Ret RUnit | AClose r => dummies r end.
Definition after_exec (e : xctx) : wqpc := match e with XWork => loop | XAdd xs => XV xs end.

(** getWorkBlock returns [x] *)
Definition hand (s : wqsh) (t : nat) (x : ptr) (g : gctx) : wqsh * wqpc :=
  (log_got t x s, match g with GUser => Ret (RBlk x) | GWork _ => X0 x end).

Definition nextq (i : lvl) : option lvl := match i with Hi => Some Med | Med => Some Lo | Lo => None end.

(** The operation of queue [i] returned [r] *)
Definition resume (s : wqsh) (t : nat) (i : lvl) (r : sqret ptr) (k : kont) : option (wqsh * wqpc) :=
  match k, r with
  | KSize x a, QNum n => Some (s, call i (QPush x) (KPush (n <=? Z.of_nat nw) a))
  | KPush few a, QUnit => Some (s, if few then AN a else after_add a)
  | KPushV, QUnit => Some (s, NV)
  | KE e, QBool b =>
      Some (s, match b, nextq i, e with
               | true, Some j, _ => call j QEmpty (KE e)
               | _, _, EUser => Ret (RBool b)
               | true, None, EWork => W1
               | false, _, EWork => gstart (GWork (Some i))
               end)
  | KN n, QNum m => Some (s, match nextq i with Some j => call j QSize (KN (n + m)) | None => Ret (RNum (n + m)) end)
  | KPop1 g, QVal (Some x) => Some (hand s t x g)
  | KPop1 g, QVal None => Some (s, G1 g)
  | KLowE g, QBool b => Some (s, if b then call Med QPop (KPop3 g) else call Lo QPop (KPop2 g))
  | KPop2 g, QVal (Some x) => Some (s, G2 x g)
  | KPop2 g, QVal None => Some (s, call Med QPop (KPop3 g))
  | KPop3 g, QVal (Some x) => Some (s, G3 x g)
  | KPop3 g, QVal None => Some (s, call Lo QPop (KPop4 g))
  | KPop4 g, QVal r' => Some (hand s t (match r' with Some x => x | None => None end) g)
  | KClr, QUnit => Some (s, match nextq i with Some j => call j QClear KClr | None => CN1 end)
  | _, _ => None
  end.

(** What clear() is about to throw away *)
Definition dropping (q : sqsh ptr) (p : sqpc ptr) : list ptr := match p with L2 => pullE q | L3 => pushE q | _ => [] end.

Definition is_fin (s : wqsh) (x : blk) : bool := match x with BNull => true | BWork b => bfin s b end.

Definition lock_q (s : wqsh) (t : nat) (pc : wqpc) : option (wqsh * wqpc) :=
  match qlock s with None => Some (set_lock (Some t) s, pc) | Some _ => None end.

Definition wq_step0 (s : wqsh) (t : nat) (pc : wqpc) : option (wqsh * wqpc) :=
  match pc with
  | Sub i p k =>
      match sq_fin p with
      | Some r => resume s t i r k
      | None => match sq_step (qof i s) t p tt with
                | Some (q', p') => Some (log_drop (dropping (qof i s) p) (set_q i q' s), Sub i p' k)
                | None => None
                end
      end
  | A0 x p =>
      let go := if Nat.eqb nw 0 then XV [x] else call (lvl_of p) QSize (KSize x AUser) in
      match x, p with
      | None, _ => Some (log_ign x s, Ret RUnit)
      | Some y, PReq => Some (s, go)
      | Some y, _ => if is_fin s y then Some (log_ign x s, Ret RUnit) else Some (s, go)
      end
  | NV => Some (set_waits [] s, Ret RUnit)
  | XV [] => Some (s, Ret RUnit)
  | XV (None :: xs) => Some (s, Crash xs)
  | XV (Some BNull :: xs) => Some (log_got t (Some BNull) s, XV xs)
  | XV (Some (BWork b) :: xs) => Some (log_got t (Some (BWork b)) s, X1 b (XAdd xs))
  | X1 b e => if bfin s b then Some (s, after_exec e) else Some (log_ran b s, X2 b e)
  | X2 b e => Some (set_bfin (fupd b true (bfin s)) s, after_exec e)
  | G1 g => Some (s, G1b g (medc s))
  | G1b g m => Some (s, if ratio s <=? m then call Lo QEmpty (KLowE g) else call Med QPop (KPop3 g))
  | G2 x g => Some (hand (set_medc 0 s) t x g)
  | G3 x g => Some (hand (set_medc (wrap32 (medc s + 1)) s) t x g)
  | W1 => lock_q s t W2
  | W2 => Some (s, if halt s then W7 else W3)
  | W3 => Some (set_lock None (set_waits (t :: waits s) s), W4)
  | W4b => lock_q s t W5
  | W5 => Some (s, if halt s then W7 else W6)
  | W6 => Some (set_lock None s, gstart (GWork None))
  | W7 => Some (set_lock None s, W8)
  | W8 => Some (set_gone (t :: gone s) s, WE)
  | X0 x =>
      Some (s, match x with Some (BWork b) => if bfin s b then loop else X1 b XWork | _ => loop end)
  | CL0 => lock_q s t CL1
  | CL1 => Some (s, if halt s then CJ 0 true else CL2)
  | CL2 => Some (set_halt true s, CL3)
  | CL3 => Some (set_lock None s, call Hi QClear KClr)
  | CN1 => Some (set_waits [] s, dummies nw)
  | CN2 => Some (set_waits [] s, CJ 0 false)
  | CJ k h =>
      if Nat.ltb k nw then
        if inb k (joined s) then Some (s, CJ (S k) h)
        else if inb k (gone s) then Some (set_joined (k :: joined s) s, CJ (S k) h) else None
      else Some (s, if h then CU else Ret RUnit)
  | CU => Some (set_lock None s, Ret RUnit)
  | R0 n => Some (set_ratio (if 0 <? n then n else 4) s, Ret RUnit)
  | H0 => Some (s, Ret (RNum (if halt s then 0 else Z.of_nat nw)))
  | AN _ | W4 | WE | Ret _ | Crash _ => None
  end.

Definition wq_step (s : wqsh) (t : nat) (pc : wqpc) (k : cvc) : option (wqsh * wqpc) :=
  match pc, k with
  | W4, CStep => if inb t (waits s) then None else Some (s, W4b)
  | W4, (CSpur | CTime) => if inb t (waits s) then Some (set_waits (rm t (waits s)) s, W4b) else None
  | AN a, _ => match notify1 (waits s) k with Some ws => Some (set_waits ws s, after_add a) | None => None end
  | _, CStep => wq_step0 s t pc
  | _, _ => None
  end.

Definition wq_fin (pc : wqpc) : option wqret := match pc with Ret r => Some r | _ => None end.

Notation wqcfg := (cfg wqsh wqpc).
Definition wq_run : wqcfg -> list (nat * act cvc wqop) -> option (wqcfg * list (hev wqop wqret)) := run wq_start wq_step wq_fin.
Definition wq_exec : wqcfg -> nat * act cvc wqop -> option (wqcfg * list (hev wqop wqret)) := exec wq_start wq_step wq_fin.

(** After the constructor [284-296] *)
Definition wq_init (f : nat -> bool) : wqcfg := Cfg (wq0 f) (fun t => if Nat.ltb t nw then Some loop else None).

End wq.
