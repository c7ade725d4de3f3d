(** Model of SimpleQueue.hpp (lines in brackets).

    Elements are copied or moved without exceptions; memory never runs out.  The vectors are lists in index order, so
    [pull] is consumed from its end. *)
From stdpp Require Import list.
From Verif Require Import Base Conc.

Section sq.
Context {V : Type}.

Inductive sqop := QPush (v : V) | QEmplace (v : V) | QPushVec (vs : list V) | QPop | QPeek | QSize | QClear | QReserve (n : Z) | QEmpty.
Inductive sqret := QUnit | QVal (r : option V) | QNum (n : Z) | QBool (b : bool).

(** [30-38]: the two mutexes (their owner), the two vectors, queueEmptyFlag *)
Record sqsh := SqSh { pushL : option nat; pullL : option nat; pushE : list V; pullE : list V; eflag : bool }.
Definition sq0 : sqsh := SqSh None None [] [] true.

(** What a push operation adds, in order *)
Definition elems (o : sqop) : list V :=
  match o with QPush v | QEmplace v => [v] | QPushVec vs => vs | _ => [] end.

Inductive sqpc :=
(* push, pushVector, emplace [120-189] *)
| P0 (o : sqop)    (* lock m_pushLock [123, 146, 172] *)
| P1 (o : sqop)    (* pushElements.empty()? [125, 148, 174] *)
| P2 (o : sqop)    (* pushLock.unlock() [126, 150, 176] *)
| P3 (o : sqop)    (* lock m_pullLock [127, 151, 177] *)
| P4 (o : sqop)    (* pullElements.empty()? [128, 152, 178] *)
| P5 (o : sqop)    (* put the elements into pullElements [129, 153, 179] *)
| P6 (o : sqop)    (* queueEmptyFlag = false [130, 155, 180] *)
| P7 (o : sqop)    (* return: ~pullLock *)
| P8 (o : sqop)    (* pushLock.lock() [135, 160, 185] *)
| P9 (o : sqop)    (* end of the block: ~pullLock [137, 162, 187] *)
| P10 (o : sqop)   (* append to pushElements [138, 163, 188] *)
| P11 (o : sqop)   (* return: ~pushLock *)
(* pop [199-213] *)
| O0               (* lock m_pullLock [201] *)
(* checkPullandSwap [236-252]; [None]: the call in line 202, [Some v]: the call in line 211 with [v] taken *)
| C0 (k : option V)  (* pullElements.empty()? [238] *)
| C1 (k : option V)  (* lock m_pushLock [239] *)
| C2 (k : option V)  (* !pushElements.empty()? [241] *)
| C3 (k : option V)  (* swap [243] *)
| C4 (k : option V)  (* pushLock.unlock() [246] *)
| C5 (k : option V)  (* reverse pullElements [247] *)
| C6 (k : option V)  (* queueEmptyFlag = true [249] *)
| C7 (k : option V)  (* ~pushLock *)
| O1               (* if (queueEmptyFlag) [203] *)
| O2               (* take pullElements.back() and pop_back [206-210] *)
| O3 (r : option V)  (* return: ~pullLock *)
(* peek [220-230] *)
| K0               (* lock m_pullLock [222] *)
| K1               (* read pullElements [224-228] *)
| K2 (r : option V)
(* size [89-94] *)
| S0 | S1          (* lock m_pullLock, m_pushLock [91-92] *)
| S2               (* read both sizes [93] *)
| S3 (n : Z) | S4 (n : Z)  (* ~pushLock, ~pullLock *)
(* clear [96-103] *)
| L0 | L1          (* lock m_pullLock, m_pushLock [98-99] *)
| L2 | L3          (* clear pullElements, pushElements [100-101] *)
| L4               (* queueEmptyFlag = true [102] *)
| L5 | L6          (* ~pushLock, ~pullLock *)
(* reserve [109-115] *)
| V0 (n : Z) | V1 (n : Z) | V2 (n : Z) | V3 (n : Z) | V4 (n : Z)
(* empty [87] *)
| E0
| Ret (r : sqret)  (* the call returns *)
| Crash.           (* back() of an empty vector *)

Definition sq_start (o : sqop) : sqpc :=
  match o with
  | QPush _ | QEmplace _ | QPushVec _ => P0 o
  | QPop => O0 | QPeek => K0 | QSize => S0 | QClear => L0 | QReserve n => V0 n | QEmpty => E0
  end.

Definition lock_push (s : sqsh) (t : nat) (pc : sqpc) : option (sqsh * sqpc) :=
  match pushL s with None => Some (SqSh (Some t) (pullL s) (pushE s) (pullE s) (eflag s), pc) | Some _ => None end.
Definition lock_pull (s : sqsh) (t : nat) (pc : sqpc) : option (sqsh * sqpc) :=
  match pullL s with None => Some (SqSh (pushL s) (Some t) (pushE s) (pullE s) (eflag s), pc) | Some _ => None end.
Definition unlock_push (s : sqsh) : sqsh := SqSh None (pullL s) (pushE s) (pullE s) (eflag s).
Definition unlock_pull (s : sqsh) : sqsh := SqSh (pushL s) None (pushE s) (pullE s) (eflag s).
Definition set_push (s : sqsh) (l : list V) : sqsh := SqSh (pushL s) (pullL s) l (pullE s) (eflag s).
Definition set_pull (s : sqsh) (l : list V) : sqsh := SqSh (pushL s) (pullL s) (pushE s) l (eflag s).
Definition set_flag (s : sqsh) (b : bool) : sqsh := SqSh (pushL s) (pullL s) (pushE s) (pullE s) b.

Definition nonempty (l : list V) : bool := match l with [] => false | _ => true end.

(** Where checkPullandSwap returns to *)
Definition cont (k : option V) : sqpc := match k with None => O1 | Some v => O3 (Some v) end.

Definition sq_step (s : sqsh) (t : nat) (pc : sqpc) (_ : unit) : option (sqsh * sqpc) :=
  match pc with
  | P0 o => lock_push s t (P1 o)
  | P1 o => Some (s, if nonempty (pushE s) then P10 o else P2 o)
  | P2 o => Some (unlock_push s, P3 o)
  | P3 o => lock_pull s t (P4 o)
  | P4 o => Some (s, if nonempty (pullE s) then P8 o else P5 o)
  | P5 o => Some (set_pull s (pullE s ++ rev (elems o)), P6 o)
  | P6 o => Some (set_flag s false, P7 o)
  | P7 o => Some (unlock_pull s, Ret QUnit)
  | P8 o => lock_push s t (P9 o)
  | P9 o => Some (unlock_pull s, P10 o)
  | P10 o => Some (set_push s (pushE s ++ elems o), P11 o)
  | P11 o => Some (unlock_push s, Ret QUnit)
  | O0 => lock_pull s t (C0 None)
  | C0 k => Some (s, if nonempty (pullE s) then cont k else C1 k)
  | C1 k => lock_push s t (C2 k)
  | C2 k => Some (s, if nonempty (pushE s) then C3 k else C6 k)
  | C3 k => Some (SqSh (pushL s) (pullL s) (pullE s) (pushE s) (eflag s), C4 k)
  | C4 k => Some (unlock_push s, C5 k)
  | C5 k => Some (set_pull s (rev (pullE s)), cont k)
  | C6 k => Some (set_flag s true, C7 k)
  | C7 k => Some (unlock_push s, cont k)
  | O1 => Some (s, if eflag s then O3 None else O2)
  | O2 => match rev (pullE s) with
          | [] => Some (s, Crash)
          | v :: l => Some (set_pull s (rev l), C0 (Some v))
          end
  | O3 r => Some (unlock_pull s, Ret (QVal r))
  | K0 => lock_pull s t K1
  | K1 => Some (s, K2 (last (pullE s)))
  | K2 r => Some (unlock_pull s, Ret (QVal r))
  | S0 => lock_pull s t S1
  | S1 => lock_push s t S2
  | S2 => Some (s, S3 (zlen (pullE s) + zlen (pushE s)))
  | S3 n => Some (unlock_push s, S4 n)
  | S4 n => Some (unlock_pull s, Ret (QNum n))
  | L0 => lock_pull s t L1
  | L1 => lock_push s t L2
  | L2 => Some (set_pull s [], L3)
  | L3 => Some (set_push s [], L4)
  | L4 => Some (set_flag s true, L5)
  | L5 => Some (unlock_push s, L6)
  | L6 => Some (unlock_pull s, Ret QUnit)
  | V0 n => lock_pull s t (V1 n)
  | V1 n => lock_push s t (V2 n)
  | V2 n => Some (s, V3 n)                      (* both vectors may be moved to larger buffers *)
  | V3 n => Some (unlock_push s, V4 n)
  | V4 n => Some (unlock_pull s, Ret QUnit)
  | E0 => Some (s, Ret (QBool (eflag s)))
  | Ret _ | Crash => None
  end.

Definition sq_fin (pc : sqpc) : option sqret := match pc with Ret r => Some r | _ => None end.

Notation sqcfg := (cfg sqsh sqpc).
Definition sq_run : sqcfg -> list (nat * act unit sqop) -> option (sqcfg * list (hev sqop sqret)) := run sq_start sq_step sq_fin.
Definition sq_exec : sqcfg -> nat * act unit sqop -> option (sqcfg * list (hev sqop sqret)) := exec sq_start sq_step sq_fin.

(** Move constructor [61-66] and move assignment [69-77] of a queue no thread is using: the destination and the source
    afterwards (moved-from vectors are empty, the flag of the source is not touched).  What the destination held is
    dropped.  Moving a queue onto itself is not modelled. *)
Definition sq_move (src : sqsh) : sqsh * sqsh :=
  (SqSh None None (pushE src) (pullE src) (negb (nonempty (pullE src))), SqSh (pushL src) (pullL src) [] [] (eflag src)).

(** States of a queue when no thread is using it: after construction [41, 56-60], after any concurrent use, after moves.
    With [strict] no empty vector was passed to pushVector and the queue was not moved from. *)
Definition no_empty_batch (o : sqop) : Prop := match o with QPushVec [] => False | _ => True end.
Inductive sq_reach (strict : bool) : sqsh -> Prop :=
| sqr_new : sq_reach strict sq0
| sqr_use s xs c H : sq_reach strict s -> (strict = true -> Forall no_empty_batch (calls xs)) ->
    sq_run (init s) xs = Some (c, H) -> (forall t, th c t = None) -> sq_reach strict (sh c)
| sqr_moved_to s : sq_reach strict s -> sq_reach strict (fst (sq_move s))
| sqr_moved_from s : strict = false -> sq_reach strict s -> sq_reach strict (snd (sq_move s)).

(** The elements held, oldest first *)
Definition sq_content (s : sqsh) : list V := rev (pullE s) ++ pushE s.

(** Non-atomic accesses of the step a thread is about to make: the vector ([true]: pullElements) and whether it writes *)
Definition sq_acc (pc : sqpc) : list (bool * bool) :=
  match pc with
  | P1 _ | C2 _ => [(false, false)]
  | P4 _ | C0 _ | K1 => [(true, false)]
  | P5 _ | C5 _ | O2 | L2 => [(true, true)]
  | P10 _ | L3 => [(false, true)]
  | C3 _ | V2 _ => [(true, true); (false, true)]
  | S2 => [(true, false); (false, false)]
  | _ => []
  end.

End sq.
Arguments sqop : clear implicits. Arguments sqret : clear implicits. Arguments sqsh : clear implicits. Arguments sqpc : clear implicits.
