(** Model of AirLock.hpp (lines in brackets).  Assignments of elements do not throw (see AirThrow.v). *)
From stdpp Require Import list.
From Verif Require Import Base Conc CondVar.

Section air.
Context {V : Type}.

Inductive airop := ATryLoad (v : V) | ALoad (v : V) | AUnload | AIsLoaded.
Inductive airret := ABool (b : bool) | AUnit | AVal (r : option V).

(** [100-104]; [adata] is [None] when default constructed or moved from; [await]: threads waiting on the condition *)
Record airsh := AirSh { door : option nat; loaded : bool; adata : option V; await : list nat }.
Definition air0 : airsh := AirSh None false None [].

Inductive airpc :=
(* try_load [41-54] *)
| AT0 (v : V)            (* !loaded? [45] *)
| AT1 (v : V)            (* lock [46] *)
| AT2 (v : V)            (* !loaded? [47] *)
| AT3 (v : V)            (* data = val [48] *)
| AT4 (v : V)            (* loaded = true [49] *)
| AT5 (v : V) (b : bool) (* ~lock *)
(* load [59-73] *)
| AL0 (v : V)            (* lock [62] *)
| AL1 (v : V)            (* !loaded? [63] *)
| AL2 (v : V)            (* while (loaded) [67] *)
| AL3 (v : V)            (* wait: release the lock and wait [68] *)
| AL4 (v : V)            (* waiting; then lock again *)
| AL5 (w : bool) (v : V) (* data = val [64], after a wait ([w]) [70] *)
| AL6 (w : bool) (v : V) (* loaded = true [65, 71] *)
| AL7                    (* ~lock *)
(* try_unload [79-92] *)
| AU0                    (* loaded? [81] *)
| AU1                    (* lock [82] *)
| AU2                    (* loaded? [84] *)
| AU3                    (* val = move(data) [85] *)
| AU4 (r : option V)     (* loaded = false [86] *)
| AU5 (r : option V)     (* notify_one [87] *)
| AU6 (r : option V)     (* ~lock *)
(* isLoaded [97] *)
| AI0
| AEnd (r : airret).

Definition air_start (o : airop) : airpc :=
  match o with ATryLoad v => AT0 v | ALoad v => AL0 v | AUnload => AU0 | AIsLoaded => AI0 end.

Definition lock (s : airsh) (t : nat) (pc : airpc) : option (airsh * airpc) :=
  match door s with None => Some (AirSh (Some t) (loaded s) (adata s) (await s), pc) | Some _ => None end.
Definition unlock (s : airsh) : airsh := AirSh None (loaded s) (adata s) (await s).
Definition set_loaded (s : airsh) (b : bool) : airsh := AirSh (door s) b (adata s) (await s).
Definition set_data (s : airsh) (d : option V) : airsh := AirSh (door s) (loaded s) d (await s).
Definition set_await (s : airsh) (ws : list nat) : airsh := AirSh (door s) (loaded s) (adata s) ws.

Definition air_step0 (s : airsh) (t : nat) (pc : airpc) : option (airsh * airpc) :=
  match pc with
  | AT0 v => Some (s, if loaded s then AEnd (ABool false) else AT1 v)
  | AT1 v => lock s t (AT2 v)
  | AT2 v => Some (s, if loaded s then AT5 v false else AT3 v)
  | AT3 v => Some (set_data s (Some v), AT4 v)
  | AT4 v => Some (set_loaded s true, AT5 v true)
  | AT5 _ b => Some (unlock s, AEnd (ABool b))
  | AL0 v => lock s t (AL1 v)
  | AL1 v => Some (s, if loaded s then AL2 v else AL5 false v)
  | AL2 v => Some (s, if loaded s then AL3 v else AL5 true v)
  | AL3 v => Some (set_await (unlock s) (t :: await s), AL4 v)
  | AL4 v => if inb t (await s) then None else lock s t (AL2 v)
  | AL5 w v => Some (set_data s (Some v), AL6 w v)
  | AL6 _ _ => Some (set_loaded s true, AL7)
  | AL7 => Some (unlock s, AEnd AUnit)
  | AU0 => Some (s, if loaded s then AU1 else AEnd (AVal None))
  | AU1 => lock s t AU2
  | AU2 => Some (s, if loaded s then AU3 else AU6 None)
  | AU3 => Some (set_data s None, AU4 (adata s))
  | AU4 r => Some (set_loaded s false, AU5 r)
  | AU5 r => match await s with [] => Some (s, AU6 r) | _ => None end
  | AU6 r => Some (unlock s, AEnd (AVal r))
  | AI0 => Some (s, AEnd (ABool (loaded s)))
  | AEnd _ => None
  end.

Definition air_step (s : airsh) (t : nat) (pc : airpc) (k : cvc) : option (airsh * airpc) :=
  match k, pc with
  | CStep, _ => air_step0 s t pc
  | CWake _, AU5 r => match notify1 (await s) k with Some ws => Some (set_await s ws, AU6 r) | None => None end
  | CSpur, AL4 v => if inb t (await s) then Some (set_await s (rm t (await s)), AL4 v) else None
  | _, _ => None
  end.

Definition air_fin (pc : airpc) : option airret := match pc with AEnd r => Some r | _ => None end.

Definition air_run : cfg airsh airpc -> list (nat * act cvc airop) -> option (cfg airsh airpc * list (hev airop airret)) := run air_start air_step air_fin.
Definition air_exec : cfg airsh airpc -> nat * act cvc airop -> option (cfg airsh airpc * list (hev airop airret)) := exec air_start air_step air_fin.

(** Blocked in condition.wait, not yet woken *)
Definition air_waits (c : cfg airsh airpc) (t : nat) : Prop := exists v, th c t = Some (AL4 v) /\ In t (await (sh c)).

(** Does the next step access [data] (which is not atomic)? *)
Definition air_acc (pc : airpc) : bool := match pc with AT3 _ | AL5 _ _ | AU3 => true | _ => false end.
End air.
Arguments airop : clear implicits. Arguments airret : clear implicits. Arguments airsh : clear implicits. Arguments airpc : clear implicits.
