(** What a program may expect of work blocks, told from the calls it made: a block that is [Good f d] has the work [f] and
    has been executed since the last reset iff [d].  Nothing is promised about a block that is [Odd]: one that was moved from,
    or was given a packaged task by updateTask that was empty, was already run or had handed out its future. *)
From stdpp Require Import list.
From Verif Require Import Base Conc WbModel.
Local Open Scope nat_scope.

Inductive iblk := Good (f : nat) (done : bool) | Odd.
Record iworld := IW {
  it : nat -> option (nat * bool * bool);      (* user packaged tasks: work, already run, future handed out; None: empty *)
  ib : nat -> option iblk                      (* existing blocks *)
}.
Definition iworld0 : iworld := IW (fun _ => None) (fun _ => None).

Definition ideal (I : iworld) (o : wbop) : iworld :=
  match o with
  | TNew p f => IW (fupd p (Some (f, false, false)) (it I)) (ib I)
  | TDel p => IW (fupd p None (it I)) (ib I)
  | TFut p => match it I p with Some (f, r, _) => IW (fupd p (Some (f, r, true)) (it I)) (ib I) | None => I end
  | TRun p => match it I p with Some (f, _, k) => IW (fupd p (Some (f, true, k)) (it I)) (ib I) | None => I end
  | BNew _ => I
  | BTask b p => match it I p with Some (f, _, _) => IW (fupd p None (it I)) (fupd b (Some (Good f false)) (ib I)) | None => I end
  | BFunc b f | BUpdF b f => IW (it I) (fupd b (Some (Good f false)) (ib I))
  | BUpdT b p => IW (fupd p None (it I)) (fupd b (Some match it I p with Some (f, false, false) => Good f false | _ => Odd end) (ib I))
  | BMoveC b b' | BMoveA b b' => IW (it I) (fupd b (ib I b') (fupd b' (Some Odd) (ib I)))
  | BExec b => match ib I b with Some (Good f _) => IW (it I) (fupd b (Some (Good f true)) (ib I)) | _ => I end
  | BReset b => match ib I b with Some (Good f _) => IW (it I) (fupd b (Some (Good f false)) (ib I)) | _ => I end
  | BDel b => IW (it I) (fupd b None (ib I))
  | BFin _ | BFut _ | BGet _ | FGet _ => I
  end.

(** The promised answer; None: no promise *)
Definition promise (I : iworld) (o : wbop) : option wbout :=
  match o with
  | BExec b => match ib I b with Some (Good f d) => Some (if d then Nothing else Ran f) | _ => None end
  | BFin b => match ib I b with Some (Good _ d) => Some (Bool d) | _ => None end
  | BGet b => match ib I b with Some (Good f d) => Some (if d then Value f else Blocks) | _ => None end
  | BReset b => match ib I b with Some (Good _ _) => Some Nothing | _ => None end
  | BFunc _ _ | BUpdF _ _ => Some Nothing
  | BTask _ p => match it I p with Some _ => Some Nothing | None => Some (Throws NoState) end
  | BUpdT _ p => match it I p with Some (_, false, false) => Some Nothing | _ => None end
  | BNew _ => Some (Throws NoState)
  | _ => None
  end.

Definition ideals (os : list wbop) : iworld := fold_left ideal os iworld0.

(** Calls that give block [b] a fresh start, replace it or take it away *)
Definition renews (b : nat) (o : wbop) : Prop :=
  match o with
  | BNew c | BTask c _ | BFunc c _ | BReset c | BUpdF c _ | BUpdT c _ | BDel c => c = b
  | BMoveC c c' | BMoveA c c' => c = b \/ c' = b
  | _ => False
  end.
(** How often block [b] ran its work *)
Fixpoint runs (b : nat) (os : list wbop) (rs : list wbout) : nat :=
  match os, rs with
  | BExec c :: os', Ran _ :: rs' => (if Nat.eqb c b then 1 else 0) + runs b os' rs'
  | _ :: os', _ :: rs' => runs b os' rs'
  | _, _ => 0
  end.
