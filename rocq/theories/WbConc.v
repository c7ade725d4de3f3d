(** One WorkBlock used by several threads [WorkQueue.hpp 59-139; WorkBlock<void> 145-213 is alike]: a worker of a WorkQueue runs
    execute() while other threads watch the block, wait for it or reset it.

    std::packaged_task, its shared states and std::shared_future are as in WbModel, but a call of the task takes time: it is
    entered ([X3]: the state is marked as started) and ends when the result is stored and the future becomes ready ([X4]).
    Reading or writing a member of the block is one step; the members [finished] and [loaded] are plain bools, so two threads
    at conflicting accesses are a data race ([race] below), which is undefined in C++; the machine goes on with what a plain
    load or store would do.  Memory is sequentially consistent otherwise. *)
From stdpp Require Import list.
From Verif Require Import Base Conc WbModel.
Local Open Scope nat_scope.

(** [st]: all shared states ever made; [go]: those whose task has been entered; [rn]: works that ended, by state *)
Record wc := Wc { st : store; blk : wb; go : list nat; rn : list nat }.

Inductive cop :=
| CExec                  (* execute() [85-93] *)
| CWait                  (* wait() [121], getReturnVal() [95] *)
| CFin                   (* isFinished() [119] *)
| CFut                   (* get_future() [132] *)
| CGet (i : nat)         (* get() or wait() of a shared_future obtained before, for state [i] *)
| CReset                 (* reset() [123-130] *)
| CUpd (f : nat).        (* updateWorkFunction(f) [98-108] *)
Inductive cret := CUnit | CVal (f : nat) | CBroken | CBool (b : bool) | CFuture (i : option nat) | CThrow (e : ferr).

Inductive cpc :=
| X1 | X2 | X3 | X4 (i : nat) | X5        (* if (!finished); if (loaded); task() entered; task() ends; finished = true *)
| W1 | W2 (i : option nat)                (* future_ret is read; its state is waited for *)
| F1                                      (* finished is read *)
| G1                                      (* future_ret is copied *)
| H1 (i : nat)                            (* waiting for state [i] *)
| R1 | R2 | R3                            (* if (loaded) task.reset(); finished = false; future_ret = task.get_future() *)
| U1 (f : nat) | U2 (f : nat) | U3 (f : nat) | U4 (f : nat) | U5 (f : nat)
                                          (* loaded = false; task = packaged_task(f); finished = false; future_ret = ...; loaded = true *)
| Ret (o : cop) (r : cret).

Definition c_start (o : cop) : cpc :=
  match o with
  | CExec => X1 | CWait => W1 | CFin => F1 | CFut => G1 | CGet i => H1 i | CReset => R1 | CUpd f => U1 f
  end.

Definition set_fin (s : wc) (b : bool) : wc := Wc (st s) (WB (tk (blk s)) (fut (blk s)) b (loaded (blk s))) (go s) (rn s).
Definition set_loaded (s : wc) (b : bool) : wc := Wc (st s) (WB (tk (blk s)) (fut (blk s)) (finished (blk s)) b) (go s) (rn s).

(** What a waiting thread gets, if the state is ready *)
Definition ready (S : store) (i : nat) : option cret :=
  match S !! i with
  | Some x => match fstat_ x with FWait => None | FDone f => Some (CVal f) | FBroken => Some CBroken end
  | None => None
  end.

(** future_ret = task.get_future() *)
Definition take_future (s : wc) (next : cpc) (o : cop) : wc * cpc :=
  let '(S1, i, e) := pt_future (st s) (tk (blk s)) in
  match e with
  | Some e => (Wc S1 (blk s) (go s) (rn s), Ret o (CThrow e))
  | None => (Wc S1 (WB (tk (blk s)) i (finished (blk s)) (loaded (blk s))) (go s) (rn s), next)
  end.

Definition c_step (s : wc) (t : nat) (pc : cpc) (k : unit) : option (wc * cpc) :=
  let b := blk s in
  match pc with
  | X1 => Some (s, if finished b then Ret CExec CUnit else X2)
  | X2 => Some (s, if loaded b then X3 else X5)
  | X3 =>
      match tk b with
      | None => Some (s, Ret CExec (CThrow NoState))
      | Some i => if bool_decide (i ∈ go s) then Some (s, Ret CExec (CThrow Satisfied))
                  else Some (Wc (st s) b (i :: go s) (rn s), X4 i)
      end
  | X4 i => Some (Wc (set_at (st s) i (FS (fwork (at_ (st s) i)) (FDone (fwork (at_ (st s) i))) (taken (at_ (st s) i)))) b (go s) (rn s ++ [i]), X5)
  | X5 => Some (set_fin s true, Ret CExec CUnit)
  | W1 => Some (s, W2 (fut b))
  | W2 None => None                                   (* wait() on a future without state: undefined *)
  | W2 (Some i) => match ready (st s) i with Some r => Some (s, Ret CWait r) | None => None end
  | F1 => Some (s, Ret CFin (CBool (finished b)))
  | G1 => Some (s, Ret CFut (CFuture (fut b)))
  | H1 i => match ready (st s) i with Some r => Some (s, Ret (CGet i) r) | None => None end
  | R1 =>
      if loaded b then
        let '(S1, t1, e) := pt_reset (st s) (tk b) in
        match e with
        | Some e => Some (s, Ret CReset (CThrow e))
        | None => Some (Wc S1 (WB t1 (fut b) (finished b) (loaded b)) (go s) (rn s), R2)
        end
      else Some (s, R2)
  | R2 => Some (set_fin s false, R3)
  | R3 => Some (take_future s (Ret CReset CUnit) CReset)
  | U1 f => Some (set_loaded s false, U2 f)
  | U2 f => let '(S0, t1) := pt_new (st s) f in Some (Wc (abandon S0 (tk b)) (WB t1 (fut b) (finished b) (loaded b)) (go s) (rn s), U3 f)
  | U3 f => Some (set_fin s false, U4 f)              (* reset(): loaded is false *)
  | U4 f => Some (take_future s (U5 f) (CUpd f))
  | U5 f => Some (set_loaded s true, Ret (CUpd f) CUnit)
  | Ret _ _ => None
  end.
Definition c_fin (pc : cpc) : option cret := match pc with Ret _ r => Some r | _ => None end.

Notation c_exec := (exec c_start c_step c_fin).
Notation c_run := (run c_start c_step c_fin).

(** A new block made from work [f]: WorkBlock(f) [73-81] *)
Definition wc0 (f : nat) : wc := Wc [FS f FWait true] (WB (Some 0) (Some 0) false true) [] [].

(** ** Data races *)
Inductive member := MTask | MFut | MFin | MLoaded.
(** What a thread is about to touch, and whether it modifies it *)
Definition c_acc (pc : cpc) : list (member * bool) :=
  match pc with
  | X1 => [(MFin, false)] | X2 => [(MLoaded, false)] | X3 | X4 _ => [(MTask, true)] | X5 => [(MFin, true)]
  | W1 | W2 _ | G1 => [(MFut, false)] | F1 => [(MFin, false)]
  | R1 => [(MLoaded, false); (MTask, true)] | R2 | U3 _ => [(MFin, true)] | R3 | U4 _ => [(MTask, true); (MFut, true)]
  | U1 _ | U5 _ => [(MLoaded, true)] | U2 _ => [(MTask, true)]
  | H1 _ | Ret _ _ => []
  end.
Definition race (c : @cfg wc cpc) : Prop := exists t u pt pu m wt wu, t <> u /\ th c t = Some pt /\ th c u = Some pu /\
  (m, wt) ∈ c_acc pt /\ (m, wu) ∈ c_acc pu /\ (wt || wu) = true.

(** ** The usual rule for using an object from several threads: no call overlaps one that changes what it uses.  execute() changes
    [task] and [finished]; wait(), getReturnVal() and get_future() only read [future_ret]; isFinished() reads [finished]; reset()
    and updateWorkFunction() change everything; shared_futures obtained before do not use the block. *)
Definition compat (o o' : cop) : bool :=
  match o, o' with
  | CGet _, _ | _, CGet _ => true
  | (CReset | CUpd _), _ | _, (CReset | CUpd _) => false
  | CExec, (CExec | CFin) | CFin, CExec => false
  | _, _ => true
  end.
Definition op_of (pc : cpc) : cop :=
  match pc with
  | X1 | X2 | X3 | X4 _ | X5 => CExec | W1 | W2 _ => CWait | F1 => CFin | G1 => CFut | H1 i => CGet i
  | R1 | R2 | R3 => CReset | U1 f | U2 f | U3 f | U4 f | U5 f => CUpd f | Ret o _ => o
  end.
(** Every call is made when no incompatible call is in progress. *)
Fixpoint calm (c : @cfg wc cpc) (xs : list (nat * @act unit cop)) : Prop :=
  match xs with
  | [] => True
  | (t, a) :: xs' =>
      forall c' e, c_exec c (t, a) = Some (c', e) ->
        (forall o, a = ACall o -> forall u pc, th c u = Some pc -> compat o (op_of pc) = true) /\ calm c' xs'
  end.

(** ** The ideal block: one entry per future, the last is the current one. *)
Definition ideal := list (nat * fstat).
Definition broken (x : nat * fstat) : nat * fstat := match x.2 with FWait => (x.1, FBroken) | _ => x end.
Inductive c_spec : ideal -> cop -> cret -> ideal -> Prop :=
| cs_run q f : c_spec (q ++ [(f, FWait)]) CExec CUnit (q ++ [(f, FDone f)])
| cs_skip q f : c_spec (q ++ [(f, FDone f)]) CExec CUnit (q ++ [(f, FDone f)])
| cs_wait q f : c_spec (q ++ [(f, FDone f)]) CWait (CVal f) (q ++ [(f, FDone f)])
| cs_fin_no q f : c_spec (q ++ [(f, FWait)]) CFin (CBool false) (q ++ [(f, FWait)])
| cs_fin_yes q f : c_spec (q ++ [(f, FDone f)]) CFin (CBool true) (q ++ [(f, FDone f)])
| cs_fut q x : c_spec (q ++ [x]) CFut (CFuture (Some (length q))) (q ++ [x])
| cs_get_value q i f g : q !! i = Some (f, FDone g) -> c_spec q (CGet i) (CVal g) q
| cs_get_broken q i f : q !! i = Some (f, FBroken) -> c_spec q (CGet i) CBroken q
| cs_reset q x : c_spec (q ++ [x]) CReset CUnit (q ++ [broken x] ++ [(x.1, FWait)])
| cs_upd q x f : c_spec (q ++ [x]) (CUpd f) CUnit (q ++ [broken x] ++ [(f, FWait)]).
