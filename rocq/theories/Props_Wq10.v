(** C114: work blocks whose execute() throws, in a WorkQueue without workers *)
From stdpp Require Import list.
From Verif Require Import Base Conc CondVar Herlihy SqModel SqSpec SqProofs WqModel WqProofs WqMore WqExec Props_Wq.
Local Open Scope nat_scope.

(** *** The specification *)
(** [blocks_of]: what a call is given to execute.  [is_done fin l]: the blocks of [l] are finished. *)
Definition blocks_of (o : wqop) : list ptr := match o with OAdd x _ => [x] | OAddV l _ => l | _ => [] end.
Definition is_done (fin : nat -> bool) (l : list ptr) : Prop := forall b, In (Some (BWork b)) l -> fin b = true.
(** The blocks of [l] that are to be run when [fin] says which are finished: the others, each once, in the order of [l] *)
Fixpoint to_run (fin : nat -> bool) (l : list ptr) : list nat :=
  match l with
  | [] => []
  | Some (BWork b) :: l' => if fin b then to_run fin l' else b :: to_run (fun x => if Nat.eqb x b then true else fin x) l'
  | _ :: l' => to_run fin l'
  end.
(** What thread [t] has been given to execute, oldest first *)
Definition given (t : nat) (g : list (nat * ptr)) : list ptr := map snd (List.filter (fun x => Nat.eqb (fst x) t) g).

(** Without the exceptions themselves the run is one of the queue whose work does not throw: the state and the history are the
    same, so what is proved of those runs (C56, C67, C111, ...) is true here. *)
Theorem C114_same f zs E H : erun (einit f) zs = Some (E, H) -> wq_run 0 (wq_init 0 f) (edoes zs) = Some (ec E, H).
Proof. apply erun_same. Qed.

(** A call that has thrown has executed the blocks before the one that threw, each of them is finished, and then that one; and so
    it stays: whatever happens afterwards ([zs']), the blocks behind it are not executed by that call, and it does not return. *)
Theorem C114_stops f zs E H t zs' E' H' : erun (einit f) zs = Some (E, H) -> inb t (over E) = true -> erun E zs' = Some (E', H') ->
  exists i o b pre post early, last_ev H t i (HInv t o) /\ blocks_of o = pre ++ Some (BWork b) :: post /\
    is_done (bfin (sh (ec E))) pre /\ In b (ran (sh (ec E))) /\
    given t (got (sh (ec E))) = early ++ pre ++ [Some (BWork b)] /\ given t (got (sh (ec E'))) = given t (got (sh (ec E))) /\
    inb t (over E') = true /\ forall x, In x H' -> tid x <> t.
Proof.
  intros Er Ht Er'. destruct (over_at f zs _ _ _ Er Ht) as (b & xs & Et). destruct (exI_erun _ _ _ _ Er _ _ Et) as (i & o & Hl & pre & early & E1 & E2 & E3).
  destruct (over_stays zs' _ _ _ _ Er' Ht) as (B0 & B1 & B2 & B3). exists i, o, b, pre, xs, early.
  split; [exact Hl|]. split; [exact E1|]. split; [exact E2|]. split; [|split; [exact E3|split; [exact B2|split; [exact B0|exact B3]]]].
  exact (fi_x2 _ _ (finI_run 0 f _ _ _ _ (finI_init 0 f) (erun_same _ _ _ _ Er)) _ _ _ Et).
Qed.

(** Nobody waits for a call that has thrown: as long as some call is neither over nor returned (nor has executed a null pointer),
    a call that is not over can make a step. *)
Theorem C114_progress f zs E H t pc : erun (einit f) zs = Some (E, H) -> th (ec E) t = Some pc -> inb t (over E) = false -> (forall xs, pc <> Crash xs) ->
  exists u a E' e, (forall k, a = AInt k -> k <> CSpur /\ k <> CTime) /\ (forall o, a <> ACall o) /\ eexec E (u, EDo a) = Some (E', e).
Proof. apply ego_any. Qed.

(** And work can be given to the queue as before: in any state, a call that is left alone and whose blocks do not throw runs those
    that are not finished, in order, and returns when all are finished -- also the one that had thrown earlier. *)
Lemma to_run_todo l : forall f, to_run f l = todo f l.
Proof. reflexivity. Qed.
Theorem C114_runs f zs E H t l p : erun (einit f) zs = Some (E, H) -> inb t (over E) = false -> th (ec E) t = None -> ~ In None l ->
  exists n E', erun E ((t, EDo (ACall (OAddV l p))) :: repeat (t, EDo (AInt CStep)) n ++ [(t, EDo ARet)]) = Some (E', [HInv t (OAddV l p); HRet t RUnit]) /\
    over E' = over E /\ (forall u, th (ec E') u = th (ec E) u) /\
    ran (sh (ec E')) = ran (sh (ec E)) ++ to_run (bfin (sh (ec E))) l /\
    (forall b, bfin (sh (ec E')) b = true <-> bfin (sh (ec E)) b = true \/ In (Some (BWork b)) l).
Proof. intros _ Ht Et Hn. rewrite to_run_todo. apply call_all; assumption. Qed.

(** Thread 1 submits blocks 4, 5 and 6; 5 throws.  Then thread 2 submits 5 and 6: both run. *)
Definition throws_once : list (nat * eact) :=
  (1, EDo (ACall (OAddV [Some (BWork 4); Some (BWork 5); Some (BWork 6)] PMed))) :: repeat (1, EDo (AInt CStep)) 5 ++ [(1, EThrow)].
Example C114_ex : exists E H E' H', erun (einit no_fin) throws_once = Some (E, H) /\ inb 1 (over E) = true /\ ran (sh (ec E)) = [4; 5] /\ bfin (sh (ec E)) 4 = true /\ bfin (sh (ec E)) 5 = false /\
  erun E ((2, EDo (ACall (OAddV [Some (BWork 5); Some (BWork 6)] PMed))) :: repeat (2, EDo (AInt CStep)) 7 ++ [(2, EDo ARet)]) = Some (E', H') /\
  ran (sh (ec E')) = [4; 5; 5; 6] /\ bfin (sh (ec E')) 5 = true /\ bfin (sh (ec E')) 6 = true /\ given 1 (got (sh (ec E'))) = [Some (BWork 4); Some (BWork 5)].
Proof. eexists _, _, _, _. split; [vm_compute; reflexivity|]. split; [reflexivity|]. split; [reflexivity|]. split; [reflexivity|]. split; [reflexivity|]. split; [vm_compute; reflexivity|]. repeat split. Qed.
(** The hypotheses of C114_progress and C114_runs *)
Example C114_progress_ex : exists E H, erun (einit no_fin) (throws_once ++ [(2, EDo (ACall OClose))]) = Some (E, H) /\ th (ec E) 2 = Some CL0 /\ inb 2 (over E) = false /\ th (ec E) 3 = None /\ inb 3 (over E) = false.
Proof. eexists _, _. split; [vm_compute; reflexivity|]. repeat split. Qed.

Print Assumptions C114_same.
Print Assumptions C114_stops.
Print Assumptions C114_progress.
Print Assumptions C114_runs.
