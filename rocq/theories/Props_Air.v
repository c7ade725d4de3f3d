(** AirLock: C52 and C53 *)
From stdpp Require Import list.
From Verif Require Import Base Conc Herlihy CondVar AirModel AirSpec AirProofs.

Section props.
Context {V : Type}.
Implicit Types (c : cfg (airsh V) (airpc V)) (xs : list (nat * act cvc (airop V))) (H : list (hev (airop V) (airret V))).

(** C52.  Every history of any threads calling try_load, load, try_unload and isLoaded is a history of an atomic slot, and
    no two threads are ever about to access the data at once. *)
Theorem C52_linearizable xs c H : air_run (init air0) xs = Some (c, H) -> linearizable air_spec None H.
Proof. intros Er. destruct (air_sim False _ _ _ Er) as (q & f & Ha & _). exists q, f. exact Ha. Qed.

Theorem C52_herlihy_wing xs c H : air_run (init air0) xs = Some (c, H) ->
  exists L q, linearization air_spec H None L q.
Proof. intros Er. eapply linearizable_hw, C52_linearizable; eassumption. Qed.

Theorem C52_race_free xs c H t u pt pu : air_run (init air0) xs = Some (c, H) ->
  th c t = Some pt -> th c u = Some pu -> air_acc pt = true -> air_acc pu = true -> t = u.
Proof. intros Er. destruct (air_sim False _ _ _ Er) as (q & f & _ & Hr). apply (air_norace _ _ _ _ _ _ _ Hr). Qed.

(** C53.  If a loader waits although the slot is free and nobody is inside the lock, then some loader has been woken and
    is on its way. *)
Theorem C53_not_forgotten xs c H t : air_run (init air0) xs = Some (c, H) -> door (sh c) = None -> loaded (sh c) = false -> air_waits c t ->
  exists u v, th c u = Some (AL4 v) /\ ~ In u (await (sh c)).
Proof.
  intros Er Ed El (v & Et & Hw). destruct (air_sim False _ _ _ Er) as (q & f & _ & Hr). destruct (air_woken _ _ _ Hr Ed El) as [[]|Hx]; [|exact Hx].
  intros E. rewrite E in Hw. destruct Hw.
Qed.

(** So if everybody still inside an operation waits, the slot is full. *)
Theorem C53_quiescent xs c H t : air_run (init air0) xs = Some (c, H) -> th c t <> None -> (forall u, th c u <> None -> air_waits c u) ->
  loaded (sh c) = true.
Proof.
  intros Er Ht Hall. destruct (air_sim False _ _ _ Er) as (q & f & _ & Hr). destruct (loaded (sh c)) eqn:El; [reflexivity|]. exfalso.
  assert (Ed : door (sh c) = None).
  { destruct (door (sh c)) as [u|] eqn:Ed; [|reflexivity]. destruct (proj1 (a_door _ _ _ Hr u) Ed) as (pc & Eu & Hd).
    destruct (Hall u ltac:(congruence)) as (v & E & _). rewrite Eu in E. injection E as ->. discriminate. }
  destruct (C53_not_forgotten _ _ _ _ Er Ed El (Hall t Ht)) as (u & v & Eu & Hn). destruct (Hall u ltac:(congruence)) as (w & _ & Hw). contradiction.
Qed.

(** Whenever a thread is inside an operation and not waiting, some thread can take a step which is not a spurious wakeup. *)
Theorem C53_no_deadlock xs c H t : air_run (init air0) xs = Some (c, H) -> th c t <> None -> ~ air_waits c t -> exists u, air_moves c u.
Proof. intros Er. destruct (air_sim False _ _ _ Er) as (q & f & _ & Hr). apply (air_live _ _ _ _ Hr). Qed.
End props.

(** Two loaders wait for a full slot; after try_unload one of them is woken and the other one still waits. *)
Definition air_case : list (nat * act cvc (airop Z)) :=
  ((1, ACall (ATryLoad 5%Z)) :: repeat (1, AInt CStep) 6 ++ [(1, ARet)] ++
   [(2, ACall (ALoad 6%Z))] ++ repeat (2, AInt CStep) 4 ++ [(3, ACall (ALoad 7%Z))] ++ repeat (3, AInt CStep) 4 ++
   [(1, ACall AUnload)] ++ repeat (1, AInt CStep) 5 ++ [(1, AInt (CWake 2)); (1, AInt CStep); (1, ARet)])%nat.
Example C53_case : match air_run (init air0) air_case with
  | Some (c, _) => door (sh c) = None /\ loaded (sh c) = false /\ th c 3%nat = Some (AL4 7%Z) /\ await (sh c) = [3%nat] /\ th c 2%nat = Some (AL4 6%Z)
  | None => False
  end.
Proof. vm_compute. auto 10. Qed.

Example C52_case : result air_start air_step air_fin (init air0)
    (air_case ++ repeat (2, AInt CStep) 5 ++ [(2, ARet); (3, AInt CSpur)] ++ repeat (3, AInt CStep) 3 ++ [(1, ACall AUnload)] ++ repeat (1, AInt CStep) 5 ++ [(1, AInt (CWake 3)); (1, AInt CStep); (1, ARet)])%nat
  = Some (AirSh None false None [], [HInv 1 (ATryLoad 5%Z); HRet 1 (ABool true); HInv 2 (ALoad 6%Z); HInv 3 (ALoad 7%Z); HInv 1 AUnload; HRet 1 (AVal (Some 5%Z));
      HRet 2 AUnit; HInv 1 AUnload; HRet 1 (AVal (Some 6%Z))])%nat.
Proof. vm_compute. reflexivity. Qed.

Print Assumptions C52_linearizable.
Print Assumptions C52_herlihy_wing.
Print Assumptions C52_race_free.
Print Assumptions C53_not_forgotten.
Print Assumptions C53_quiescent.
Print Assumptions C53_no_deadlock.
