(** WorkQueue before closeWorkerQueue: nobody is stuck, and the number of steps until everybody sleeps *)
From stdpp Require Import list.
From Verif Require Import Base Conc CondVar Herlihy SqModel SqSpec SqProofs WqModel WqProofs WqCount WqMore WqBound WqLive.
Local Open Scope nat_scope.

Section wq.
Variable nw : nat.
Notation wqcfg := (cfg wqsh wqpc).
Implicit Types (s : wqsh) (pc : wqpc) (c : wqcfg) (H : list (hev wqop wqret)).

(** Program points reached only after halt was set *)
Definition late pc : bool :=
  match pc with
  | W7 | W8 | WE | CL3 | Sub _ _ KClr | CN1 | Sub _ _ (KSize _ (AClose _)) | Sub _ _ (KPush _ (AClose _)) | AN (AClose _) | CN2 | CJ _ _ | CU => true
  | _ => false
  end.

Lemma resume_open s t i r k s' pc' : resume nw s t i r k = Some (s', pc') -> late (Sub i (SqModel.Ret r) k) = false ->
  late pc' = false /\ (workpc (Sub i (SqModel.Ret r) k) = false -> workpc pc' = false).
Proof.
  intros Er Hl. destruct k; wq_resume Er; cbn [late workpc] in *; try (split; auto; fail).
  - destruct a; [destruct few; split; auto|discriminate].
  - destruct bb; [destruct (nextq i); [|destruct e]|destruct e]; split; auto.
  - destruct (nextq i); split; auto.
  - destruct g; split; auto.
  - destruct bb; split; auto.
  - destruct g; split; auto.
  - destruct g; split; auto.
Qed.

Lemma step_open s t pc k s' pc' : wq_step nw s t pc k = Some (s', pc') -> halt s' = false -> late pc = false ->
  late pc' = false /\ (workpc pc = false -> workpc pc' = false) /\ halt s = false.
Proof.
  intros Es Hh Hl. assert (Hs : halt s = false) by (destruct (halt s) eqn:E; [rewrite (proj1 (step_data nw _ _ _ _ _ _ Es) E) in Hh; discriminate|reflexivity]).
  enough (late pc' = false /\ (workpc pc = false -> workpc pc' = false)) by tauto.
  destruct pc.
  1: { destruct k; cbn [wq_step wq_step0] in Es; try discriminate. destruct (sq_fin p) as [r|] eqn:Ef.
    - assert (Ep : p = SqModel.Ret r) by (destruct p; try discriminate; injection Ef as ->; reflexivity). subst p. eapply resume_open; eassumption.
    - destruct (sq_step (qof i s) t p tt) as [[q' p']|]; [|discriminate]. inj Es. split; [exact Hl|auto]. }
  all: destruct k; cbn [wq_step wq_step0] in Es; try discriminate; wq_cases Es; inj Es; cbn [late workpc] in *; try discriminate.
  all: repeat match goal with
    | |- context [if Nat.eqb nw 0 then _ else _] => destruct (Nat.eqb nw 0)
    | |- context [if (ratio ?s <=? ?m)%Z then _ else _] => destruct (ratio s <=? m)%Z
    | Hz : halt ?z = false |- context [if halt ?z then _ else _] => rewrite Hz
    | |- context [after_exec ?e] => is_var e; destruct e
    | |- context [match ?g with GUser => _ | GWork _ => _ end] => is_var g; destruct g
    | |- context [after_add ?a] => is_var a; destruct a as [|]; [|discriminate]
    end; try (split; auto; fail).
Qed.

Lemma start_open o : late (wq_start nw o) = false /\ workpc (wq_start nw o) = false.
Proof. destruct o; cbn [wq_start]; try (split; reflexivity). destruct (Nat.eqb nw 0); split; reflexivity. Qed.

Record openI c : Prop := {
  op_lock : lk (qlock (sh c)) hq (th c);
  op_late : halt (sh c) = false -> forall t pc, th c t = Some pc -> late pc = false;
  op_work : forall t, t < nw -> exists pc, th c t = Some pc /\ workpc pc = true;
  op_user : halt (sh c) = false -> forall t pc, nw <= t -> th c t = Some pc -> workpc pc = false;
  op_shape : shaped c;
}.

Lemma openI_exec c x c' e : openI c -> wq_exec nw c x = Some (c', e) -> openI c'.
Proof.
  intros [I1 I2 I3 I4 I5] Ex. assert (I5' : shaped c') by (eapply shaped_exec; eassumption).
  destruct x as [t [o|k|]]; unfold wq_exec in Ex; cbn in Ex; (destruct (th c t) as [pc|] eqn:Et; [|]); try discriminate.
  - injection Ex as <- <-. pose proof (start_live nw o) as (S1 & _). pose proof (start_open o) as [S2 S3]. constructor; cbn [sh th].
    + apply lk_call; assumption.
    + intros Hh u pu. unfold fupd. destruct (Nat.eqb u t); [intros [= <-]; exact S2|eauto].
    + intros u Hu. destruct (I3 u Hu) as (pu & E1 & E2). exists pu. rewrite fupd_other; [auto|congruence].
    + intros Hh u pu Hu. unfold fupd. destruct (Nat.eqb u t); [intros [= <-]; exact S3|eauto].
    + exact I5'.
  - destruct (wq_step nw (sh c) t pc k) as [[s' pc']|] eqn:Es; [|discriminate]. injection Ex as <- <-.
    pose proof (step_live nw _ _ _ _ _ _ Es (I5 _ _ Et)) as Hst.
    assert (Hop : halt s' = false -> late pc' = false /\ (workpc pc = false -> workpc pc' = false) /\ halt (sh c) = false).
    { intros Hh. assert (Hs : halt (sh c) = false) by (destruct (halt (sh c)) eqn:E; [rewrite (sl_halt _ _ _ _ _ _ Hst E) in Hh; discriminate|reflexivity]). eapply step_open; eauto. }
    constructor; cbn [sh th].
    + eapply lk_move; [reflexivity|reflexivity|exact I1|exact Et|apply Hst].
    + intros Hh u pu. destruct (Hop Hh) as (E1 & E2 & E3). unfold fupd. destruct (Nat.eqb u t); [intros [= <-]; exact E1|eauto].
    + intros u Hu. destruct (I3 u Hu) as (pu & E1 & E2). unfold fupd. destruct (Nat.eqb_spec u t) as [->|]; [exists pc'; split; [reflexivity|apply (sl_work _ _ _ _ _ _ Hst); congruence]|eauto].
    + intros Hh u pu Hu. destruct (Hop Hh) as (E1 & E2 & E3). unfold fupd. destruct (Nat.eqb_spec u t) as [->|]; [intros [= <-]; eauto|eauto].
    + exact I5'.
  - destruct (wq_fin pc) as [r|] eqn:Ef; [|discriminate]. injection Ex as <- <-. destruct pc; try discriminate. constructor; cbn [sh th].
    + eapply lk_ret; [exact I1|exact Et|reflexivity].
    + intros Hh u pu. unfold fupd. destruct (Nat.eqb u t); [discriminate|eauto].
    + intros u Hu. destruct (I3 u Hu) as (pu & E1 & E2). exists pu. rewrite fupd_other; [auto|]. intros ->. rewrite Et in E1. injection E1 as <-. discriminate.
    + intros Hh u pu Hu. unfold fupd. destruct (Nat.eqb u t); [discriminate|eauto].
    + exact I5'.
Qed.
Lemma openI_run xs : forall c c' H, openI c -> wq_run nw c xs = Some (c', H) -> openI c'.
Proof.
  induction xs as [|x xs IH]; intros c c' H Hc; unfold wq_run; cbn [run]; [intros [= <- <-]; exact Hc|].
  destruct (exec _ _ _ c x) as [[c1 e]|] eqn:Ex; [|discriminate]. destruct (run _ _ _ c1 xs) as [[c2 H2]|] eqn:Er; [|discriminate]. intros [= <- <-].
  eapply IH; [|exact Er]. eapply openI_exec; eassumption.
Qed.
Lemma openI_init f : openI (wq_init nw f).
Proof.
  assert (Hf : forall t pc, th (wq_init nw f) t = Some pc -> pc = loop /\ t < nw). { intros t pc. cbn [wq_init th]. destruct (Nat.ltb_spec t nw); [intros [= <-]; auto|discriminate]. }
  constructor.
  - cbn [sh wq_init wq0 qlock]. intros t. split; [discriminate|]. intros (pc & E & Eh). apply Hf in E as [-> _]. discriminate.
  - intros _ t pc E. apply Hf in E as [-> _]. reflexivity.
  - intros t Ht. exists loop. split; [|reflexivity]. cbn [wq_init th]. apply Nat.ltb_lt in Ht. rewrite Ht. reflexivity.
  - intros _ t pc Ht E. apply Hf in E as [_ E]. lia.
  - apply shaped_init.
Qed.

Lemma halt_run xs : forall c c' H, wq_run nw c xs = Some (c', H) -> halt (sh c') = false -> halt (sh c) = false.
Proof.
  induction xs as [|x xs IH]; intros c c' H; unfold wq_run; cbn [run]; [intros [= <- <-]; auto|].
  destruct (exec _ _ _ c x) as [[c1 e]|] eqn:Ex; [|discriminate]. destruct (run _ _ _ c1 xs) as [[c2 H2]|] eqn:Er; [|discriminate]. intros [= <- <-] Hh.
  specialize (IH _ _ _ Er Hh). destruct x as [t [o|k|]]; cbn in Ex; (destruct (th c t) as [pc|] eqn:Et; [|]); try discriminate.
  - injection Ex as <- <-. exact IH.
  - destruct (wq_step nw (sh c) t pc k) as [[s' pc']|] eqn:Es; [|discriminate]. injection Ex as <- <-. cbn in IH.
    destruct (halt (sh c)) eqn:E; [|reflexivity]. rewrite (proj1 (step_data nw _ _ _ _ _ _ Es) E) in IH. discriminate.
  - destruct (wq_fin pc); [|discriminate]. injection Ex as <- <-. exact IH.
Qed.

(** ** Progress *)
Ltac gostep Et := eapply (go_int _ _ _ _ CStep); [exact Et|cbn [wq_step wq_step0]; reflexivity|discriminate|discriminate].
Section go.
Context (c : wqcfg) (Hq : forall i, qproj sq0 i c) (Ho : openI c) (Hh : halt (sh c) = false).

Lemma open_held t pc : th c t = Some pc -> hq pc = true -> can_go nw c.
Proof.
  intros Et Eh. pose proof (op_late _ Ho Hh _ _ Et) as Hl. destruct pc; try discriminate; gostep Et.
Qed.
Lemma open_lock t pc pc' : th c t = Some pc -> wq_step nw (sh c) t pc CStep = lock_q (sh c) t pc' -> can_go nw c.
Proof.
  intros Et E. destruct (qlock (sh c)) as [u|] eqn:El.
  - apply (op_lock _ Ho) in El as (pu & Eu & Hu). eapply open_held; eassumption.
  - eapply (go_int _ _ _ _ CStep); [exact Et|rewrite E; unfold lock_q; rewrite El; reflexivity|discriminate|discriminate].
Qed.
Lemma open_go t pc : th c t = Some pc -> (forall xs, pc <> Crash xs) -> ~ asleep (sh c) t pc -> can_go nw c.
Proof.
  intros Et Hd Ha. pose proof (op_late _ Ho Hh _ _ Et) as Hl. destruct pc; cbn in Hl; try discriminate; try gostep Et.
  - eapply go_sub; eauto. apply Ho.
  - (* A0 *) destruct x as [y|]; [destruct p; destruct (is_fin (sh c) y) eqn:Ey|]; (eapply (go_int _ _ _ _ CStep); [exact Et|cbn [wq_step wq_step0]; rewrite ?Ey; reflexivity|discriminate|discriminate]).
  - (* AN *) destruct (waits (sh c)) as [|u ws] eqn:Ew.
    + eapply (go_int _ _ _ _ CStep); [exact Et|cbn; rewrite Ew; reflexivity|discriminate|discriminate].
    + eapply (go_int _ _ _ _ (CWake u)); [exact Et|cbn; rewrite Ew; unfold inb; cbn; rewrite Nat.eqb_refl; reflexivity|discriminate|discriminate].
  - destruct xs as [|[[|b]|] xs]; gostep Et.
  - destruct (bfin (sh c) b) eqn:Eb; (eapply (go_int _ _ _ _ CStep); [exact Et|cbn; rewrite Eb; reflexivity|discriminate|discriminate]).
  - eapply open_lock; [exact Et|reflexivity].
  - (* W4 *) destruct (inb t (waits (sh c))) eqn:Ei; [exfalso; apply Ha; split; auto|].
    eapply (go_int _ _ _ _ CStep); [exact Et|cbn; rewrite Ei; reflexivity|discriminate|discriminate].
  - eapply open_lock; [exact Et|reflexivity].
  - eapply open_lock; [exact Et|reflexivity].
  - (* Ret *) exists t, ARet. unfold wq_exec. cbn. rewrite Et. cbn. eexists _, _. split; [discriminate|]. split; [discriminate|reflexivity].
  - destruct (Hd _ eq_refl).
Qed.
End go.

(** ** Steps *)
(** A wake-up that is still to come, from this thread *)
Definition wtok pc : nat :=
  match pc with A0 _ _ | Sub _ _ (KSize _ AUser) | Sub _ _ (KPush _ AUser) | Sub _ _ KPushV | AN AUser | NV => 1 | _ => 0 end.
Definition otok pc : nat := ptok nw pc + wtok pc.
(** The price of a wake-up *)
Definition wlap : nat := 170.
Definition ophi s (t : nat) pc : nat :=
  match pc with W3 => 1 | W4 => if inb t (waits s) then 0 else 168 | W4b => 167 | W5 => 166 | _ => phi nw s pc end.

Lemma resume_ophi s t i r k s' pc' u : resume nw s t i r k = Some (s', pc') -> late (Sub i (SqModel.Ret r) k) = false ->
  ophi s' u pc' = phi nw s' pc' /\ wtok pc' <= wtok (Sub i (SqModel.Ret r) k).
Proof.
  intros Er Hl. destruct k; wq_resume Er; cbn [late wtok] in *; try (split; [reflexivity|cbn; lia]; fail).
  - destruct a; [destruct few; (split; [reflexivity|cbn; lia])|discriminate].
  - destruct bb; [destruct (nextq i); [|destruct e]|destruct e]; (split; [reflexivity|cbn; lia]).
  - destruct (nextq i); (split; [reflexivity|cbn; lia]).
  - destruct g; (split; [reflexivity|cbn; lia]).
  - destruct bb; (split; [reflexivity|cbn; lia]).
  - destruct g; (split; [reflexivity|cbn; lia]).
  - destruct g; (split; [reflexivity|cbn; lia]).
Qed.

Lemma inb_rm u t ws : u <> t -> inb u (rm t ws) = inb u ws.
Proof.
  intros Hne. destruct (inb u ws) eqn:E.
  - apply inb_spec in E. apply inb_spec, rm_spec. auto.
  - apply inb_false in E. apply inb_false. intros Hx. apply rm_spec in Hx. tauto.
Qed.
Definition extra (k : cvc) : nat := match k with CSpur | CTime => 1 | _ => 0 end.
Ltac ph := unfold ophi, phi, loop; cbn [steps todo debt kdebt kcost popdebt edebt sq_start ptok gpaid xcost atok acost sq_ptok after_exec after_add length extra otok wtok waits set_waits]; unfold lap, wlap; try lia.

Lemma step_ophi s t pc k s' pc' : wq_step nw s t pc k = Some (s', pc') -> shape pc -> halt s' = false -> late pc = false ->
  exists d, toks s' + otok pc' + d = toks s + otok pc /\ flags_paid s s' d /\ ophi s' t pc' + 1 <= ophi s t pc + wlap * d + wlap * extra k /\
    forall u, u <> t -> inb u (waits s') = inb u (waits s) \/ 1 <= d.
Proof.
  intros Es Hs Hh Hl. destruct (step_open _ _ _ _ _ _ Es Hh Hl) as (Hl' & _ & Hh0). destruct pc.
  1: { destruct k; cbn [wq_step wq_step0] in Es; try discriminate. destruct (sq_fin p) as [r|] eqn:Ef.
    - assert (Ep : p = SqModel.Ret r) by (destruct p; try discriminate; injection Ef as ->; reflexivity). subst p.
      destruct (resume_phi nw _ _ _ _ _ _ _ _ Hs Ef Es) as (E1 & E2 & E3). destruct (resume_ophi _ _ _ _ _ _ _ t Es Hl) as [E4 E5].
      exists (otok (Sub i (SqModel.Ret r) k0) - otok pc'). rewrite (toks_same _ _ E1). unfold otok in *. rewrite E4.
      splits; [lia|apply flags_same, E1|change (ophi s t (Sub i (SqModel.Ret r) k0)) with (phi nw s (Sub i (SqModel.Ret r) k0)); unfold wlap; cbn [extra]; lia|].
      intros u _. left. apply resume_data in Es as (_ & _ & _ & _ & _ & _ & -> & _). reflexivity.
    - destruct (sq_step (qof i s) t p tt) as [[q' p']|] eqn:Eq; [|discriminate]. inj Es.
      destruct (sub_phi nw _ _ _ _ _ _ _ Eq Hs) as (d & D1 & D2 & D3). exists d. unfold otok.
      assert (Ew : wtok (Sub i p' k0) = wtok (Sub i p k0)) by reflexivity. rewrite Ew. splits; [lia|exact D2| |].
      + change (ophi s t (Sub i p k0)) with (phi nw s (Sub i p k0)). change (ophi (log_drop (dropping (qof i s) p) (set_q i q' s)) t (Sub i p' k0)) with (phi nw (log_drop (dropping (qof i s) p) (set_q i q' s)) (Sub i p' k0)). unfold wlap, lap in *. cbn [extra]. lia.
      + intros u _. left. destruct i; reflexivity. }
  all: assert (E1 : forall j, qof j s' = qof j s) by (eapply (step_nosub nw); [exact Es|intros i; reflexivity]).
  all: match type of Es with wq_step _ _ _ ?pc _ = _ => enough (E2 : otok pc' <= otok pc /\ ophi s' t pc' + 1 <= ophi s t pc + wlap * extra k /\ (forall u, u <> t -> inb u (waits s') = inb u (waits s) \/ otok pc' < otok pc));
    [exists (otok pc - otok pc'); rewrite (toks_same _ _ E1); destruct E2 as (F1 & F2 & F3); unfold wlap in *; splits; [lia|apply flags_same, E1|lia|intros u Hu; destruct (F3 u Hu); [auto|right; lia]]|] end.
  all: assert (E3 : debt s' pc' = debt s pc') by (apply debt_same, E1).
  all: unfold otok.
  all: destruct k; cbn [wq_step wq_step0] in Es; try discriminate; wq_cases Es; inj Es; cbn [late] in *; try discriminate.
  all: repeat match goal with
    | |- context [if Nat.eqb nw 0 then _ else _] => destruct (Nat.eqb nw 0)
    | Hz : halt ?z = false |- context [if halt ?z then _ else _] => rewrite Hz
    | |- context [after_exec ?e] => is_var e; destruct e
    | |- context [match ?g with GUser => _ | GWork _ => _ end] => is_var g; destruct g
    | |- context [after_add ?a] => is_var a; destruct a as [|]; [|discriminate]
    end.
  all: try (splits; [ph..|intros u Hu; left; reflexivity]; fail).
  - split; [cbn; lia|split; [ph|intros u Hu; right; cbn; lia]].
  - split; [cbn; lia|split; [ph|intros v Hu; right; cbn; lia]].
  - split; [cbn; lia|split; [ph|intros u Hu; right; cbn; lia]].
  - split; [cbn; lia|split; [unfold ophi, phi; cbn; unfold lap; lia|auto]].
  - destruct (ratio s <=? m)%Z; (split; [cbn; lia|split; [ph; rewrite ?gdebt_23; lia|auto]]).
  - split; [cbn; lia|split; [unfold ophi; cbn; rewrite Nat.eqb_refl; cbn; lia|]]. intros u Hu. left. cbn. destruct (Nat.eqb_spec u t); [contradiction|reflexivity].
  - split; [cbn; lia|split; [ |auto]]. unfold ophi. match goal with E : inb t (waits s) = false |- _ => rewrite E end. unfold wlap. cbn. lia.
  - split; [cbn; lia|split; [ |intros u Hu; left; apply inb_rm, Hu]]. unfold ophi, wlap. cbn [extra]. lia.
  - split; [cbn; lia|split; [ |intros u Hu; left; apply inb_rm, Hu]]. unfold ophi, wlap. cbn [extra]. lia.
Qed.

(** *** Runs *)
Section runs.
Variable n : nat.
Definition oalltok c : nat := toks (sh c) + tsum n (fun t => opt otok (th c t)).
Definition oown c t : nat := opt (ophi (sh c) t) (th c t).
(** Wake-ups of [t] by timeouts, and spurious ones *)
Fixpoint wakes (t : nat) (xs : list (nat * act cvc wqop)) : nat :=
  match xs with
  | [] => 0
  | (u, AInt k) :: xs' => (if Nat.eqb u t then extra k else 0) + wakes t xs'
  | _ :: xs' => wakes t xs'
  end.

Lemma other_ophi s s' d t pc : flags_paid s s' d -> (inb t (waits s') = inb t (waits s) \/ 1 <= d) -> ophi s' t pc <= ophi s t pc + wlap * d.
Proof.
  intros Hf Hw. pose proof (debt_paid s s' d pc Hf) as Hd. unfold wlap, lap in *.
  destruct pc; unfold ophi, phi in *; try lia. destruct Hw as [->|Hw]; [lia|]. destruct (inb t (waits s')), (inb t (waits s)); lia.
Qed.

Lemma obound_run xs : forall c c' H t, openI c -> calls xs = [] -> onn n xs -> wq_run nw c xs = Some (c', H) -> halt (sh c') = false ->
  n_int t xs + wlap * oalltok c' + oown c' t <= wlap * oalltok c + oown c t + wlap * wakes t xs.
Proof.
  induction xs as [|x xs IH]; intros c c' H t Ho Hc Hx Er Hh.
  - unfold wq_run in Er. cbn [run] in Er. injection Er as <- <-. cbn. lia.
  - unfold wq_run in Er. cbn [run] in Er. destruct (exec _ _ _ c x) as [[c1 e]|] eqn:Ex; [|discriminate]. destruct (run _ _ _ c1 xs) as [[c2 H2]|] eqn:Er2; [|discriminate]. injection Er as <- <-.
    inversion Hx as [|? ? Hx1 Hx2]; subst. pose proof (openI_exec _ _ _ _ Ho Ex) as Ho1. pose proof (halt_run _ _ _ _ Er2 Hh) as Hh1.
    destruct x as [u [o|k|]]; [discriminate| |]; pose proof (IH c1 c2 H2 t Ho1 Hc Hx2 Er2 Hh) as Hi0; clear IH Er2; cbn in Hx1, Ex; (destruct (th c u) as [pc|] eqn:Et; [|discriminate]).
    + destruct (wq_step nw (sh c) u pc k) as [[s' pc']|] eqn:Es; [|discriminate]. injection Ex as <- <-. cbn [sh] in Hh1.
      assert (Hh0 : halt (sh c) = false) by (destruct (halt (sh c)) eqn:E; [rewrite (proj1 (step_data nw _ _ _ _ _ _ Es) E) in Hh1; discriminate|reflexivity]).
      pose proof (tsum_upd n (opt otok) (th c) u (Some pc') Hx1) as E1. rewrite Et in E1. cbn [opt] in E1.
      destruct (step_ophi _ _ _ _ _ _ Es (op_shape _ Ho _ _ Et) Hh1 (op_late _ Ho Hh0 _ _ Et)) as (d & D1 & D2 & D3 & D4).
      cbn [n_int wakes]. unfold oalltok, oown in *. cbn [sh th] in Hi0. unfold fupd at 2 in Hi0. rewrite (Nat.eqb_sym u t). destruct (Nat.eqb_spec t u) as [->|Hne].
      * rewrite Et. cbn [opt] in *. unfold wlap in *. lia.
      * destruct (th c t) as [pt|]; cbn [opt] in *; [|unfold wlap in *; lia]. pose proof (other_ophi (sh c) s' d t pt D2 (D4 t Hne)). unfold wlap in *. lia.
    + destruct (wq_fin pc) as [r|] eqn:Ef; [|discriminate]. injection Ex as <- <-. destruct pc; try discriminate.
      pose proof (tsum_upd n (opt otok) (th c) u None Hx1) as E1. rewrite Et in E1. cbn [opt ptok] in E1. unfold otok in E1 at 2. cbn in E1.
      cbn [n_int wakes]. unfold oalltok, oown in *. cbn [sh th] in Hi0. unfold fupd at 2 in Hi0. destruct (Nat.eqb_spec t u) as [->|Hne]; cbn [opt] in *; unfold wlap in *; lia.
Qed.
End runs.
End wq.
