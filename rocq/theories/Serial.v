(** Which call a thread is inside of; executions in which calls do not overlap *)
From stdpp Require Import list.
From Verif Require Import Base Conc Herlihy.

Section machine.
Context {Sh Pc Ch Op Rt : Type}.
Variable start : Op -> Pc.
Variable istep : Sh -> nat -> Pc -> Ch -> option (Sh * Pc).
Variable fin : Pc -> option Rt.
Notation cfg := (cfg Sh Pc).
Notation act := (act Ch Op).
Implicit Types (c : cfg) (H : list (hev Op Rt)).

(** [K o pc]: a thread may be at [pc] while it executes [o]. *)
Section pending.
Variable K : Op -> Pc -> Prop.
Hypothesis K_start : forall o, K o (start o).
Hypothesis K_step : forall s t pc k s' pc' o, istep s t pc k = Some (s', pc') -> K o pc -> K o pc'.

Definition pendI H c : Prop := forall t pc, th c t = Some pc -> exists i o, last_ev H t i (HInv t o) /\ K o pc.

Lemma pend_exec H c x c' e : pendI H c -> exec start istep fin c x = Some (c', e) -> pendI (H ++ e) c'.
Proof.
  intros Hp. destruct x as [t [o|k|]]; cbn.
  - destruct (th c t) eqn:Et; [discriminate|]. intros [= <- <-] u pc Eu. cbn in Eu. unfold fupd in Eu. destruct (Nat.eqb_spec u t) as [->|Hne].
    + injection Eu as <-. exists (length H), o. split; [apply last_new; reflexivity|apply K_start].
    + destruct (Hp _ _ Eu) as (i & o' & Hl & Hk). exists i, o'. split; [|exact Hk]. apply last_old; [cbn; congruence|exact Hl].
  - destruct (th c t) as [pc|] eqn:Et; [|discriminate]. destruct (istep (sh c) t pc k) as [[s' pc']|] eqn:Es; [|discriminate]. intros [= <- <-]. rewrite app_nil_r.
    intros u pu Eu. cbn in Eu. unfold fupd in Eu. destruct (Nat.eqb_spec u t) as [->|Hne]; [|auto]. injection Eu as <-.
    destruct (Hp _ _ Et) as (i & o' & Hl & Hk). eauto.
  - destruct (th c t) as [pc|] eqn:Et; [|discriminate]. destruct (fin pc) as [r|] eqn:Ef; [|discriminate]. intros [= <- <-] u pu Eu. cbn in Eu. unfold fupd in Eu.
    destruct (Nat.eqb_spec u t) as [->|Hne]; [discriminate|]. destruct (Hp _ _ Eu) as (i & o' & Hl & Hk). exists i, o'. split; [|exact Hk]. apply last_old; [cbn; congruence|exact Hl].
Qed.

Lemma pend_run xs : forall H c c' H', pendI H c -> run start istep fin c xs = Some (c', H') -> pendI (H ++ H') c'.
Proof.
  induction xs as [|x xs IH]; intros H c c' H' Hp; cbn.
  - intros [= <- <-]. rewrite app_nil_r. exact Hp.
  - destruct (exec start istep fin c x) as [[c1 e]|] eqn:Ex; [|discriminate]. destruct (run start istep fin c1 xs) as [[c2 H2]|] eqn:Er; [|discriminate]. intros [= <- <-].
    rewrite app_assoc. eapply IH; [|exact Er]. eapply pend_exec; eassumption.
Qed.

Lemma pending s xs c H t pc : run start istep fin (init s) xs = Some (c, H) -> th c t = Some pc -> exists i o, last_ev H t i (HInv t o) /\ K o pc.
Proof. intros Er. change H with ([] ++ H). eapply pend_run; [|exact Er]. intros u pu Eu. discriminate. Qed.
End pending.

(** One call from start to return, nobody else moving *)
Definition block (b : nat * Op * list Ch) : list (nat * act) :=
  let '(t, o, ks) := b in (t, ACall o) :: map (fun k => (t, AInt k)) ks ++ [(t, ARet)].
Definition serial (bs : list (nat * Op * list Ch)) : list (nat * act) := concat (map block bs).

Fixpoint solo (s : Sh) (t : nat) (pc : Pc) (ks : list Ch) : option (Sh * Rt) :=
  match ks with
  | [] => match fin pc with Some r => Some (s, r) | None => None end
  | k :: ks' => match istep s t pc k with Some (s', pc') => solo s' t pc' ks' | None => None end
  end.

Lemma run_solo ks : forall c t pc c' H, th c t = Some pc -> run start istep fin c (map (fun k => (t, AInt k)) ks ++ [(t, ARet)]) = Some (c', H) ->
  exists r, solo (sh c) t pc ks = Some (sh c', r) /\ th c' t = None /\ (forall u, u <> t -> th c' u = th c u) /\ H = [HRet t r].
Proof.
  induction ks as [|k ks IH]; intros c t pc c' H Et; cbn; rewrite Et.
  - destruct (fin pc) as [r|]; [|discriminate]. intros [= <- <-]. exists r. cbn. rewrite fupd_same. split; [reflexivity|]. split; [reflexivity|].
    split; [|reflexivity]. intros u Hu. apply fupd_other, Hu.
  - destruct (istep (sh c) t pc k) as [[s' pc']|] eqn:Es; [|discriminate].
    destruct (run _ _ _ _ _) as [[c2 H2]|] eqn:Er; [|discriminate]. intros [= <- <-].
    destruct (IH (Cfg s' (fupd t (Some pc') (th c))) t pc' _ _ (fupd_same _ _ _) Er) as (r & E1 & E2 & E3 & E4). cbn in E1. exists r. split; [exact E1|]. split; [exact E2|]. split; [|exact E4].
    intros u Hu. rewrite E3 by exact Hu. cbn. apply fupd_other, Hu.
Qed.

Lemma run_block c t o ks c' H : run start istep fin c (block (t, o, ks)) = Some (c', H) ->
  exists r, th c t = None /\ solo (sh c) t (start o) ks = Some (sh c', r) /\ (forall u, th c' u = th c u) /\ H = [HInv t o; HRet t r].
Proof.
  unfold block. cbn. destruct (th c t) eqn:Et; [discriminate|]. destruct (run _ _ _ _ _) as [[c2 H2]|] eqn:Er; [|discriminate]. intros [= <- <-].
  destruct (run_solo _ (Cfg (sh c) (fupd t (Some (start o)) (th c))) _ _ _ _ (fupd_same _ _ _) Er) as (r & E1 & E2 & E3 & ->). exists r. split; [reflexivity|]. split; [exact E1|]. split; [|reflexivity].
  intros u. destruct (Nat.eq_dec u t) as [->|Hu]; [congruence|]. rewrite E3 by exact Hu. cbn. apply fupd_other, Hu.
Qed.

Lemma block_run c t o ks s' r : th c t = None -> solo (sh c) t (start o) ks = Some (s', r) ->
  exists c', run start istep fin c (block (t, o, ks)) = Some (c', [HInv t o; HRet t r]) /\ sh c' = s' /\ forall u, th c' u = th c u.
Proof.
  intros Et Es. unfold block. cbn. rewrite Et.
  assert (Hg : forall ks c pc, th c t = Some pc -> solo (sh c) t pc ks = Some (s', r) ->
    exists c', run start istep fin c (map (fun k => (t, AInt k)) ks ++ [(t, ARet)]) = Some (c', [HRet t r]) /\ sh c' = s').
  { clear. induction ks as [|k ks IH]; intros c pc Et; cbn; rewrite Et.
    - destruct (fin pc) as [r'|]; [|discriminate]. intros [= <- <-]. eexists. split; reflexivity.
    - destruct (istep (sh c) t pc k) as [[s1 pc1]|]; [|discriminate]. intros Es. destruct (IH (Cfg s1 (fupd t (Some pc1) (th c))) pc1) as (c' & E & E'); [apply fupd_same|exact Es|].
      rewrite E. eauto. }
  destruct (Hg ks (Cfg (sh c) (fupd t (Some (start o)) (th c))) (start o)) as (c' & E & E'); [apply fupd_same|exact Es|]. rewrite E. exists c'. split; [reflexivity|]. split; [exact E'|].
  destruct (run_solo _ (Cfg (sh c) (fupd t (Some (start o)) (th c))) _ _ _ _ (fupd_same _ _ _) E) as (r1 & _ & E2 & E3 & _).
  intros u. destruct (Nat.eq_dec u t) as [->|Hu]; [congruence|]. rewrite E3 by exact Hu. cbn. apply fupd_other, Hu.
Qed.

(** The history of the calls [(t, o, r)] one after the other *)
Definition calls_of (L : list (nat * Op * Rt)) : list (hev Op Rt) := flat_map (fun x => [HInv x.1.1 x.1.2; HRet x.1.1 x.2]) L.

(** If every call alone behaves as [spec] says and keeps [J], so do all serial executions. *)
Lemma serial_run {Q} (spec : Q -> Op -> Rt -> Q -> Prop) (J : Sh -> Prop) (q : Sh -> Q) (ok : Op -> Prop) :
  (forall s t o ks s' r, J s -> ok o -> solo s t (start o) ks = Some (s', r) -> J s' /\ spec (q s) o r (q s')) ->
  forall bs c c' H, J (sh c) -> Forall (fun b => ok b.1.2) bs -> run start istep fin c (serial bs) = Some (c', H) ->
  J (sh c') /\ (forall u, th c' u = th c u) /\ exists L, H = calls_of L /\ legal spec (q (sh c)) L (q (sh c')).
Proof.
  intros Hstep. induction bs as [|[[t o] ks] bs IH]; intros c c' H Hj Hok.
  - intros [= <- <-]. split; [exact Hj|]. split; [auto|]. exists []. split; [reflexivity|constructor].
  - apply Forall_cons in Hok as [Ho Hok]. cbn in Ho. change (serial ((t, o, ks) :: bs)) with (block (t, o, ks) ++ serial bs). rewrite run_app.
    destruct (run start istep fin c (block (t, o, ks))) as [[c1 H1]|] eqn:E1; [|discriminate].
    destruct (run start istep fin c1 (serial bs)) as [[c2 H2]|] eqn:E2; [|discriminate]. intros [= <- <-].
    destruct (run_block _ _ _ _ _ _ E1) as (r & _ & Es & Et & ->). destruct (Hstep _ _ _ _ _ _ Hj Ho Es) as [Hj1 Hs].
    destruct (IH _ _ _ Hj1 Hok E2) as (Hj2 & Et2 & L & -> & Hl). split; [exact Hj2|]. split; [intros u; rewrite Et2; apply Et|].
    exists ((t, o, r) :: L). split; [reflexivity|]. econstructor; eassumption.
Qed.
End machine.
