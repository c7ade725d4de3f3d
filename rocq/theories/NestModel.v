(** Calls made by user code that an operation is running: the destructor of an element, a callback.

    For any machine of Conc.v.  Each call has a name of its own (a thread number of Conc.v).  A thread has a stack of calls; it can
    make a call when its stack is empty, or when its top call stands at a point where user code runs ([runs]).  Only the top call of a
    thread makes steps.  The owner of a lock is recorded as the call, not the thread; locking a std::mutex that another call of the
    same thread holds is undefined and is taken here as waiting for ever, as for two threads. *)
From stdpp Require Import list.
From Verif Require Import Base Conc.
Local Open Scope nat_scope.

Section nest.
Context {Sh Pc Ch Op Rt : Type}.
Variable start : Op -> Pc.
Variable istep : Sh -> nat -> Pc -> Ch -> option (Sh * Pc).
Variable fin : Pc -> option Rt.
(** User code is running at this point (of a call that is in this state) *)
Variable runs : Sh -> Pc -> bool.
Notation cfg := (cfg Sh Pc).
Notation act := (act Ch Op).
Notation exec := (exec start istep fin).
Notation run := (run start istep fin).
Implicit Types (c : cfg) (t u p q : nat) (pc : Pc) (o : Op).

Record ncfg := NCfg { fl : cfg; stk : nat -> list nat }.
Inductive nact := NCall (u : nat) (o : Op) | NInt (k : Ch) | NRet.
Implicit Types (N : ncfg) (zs : list (nat * nact)).

Definition may_call N t : bool :=
  match stk N t with [] => true | p :: _ => match th (fl N) p with Some pc => runs (sh (fl N)) pc | None => false end end.

(** The same action, by call *)
Definition flat_act N (x : nat * nact) : option (nat * act) :=
  match snd x, stk N (fst x) with
  | NCall u o, _ => if may_call N (fst x) then Some (u, ACall o) else None
  | NInt k, p :: _ => Some (p, AInt k)
  | NRet, p :: _ => Some (p, ARet)
  | _, _ => None
  end.
Definition new_stk (x : nat * nact) (l : list nat) : list nat := match snd x with NCall u _ => u :: l | NInt _ => l | NRet => tail l end.
Definition nexec N (x : nat * nact) : option (ncfg * list (hev Op Rt)) :=
  match flat_act N x with
  | Some y => match exec (fl N) y with Some (c', e) => Some (NCfg c' (fupd (fst x) (new_stk x (stk N (fst x))) (stk N)), e) | None => None end
  | None => None
  end.
Fixpoint nrun N zs : option (ncfg * list (hev Op Rt)) :=
  match zs with
  | [] => Some (N, [])
  | x :: zs' => match nexec N x with
                | Some (N1, e) => match nrun N1 zs' with Some (N2, H) => Some (N2, e ++ H) | None => None end
                | None => None
                end
  end.
Definition ninit (s : Sh) : ncfg := NCfg (init s) (fun _ => []).
Definition ncalls zs : list Op := omap (fun x => match snd x with NCall _ o => Some o | _ => None end) zs.

Lemma nrun_app N xs ys : nrun N (xs ++ ys) =
  match nrun N xs with Some (N1, H1) => match nrun N1 ys with Some (N2, H2) => Some (N2, H1 ++ H2) | None => None end | None => None end.
Proof.
  revert N. induction xs as [|x xs IH]; intros N; cbn; [destruct (nrun N ys) as [[]|]; reflexivity|].
  destruct (nexec N x) as [[N1 e]|]; [|reflexivity]. rewrite IH. destruct (nrun N1 xs) as [[N2 H2]|]; [|reflexivity]. destruct (nrun N2 ys) as [[N3 H3]|]; [|reflexivity]. rewrite app_assoc. reflexivity.
Qed.

(** ** Executions are executions by call *)
Lemma nrun_flat zs : forall N N' H, nrun N zs = Some (N', H) -> exists xs, run (fl N) xs = Some (fl N', H) /\ calls xs = ncalls zs.
Proof.
  induction zs as [|[t a] zs IH]; intros N N' H E; cbn [nrun] in E; [injection E as <- <-; exists []; auto|].
  destruct (nexec N (t, a)) as [[N1 e]|] eqn:Ex; [|discriminate]. destruct (nrun N1 zs) as [[N2 H2]|] eqn:Er; [|discriminate]. injection E as <- <-.
  destruct (IH _ _ _ Er) as (xs & E1 & E2). unfold nexec in Ex. destruct (flat_act N (t, a)) as [y|] eqn:Ef; [|discriminate]. destruct (exec (fl N) y) as [[c1 e1]|] eqn:Ee; [|discriminate]. injection Ex as <- <-. cbn [fl] in E1.
  exists (y :: xs). cbn [Conc.run]. rewrite Ee, E1. split; [reflexivity|]. unfold flat_act in Ef. cbn [fst snd] in Ef. unfold calls, ncalls in *. cbn [omap list_omap snd].
  destruct a; [destruct (may_call N t); [|discriminate]; injection Ef as <-|destruct (stk N t); [discriminate|]; injection Ef as <-..]; cbn [snd]; rewrite ?E2; auto; f_equal; exact E2.
Qed.

(** ** Stacks *)
Record stkI N : Prop := {
  s_in : forall u, th (fl N) u <> None <-> exists t, u ∈ stk N t;
  s_one : forall u t t', u ∈ stk N t -> u ∈ stk N t' -> t = t';
  s_dup : forall t, NoDup (stk N t);
}.
Lemma stk0 s : stkI (ninit s).
Proof. constructor; cbn; [|intros u t t' Hu; inversion Hu|intros t; constructor]. intros u. split; [congruence|]. intros [t Ht]. inversion Ht. Qed.

(** What a step does: the call that makes it is the top one afterwards, or was before and is gone. *)
Lemma nexec_cases N t a N' e : nexec N (t, a) = Some (N', e) ->
  match a with
  | NCall u o => may_call N t = true /\ th (fl N) u = None /\ fl N' = Cfg (sh (fl N)) (fupd u (Some (start o)) (th (fl N))) /\ stk N' = fupd t (u :: stk N t) (stk N) /\ e = [HInv u o]
  | NInt k => exists p l pc s' pc', stk N t = p :: l /\ th (fl N) p = Some pc /\ istep (sh (fl N)) p pc k = Some (s', pc') /\
      fl N' = Cfg s' (fupd p (Some pc') (th (fl N))) /\ stk N' = fupd t (stk N t) (stk N) /\ e = []
  | NRet => exists p l pc r, stk N t = p :: l /\ th (fl N) p = Some pc /\ fin pc = Some r /\ fl N' = Cfg (sh (fl N)) (fupd p None (th (fl N))) /\ stk N' = fupd t l (stk N) /\ e = [HRet p r]
  end.
Proof.
  unfold nexec, flat_act. cbn [fst snd]. destruct a as [u o|k|]; cbn [new_stk snd fst].
  - destruct (may_call N t); [|discriminate]. cbn [Conc.exec]. destruct (th (fl N) u) eqn:Eu; [discriminate|]. intros [= <- <-]. cbn. auto.
  - destruct (stk N t) as [|p l] eqn:Es; [discriminate|]. cbn [Conc.exec]. destruct (th (fl N) p) as [pc|] eqn:Ep; [|discriminate]. destruct (istep (sh (fl N)) p pc k) as [[s' pc']|] eqn:Ei; [|discriminate]. intros [= <- <-]. cbn. eauto 12.
  - destruct (stk N t) as [|p l] eqn:Es; [discriminate|]. cbn [Conc.exec]. destruct (th (fl N) p) as [pc|] eqn:Ep; [|discriminate]. destruct (fin pc) as [r|] eqn:Ei; [|discriminate]. intros [= <- <-]. cbn. eauto 12.
Qed.

Lemma stk_exec N x N' e : stkI N -> nexec N x = Some (N', e) -> stkI N'.
Proof.
  intros [I1 I2 I3] E. destruct x as [t a]. apply nexec_cases in E. destruct a as [u o|k|].
  - destruct E as (_ & Eu & Ef & Es & _). constructor; rewrite ?Ef, ?Es; cbn [th].
    + intros v. unfold fupd. destruct (Nat.eqb_spec v u) as [->|Hne]; [split; [|congruence]; intros _; exists t; rewrite Nat.eqb_refl; left|].
      rewrite I1. split; intros [t' Ht'].
      * exists t'. destruct (Nat.eqb_spec t' t) as [->|]; [right|]; exact Ht'.
      * revert Ht'. destruct (Nat.eqb_spec t' t) as [->|]; intros Ht'; [apply elem_of_cons in Ht' as [->|Ht']; [congruence|]|]; eauto.
    + assert (Hu : forall t', u ∉ stk N t') by (intros t' Hx; destruct (proj2 (I1 u) (ex_intro _ t' Hx) Eu)).
      intros v t1 t2. unfold fupd. destruct (Nat.eqb_spec t1 t) as [->|], (Nat.eqb_spec t2 t) as [->|]; auto; rewrite ?elem_of_cons.
      * intros [->|H1] H2; [destruct (Hu _ H2)|eauto].
      * intros H1 [->|H2]; [destruct (Hu _ H1)|eauto].
      * eauto.
    + intros t'. unfold fupd. destruct (Nat.eqb_spec t' t) as [->|]; [constructor; [intros Hx; destruct (proj2 (I1 u) (ex_intro _ t Hx) Eu)|auto]|auto].
  - destruct E as (p & l & pc & s' & pc' & Es0 & Ep & _ & Ef & Es & _). assert (Ex : forall t', stk N' t' = stk N t') by (intros t'; rewrite Es; unfold fupd; destruct (Nat.eqb_spec t' t) as [->|]; reflexivity).
    constructor.
    + intros v. rewrite Ef. cbn [th]. setoid_rewrite Ex. rewrite <- I1. unfold fupd. destruct (Nat.eqb_spec v p) as [->|]; [|reflexivity]. split; congruence.
    + intros v t1 t2. rewrite !Ex. apply I2.
    + intros t'. rewrite Ex. apply I3.
  - destruct E as (p & l & pc & r & Es0 & Ep & _ & Ef & Es & _). pose proof (I3 t) as Hd. rewrite Es0 in Hd. apply NoDup_cons in Hd as [Hp Hd]. constructor; rewrite ?Ef, ?Es; cbn [th].
    + intros v. unfold fupd. destruct (Nat.eqb_spec v p) as [->|Hne].
      * split; [congruence|]. intros [t' Ht']. exfalso. revert Ht'. destruct (Nat.eqb_spec t' t) as [->|Hn]; intros Ht'; [exact (Hp Ht')|]. apply Hn. eapply I2; [exact Ht'|]. rewrite Es0. left.
      * rewrite I1. split; intros [t' Ht'].
        -- exists t'. destruct (Nat.eqb_spec t' t) as [->|]; [|exact Ht']. rewrite Es0 in Ht'. apply elem_of_cons in Ht' as [->|Ht']; [congruence|exact Ht'].
        -- revert Ht'. destruct (Nat.eqb_spec t' t) as [->|]; intros Ht'; [|eauto]. exists t. rewrite Es0. right. exact Ht'.
    + assert (Hs : forall v t', v ∈ fupd t l (stk N) t' -> v ∈ stk N t') by (intros v t'; unfold fupd; destruct (Nat.eqb_spec t' t) as [->|]; [rewrite Es0; intros ?; right; assumption|auto]).
      intros v t1 t2 H1 H2. apply Hs in H1, H2. eauto.
    + intros t'. unfold fupd. destruct (Nat.eqb_spec t' t) as [->|]; auto.
Qed.
Lemma stk_run zs : forall N N' H, stkI N -> nrun N zs = Some (N', H) -> stkI N'.
Proof.
  induction zs as [|x zs IH]; intros N N' H Hi E; cbn [nrun] in E; [injection E as <- <-; exact Hi|].
  destruct (nexec N x) as [[N1 e]|] eqn:Ex; [|discriminate]. destruct (nrun N1 zs) as [[N2 H2]|] eqn:Er; [|discriminate]. injection E as <- <-. eapply IH; [eapply stk_exec; eassumption|exact Er].
Qed.

(** ** Calls of user code that runs under a lock are light: they need no lock *)
Variable inside : Pc -> bool.            (* user code may run here, *)
Variable locked : Pc -> bool.            (* and a lock is held *)
Variable light : Pc -> bool.
Hypothesis runs_inside : forall s pc, runs s pc = true -> inside pc = true.
Hypothesis light_inside : forall pc, light pc = true -> inside pc = false.
Hypothesis light_step : forall s t pc k s' pc', istep s t pc k = Some (s', pc') -> light pc = true -> light pc' = true.

(** The schedule makes only light calls from such points. *)
Definition tame_act N (x : nat * nact) : Prop :=
  match snd x, stk N (fst x) with
  | NCall _ o, p :: _ => forall pc, th (fl N) p = Some pc -> locked pc = true -> light (start o) = true
  | _, _ => True
  end.
Fixpoint tame N zs : Prop := match zs with [] => True | x :: zs' => tame_act N x /\ forall N1 e, nexec N x = Some (N1, e) -> tame N1 zs' end.

(** [a] was called by [b]. *)
Definition called N (a b : nat) : Prop := exists t l1 l2, stk N t = l1 ++ a :: b :: l2.
Definition calI N : Prop := forall a b, called N a b -> exists pb pa, th (fl N) b = Some pb /\ inside pb = true /\ th (fl N) a = Some pa /\ (locked pb = true -> light pa = true).

Lemma cal_exec N x N' e : stkI N -> calI N -> tame_act N x -> nexec N x = Some (N', e) -> calI N'.
Proof.
  intros [I1 I2 I3] Hc Ht E. destruct x as [t a]. apply nexec_cases in E. unfold tame_act in Ht. cbn [fst snd] in Ht. destruct a as [u o|k|].
  - destruct E as (Hm & Eu & Ef & Es & _). assert (Hu : forall t', u ∉ stk N t') by (intros t' Hx; destruct (proj2 (I1 u) (ex_intro _ t' Hx) Eu)).
    intros a b (t' & l1 & l2 & El). rewrite Es in El. unfold fupd in El. rewrite Ef. cbn [th].
    assert (Hold : called N a b -> exists pb pa, fupd u (Some (start o)) (th (fl N)) b = Some pb /\ inside pb = true /\ fupd u (Some (start o)) (th (fl N)) a = Some pa /\ (locked pb = true -> light pa = true)).
    { intros Hab. destruct (Hc _ _ Hab) as (pb & pa & E1 & E2 & E3 & E4). exists pb, pa. rewrite !fupd_other by congruence. auto. }
    revert El. destruct (Nat.eqb_spec t' t) as [->|]; intros El; [|apply Hold; exists t', l1, l2; exact El].
    destruct l1 as [|x l1]; cbn in El; injection El as Ex El; [|apply Hold; exists t, l1, l2; exact El]. subst a.
    unfold may_call in Hm. rewrite El in Hm, Ht. destruct (th (fl N) b) as [pb|] eqn:Eb; [|discriminate]. exists pb, (start o). rewrite fupd_same, fupd_other by congruence. split; [exact Eb|]. split; [eapply runs_inside, Hm|]. split; [reflexivity|]. exact (Ht pb eq_refl).
  - destruct E as (p & l & pc & s' & pc' & Es0 & Ep & Ei & Ef & Es & _). assert (Ex : forall t', stk N' t' = stk N t') by (intros t'; rewrite Es; unfold fupd; destruct (Nat.eqb_spec t' t) as [->|]; reflexivity).
    intros a b (t' & l1 & l2 & El). rewrite Ex in El. rewrite Ef. cbn [th]. destruct (Hc a b) as (pb & pa & E1 & E2 & E3 & E4); [exists t', l1, l2; exact El|].
    assert (Hb : b <> p). { intros ->. assert (t' = t) by (eapply (I2 p); [rewrite El; apply elem_of_app; right; right; left|rewrite Es0; left]). subst t'. pose proof (I3 t) as Hd. rewrite Es0 in El. rewrite Es0 in Hd. apply NoDup_cons in Hd as [Hd _].
      destruct l1 as [|x l1]; cbn in El; injection El as -> El; apply Hd; rewrite El; [left|apply elem_of_app; right; right; left]. }
    exists pb. rewrite (fupd_other p b) by exact Hb. unfold fupd. destruct (Nat.eqb_spec a p) as [->|].
    + exists pc'. split; [exact E1|]. split; [exact E2|]. split; [reflexivity|]. intros Hl. rewrite Ep in E3. injection E3 as ->. eapply light_step; eauto.
    + exists pa. auto.
  - destruct E as (p & l & pc & r & Es0 & Ep & _ & Ef & Es & _). intros a b (t' & l1 & l2 & El). rewrite Es in El. unfold fupd in El. rewrite Ef. cbn [th].
    assert (Hnp : forall v, v ∈ fupd t l (stk N) t' -> v <> p). { intros v Hv ->. unfold fupd in Hv. pose proof (I3 t) as Hd. rewrite Es0 in Hd. apply NoDup_cons in Hd as [Hp _]. revert Hv. destruct (Nat.eqb_spec t' t) as [->|Hn]; intros Hv; [exact (Hp Hv)|]. apply Hn. eapply I2; [exact Hv|rewrite Es0; left]. }
    assert (Ha : a <> p) by (apply Hnp; unfold fupd; rewrite El; apply elem_of_app; right; left). assert (Hb : b <> p) by (apply Hnp; unfold fupd; rewrite El; apply elem_of_app; right; right; left).
    rewrite !fupd_other by assumption. apply Hc. revert El. destruct (Nat.eqb_spec t' t) as [->|]; intros El; [exists t, (p :: l1), l2; rewrite Es0, El; reflexivity|exists t', l1, l2; exact El].
Qed.
Lemma cal0 s : calI (ninit s).
Proof. intros a b (t & l1 & l2 & E). cbn in E. destruct l1; discriminate. Qed.
Lemma cal_run zs : forall N N' H, stkI N -> calI N -> tame N zs -> nrun N zs = Some (N', H) -> calI N'.
Proof.
  induction zs as [|x zs IH]; intros N N' H Hi Hc Ht E; cbn [nrun] in E; [injection E as <- <-; exact Hc|].
  destruct (nexec N x) as [[N1 e]|] eqn:Ex; [|discriminate]. destruct (nrun N1 zs) as [[N2 H2]|] eqn:Er; [|discriminate]. injection E as <- <-. destruct Ht as [Ht1 Ht2].
  eapply IH; [eapply stk_exec; eassumption|eapply cal_exec; eassumption|eapply Ht2, Ex|exact Er].
Qed.

(** Some top call makes an ordinary step (as told by [fair]) or returns. *)
Variable fair : Ch -> Prop.
Hypothesis light_go : forall s t pc, light pc = true -> fin pc <> None \/ exists k, fair k /\ istep s t pc k <> None.
Definition goes N : Prop := exists t a N' e, ((exists k, fair k /\ a = NInt k) \/ a = NRet) /\ nexec N (t, a) = Some (N', e).
Definition flat_goes c u : Prop := exists a, ((exists k, fair k /\ a = AInt k) \/ a = ARet) /\ exec c (u, a) <> None.

Lemma top_goes N t p l : stk N t = p :: l -> flat_goes (fl N) p -> goes N.
Proof.
  intros Es (a & Ha & E). exists t. destruct Ha as [(k & Hk & ->)| ->]; [exists (NInt k)|exists NRet]; unfold nexec, flat_act; cbn [fst snd]; rewrite Es; (destruct (exec (fl N) (p, _)) as [[]|]; [|congruence]); eauto 8.
Qed.
Lemma any_goes N u pc : stkI N -> calI N -> th (fl N) u = Some pc -> (inside pc = true -> locked pc = true) -> flat_goes (fl N) u -> goes N.
Proof.
  intros [I1 I2 I3] Hc Eu Hl Hg. destruct (proj1 (I1 u)) as [t Ht]; [congruence|].
  apply elem_of_list_split in Ht as (l1 & l2 & El). destruct l1 as [|a l1 _] using rev_ind.
  - eapply top_goes; eassumption.
  - rewrite <- app_assoc in El. cbn in El. destruct (Hc a u) as (pb & pa & E1 & E2 & E3 & E4); [exists t; eauto|]. rewrite Eu in E1. injection E1 as <-. specialize (E4 (Hl E2)).
    match type of El with _ = ?l ++ _ => assert (l = []) as -> end.
    { match type of El with _ = ?l ++ _ => destruct l as [|y l' _] using rev_ind; [reflexivity|] end. exfalso. rewrite <- app_assoc in El. cbn in El. destruct (Hc y a) as (pb & pa' & F1 & F2 & _); [exists t; eauto|]. rewrite E3 in F1. injection F1 as <-. rewrite (light_inside _ E4) in F2. discriminate. }
    cbn in El. eapply top_goes; [exact El|]. unfold flat_goes. destruct (light_go (sh (fl N)) a pa E4) as [Hf|(k & Hk & Hs)].
    + exists ARet. split; [auto|]. cbn. rewrite E3. destruct (fin pa); congruence.
    + exists (AInt k). split; [eauto|]. cbn. rewrite E3. destruct (istep (sh (fl N)) a pa k) as [[]|]; congruence.
Qed.
End nest.

(** ** Calls that wait for ever *)
Section dead.
Context {Sh Pc Ch Op Rt : Type}.
Variable start : Op -> Pc.
Variable istep : Sh -> nat -> Pc -> Ch -> option (Sh * Pc).
Variable fin : Pc -> option Rt.
Variable runs : Sh -> Pc -> bool.
Notation nexec := (nexec start istep fin runs).
Notation nrun := (nrun start istep fin runs).
Implicit Types (N : ncfg (Sh := Sh) (Pc := Pc)) (T : nat -> Prop).
(** The call [p] stands at [pc0]; [I] is an invariant of the machine.  A call at a point in [Z] stays in [Z]. *)
Variable okop : Op -> Prop.
Variable I : cfg Sh Pc -> Prop.
Hypothesis I_exec : forall c x c' e, I c -> (forall o, snd x = ACall o -> okop o) -> exec start istep fin c x = Some (c', e) -> I c'.
Variables (p : nat) (pc0 : Pc) (Z : Pc -> Prop).
Hypothesis Z_step : forall c q pc k s' pc', I c -> th c p = Some pc0 -> th c q = Some pc -> Z pc -> istep (sh c) q pc k = Some (s', pc') -> Z pc'.
Hypothesis Z_fin : forall pc, Z pc -> fin pc = None.
Hypothesis Z_runs : forall s pc, Z pc -> runs s pc = false.

Definition at_Z N t : Prop := exists q l pc, stk N t = q :: l /\ th (fl N) q = Some pc /\ Z pc.
(** Thread [t0] is inside [p], below a call that waits. *)
Definition below N (t0 : nat) : Prop := th (fl N) p = Some pc0 /\ at_Z N t0 /\ p ∈ tail (stk N t0).

Lemma dead_exec N x N' e t0 : stkI N -> I (fl N) -> below N t0 -> (forall o, (exists u, snd x = NCall u o) -> okop o) -> nexec N x = Some (N', e) ->
  I (fl N') /\ th (fl N') p = Some pc0 /\ (forall t, at_Z N t -> at_Z N' t /\ stk N' t = stk N t) /\ (forall u t r, u ∈ stk N t -> at_Z N t -> ~ In (HRet u r) e).
Proof.
  intros [I1 I2 I3] Hi (Hp & (q0 & l0 & pz & Es0 & Eq0 & Hz0) & Hpt) Hop E. rewrite Es0 in Hpt. cbn in Hpt.
  assert (Hi' : I (fl N')). { unfold NestModel.nexec in E. destruct (flat_act runs N x) as [y|] eqn:Ef; [|discriminate]. destruct (exec start istep fin (fl N) y) as [[c1 e1]|] eqn:Ee; [|discriminate]. injection E as <- <-. cbn [fl].
    eapply I_exec; [exact Hi| |exact Ee]. intros o Ho. apply Hop. destruct x as [t [u o'|k|]]; unfold flat_act in Ef; cbn [fst snd] in *; [destruct (may_call runs N t); [|discriminate]|destruct (stk N t); [discriminate|]..]; injection Ef as <-; cbn in Ho; try discriminate. injection Ho as ->. eauto. }
  split; [exact Hi'|]. destruct x as [t a]. apply nexec_cases in E.
  assert (Hpz : forall t' a', at_Z N t' -> stk N t' = a' :: tail (stk N t') -> a' <> p \/ t' <> t0).
  { intros t' a' _ Ea. destruct (decide (t' = t0)) as [->|]; [left|right; assumption]. intros ->. pose proof (I3 t0) as Hd. rewrite Es0 in Ea, Hd. cbn in Ea. injection Ea as ->. apply NoDup_cons in Hd as [Hd _]. exact (Hd Hpt). }
  assert (Hown : forall v t', v ∈ stk N t' -> v = p -> t' = t0). { intros v t' Hv ->. eapply I2; [exact Hv|rewrite Es0; right; exact Hpt]. }
  destruct a as [u o|k|].
  - destruct E as (Hm & Eu & Ef & Es & ->). assert (Hu : forall t', u ∉ stk N t') by (intros t' Hx; destruct (proj2 (I1 u) (ex_intro _ t' Hx) Eu)).
    assert (Hpu : p <> u) by congruence. rewrite Ef, Es. cbn [th]. rewrite fupd_other by exact Hpu. split; [exact Hp|]. split; [|intros v t' r _ _ [[=]|[]]].
    intros t' Hz. assert (Hne : t' <> t). { intros ->. destruct Hz as (q & l & pc & E1 & E2 & E3). unfold may_call in Hm. rewrite E1, E2, (Z_runs _ _ E3) in Hm. discriminate. }
    unfold at_Z. rewrite Ef, Es. cbn [th]. rewrite (fupd_other t t') by exact Hne. split; [|reflexivity]. destruct Hz as (q & l & pc & E1 & E2 & E3). exists q, l, pc. split; [exact E1|]. split; [|exact E3]. rewrite fupd_other; [exact E2|congruence].
  - destruct E as (q & l & pc & s' & pc' & E1 & E2 & E3 & Ef & Es & ->). assert (Ex : forall t', stk N' t' = stk N t') by (intros t'; rewrite Es; unfold fupd; destruct (Nat.eqb_spec t' t) as [->|]; reflexivity).
    assert (Hqp : q <> p). { intros ->. assert (t = t0) by (apply (Hown p); [rewrite E1; left|reflexivity]). subst t. rewrite Es0 in E1. injection E1 as -> <-. pose proof (I3 t0) as Hd. rewrite Es0 in Hd. apply NoDup_cons in Hd as [Hd _]. exact (Hd Hpt). }
    rewrite Ef. cbn [th]. rewrite fupd_other by congruence. split; [exact Hp|]. split; [|intros v t' r _ _ []]. intros t' (q' & l' & pz' & F1 & F2 & F3). rewrite Ex. split; [|reflexivity]. exists q', l'. rewrite Ex, Ef. cbn [th]. unfold fupd. destruct (Nat.eqb_spec q' q) as [->|].
    + exists pc'. split; [exact F1|]. split; [reflexivity|]. rewrite E2 in F2. injection F2 as ->. eapply Z_step; [exact Hi|exact Hp|exact E2|exact F3|exact E3].
    + exists pz'. auto.
  - destruct E as (q & l & pc & r & E1 & E2 & E3 & Ef & Es & ->).
    assert (Hqp : q <> p). { intros ->. assert (t = t0) by (apply (Hown p); [rewrite E1; left|reflexivity]). subst t. rewrite Es0 in E1. injection E1 as -> <-. pose proof (I3 t0) as Hd. rewrite Es0 in Hd. apply NoDup_cons in Hd as [Hd _]. exact (Hd Hpt). }
    rewrite Ef. cbn [th]. rewrite fupd_other by congruence. split; [exact Hp|].
    assert (Hnz : ~ at_Z N t). { intros (q' & l' & pz' & F1 & F2 & F3). rewrite E1 in F1. injection F1 as <- <-. rewrite E2 in F2. injection F2 as <-. rewrite (Z_fin _ F3) in E3. discriminate. }
    split.
    + intros t' Hz. assert (Hne : t' <> t) by (intros ->; exact (Hnz Hz)). unfold at_Z. rewrite Ef, Es. cbn [th]. rewrite (fupd_other t t') by exact Hne. split; [|reflexivity]. destruct Hz as (q' & l' & pz' & F1 & F2 & F3). exists q', l', pz'. split; [exact F1|]. split; [|exact F3].
      rewrite fupd_other; [exact F2|]. intros ->. apply Hne. eapply I2; [rewrite F1; left|rewrite E1; left].
    + intros v t' r' Hv Hz [[= <- <-]|[]]. assert (t' = t) by (eapply I2; [exact Hv|rewrite E1; left]). subst t'. exact (Hnz Hz).
Qed.
Lemma dead_run zs : forall N N' H t0, stkI N -> I (fl N) -> below N t0 -> Forall okop (ncalls zs) -> nrun N zs = Some (N', H) ->
  below N' t0 /\ I (fl N') /\ forall t, at_Z N t -> at_Z N' t /\ stk N' t = stk N t /\ forall u r, u ∈ stk N t -> ~ In (HRet u r) H.
Proof.
  induction zs as [|x zs IH]; intros N N' H t0 Hs Hi Hb Hop E; cbn [NestModel.nrun] in E; [injection E as <- <-; split; [exact Hb|]; split; [exact Hi|]; intros t Hz; split; [exact Hz|]; split; [reflexivity|auto]|].
  destruct (nexec N x) as [[N1 e]|] eqn:Ex; [|discriminate]. destruct (nrun N1 zs) as [[N2 H2]|] eqn:Er; [|discriminate]. injection E as <- <-.
  assert (Hop1 : forall o, (exists u, snd x = NCall u o) -> okop o). { intros o [u Eu]. unfold ncalls in Hop. cbn [omap list_omap] in Hop. rewrite Eu in Hop. inversion Hop; assumption. }
  assert (Hop2 : Forall okop (ncalls zs)). { unfold ncalls in *. cbn [omap list_omap] in Hop. destruct x as [t [u o|k|]]; cbn [snd] in Hop; [inversion Hop; assumption|exact Hop|exact Hop]. }
  destruct (dead_exec _ _ _ _ _ Hs Hi Hb Hop1 Ex) as (Hi1 & Hp1 & Hz1 & Hr1).
  assert (Hb1 : below N1 t0). { destruct Hb as (_ & Hz & Hpt). destruct (Hz1 _ Hz) as [Hz' Est]. split; [exact Hp1|]. split; [exact Hz'|rewrite Est; exact Hpt]. }
  destruct (IH _ _ _ _ (stk_exec _ _ _ _ _ _ _ _ Hs Ex) Hi1 Hb1 Hop2 Er) as (Hb2 & Hi2 & Hz2). split; [exact Hb2|]. split; [exact Hi2|]. intros t Hz. destruct (Hz1 _ Hz) as [Hz' Est]. destruct (Hz2 _ Hz') as (Hz3 & Est3 & Hr3). split; [exact Hz3|]. split; [congruence|].
  intros u r Hu Hin. apply in_app_iff in Hin as [Hin|Hin]; [exact (Hr1 u t r Hu Hz Hin)|]. rewrite <- Est in Hu. exact (Hr3 u r Hu Hin).
Qed.
End dead.
