(** Work that uses the WorkQueue it is executed by.

    Each call has a name of its own (a number, like a thread of WqModel.v; a worker's own frame has the worker's number).
    A thread has a stack of calls; it can make a call when its stack is empty (a user outside) or when its top call is running
    a piece of work (point [X2]: execute() has started the work [88], which is over when [X2] is left [90]).  Only the top call
    of a thread makes steps.  All steps but one are those of WqModel.v; no lock is held at [X2], so that it makes no difference
    that the owner of a lock is recorded as the call, not the thread.

    The exception: closeWorkerQueue called by the work of a worker comes to join that worker itself [333].  std::thread::join then
    throws (resource_deadlock_would_occur; C++14 30.3.1.5), and the call ends by that exception ([NExc]), giving back queueLock if
    it holds it.  Whether the work catches it or not, a WorkBlock goes on: std::packaged_task keeps it in the future [89]; that
    a class derived from BasicWorkBlock lets it out of execute() and so ends the program is not modelled.  A call ended like this
    remains in [th] without being in any stack: it does nothing any more. *)
From stdpp Require Import list.
From Verif Require Import Base Conc CondVar Herlihy SqModel SqSpec SqProofs WqModel WqProofs WqCount WqMore WqBound WqLive WqSeq WqPrio WqOpen WqDrain WqMisc.
Local Open Scope nat_scope.

Section wq.
Variable nw : nat.
Notation wqcfg := (cfg wqsh wqpc).
Implicit Types (s : wqsh) (pc : wqpc) (c : wqcfg) (H : list (hev wqop wqret)).

Record ncfg := NCfg { fl : wqcfg; stk : nat -> list nat }.
Inductive nact := NCall (u : nat) (o : wqop) | NInt (k : cvc) | NRet | NExc.
Implicit Types (N : ncfg) (zs : list (nat * nact)).

Definition in_work pc : bool := match pc with X2 _ _ => true | _ => false end.
(** Thread [t] can call something now. *)
Definition may_call N (t : nat) : bool :=
  match stk N t with [] => true | p :: _ => match th (fl N) p with Some pc => in_work pc | None => false end end.

(** The same action in WqModel.v *)
Definition flat_act N (x : nat * nact) : option (nat * act cvc wqop) :=
  match snd x, stk N (fst x) with
  | NCall u o, _ => if may_call N (fst x) then Some (u, ACall o) else None
  | NInt k, p :: _ => Some (p, AInt k)
  | NRet, p :: _ => Some (p, ARet)
  | _, _ => None
  end.
Definition new_stk (x : nat * nact) (l : list nat) : list nat := match snd x with NCall u _ => u :: l | NInt _ => l | NRet | NExc => tail l end.
(** Thread [t] is about to join itself; [h]: holding queueLock. *)
Definition joins_self N (t : nat) : option (nat * bool) :=
  match stk N t with
  | p :: _ => match th (fl N) p with
              | Some (CJ k h) => if Nat.ltb t nw && Nat.eqb k t && negb (inb k (joined (sh (fl N)))) then Some (p, h) else None
              | _ => None
              end
  | [] => None
  end.
Definition unwind c (p t : nat) (h : bool) : wqcfg := if h then Cfg (set_lock None (sh c)) (fupd p (Some (CJ t false)) (th c)) else c.

Definition nexec N (x : nat * nact) : option (ncfg * list (hev wqop wqret)) :=
  let st := fupd (fst x) (new_stk x (stk N (fst x))) (stk N) in
  match snd x with
  | NExc => match joins_self N (fst x) with Some (p, h) => Some (NCfg (unwind (fl N) p (fst x) h) st, []) | None => None end
  | _ => match flat_act N x with
         | Some y => match wq_exec nw (fl N) y with Some (c', e) => Some (NCfg c' st, e) | None => None end
         | None => None
         end
  end.
Fixpoint nrun N zs : option (ncfg * list (hev wqop wqret)) :=
  match zs with
  | [] => Some (N, [])
  | x :: zs' => match nexec N x with
                | Some (N1, e) => match nrun N1 zs' with Some (N2, H) => Some (N2, e ++ H) | None => None end
                | None => None
                end
  end.
Definition ninit (f : nat -> bool) : ncfg := NCfg (wq_init nw f) (fun t => if Nat.ltb t nw then [t] else []).

(** ** Executions are ones of WqModel.v, *)
(** as long as no exception is thrown holding queueLock: *)
Definition hard N (x : nat * nact) : bool := match snd x, joins_self N (fst x) with NExc, Some (_, true) => true | _, _ => false end.
Fixpoint calm N zs : Prop := match zs with [] => True | x :: zs' => hard N x = false /\ forall N1 e, nexec N x = Some (N1, e) -> calm N1 zs' end.
Definition flat_op (a : nact) : option wqop := match a with NCall _ o => Some o | _ => None end.
Definition ncalls zs : list wqop := omap (fun x => flat_op (snd x)) zs.

Lemma nexec_flat N x N' e : hard N x = false -> nexec N x = Some (N', e) ->
  stk N' = fupd (fst x) (new_stk x (stk N (fst x))) (stk N) /\
  ((snd x = NExc /\ fl N' = fl N /\ e = [] /\ exists p, joins_self N (fst x) = Some (p, false)) \/ exists y, flat_act N x = Some y /\ wq_exec nw (fl N) y = Some (fl N', e)).
Proof.
  unfold hard, nexec. destruct x as [t a]. cbn [fst snd]. intros Hh Ex.
  destruct a as [u o|k| |]; [| | |destruct (joins_self N t) as [[p [|]]|]; try discriminate; injection Ex as <- <-; cbn; eauto 10];
    (destruct (flat_act N _) as [y|]; [|discriminate]; destruct (wq_exec nw (fl N) y) as [[c' e']|] eqn:Ec; [|discriminate]; injection Ex as <- <-; cbn [fl stk]; eauto 10).
Qed.
Lemma nrun_flat zs : forall N N' H, calm N zs -> nrun N zs = Some (N', H) ->
  exists ys, wq_run nw (fl N) ys = Some (fl N', H) /\ calls ys = ncalls zs /\ (Forall (fun x => snd x <> NExc) zs -> length ys = length zs) /\
    (Forall (fun x => snd x <> NInt CTime /\ snd x <> NInt CSpur) zs -> Forall (fun y => snd y <> AInt CTime /\ snd y <> AInt CSpur) ys).
Proof.
  induction zs as [|x zs IH]; intros N N' H; cbn [nrun calm].
  - intros _ [= <- <-]. exists []. splits; auto.
  - intros [Hh Hc]. destruct (nexec N x) as [[N1 e]|] eqn:Ex; [|discriminate]. destruct (nrun N1 zs) as [[N2 H2]|] eqn:Er; [|discriminate]. intros [= <- <-].
    destruct (IH _ _ _ (Hc _ _ eq_refl) Er) as (ys & E1 & E2 & E3 & E4). destruct (nexec_flat _ _ _ _ Hh Ex) as [_ [(Ea & Ef & -> & _)|(y & Ey & Ec)]].
    + exists ys. rewrite Ef in E1. split; [exact E1|]. split; [rewrite E2; unfold ncalls; cbn; rewrite Ea; reflexivity|]. split.
      * intros Hf. inversion Hf. congruence.
      * intros Hf. inversion Hf. auto.
    + exists (y :: ys). splits.
      * unfold wq_run, wq_exec in *. cbn [run]. rewrite Ec, E1. reflexivity.
      * unfold flat_act in Ey. destruct x as [t a]. cbn [fst snd] in *. unfold ncalls, calls in *. destruct a as [u o|k| |]; [|destruct (stk N t); [discriminate|]..|].
        -- destruct (may_call N t); [|discriminate]. injection Ey as <-. cbn. rewrite E2. reflexivity.
        -- injection Ey as <-. cbn. rewrite E2. reflexivity.
        -- injection Ey as <-. cbn. rewrite E2. reflexivity.
        -- destruct (stk N t); discriminate.
      * intros Hf. inversion Hf. cbn. rewrite E3 by assumption. reflexivity.
      * intros Hf. inversion Hf as [|? ? Hf1 Hf2]. constructor; [|auto]. unfold flat_act in Ey. destruct x as [t a]. cbn [fst snd] in *. destruct a as [u o|k| |]; [|destruct (stk N t); [discriminate|]..|].
        -- destruct (may_call N t); [|discriminate]. injection Ey as <-. split; discriminate.
        -- injection Ey as <-. cbn. split; intros [= ->]; tauto.
        -- injection Ey as <-. split; discriminate.
        -- destruct (stk N t); discriminate.
Qed.
Lemma nrun_app zs1 : forall N zs2, nrun N (zs1 ++ zs2) =
  match nrun N zs1 with Some (N1, H1) => match nrun N1 zs2 with Some (N2, H2) => Some (N2, H1 ++ H2) | None => None end | None => None end.
Proof.
  induction zs1 as [|x zs1 IH]; intros N zs2; cbn [app nrun].
  - destruct (nrun N zs2) as [[? ?]|]; reflexivity.
  - destruct (nexec N x) as [[N1 e]|]; [|reflexivity]. rewrite IH. destruct (nrun N1 zs1) as [[N2 H2]|]; [|reflexivity].
    destruct (nrun N2 zs2) as [[N3 H3]|]; [|reflexivity]. rewrite app_assoc. reflexivity.
Qed.

(** ** Stacks *)
Record nestI N : Prop := {
  ni_in : forall t p, In p (stk N t) -> th (fl N) p <> None;
  ni_ex : forall p, th (fl N) p <> None -> (exists t, In p (stk N t)) \/ exists k, th (fl N) p = Some (CJ k false);
  ni_one : forall t u p, In p (stk N t) -> In p (stk N u) -> t = u;
  ni_dup : forall t, NoDup (stk N t);
  ni_top : forall t p l, stk N t = p :: l -> forall q, In q l -> exists b e, th (fl N) q = Some (X2 b e);
  ni_base : forall w, w < nw -> exists l, stk N w = l ++ [w];
}.

Lemma nestI_init f : nestI (ninit f).
Proof.
  assert (Hs : forall t p, In p (stk (ninit f) t) <-> p = t /\ t < nw).
  { intros t p. cbn [ninit stk]. destruct (Nat.ltb_spec t nw); cbn [In]; [split; [intros [->|[]]; auto|intros [-> _]; auto]|split; [intros []|intros [_ E]; lia]]. }
  constructor.
  - intros t p E. apply Hs in E as [-> E]. cbn [ninit fl wq_init th]. apply Nat.ltb_lt in E. rewrite E. discriminate.
  - intros p E. left. exists p. apply Hs. split; [reflexivity|]. cbn [ninit fl wq_init th] in E. destruct (Nat.ltb_spec p nw); congruence.
  - intros t u p E1 E2. apply Hs in E1 as [-> _], E2 as [-> _]. reflexivity.
  - intros t. cbn [ninit stk]. destruct (Nat.ltb t nw); [apply NoDup_singleton|apply NoDup_nil_2].
  - intros t p l. cbn [ninit stk]. destruct (Nat.ltb t nw); [intros [= <- <-] q []|discriminate].
  - intros w Hw. exists []. cbn [ninit stk]. apply Nat.ltb_lt in Hw. rewrite Hw. reflexivity.
Qed.

Lemma nestI_exec N x N' e : nestI N -> (forall w, w < nw -> exists pc, th (fl N) w = Some pc /\ workpc pc = true) -> nexec N x = Some (N', e) -> nestI N'.
Proof.
  intros [J1 J2 J3 J4 J5 J6] Ho Ex. unfold nexec, flat_act in Ex. destruct x as [t a]. cbn [fst snd] in Ex. unfold new_stk in Ex. cbn [snd] in Ex. destruct a as [u o|k| |].
  - destruct (may_call N t) eqn:Em; [|discriminate]. unfold wq_exec in Ex. cbn in Ex. destruct (th (fl N) u) eqn:Eu; [discriminate|]. injection Ex as <- _.
    assert (Hfresh : forall v, ~ In u (stk N v)) by (intros v Hv; apply (J1 _ _ Hv); exact Eu). constructor; cbn [fl stk sh th].
    + intros v p. unfold fupd. destruct (Nat.eqb_spec v t) as [->|Hv]; destruct (Nat.eqb_spec p u) as [->|Hp]; try discriminate; cbn; intros E; [destruct E as [E|E]; [congruence|eauto]|eauto].
    + intros p. unfold fupd. destruct (Nat.eqb_spec p u) as [->|Hp]; [intros _; left; exists t; rewrite Nat.eqb_refl; left; reflexivity|].
      intros E. destruct (J2 _ E) as [(v & Hv)|Hk]; [left|right; exact Hk]. exists v. destruct (Nat.eqb_spec v t) as [->|]; [right|]; exact Hv.
    + intros v w p. unfold fupd. destruct (Nat.eqb_spec v t) as [->|Hv], (Nat.eqb_spec w t) as [->|Hw]; auto; cbn; intros E1 E2; [destruct E1 as [<-|E1]; [destruct (Hfresh _ E2)|eauto]|destruct E2 as [<-|E2]; [destruct (Hfresh _ E1)|eauto]|eauto].
    + intros v. unfold fupd. destruct (Nat.eqb_spec v t) as [->|Hv]; [|apply J4]. apply NoDup_cons_2; [|apply J4]. intros E. apply elem_of_list_In in E. eapply Hfresh, E.
    + intros v p l. unfold fupd at 1. destruct (Nat.eqb_spec v t) as [->|Hv].
      * intros [= <- <-] q Hq. rewrite fupd_other by (intros ->; eapply Hfresh, Hq). unfold may_call in Em. destruct (stk N t) as [|p l] eqn:Es; [destruct Hq|].
        destruct Hq as [<-|Hq]; [|eauto]. destruct (th (fl N) p) as [[]|]; try discriminate. eauto.
      * intros E q Hq. rewrite fupd_other; [eauto|]. intros ->. apply (Hfresh v). rewrite E. right. exact Hq.
    + intros w Hw. destruct (J6 w Hw) as (l & E). unfold fupd. destruct (Nat.eqb_spec w t) as [->|]; [exists (u :: l); rewrite E; reflexivity|eauto].
  - destruct (stk N t) as [|p l] eqn:Et; [discriminate|]. unfold wq_exec in Ex. cbn in Ex. destruct (th (fl N) p) as [pc|] eqn:Ep; [|discriminate].
    destruct (wq_step nw (sh (fl N)) p pc k) as [[s' pc']|] eqn:Es; [|discriminate]. injection Ex as <- _.
    assert (Hst : forall v, fupd t (p :: l) (stk N) v = stk N v) by (intros v; unfold fupd; destruct (Nat.eqb_spec v t) as [->|]; congruence).
    constructor; cbn [fl stk sh th]; setoid_rewrite Hst.
    + intros v q Hq. unfold fupd. destruct (Nat.eqb q p); [discriminate|eauto].
    + intros q. unfold fupd. destruct (Nat.eqb_spec q p) as [->|]; [intros _; left; exists t; rewrite Et; left; reflexivity|eauto].
    + exact J3.
    + exact J4.
    + intros v q l' E r Hr. rewrite fupd_other; [eauto|]. intros ->.
      assert (v = t) as -> by (eapply J3; [rewrite E; right; exact Hr|rewrite Et; left; reflexivity]). rewrite Et in E. injection E as <- <-.
      specialize (J4 t). rewrite Et in J4. apply NoDup_cons_1_1 in J4. apply J4, elem_of_list_In, Hr.
    + exact J6.
  - destruct (stk N t) as [|p l] eqn:Et; [discriminate|]. unfold wq_exec in Ex. cbn in Ex. destruct (th (fl N) p) as [pc|] eqn:Ep; [|discriminate].
    destruct (wq_fin pc) as [r|] eqn:Ef; [|discriminate]. injection Ex as <- _. pose proof (J4 t) as Hd. rewrite Et in Hd. apply NoDup_cons in Hd as [Hd1 Hd2].
    assert (Hin : forall v q, In q (fupd t l (stk N) v) <-> In q (stk N v) /\ q <> p).
    { intros v q. unfold fupd. destruct (Nat.eqb_spec v t) as [->|Hv].
      - rewrite Et. cbn. split; [|intros [[->|E] E']; congruence]. intros E. split; [auto|]. intros ->. apply Hd1, elem_of_list_In, E.
      - split; [|tauto]. intros E. split; [exact E|]. intros ->. apply Hv. eapply J3; [exact E|rewrite Et; left; reflexivity]. }
    constructor; cbn [fl stk sh th tail].
    + intros v q Hq. apply Hin in Hq as [Hq Hne]. rewrite fupd_other by exact Hne. eauto.
    + intros q. unfold fupd at 1 3. destruct (Nat.eqb_spec q p) as [->|Hne]; [congruence|]. intros E. destruct (J2 _ E) as [(v & Hv)|Hk]; [left|right; exact Hk]. exists v. apply Hin. auto.
    + intros v w q E1 E2. apply Hin in E1 as [E1 _], E2 as [E2 _]. eauto.
    + intros v. unfold fupd. destruct (Nat.eqb v t); [exact Hd2|apply J4].
    + intros v q l' E r' Hr. assert (Hr' : In r' (fupd t l (stk N) v)) by (rewrite E; right; exact Hr). apply Hin in Hr' as [Hr1 Hr2]. rewrite fupd_other by exact Hr2.
      unfold fupd in E. destruct (Nat.eqb_spec v t) as [->|]; [eapply J5; [exact Et|rewrite E; right; exact Hr]|eauto].
    + intros w Hw. destruct (J6 w Hw) as (l' & E). unfold fupd. destruct (Nat.eqb_spec w t) as [->|]; [|eauto]. rewrite Et in E. destruct l' as [|q l']; cbn in E; injection E as -> ->.
      * destruct (Ho t Hw) as (pw & E1 & E2). rewrite Ep in E1. injection E1 as <-. destruct pc; discriminate.
      * eauto.
  - unfold joins_self in Ex. destruct (stk N t) as [|p l] eqn:Et; [discriminate|]. destruct (th (fl N) p) as [pc|] eqn:Ep; [|discriminate]. destruct pc; try discriminate.
    destruct (Nat.ltb t nw && Nat.eqb k t && negb (inb k (joined (sh (fl N))))) eqn:Ec; [|discriminate]. apply andb_prop in Ec as [Ec _]. apply andb_prop in Ec as [Ew Ek].
    apply Nat.ltb_lt in Ew. apply Nat.eqb_eq in Ek. subst k. injection Ex as <- _. pose proof (J4 t) as Hd. rewrite Et in Hd. apply NoDup_cons in Hd as [Hd1 Hd2].
    assert (Hth : forall q, th (unwind (fl N) p t h) q = if Nat.eqb q p then Some (CJ t false) else th (fl N) q).
    { intros q. unfold unwind. destruct h; cbn [th]; [reflexivity|]. destruct (Nat.eqb_spec q p) as [->|]; [exact Ep|reflexivity]. }
    assert (Hin : forall v q, In q (fupd t l (stk N) v) <-> In q (stk N v) /\ q <> p).
    { intros v q. unfold fupd. destruct (Nat.eqb_spec v t) as [->|Hv].
      - rewrite Et. cbn. split; [|intros [[->|E] E']; congruence]. intros E. split; [auto|]. intros ->. apply Hd1, elem_of_list_In, E.
      - split; [|tauto]. intros E. split; [exact E|]. intros ->. apply Hv. eapply J3; [exact E|rewrite Et; left; reflexivity]. }
    constructor; cbn [fl stk tail].
    + intros v q Hq. apply Hin in Hq as [Hq Hne]. rewrite Hth. destruct (Nat.eqb q p); [discriminate|eauto].
    + intros q. rewrite Hth. destruct (Nat.eqb_spec q p) as [->|Hne]; [eauto|]. intros E. destruct (J2 _ E) as [(v & Hv)|Hk]; [left|right; exact Hk]. exists v. apply Hin. auto.
    + intros v w q E1 E2. apply Hin in E1 as [E1 _], E2 as [E2 _]. eauto.
    + intros v. unfold fupd. destruct (Nat.eqb v t); [exact Hd2|apply J4].
    + intros v q l' E r' Hr. assert (Hr' : In r' (fupd t l (stk N) v)) by (rewrite E; right; exact Hr). apply Hin in Hr' as [Hr1 Hr2]. rewrite Hth. destruct (Nat.eqb_spec r' p); [contradiction|].
      unfold fupd in E. destruct (Nat.eqb_spec v t) as [->|]; [eapply J5; [exact Et|rewrite E; right; exact Hr]|eauto].
    + intros w Hw. destruct (J6 w Hw) as (l' & E). unfold fupd. destruct (Nat.eqb_spec w t) as [->|]; [|eauto]. rewrite Et in E. destruct l' as [|q l']; cbn in E; injection E as -> ->.
      * destruct (Ho t Hw) as (pw & E1 & E2). rewrite Ep in E1. injection E1 as <-. discriminate.
      * eauto.
Qed.

(** *** What holds in all executions, with or without such exceptions *)
Record baseI N : Prop := {
  bi_nest : nestI N;
  bi_work : forall w, w < nw -> exists pc, th (fl N) w = Some pc /\ workpc pc = true;
  bi_shape : shaped (fl N);
  bi_gone : forall w, inb w (gone (sh (fl N))) = true -> th (fl N) w = Some WE;
  bi_joined : forall w, inb w (joined (sh (fl N))) = true -> inb w (gone (sh (fl N))) = true;
}.

Lemma baseI_init f : baseI (ninit f).
Proof.
  constructor.
  - apply nestI_init.
  - intros w Hw. exists loop. split; [|reflexivity]. cbn [ninit fl wq_init th]. apply Nat.ltb_lt in Hw. rewrite Hw. reflexivity.
  - apply shaped_init.
  - discriminate.
  - discriminate.
Qed.
Lemma inb_cons v w l : inb v (w :: l) = true -> v = w \/ inb v l = true.
Proof. intros E. apply inb_spec in E as [->|E]; [auto|right; apply inb_spec, E]. Qed.

Lemma baseI_exec N x N' e : baseI N -> nexec N x = Some (N', e) -> baseI N'.
Proof.
  intros [B1 B2 B3 B4 B5] Ex. assert (B1' : nestI N') by (eapply nestI_exec; eassumption).
  unfold nexec in Ex. destruct x as [t a]. cbn [fst snd] in Ex. destruct a as [u o|k| |].
  - unfold flat_act in Ex. cbn [fst snd] in Ex. destruct (may_call N t); [|discriminate]. destruct (wq_exec nw (fl N) _) as [[c' e']|] eqn:Ec; [|discriminate].
    pose proof (shaped_exec nw _ _ _ _ B3 Ec) as B3'. unfold wq_exec in Ec. cbn in Ec. destruct (th (fl N) u) eqn:Eu; [discriminate|]. injection Ec as <- <-. injection Ex as <- <-. constructor; cbn [fl sh th] in *; auto.
    + intros w Hw. destruct (B2 w Hw) as (pw & E1 & E2). exists pw. rewrite fupd_other by congruence. auto.
    + intros w Hw. specialize (B4 w Hw). rewrite fupd_other by congruence. exact B4.
  - unfold flat_act in Ex. cbn [fst snd] in Ex. destruct (stk N t) as [|p l]; [discriminate|]. destruct (wq_exec nw (fl N) _) as [[c' e']|] eqn:Ec; [|discriminate].
    pose proof (shaped_exec nw _ _ _ _ B3 Ec) as B3'. unfold wq_exec in Ec. cbn in Ec. destruct (th (fl N) p) as [pc|] eqn:Ep; [|discriminate].
    destruct (wq_step nw (sh (fl N)) p pc k) as [[s' pc']|] eqn:Es; [|discriminate]. injection Ec as <- <-. injection Ex as <- <-.
    destruct (step_gone nw _ _ _ _ _ _ Es) as (Hg & Hj & Hwe). pose proof (step_live nw _ _ _ _ _ _ Es (B3 _ _ Ep)) as Hl. constructor; cbn [fl sh th] in *; auto.
    + intros w Hw. destruct (B2 w Hw) as (pw & E1 & E2). unfold fupd. destruct (Nat.eqb_spec w p) as [->|]; [|eauto]. exists pc'. split; [reflexivity|]. apply (sl_work _ _ _ _ _ _ Hl). congruence.
    + intros w Hw. destruct Hg as [Hg|[Hg ->]]; rewrite Hg in Hw.
      * specialize (B4 w Hw). rewrite fupd_other; [exact B4|]. intros ->. congruence.
      * unfold fupd. destruct (Nat.eqb_spec w p) as [->|Hne]; [reflexivity|]. apply inb_cons in Hw as [Hw|Hw]; [congruence|auto].
    + intros w Hw. assert (Hm : inb w (gone (sh (fl N))) = true -> inb w (gone s') = true) by apply (sl_gone _ _ _ _ _ _ Hl).
      destruct Hj as [Hj|(j & Hj & Hj')]; rewrite Hj in Hw; [auto|]. apply inb_cons in Hw as [->|Hw]; auto.
  - unfold flat_act in Ex. cbn [fst snd] in Ex. destruct (stk N t) as [|p l]; [discriminate|]. destruct (wq_exec nw (fl N) _) as [[c' e']|] eqn:Ec; [|discriminate].
    pose proof (shaped_exec nw _ _ _ _ B3 Ec) as B3'. unfold wq_exec in Ec. cbn in Ec. destruct (th (fl N) p) as [pc|] eqn:Ep; [|discriminate].
    destruct (wq_fin pc) as [r|] eqn:Ef; [|discriminate]. injection Ec as <- <-. injection Ex as <- <-. destruct pc; try discriminate. constructor; cbn [fl sh th] in *; auto.
    + intros w Hw. destruct (B2 w Hw) as (pw & E1 & E2). exists pw. rewrite fupd_other; [auto|]. intros ->. rewrite Ep in E1. injection E1 as <-. discriminate.
    + intros w Hw. specialize (B4 w Hw). rewrite fupd_other by congruence. exact B4.
  - destruct (joins_self N t) as [[p h]|] eqn:Ej; [|discriminate]. injection Ex as <- <-. unfold joins_self in Ej. destruct (stk N t) as [|p' l]; [discriminate|].
    destruct (th (fl N) p') as [pc|] eqn:Ep; [|discriminate]. destruct pc; try discriminate. destruct (Nat.ltb t nw && Nat.eqb k t && negb (inb k (joined (sh (fl N))))); [|discriminate]. injection Ej as -> ->.
    unfold unwind. destruct h; constructor; cbn [fl sh th set_lock gone joined] in *; auto.
    + intros w Hw. destruct (B2 w Hw) as (pw & E1 & E2). exists pw. rewrite fupd_other; [auto|]. intros ->. rewrite Ep in E1. injection E1 as <-. discriminate.
    + intros q pq. cbn [th]. unfold fupd. destruct (Nat.eqb q p); [intros [= <-]; exact I|apply B3].
    + intros w Hw. specialize (B4 w Hw). rewrite fupd_other by congruence. exact B4.
Qed.
Lemma nrun_inv (P : ncfg -> Prop) : (forall N x N' e, P N -> nexec N x = Some (N', e) -> P N') -> forall zs N N' H, P N -> nrun N zs = Some (N', H) -> P N'.
Proof.
  intros Hx. induction zs as [|x zs IH]; intros N N' H Hp; cbn [nrun]; [intros [= <- _]; exact Hp|].
  destruct (nexec N x) as [[N1 e]|] eqn:Ex; [|discriminate]. destruct (nrun N1 zs) as [[N2 H2]|] eqn:Er; [|discriminate]. intros [= <- _]. eauto.
Qed.
Lemma baseI_run f zs N H : nrun (ninit f) zs = Some (N, H) -> baseI N.
Proof. apply nrun_inv; [apply baseI_exec|apply baseI_init]. Qed.

(** ** Progress *)
Definition goes c (u : nat) : Prop := exists a c' e, (forall k, a = AInt k -> k <> CSpur /\ k <> CTime) /\ (forall o, a <> ACall o) /\ wq_exec nw c (u, a) = Some (c', e).
(** The call [t], or one that is in a stack and not running work, can go on. *)
Definition live pc : bool := match pc with X2 _ _ | CJ _ false => false | _ => true end.
Definition near c (t : nat) : Prop := exists u pc, th c u = Some pc /\ (u = t \/ live pc = true) /\ goes c u.

Lemma goes_int c t pc k s' pc' : th c t = Some pc -> wq_step nw (sh c) t pc k = Some (s', pc') -> k <> CSpur -> k <> CTime -> goes c t.
Proof.
  intros Et Es H1 H2. exists (AInt k). unfold wq_exec. cbn. rewrite Et, Es. eexists _, _. split; [intros ? [= <-]; auto|]. split; [discriminate|reflexivity].
Qed.
Lemma near_int c t pc k s' pc' : th c t = Some pc -> wq_step nw (sh c) t pc k = Some (s', pc') -> k <> CSpur -> k <> CTime -> near c t.
Proof. intros Et Es H1 H2. exists t, pc. split; [exact Et|]. split; [auto|]. eapply goes_int; eassumption. Qed.
Lemma near_sub c i t p k : shaped c -> qproj sq0 i c -> th c t = Some (Sub i p k) -> near c t.
Proof.
  intros Hs Hq Et. destruct (qproj_live sq0 i c) as (u & pu & ku & Eu & Hgo); [constructor|exact Hq|eauto|]. exists u, (Sub i pu ku). split; [exact Eu|]. split; [right; reflexivity|].
  destruct (sq_fin pu) as [r|] eqn:Ef.
  - assert (Ep : pu = SqModel.Ret r) by (destruct pu; try discriminate; injection Ef as ->; reflexivity). subst pu.
    destruct (Hs _ _ Eu) as (o & Hk & Ho). assert (Er : exists x, resume nw (sh c) u i r ku = Some x).
    { destruct ku; cbn in Hk; cbn [resume]; destruct r; cbn in Ho; try (destruct o; naive_solver); try (destruct r; eauto); eauto. }
    destruct Er as [[s' pc'] Er]. eapply (goes_int c u _ CStep); [exact Eu| |discriminate|discriminate]. cbn. exact Er.
  - destruct (Hgo eq_refl) as (q' & p' & Eq). eapply (goes_int c u _ CStep); [exact Eu| |discriminate|discriminate]. cbn [wq_step wq_step0]. rewrite Ef, Eq. reflexivity.
Qed.

Ltac gostep Et := eapply (near_int _ _ _ CStep); [exact Et|cbn [wq_step wq_step0]; reflexivity|discriminate|discriminate].
Section go.
Context (c : wqcfg) (Hs : shaped c) (Hq : forall i, qproj sq0 i c) (Hl : lk (qlock (sh c)) hq (th c)).
Hypothesis Hheld : forall t pc, th c t = Some pc -> hq pc = true -> goes c t.

Lemma near_lock t pc pc' : th c t = Some pc -> wq_step nw (sh c) t pc CStep = lock_q (sh c) t pc' -> near c t.
Proof.
  intros Et E. destruct (qlock (sh c)) as [u|] eqn:El.
  - destruct (proj1 (Hl u) eq_refl) as (pu & Eu & Hu). exists u, pu. split; [exact Eu|]. split; [right; destruct pu; try discriminate; try reflexivity; destruct h; [reflexivity|discriminate]|eapply Hheld; eassumption].
  - eapply (near_int _ _ _ CStep); [exact Et|rewrite E; unfold lock_q; rewrite El; reflexivity|discriminate|discriminate].
Qed.
Lemma near_base t pc : th c t = Some pc -> ~ dead pc -> (asleep (sh c) t pc -> exists u pu, th c u = Some pu /\ pre_n pu = true) -> (forall k, pc <> CJ k false) -> near c t.
Proof.
  intros Et Hd Ha Hk. destruct pc; try (destruct (Hd I)); try gostep Et.
  - eapply near_sub; eauto.
  - (* A0 *) destruct x as [y|]; [destruct p; destruct (is_fin (sh c) y) eqn:Ey|]; (eapply (near_int _ _ _ CStep); [exact Et|cbn [wq_step wq_step0]; rewrite ?Ey; reflexivity|discriminate|discriminate]).
  - (* AN *) destruct (waits (sh c)) as [|u ws] eqn:Ew.
    + eapply (near_int _ _ _ CStep); [exact Et|cbn; rewrite Ew; reflexivity|discriminate|discriminate].
    + eapply (near_int _ _ _ (CWake u)); [exact Et|cbn; rewrite Ew; unfold inb; cbn; rewrite Nat.eqb_refl; reflexivity|discriminate|discriminate].
  - destruct xs as [|[[|b]|] xs]; gostep Et.
  - destruct (bfin (sh c) b) eqn:Eb; (eapply (near_int _ _ _ CStep); [exact Et|cbn; rewrite Eb; reflexivity|discriminate|discriminate]).
  - eapply near_lock; [exact Et|reflexivity].
  - (* W4 *) destruct (inb t (waits (sh c))) eqn:Ei.
    + destruct Ha as (u & pu & Eu & Hu); [split; auto|]. destruct pu; try discriminate.
      * destruct (near_sub c i u p k Hs (Hq i) Eu) as (v & pv & Ev & Hv & Hg). exists v, pv. split; [exact Ev|]. split; [|exact Hg]. right. destruct Hv as [-> |Hv]; [|exact Hv].
        rewrite Eu in Ev. injection Ev as <-. reflexivity.
      * exists u, CL3. split; [exact Eu|]. split; [right; reflexivity|]. eapply (goes_int _ _ _ CStep); [exact Eu|reflexivity|discriminate|discriminate].
      * exists u, CN1. split; [exact Eu|]. split; [right; reflexivity|]. eapply (goes_int _ _ _ CStep); [exact Eu|reflexivity|discriminate|discriminate].
    + eapply (near_int _ _ _ CStep); [exact Et|cbn; rewrite Ei; reflexivity|discriminate|discriminate].
  - eapply near_lock; [exact Et|reflexivity].
  - eapply near_lock; [exact Et|reflexivity].
  - destruct h; [|congruence]. exists t, (CJ k true). split; [exact Et|]. split; [auto|]. eapply Hheld; [exact Et|reflexivity].
  - (* Ret *) exists t, (Ret r). split; [exact Et|]. split; [auto|]. exists ARet. unfold wq_exec. cbn. rewrite Et. cbn. eexists _, _. split; [discriminate|]. split; [discriminate|reflexivity].
Qed.
End go.

(** A thread can make a step: neither a timeout, nor a spurious wakeup, nor a new call. *)
Definition ngo N : Prop := exists t a N' e, (forall k, a = NInt k -> k <> CSpur /\ k <> CTime) /\ (forall u o, a <> NCall u o) /\ nexec N (t, a) = Some (N', e).

Lemma near_ngo N t p l : nestI N -> stk N t = p :: l -> near (fl N) p -> ngo N.
Proof.
  intros Hi Et (u & pc & Eu & Hu & a & c' & e & Ha & Hc & Ex).
  assert (Htop : exists v l', stk N v = u :: l').
  { destruct Hu as [-> |Hu]; [eauto|]. destruct (ni_ex _ Hi u) as [(v & Hv)|(k & Ek)]; [congruence| |rewrite Eu in Ek; injection Ek as ->; discriminate]. destruct (stk N v) as [|q l'] eqn:Ev; [destruct Hv|].
    destruct Hv as [-> |Hv]; [eauto|]. destruct (ni_top _ Hi _ _ _ Ev _ Hv) as (b & e' & E). rewrite Eu in E. injection E as ->. discriminate. }
  destruct Htop as (v & l' & Ev). destruct a as [o|k|]; [destruct (Hc o eq_refl)| |].
  - exists v, (NInt k). unfold nexec, flat_act. cbn [fst snd]. rewrite Ev, Ex. eexists _, _. split; [intros k' [= <-]; apply Ha; reflexivity|]. split; [discriminate|reflexivity].
  - exists v, NRet. unfold nexec, flat_act. cbn [fst snd]. rewrite Ev, Ex. eexists _, _. split; [discriminate|]. split; [discriminate|reflexivity].
Qed.

(** ** closeWorkerQueue is not called by work. *)
Definition outside_close (f : nat -> bool) zs : Prop :=
  forall z1 t u z2 N1 H1, zs = z1 ++ (t, NCall u OClose) :: z2 -> nrun (ninit f) z1 = Some (N1, H1) -> stk N1 t = [].
Definition innocent N : Prop := forall t l1 q l2, stk N t = l1 ++ q :: l2 -> l2 <> [] -> forall pc, th (fl N) q = Some pc -> in_close pc = false.

Lemma close_start o : in_close (wq_start nw o) = true -> o = OClose.
Proof. destruct o; cbn; try discriminate; auto. destruct (Nat.eqb nw 0); discriminate. Qed.

Lemma innocent_exec N x N' e : nestI N -> shaped (fl N) -> (forall w, w < nw -> exists pc, th (fl N) w = Some pc /\ workpc pc = true) -> innocent N -> (forall t u, x = (t, NCall u OClose) -> stk N t = []) -> nexec N x = Some (N', e) -> innocent N'.
Proof.
  intros Hi Ho Hw Hn Hx Ex. unfold nexec, flat_act in Ex. destruct x as [t a]. cbn [fst snd] in Ex. unfold new_stk in Ex. cbn [snd] in Ex. destruct a as [u o|k| |].
  - destruct (may_call N t) eqn:Em; [|discriminate]. unfold wq_exec in Ex. cbn in Ex. destruct (th (fl N) u) eqn:Eu; [discriminate|]. injection Ex as <- _.
    intros v l1 q l2 E1 Hl pc. cbn [fl stk sh th] in *. unfold fupd in E1. destruct (Nat.eqb_spec v t) as [->|Hv].
    + destruct l1 as [|q' l1]; cbn in E1; injection E1 as <- E1.
      * rewrite fupd_same. intros [= <-]. destruct (in_close (wq_start nw o)) eqn:E; [|reflexivity]. apply close_start in E as ->. specialize (Hx t u eq_refl). congruence.
      * intros Ep. unfold fupd in Ep. destruct (Nat.eqb_spec q u) as [->|]; [|eauto]. exfalso. apply (ni_in _ Hi t u); [rewrite E1; apply in_app_iff; right; left; reflexivity|exact Eu].
    + intros Ep. unfold fupd in Ep. destruct (Nat.eqb_spec q u) as [->|]; [|eauto]. exfalso. apply (ni_in _ Hi v u); [rewrite E1; apply in_app_iff; right; left; reflexivity|exact Eu].
  - destruct (stk N t) as [|p l] eqn:Et; [discriminate|]. unfold wq_exec in Ex. cbn in Ex. destruct (th (fl N) p) as [pc|] eqn:Ep; [|discriminate].
    destruct (wq_step nw (sh (fl N)) p pc k) as [[s' pc']|] eqn:Es; [|discriminate]. injection Ex as <- _.
    intros v l1 q l2 E1 Hl pq Eq. cbn [fl stk sh th] in *. assert (E2 : stk N v = l1 ++ q :: l2) by (unfold fupd in E1; destruct (Nat.eqb_spec v t) as [->|]; congruence).
    unfold fupd in Eq. destruct (Nat.eqb_spec q p) as [->|]; [|eapply Hn; eassumption]. injection Eq as <-. destruct (in_close pc') eqn:E; [|reflexivity].
    rewrite <- (Hn _ _ _ _ E2 Hl _ Ep). symmetry. apply (sl_close _ _ _ _ _ _ (step_live nw _ _ _ _ _ _ Es (Ho _ _ Ep)) E).
  - destruct (stk N t) as [|p l] eqn:Et; [discriminate|]. unfold wq_exec in Ex. cbn in Ex. destruct (th (fl N) p) as [pc|] eqn:Ep; [|discriminate].
    destruct (wq_fin pc) as [r|] eqn:Ef; [|discriminate]. injection Ex as <- _.
    intros v l1 q l2 E1 Hl pq Eq. cbn [fl stk sh th] in *. unfold fupd in Eq. destruct (Nat.eqb q p); [discriminate|]. unfold fupd in E1. destruct (Nat.eqb_spec v t) as [->|]; [|eauto].
    cbn in E1. apply (Hn t (p :: l1) q l2); [rewrite Et; cbn; congruence|exact Hl|exact Eq].
  - exfalso. destruct (joins_self N t) as [[p h]|] eqn:Ej; [|discriminate]. unfold joins_self in Ej. destruct (stk N t) as [|p' l] eqn:Et; [discriminate|].
    destruct (th (fl N) p') as [pc|] eqn:Ep; [|discriminate]. destruct pc; try discriminate. destruct (Nat.ltb_spec t nw) as [Ht|]; [|discriminate].
    destruct (ni_base _ Hi t Ht) as (l' & El). rewrite Et in El. destruct l' as [|q l']; injection El as -> ->.
    + destruct (Hw t Ht) as (pw & E1 & E2). rewrite Ep in E1. injection E1 as <-. discriminate.
    + assert (Hne : l' ++ [t] <> []) by (destruct l'; discriminate). pose proof (Hn t [] q (l' ++ [t]) Et Hne _ Ep) as E. discriminate.
Qed.
Lemma innocent_self N t : baseI N -> innocent N -> joins_self N t = None.
Proof.
  intros [Hi Hw _ _ _] Hn. destruct (joins_self N t) as [[p h]|] eqn:Ej; [exfalso|reflexivity].
  unfold joins_self in Ej. destruct (stk N t) as [|p' l] eqn:Et; [discriminate|].
  destruct (th (fl N) p') as [pc|] eqn:Ep; [|discriminate]. destruct pc; try discriminate. destruct (Nat.ltb_spec t nw) as [Ht|]; [|discriminate].
  destruct (ni_base _ Hi t Ht) as (l' & El). rewrite Et in El. destruct l' as [|q l']; injection El as -> ->.
  - destruct (Hw t Ht) as (pw & E1 & E2). rewrite Ep in E1. injection E1 as <-. discriminate.
  - assert (Hne : l' ++ [t] <> []) by (destruct l'; discriminate). pose proof (Hn t [] q (l' ++ [t]) Et Hne _ Ep) as E. discriminate.
Qed.
Lemma innocent_hard N x : baseI N -> innocent N -> hard N x = false.
Proof. intros Hb Hn. unfold hard. rewrite innocent_self by assumption. destruct (snd x); reflexivity. Qed.
Lemma innocent_init f : innocent (ninit f).
Proof.
  intros t l1 q l2. cbn [ninit stk]. destruct (Nat.ltb t nw); intros E Hl; destruct l1 as [|? [|]]; try discriminate. injection E as <- <-. congruence.
Qed.
Lemma outside_run f zs : forall N H, outside_close f zs -> nrun (ninit f) zs = Some (N, H) -> innocent N /\ calm (ninit f) zs /\ Forall (fun x => snd x <> NExc) zs.
Proof.
  induction zs as [|x zs IH] using rev_ind; intros N H Hx Er.
  - injection Er as <- _. split; [apply innocent_init|]. split; [exact I|constructor].
  - rewrite nrun_app in Er. destruct (nrun (ninit f) zs) as [[N1 H1]|] eqn:E1; [|discriminate]. cbn [nrun] in Er. destruct (nexec N1 x) as [[N2 e]|] eqn:Ex; [|discriminate]. injection Er as <- _.
    destruct (IH _ _ ltac:(intros z1 t u z2 N0 H0 E; subst zs; eapply Hx; rewrite <- app_assoc; reflexivity) eq_refl) as (J1 & J2 & J3). pose proof (baseI_run _ _ _ _ E1) as Hb. splits.
    + eapply innocent_exec; [apply Hb|apply Hb|apply Hb|exact J1| |exact Ex]. intros t u ->. eapply Hx; [reflexivity|exact E1].
    + clear - J2 E1 Hb J1. revert J2 E1. generalize (ninit f). revert H1. induction zs as [|y zs IH]; intros H1 N0 J2 E1; cbn [app calm nrun] in *.
      * injection E1 as -> _. split; [apply innocent_hard; assumption|auto].
      * destruct J2 as [J3 J4]. split; [exact J3|]. intros N3 e E. rewrite E in E1. destruct (nrun N3 zs) as [[N4 H4]|] eqn:E4; [|discriminate]. injection E1 as -> _. eapply IH; [eapply J4, E|exact E4].
    + apply Forall_app. split; [exact J3|]. constructor; [|constructor]. intros E. unfold nexec in Ex. rewrite E, (innocent_self N1 (fst x) Hb J1) in Ex. discriminate.
Qed.

(** While the queue is open nothing is joined. *)
Lemma halt_nexec N x N' e : nexec N x = Some (N', e) -> halt (sh (fl N')) = false -> halt (sh (fl N)) = false.
Proof.
  unfold nexec. destruct x as [t a]. cbn [fst snd]. intros Ex Hh. destruct a as [u o|k| |].
  4: { destruct (joins_self N t) as [[p [|]]|]; [| |discriminate]; injection Ex as <- _; exact Hh. }
  all: destruct (flat_act N _) as [y|]; [|discriminate]; destruct (wq_exec nw (fl N) y) as [[c' e']|] eqn:Ec; [|discriminate]; injection Ex as <- _;
    apply (halt_run nw [y] _ c' (e' ++ [])); [unfold wq_run, wq_exec in *; cbn [run]; rewrite Ec; reflexivity|exact Hh].
Qed.
Lemma halt_nrun zs : forall N N' H, nrun N zs = Some (N', H) -> halt (sh (fl N')) = false -> halt (sh (fl N)) = false.
Proof.
  induction zs as [|x zs IH]; intros N N' H; cbn [nrun]; [intros [= <- _]; auto|].
  destruct (nexec N x) as [[N1 e]|] eqn:Ex; [|discriminate]. destruct (nrun N1 zs) as [[N2 H2]|] eqn:Er; [|discriminate]. intros [= <- _] Hh. eapply halt_nexec; eauto.
Qed.
Lemma open_self N t : openI nw (fl N) -> halt (sh (fl N)) = false -> joins_self N t = None.
Proof.
  intros Ho Hh. unfold joins_self. destruct (stk N t) as [|p l]; [reflexivity|]. destruct (th (fl N) p) as [pc|] eqn:Ep; [|reflexivity]. destruct pc; try reflexivity.
  pose proof (op_late _ _ Ho Hh _ _ Ep). discriminate.
Qed.
Lemma open_calm zs : forall N N' H, openI nw (fl N) -> nrun N zs = Some (N', H) -> halt (sh (fl N')) = false -> calm N zs /\ Forall (fun x => snd x <> NExc) zs.
Proof.
  induction zs as [|x zs IH]; intros N N' H Ho; cbn [nrun calm]; [auto|].
  destruct (nexec N x) as [[N1 e]|] eqn:Ex; [|discriminate]. destruct (nrun N1 zs) as [[N2 H2]|] eqn:Er; [|discriminate]. intros [= <- _] Hh.
  pose proof (open_self N (fst x) Ho (halt_nexec _ _ _ _ Ex (halt_nrun _ _ _ _ Er Hh))) as Hj.
  assert (Hd : hard N x = false) by (unfold hard; rewrite Hj; destruct (snd x); reflexivity). assert (Hne : snd x <> NExc) by (intros E; unfold nexec in Ex; rewrite E, Hj in Ex; discriminate).
  destruct (IH N1 N2 H2) as [J1 J2]; [|exact Er|exact Hh|].
  - destruct (nexec_flat _ _ _ _ Hd Ex) as [_ [(_ & -> & _)|(y & _ & Ec)]]; [exact Ho|eapply openI_exec; eassumption].
  - split; [|constructor; assumption]. split; [exact Hd|]. intros N3 e3 [= <- <-]. exact J1.
Qed.

(** *** No thread is stuck *)
Lemma qproj_all f ys c H : wq_run nw (wq_init nw f) ys = Some (c, H) -> forall i, qproj sq0 i c.
Proof. intros Er i. eapply qproj_run; [|exact Er]. intros j. apply qproj_init. Qed.

Lemma nest_open f zs N H t p l pc : nrun (ninit f) zs = Some (N, H) -> halt (sh (fl N)) = false -> stk N t = p :: l -> th (fl N) p = Some pc ->
  (forall xs, pc <> Crash xs) -> ~ asleep (sh (fl N)) p pc -> ngo N.
Proof.
  intros Er Hh Et Ep Hcr Ha. pose proof (baseI_run _ _ _ _ Er) as Hb. destruct (nrun_flat zs (ninit f) N H) as (ys & Ey & _); [eapply open_calm; [apply openI_init|exact Er|exact Hh]|exact Er|]. cbn [ninit fl] in Ey.
  pose proof (openI_run nw _ _ _ _ (openI_init nw f) Ey) as Ho. eapply near_ngo; [apply Hb|exact Et|]. pose proof (op_late _ _ Ho Hh _ _ Ep) as Hl.
  eapply near_base; [apply Ho|exact (qproj_all _ _ _ _ Ey)|apply Ho| |exact Ep| |intros E; destruct (Ha E)|intros k ->; discriminate].
  - intros u pu Eu Hu. pose proof (op_late _ _ Ho Hh _ _ Eu) as Hlu. destruct pu; try discriminate; (eapply (goes_int _ _ _ CStep); [exact Eu|cbn [wq_step wq_step0]; reflexivity|discriminate|discriminate]).
  - destruct pc; cbn; auto; [discriminate|]. intros _. destruct (Hcr _ eq_refl).
Qed.

Lemma nest_closing f zs N H t p l pc : nrun (ninit f) zs = Some (N, H) -> outside_close f zs -> no_overlap H -> halt (sh (fl N)) = true -> stk N t = p :: l -> th (fl N) p = Some pc ->
  ~ dead pc -> ngo N.
Proof.
  intros Er Hout Hno Hh Et Ep Hd. pose proof (baseI_run _ _ _ _ Er) as Hb. destruct (outside_run _ _ _ _ Hout Er) as (Hinn & Hcalm & _).
  destruct (nrun_flat zs (ninit f) N H Hcalm Er) as (ys & Ey & _). cbn [ninit fl] in Ey.
  pose proof (liveI_run nw ys [] _ _ _ (shaped_init nw f) (liveI_init nw f) Ey Hno) as Hl. cbn [app] in Hl. pose proof (shaped_run nw _ _ _ _ (shaped_init nw f) Ey) as Hs.
  assert (Hheld : forall u pu, th (fl N) u = Some pu -> hq pu = true -> goes (fl N) u).
  { intros u pu Eu Hu. destruct pu; try discriminate; try (eapply (goes_int _ _ _ CStep); [exact Eu|cbn [wq_step wq_step0]; reflexivity|discriminate|discriminate]). destruct h; [|discriminate].
    destruct (Nat.ltb k nw) eqn:Hk; (eapply (goes_int _ _ _ CStep); [exact Eu| |discriminate|discriminate]); cbn [wq_step wq_step0]; rewrite Hk; [|reflexivity].
    apply Nat.ltb_lt in Hk. rewrite (lv_ct _ _ _ Hl _ _ Eu k Hk). reflexivity. }
  assert (Hbase : forall v q l' pq, stk N v = q :: l' -> th (fl N) q = Some pq -> ~ dead pq -> (forall k, pq <> CJ k false) -> ngo N).
  { intros v q l' pq Ev Eq Hdq Hk. eapply near_ngo; [apply Hb|exact Ev|]. eapply near_base; [exact Hs|exact (qproj_all _ _ _ _ Ey)|apply Hl|exact Hheld|exact Eq|exact Hdq| |exact Hk].
    intros [_ Hw]. destruct (lv_wait _ _ _ Hl Hh) as [E|E]; [rewrite E in Hw; discriminate|exact E]. }
  assert (Hx : (exists k, pc = CJ k false) \/ forall k, pc <> CJ k false) by (destruct pc; try (right; congruence); destruct h; [right; congruence|left; eauto]).
  destruct Hx as [[k ->]|Hx]; [|eapply Hbase; eassumption].
  assert (Hstep : forall s' pc', wq_step nw (sh (fl N)) p (CJ k false) CStep = Some (s', pc') -> ngo N) by (intros s' pc' Es; eapply near_ngo; [apply Hb|exact Et|]; eapply near_int; [exact Ep|exact Es|discriminate|discriminate]).
  destruct (Nat.ltb k nw) eqn:El; [|eapply Hstep; cbn [wq_step wq_step0]; rewrite El; reflexivity].
  destruct (inb k (joined (sh (fl N)))) eqn:Ej; [eapply Hstep; cbn [wq_step wq_step0]; rewrite El, Ej; reflexivity|].
  destruct (inb k (gone (sh (fl N)))) eqn:Eg; [eapply Hstep; cbn [wq_step wq_step0]; rewrite El, Ej, Eg; reflexivity|].
  apply Nat.ltb_lt in El. destruct (ni_base _ (bi_nest _ Hb) k El) as (lk & Ek). destruct lk as [|q lk]; cbn in Ek.
  - destruct (lv_work _ _ _ Hl k El) as (pk & E1 & E2). eapply Hbase; [exact Ek|exact E1| |intros k' ->; discriminate].
    destruct pk; try discriminate; cbn; auto. pose proof (lv_we _ _ _ Hl _ E1). congruence.
  - assert (Hq : th (fl N) q <> None) by (eapply (ni_in _ (bi_nest _ Hb)); rewrite Ek; left; reflexivity). destruct (th (fl N) q) as [pq|] eqn:Eq; [|congruence].
    assert (Hne : lk ++ [k] <> []) by (destruct lk; discriminate). pose proof (Hinn k [] q _ Ek Hne _ Eq) as Hin.
    assert (Hqn : nw <= q).
    { destruct (le_lt_dec nw q) as [|Hlt]; [assumption|exfalso]. destruct (ni_base _ (bi_nest _ Hb) q Hlt) as (lq & E).
      assert (q = k) by (eapply (ni_one _ (bi_nest _ Hb)); [rewrite E; apply in_app_iff; right; left; reflexivity|rewrite Ek; left; reflexivity]). subst q.
      pose proof (ni_dup _ (bi_nest _ Hb) k) as Hdup. rewrite Ek in Hdup. apply NoDup_cons_1_1 in Hdup. apply Hdup, elem_of_list_In, in_app_iff. right. left. reflexivity. }
    eapply Hbase; [exact Ek|exact Eq| |intros k' ->; discriminate].
    pose proof (mi_user _ _ _ _ _ (miscI_run nw f ys _ _ Ey) _ _ Hqn Eq) as Hu. destruct pq; cbn; auto; [discriminate|]. intros _.
    pose proof (direct_run nw f ys _ _ ltac:(lia) Ey _ _ Eq). discriminate.
Qed.

(** ** closeWorkerQueue called by the work of a worker *)
(** In closeWorkerQueue, thread [w] not joined yet *)
Definition closing (w : nat) pc : bool := match pc with CJ k _ => Nat.leb k w | CU => false | _ => in_close pc end.

Lemma closing_step w s q pc k s' pc' : wq_step nw s q pc k = Some (s', pc') -> shape pc -> closing w pc = true -> w < nw -> inb w (gone s) = false -> inb w (joined s) = false -> closing w pc' = true.
Proof.
  intros Es Hs Hc Hw Hg Hj. destruct pc; cbn in Hc; try discriminate.
  1: { destruct k; cbn [wq_step wq_step0] in Es; try discriminate. destruct (sq_fin p) as [r|] eqn:Ef.
    - destruct k0; try discriminate; wq_resume Es.
      + destruct a as [|r0]; [discriminate|]. reflexivity.
      + destruct a as [|r0]; [discriminate|]. destruct few; [reflexivity|]. cbn. destruct r0; reflexivity.
      + destruct (nextq i); reflexivity.
    - destruct (sq_step (qof i s) q p tt) as [[q' p']|] eqn:Eq; [|discriminate]. inj Es. destruct k0; try discriminate; try reflexivity; destruct a; try discriminate; reflexivity. }
  all: destruct k; cbn [wq_step wq_step0] in Es; try discriminate; wq_cases Es; inj Es; try reflexivity; try discriminate.
  all: try (destruct a as [|[|]]; try discriminate; reflexivity).
  1: destruct (halt s); reflexivity.
  1: destruct nw; reflexivity.
  all: apply Nat.leb_le in Hc; repeat match goal with E : (_ <? _) = true |- _ => apply Nat.ltb_lt in E | E : (_ <? _) = false |- _ => apply Nat.ltb_ge in E end; try lia.
  all: cbn [closing]; apply Nat.leb_le; destruct (Nat.eq_dec k0 w) as [->|]; [congruence|lia].
Qed.
Lemma closing_in w pc : closing w pc = true -> in_close pc = true.
Proof. destruct pc; cbn; auto. Qed.
Lemma step_join s t pc k s' pc' : wq_step nw s t pc k = Some (s', pc') -> joined s' = joined s \/ exists j h, pc = CJ j h /\ joined s' = j :: joined s /\ inb j (gone s) = true.
Proof.
  intros Es. destruct pc.
  1: { left. destruct k; cbn [wq_step wq_step0] in Es; try discriminate. destruct (sq_fin p) as [r|] eqn:Ef.
    - destruct k0; wq_resume Es; auto.
    - destruct (sq_step (qof i s) t p tt) as [[q' p']|]; [|discriminate]. inj Es. destruct i; reflexivity. }
  all: destruct k; cbn [wq_step wq_step0] in Es; try discriminate; wq_cases Es; inj Es; auto.
  right. eauto.
Qed.

(** Below the call of a worker's work that closes the queue, the worker's own frame runs work. *)
Lemma busy N w q l : baseI N -> w < nw -> stk N w = q :: l -> In w l -> inb w (gone (sh (fl N))) = false /\ inb w (joined (sh (fl N))) = false.
Proof.
  intros Hb Hw Es Hl. destruct (ni_top _ (bi_nest _ Hb) _ _ _ Es _ Hl) as (b & e & Ew). assert (Eg : inb w (gone (sh (fl N))) = false).
  { destruct (inb w (gone (sh (fl N)))) eqn:E; [|reflexivity]. pose proof (bi_gone _ Hb _ E). congruence. }
  split; [exact Eg|]. destruct (inb w (joined (sh (fl N)))) eqn:E; [|reflexivity]. pose proof (bi_joined _ Hb _ E). congruence.
Qed.
(** The call [q] of thread [w]'s work is in closeWorkerQueue, or was ended by the exception. *)
Definition selfI (w q : nat) N : Prop :=
  exists pc, th (fl N) q = Some pc /\ closing w pc = true /\ ((exists l, stk N w = q :: l /\ In w l) \/ forall t, ~ In q (stk N t)).

Lemma self_exec w q N x N' e : w < nw -> baseI N -> selfI w q N -> nexec N x = Some (N', e) -> selfI w q N' /\ forall r, ~ In (HRet q r) e.
Proof.
  intros Hw Hb (pc & Eq & Hc & Hs) Ex. pose proof (bi_nest _ Hb) as Hi. unfold nexec, flat_act in Ex. destruct x as [t a]. cbn [fst snd] in Ex. unfold new_stk in Ex. cbn [snd] in Ex. destruct a as [u o|k| |].
  - destruct (may_call N t) eqn:Em; [|discriminate]. unfold wq_exec in Ex. cbn in Ex. destruct (th (fl N) u) eqn:Eu; [discriminate|]. injection Ex as <- <-.
    assert (Hne : q <> u) by congruence. split; [|intros r [E|[]]; discriminate]. exists pc. cbn [fl stk th]. rewrite fupd_other by exact Hne. split; [exact Eq|]. split; [exact Hc|]. destruct Hs as [(l & E1 & E2)|Hs].
    + left. assert (t <> w). { intros ->. unfold may_call in Em. rewrite E1, Eq in Em. destruct pc; discriminate. } exists l. rewrite fupd_other by auto. auto.
    + right. intros v. unfold fupd. destruct (Nat.eqb v t); [|apply Hs]. intros [E|E]; [congruence|exact (Hs _ E)].
  - destruct (stk N t) as [|p l] eqn:Et; [discriminate|]. unfold wq_exec in Ex. cbn in Ex. destruct (th (fl N) p) as [pp|] eqn:Ep; [|discriminate].
    destruct (wq_step nw (sh (fl N)) p pp k) as [[s' pc']|] eqn:Es; [|discriminate]. injection Ex as <- <-. split; [|intros r []]. unfold selfI. cbn [fl stk sh th].
    assert (Hst : forall v, fupd t (p :: l) (stk N) v = stk N v) by (intros v; unfold fupd; destruct (Nat.eqb_spec v t) as [->|]; congruence). setoid_rewrite Hst.
    destruct (Nat.eq_dec q p) as [->|Hne]; [|exists pc; rewrite fupd_other by exact Hne; auto]. rewrite Ep in Eq. injection Eq as ->. exists pc'. rewrite fupd_same. split; [reflexivity|]. split; [|exact Hs].
    destruct Hs as [(l' & E1 & E2)|Hs]; [|exfalso; apply (Hs t); rewrite Et; left; reflexivity]. destruct (busy _ _ _ _ Hb Hw E1 E2) as [F1 F2]. eapply closing_step; [exact Es|exact (bi_shape _ Hb _ _ Ep)|assumption..].
  - destruct (stk N t) as [|p l] eqn:Et; [discriminate|]. unfold wq_exec in Ex. cbn in Ex. destruct (th (fl N) p) as [pp|] eqn:Ep; [|discriminate].
    destruct (wq_fin pp) as [r|] eqn:Ef; [|discriminate]. injection Ex as <- <-. assert (Hne : q <> p) by (intros ->; rewrite Ep in Eq; injection Eq as ->; destruct pc; discriminate).
    split; [|intros r' [[= E]|[]]; congruence]. exists pc. cbn [fl stk th tail]. rewrite fupd_other by exact Hne. split; [exact Eq|]. split; [exact Hc|]. destruct Hs as [(l' & E1 & E2)|Hs].
    + left. exists l'. rewrite fupd_other; [auto|]. intros ->. rewrite Et in E1. injection E1 as -> ->. congruence.
    + right. intros v. unfold fupd. destruct (Nat.eqb_spec v t) as [->|]; [|apply Hs]. intros E. apply (Hs t). rewrite Et. right. exact E.
  - destruct (joins_self N t) as [[p h]|] eqn:Ej; [|discriminate]. injection Ex as <- <-. unfold joins_self in Ej. destruct (stk N t) as [|p' l] eqn:Et; [discriminate|].
    destruct (th (fl N) p') as [pp|] eqn:Ep; [|discriminate]. destruct pp; try discriminate. destruct (Nat.ltb_spec t nw) as [Ht|]; [|discriminate]. destruct (Nat.eqb_spec k t) as [->|]; [|discriminate].
    cbn [andb] in Ej. destruct (negb (inb t (joined (sh (fl N))))); [|discriminate]. injection Ej as -> ->. split; [|intros r []].
    assert (Hth : forall r, th (unwind (fl N) p t h) r = if Nat.eqb r p then Some (CJ t false) else th (fl N) r).
    { intros r. unfold unwind. destruct h; cbn [th]; [reflexivity|]. destruct (Nat.eqb_spec r p) as [->|]; [exact Ep|reflexivity]. }
    unfold selfI. cbn [fl stk tail]. rewrite Hth. destruct (Nat.eqb_spec q p) as [->|Hne].
    + assert (t = w) as ->. { destruct Hs as [(l' & E1 & E2)|Hs]; [|exfalso; apply (Hs t); rewrite Et; left; reflexivity]. eapply (ni_one _ Hi); [rewrite Et|rewrite E1]; left; reflexivity. }
      exists (CJ w false). split; [reflexivity|]. split; [cbn; apply Nat.leb_refl|]. right. intros v. unfold fupd. destruct (Nat.eqb_spec v w) as [->|Hv].
      * intros E. pose proof (ni_dup _ Hi w) as Hd. rewrite Et in Hd. apply NoDup_cons_1_1 in Hd. apply Hd, elem_of_list_In, E.
      * intros E. apply Hv. eapply (ni_one _ Hi); [exact E|rewrite Et; left; reflexivity].
    + exists pc. split; [exact Eq|]. split; [exact Hc|]. destruct Hs as [(l' & E1 & E2)|Hs].
      * left. exists l'. rewrite fupd_other; [auto|]. intros ->. rewrite Et in E1. injection E1 as -> ->. congruence.
      * right. intros v. unfold fupd. destruct (Nat.eqb_spec v t) as [->|]; [|apply Hs]. intros E. apply (Hs t). rewrite Et. right. exact E.
Qed.
Lemma self_run w q zs : w < nw -> forall N N' H, baseI N -> selfI w q N -> nrun N zs = Some (N', H) -> selfI w q N' /\ forall r, ~ In (HRet q r) H.
Proof.
  intros Hw. induction zs as [|x zs IH]; intros N N' H Hb Hs; cbn [nrun]; [intros [= <- <-]; auto|].
  destruct (nexec N x) as [[N1 e]|] eqn:Ex; [|discriminate]. destruct (nrun N1 zs) as [[N2 H2]|] eqn:Er; [|discriminate]. intros [= <- <-].
  destruct (self_exec _ _ _ _ _ _ Hw Hb Hs Ex) as [Hs1 He]. destruct (IH _ _ _ (baseI_exec _ _ _ _ Hb Ex) Hs1 Er) as [Hs2 H2e]. split; [exact Hs2|].
  intros r E. apply in_app_iff in E as [E|E]; [exact (He _ E)|exact (H2e _ E)].
Qed.
Lemma self_start w q N N' e : w < nw -> baseI N -> nexec N (w, NCall q OClose) = Some (N', e) -> selfI w q N' /\ forall r, ~ In (HRet q r) e.
Proof.
  intros Hw Hb Ex. unfold nexec, flat_act in Ex. cbn [fst snd] in Ex. unfold new_stk in Ex. cbn [snd] in Ex. destruct (may_call N w) eqn:Em; [|discriminate].
  unfold wq_exec in Ex. cbn in Ex. destruct (th (fl N) q) eqn:Eu; [discriminate|]. injection Ex as <- <-. split; [|intros r [E|[]]; discriminate].
  exists CL0. cbn [fl stk th]. rewrite !fupd_same. split; [reflexivity|]. split; [reflexivity|]. left. exists (stk N w). split; [reflexivity|].
  destruct (ni_base _ (bi_nest _ Hb) w Hw) as (l & ->). apply in_app_iff. right. left. reflexivity.
Qed.

(** closeWorkerQueue is called by workers only: the last of them is never joined. *)
Definition by_workers zs : Prop := forall t u, In (t, NCall u OClose) zs -> t < nw.
Record onlyI N : Prop := {
  on_in : forall t p pc, In p (stk N t) -> th (fl N) p = Some pc -> in_close pc = true -> t < nw /\ closing t pc = true;
  on_last : inb (nw - 1) (joined (sh (fl N))) = false;
}.
Lemma closing_busy N t p l pc : baseI N -> t < nw -> stk N t = p :: l -> th (fl N) p = Some pc -> in_close pc = true -> inb t (gone (sh (fl N))) = false /\ inb t (joined (sh (fl N))) = false.
Proof.
  intros Hb Ht Et Ep Hc. eapply busy; [exact Hb|exact Ht|exact Et|]. destruct (ni_base _ (bi_nest _ Hb) t Ht) as (l' & E). rewrite Et in E. destruct l' as [|q l']; injection E as -> ->.
  - destruct (bi_work _ Hb t Ht) as (pw & E1 & E2). rewrite Ep in E1. injection E1 as <-. destruct pc; try discriminate. destruct k; try discriminate.
  - apply in_app_iff. right. left. reflexivity.
Qed.
Lemma only_exec N x N' e : baseI N -> onlyI N -> (forall t u, x = (t, NCall u OClose) -> t < nw) -> nexec N x = Some (N', e) -> onlyI N'.
Proof.
  intros Hb [O1 O2] Hx Ex. pose proof (bi_nest _ Hb) as Hi. unfold nexec, flat_act in Ex. destruct x as [t a]. cbn [fst snd] in Ex. unfold new_stk in Ex. cbn [snd] in Ex. destruct a as [u o|k| |].
  - destruct (may_call N t) eqn:Em; [|discriminate]. unfold wq_exec in Ex. cbn in Ex. destruct (th (fl N) u) eqn:Eu; [discriminate|]. injection Ex as <- <-. constructor; cbn [fl stk sh th]; [|exact O2].
    intros v p pc. unfold fupd. destruct (Nat.eqb_spec p u) as [->|Hp].
    + intros Hin [= <-] Hc. pose proof (close_start _ Hc) as ->. assert (v = t) as ->; [|split; [eapply Hx; reflexivity|reflexivity]].
      destruct (Nat.eqb_spec v t) as [|]; [assumption|]. exfalso. exact (ni_in _ Hi _ _ Hin Eu).
    + intros Hin Ep Hc. eapply O1; [|exact Ep|exact Hc]. destruct (Nat.eqb_spec v t) as [->|]; [|exact Hin]. destruct Hin as [E|Hin]; [congruence|exact Hin].
  - destruct (stk N t) as [|p l] eqn:Et; [discriminate|]. unfold wq_exec in Ex. cbn in Ex. destruct (th (fl N) p) as [pp|] eqn:Ep; [|discriminate].
    destruct (wq_step nw (sh (fl N)) p pp k) as [[s' pc']|] eqn:Es; [|discriminate]. injection Ex as <- <-.
    assert (Hst : forall v, fupd t (p :: l) (stk N) v = stk N v) by (intros v; unfold fupd; destruct (Nat.eqb_spec v t) as [->|]; congruence).
    assert (Hp : In p (stk N t)) by (rewrite Et; left; reflexivity).
    constructor; cbn [fl stk sh th].
    + intros v q pq. rewrite Hst. intros Hin. unfold fupd. destruct (Nat.eqb_spec q p) as [->|]; [|eauto]. intros [= <-] Hc. assert (v = t) as -> by (eapply (ni_one _ Hi); [exact Hin|rewrite Et; left; reflexivity]).
      pose proof (sl_close _ _ _ _ _ _ (step_live nw _ _ _ _ _ _ Es (bi_shape _ Hb _ _ Ep)) Hc) as Hc0. destruct (O1 _ _ _ Hp Ep Hc0) as [Ht Hcl]. split; [exact Ht|].
      destruct (closing_busy _ _ _ _ _ Hb Ht Et Ep Hc0) as [F1 F2]. eapply closing_step; [exact Es|exact (bi_shape _ Hb _ _ Ep)|assumption..].
    + destruct (step_join _ _ _ _ _ _ Es) as [->|(j & h & -> & -> & Hg)]; [exact O2|]. destruct (O1 _ _ _ Hp Ep eq_refl) as [Ht Hcl]. cbn in Hcl. apply Nat.leb_le in Hcl.
      destruct (closing_busy _ _ _ _ _ Hb Ht Et Ep eq_refl) as [F1 F2]. destruct (inb (nw - 1) (j :: joined (sh (fl N)))) eqn:E; [|reflexivity]. apply inb_cons in E as [E|E]; [|congruence]. assert (j = t) by lia. congruence.
  - destruct (stk N t) as [|p l] eqn:Et; [discriminate|]. unfold wq_exec in Ex. cbn in Ex. destruct (th (fl N) p) as [pp|] eqn:Ep; [|discriminate].
    destruct (wq_fin pp) as [r|] eqn:Ef; [|discriminate]. injection Ex as <- <-. constructor; cbn [fl stk sh th tail]; [|exact O2].
    intros v q pq Hin Eq Hc. unfold fupd in Eq. destruct (Nat.eqb q p); [discriminate|]. eapply O1; [|exact Eq|exact Hc]. unfold fupd in Hin. destruct (Nat.eqb_spec v t) as [->|]; [rewrite Et; right; exact Hin|exact Hin].
  - destruct (joins_self N t) as [[p h]|] eqn:Ej; [|discriminate]. injection Ex as <- <-. unfold joins_self in Ej. destruct (stk N t) as [|p' l] eqn:Et; [discriminate|].
    destruct (th (fl N) p') as [pp|] eqn:Ep; [|discriminate]. destruct pp; try discriminate. destruct (Nat.ltb t nw && Nat.eqb k t && negb (inb k (joined (sh (fl N))))); [|discriminate]. injection Ej as -> ->.
    assert (Hsub : forall v q, In q (fupd t l (stk N) v) -> q <> p /\ In q (stk N v)).
    { intros v q. unfold fupd. destruct (Nat.eqb_spec v t) as [->|Hv]; intros E; (split; [|rewrite ?Et; cbn; auto]).
      - intros ->. pose proof (ni_dup _ Hi t) as Hd. rewrite Et in Hd. apply NoDup_cons_1_1 in Hd. apply Hd, elem_of_list_In, E.
      - intros ->. apply Hv. eapply (ni_one _ Hi); [exact E|rewrite Et; left; reflexivity]. }
    unfold unwind. constructor; cbn [fl stk tail].
    + intros v q pq Hin Eq Hc. apply Hsub in Hin as [Hne Hin]. eapply O1; [exact Hin| |exact Hc]. destruct h; [|exact Eq]. cbn [th] in Eq. rewrite fupd_other in Eq by exact Hne. exact Eq.
    + destruct h; exact O2.
Qed.
Lemma only_run f zs : 0 < nw -> by_workers zs -> forall N H, nrun (ninit f) zs = Some (N, H) -> onlyI N.
Proof.
  intros Hn. induction zs as [|x zs IH] using rev_ind; intros Hz N H Er.
  - injection Er as <- _. constructor; [|reflexivity]. intros t p pc Hin Ep Hc. cbn [ninit fl wq_init th] in Ep. destruct (Nat.ltb p nw); [|discriminate]. injection Ep as <-. discriminate.
  - rewrite nrun_app in Er. destruct (nrun (ninit f) zs) as [[N1 H1]|] eqn:E1; [|discriminate]. cbn [nrun] in Er. destruct (nexec N1 x) as [[N2 e]|] eqn:Ex; [|discriminate]. injection Er as <- _.
    eapply only_exec; [eapply baseI_run, E1|eapply IH; [|reflexivity]| |exact Ex].
    + intros t u Hin. eapply Hz. apply in_app_iff. left. exact Hin.
    + intros t u ->. eapply Hz. apply in_app_iff. right. left. reflexivity.
Qed.

(** ** Bounded numbers of calls *)
Lemma above_run ys : forall c c' H n, wq_run nw c ys = Some (c', H) -> calls ys = [] -> (forall p, n <= p -> th c p = None) -> onn n ys /\ forall p, n <= p -> th c' p = None.
Proof.
  induction ys as [|[p a] ys IH]; intros c c' H n; unfold wq_run; cbn [run]; [intros [= <- _]; split; [constructor|assumption]|].
  destruct (exec _ _ _ c (p, a)) as [[c1 e]|] eqn:Ex; [|discriminate]. destruct (run _ _ _ c1 ys) as [[c2 H2]|] eqn:Er; [|discriminate]. intros [= <- _] Hc Hn.
  destruct a as [o|k|]; [discriminate| |]; cbn in Ex; (destruct (th c p) as [pc|] eqn:Ep; [|discriminate]);
    (assert (Hp : p < n) by (destruct (le_lt_dec n p) as [Hge|]; [rewrite Hn in Ep by exact Hge; discriminate|assumption])).
  - destruct (wq_step nw (sh c) p pc k) as [[s' pc']|]; [|discriminate]. injection Ex as <- _. destruct (IH _ _ _ n Er Hc) as [J1 J2]; [intros q Hq; cbn; rewrite fupd_other by lia; auto|]. split; [constructor; auto|exact J2].
  - destruct (wq_fin pc); [|discriminate]. injection Ex as <- _. destruct (IH _ _ _ n Er Hc) as [J1 J2]; [intros q Hq; cbn; rewrite fupd_other by lia; auto|]. split; [constructor; auto|exact J2].
Qed.
Lemma above_reach f zs N H : nrun (ninit f) zs = Some (N, H) -> exists n, forall p, n <= p -> th (fl N) p = None.
Proof.
  apply (nrun_inv (fun N0 => exists n, forall p, n <= p -> th (fl N0) p = None)); [|exists nw; intros p Hp; cbn [ninit fl wq_init th]; destruct (Nat.ltb_spec p nw); [lia|reflexivity]].
  clear. intros N x N' e (n & Hn) Ex. exists (S (n + match snd x with NCall u _ => u | _ => 0 end)). intros p Hp. unfold nexec in Ex. destruct x as [t a]. cbn [fst snd] in *. destruct a as [u o|k| |].
  4: { destruct (joins_self N t) as [[q h]|] eqn:Ej; [|discriminate]. injection Ex as <- _. unfold joins_self in Ej. destruct (stk N t) as [|q' l]; [discriminate|]. destruct (th (fl N) q') as [pq|] eqn:Eq; [|discriminate].
    destruct pq; try discriminate. destruct (Nat.ltb t nw && Nat.eqb k t && negb (inb k (joined (sh (fl N))))); [|discriminate]. injection Ej as -> ->. unfold unwind. cbn [fl]. destruct h; [cbn; rewrite fupd_other|]; try (apply Hn; lia).
    intros ->. rewrite Hn in Eq by lia. discriminate. }
  all: unfold flat_act in Ex; cbn [fst snd] in Ex.
  - destruct (may_call N t); [|discriminate]. unfold wq_exec in Ex. cbn in Ex. destruct (th (fl N) u); [discriminate|]. injection Ex as <- _. cbn. rewrite fupd_other by lia. apply Hn. lia.
  - destruct (stk N t) as [|q l]; [discriminate|]. unfold wq_exec in Ex. cbn in Ex. destruct (th (fl N) q) as [pq|] eqn:Eq; [|discriminate]. destruct (wq_step nw (sh (fl N)) q pq k) as [[s' pc']|]; [|discriminate]. injection Ex as <- _. cbn.
    rewrite fupd_other; [apply Hn; lia|]. intros ->. rewrite Hn in Eq by lia. discriminate.
  - destruct (stk N t) as [|q l]; [discriminate|]. unfold wq_exec in Ex. cbn in Ex. destruct (th (fl N) q) as [pq|] eqn:Eq; [|discriminate]. destruct (wq_fin pq); [|discriminate]. injection Ex as <- _. cbn.
    rewrite fupd_other; [apply Hn; lia|]. intros ->. rewrite Hn in Eq by lia. discriminate.
Qed.
Lemma outside_app f zs zs' : outside_close f zs -> ncalls zs' = [] -> outside_close f (zs ++ zs').
Proof.
  intros Ho Hc z1 t u z2 N1 H1 E Er. assert (Hx : exists z3, zs = z1 ++ (t, NCall u OClose) :: z3).
  { clear - E Hc. revert z1 E. induction zs as [|x zs IH]; intros z1 E.
    - exfalso. cbn in E. subst zs'. unfold ncalls in Hc. rewrite omap_app in Hc. apply app_eq_nil in Hc as [_ Hc]. discriminate.
    - destruct z1 as [|y z1]; cbn in E; injection E as -> E; [eexists; reflexivity|]. destruct (IH _ E) as (z3 & ->). eexists. reflexivity. }
  destruct Hx as (z3 & ->). eapply Ho; [reflexivity|exact Er].
Qed.

(** A check for examples *)
Fixpoint outb N zs : bool :=
  match zs with
  | [] => true
  | x :: zs' => match x with (t, NCall _ OClose) => match stk N t with [] => true | _ => false end | _ => true end && match nexec N x with Some (N1, _) => outb N1 zs' | None => true end
  end.
Lemma outb_ok f zs : outb (ninit f) zs = true -> outside_close f zs.
Proof.
  unfold outside_close. generalize (ninit f). induction zs as [|x zs IH]; intros N E z1 t u z2 N1 H1 Ez Er; [destruct z1; discriminate|].
  cbn [outb] in E. apply andb_prop in E as [E1 E2]. destruct z1 as [|y z1]; cbn in Ez; injection Ez as -> ->.
  - injection Er as <- _. cbn in E1. destruct (stk N t); [reflexivity|discriminate].
  - cbn [nrun] in Er. destruct (nexec N y) as [[N2 e]|]; [|discriminate]. destruct (nrun N2 z1) as [[N3 H3]|] eqn:E3; [|discriminate]. injection Er as -> _. eapply IH; [exact E2|reflexivity|exact E3].
Qed.
Fixpoint calmb N zs : bool := match zs with [] => true | x :: zs' => negb (hard N x) && match nexec N x with Some (N1, _) => calmb N1 zs' | None => true end end.
Lemma calmb_ok zs : forall N, calmb N zs = true -> calm N zs.
Proof.
  induction zs as [|x zs IH]; intros N; cbn [calmb calm]; [auto|]. intros E. apply andb_prop in E as [E1 E2]. split; [destruct (hard N x); [discriminate|reflexivity]|]. intros N1 e Ex. rewrite Ex in E2. auto.
Qed.
End wq.
