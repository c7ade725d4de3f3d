(** WorkQueue when memory runs out: push_back or insert of a queue in addWorkBlock [358, 362, 367, 388, 391, 395], also where
    closeWorkerQueue calls addWorkBlock [327], and make_shared in closeWorkerQueue [319] throw.

    What throws leaves the vectors as they were (a shared_ptr is moved and copied without exceptions), the lock that SimpleQueue
    holds is given back by its destructor, queueLock is not held [318], and the exception leaves addWorkBlock or closeWorkerQueue.
    The throw and the release of the lock are one step.  A call that has thrown is over; its name is not used any more (the
    thread that made it goes on under another name, as in WqNest.v) and in [th] it stays at the beginning of the operation that
    failed. *)
From stdpp Require Import list.
From Verif Require Import Base Conc CondVar Herlihy SqModel SqSpec SqProofs WqModel WqProofs WqCount WqMore WqBound WqLive WqSeq WqPrio WqOpen WqDrain WqMisc WqDtor WqNest.
Local Open Scope nat_scope.

Section wq.
Variable nw : nat.
Notation wqcfg := (cfg wqsh wqpc).
Implicit Types (s : wqsh) (pc : wqpc) (c d : wqcfg) (H : list (hev wqop wqret)) (q : sqsh ptr).

Record fcfg := FCfg { fc : wqcfg; thrown : list nat }.
Inductive fact := FDo (a : act cvc wqop) | FThrow.
Implicit Types (F : fcfg) (zs : list (nat * fact)).

Definition fthrow s pc : option (wqsh * wqpc) :=
  match pc with
  | Sub i (P5 o) k => Some (set_q i (unlock_pull (qof i s)) s, Sub i (P0 o) k)    (* SimpleQueue.hpp 129, 153 *)
  | Sub i (P10 o) k => Some (set_q i (unlock_push (qof i s)) s, Sub i (P0 o) k)   (* SimpleQueue.hpp 138, 163 *)
  | Sub Hi L0 KClr => Some (s, pc)                                                (* make_shared [319], before clear() [321] *)
  | _ => None
  end.
Definition fexec F (x : nat * fact) : option (fcfg * list (hev wqop wqret)) :=
  let '(t, a) := x in
  if inb t (thrown F) then None else
  match a with
  | FDo a => match wq_exec nw (fc F) (t, a) with Some (c', e) => Some (FCfg c' (thrown F), e) | None => None end
  | FThrow => match th (fc F) t with
              | Some pc => match fthrow (sh (fc F)) pc with
                           | Some (s', pc') => Some (FCfg (Cfg s' (fupd t (Some pc') (th (fc F)))) (t :: thrown F), [])
                           | None => None
                           end
              | None => None
              end
  end.
Fixpoint frun F zs : option (fcfg * list (hev wqop wqret)) :=
  match zs with
  | [] => Some (F, [])
  | x :: zs' => match fexec F x with
                | Some (F1, e) => match frun F1 zs' with Some (F2, H) => Some (F2, e ++ H) | None => None end
                | None => None
                end
  end.
Definition finit (f : nat -> bool) : fcfg := FCfg (wq_init nw f) [].

Lemma frun_app zs1 : forall F zs2, frun F (zs1 ++ zs2) =
  match frun F zs1 with Some (F1, H1) => match frun F1 zs2 with Some (F2, H2) => Some (F2, H1 ++ H2) | None => None end | None => None end.
Proof.
  induction zs1 as [|x zs1 IH]; intros F zs2; cbn [app frun].
  - destruct (frun F zs2) as [[? ?]|]; reflexivity.
  - destruct (fexec F x) as [[F1 e]|]; [|reflexivity]. rewrite IH. destruct (frun F1 zs1) as [[F2 H2]|]; [|reflexivity].
    destruct (frun F2 zs2) as [[F3 H3]|]; [|reflexivity]. rewrite app_assoc. reflexivity.
Qed.

(** ** Equal states *)
Definition same d c : Prop := sh d = sh c /\ forall t, th d t = th c t.
Lemma same_exec d c x c' e : same d c -> wq_exec nw c x = Some (c', e) -> exists d', wq_exec nw d x = Some (d', e) /\ same d' c'.
Proof.
  intros [Es Et] Ex. destruct x as [t [o|k|]]; unfold wq_exec in *; cbn in *; rewrite Et, ?Es; (destruct (th c t) as [pc|]; try discriminate).
  - injection Ex as <- <-. eexists. split; [reflexivity|]. split; [reflexivity|]. intros u. cbn [th]. unfold fupd. destruct (Nat.eqb u t); auto.
  - destruct (wq_step nw (sh c) t pc k) as [[s' pc']|]; [|discriminate]. injection Ex as <- <-. eexists. split; [reflexivity|]. split; [reflexivity|]. intros u. cbn [th]. unfold fupd. destruct (Nat.eqb u t); auto.
  - destruct (wq_fin pc); [|discriminate]. injection Ex as <- <-. eexists. split; [reflexivity|]. split; [reflexivity|]. intros u. cbn [th]. unfold fupd. destruct (Nat.eqb u t); auto.
Qed.
Lemma same_run xs : forall d c c' H, same d c -> wq_run nw c xs = Some (c', H) -> exists d', wq_run nw d xs = Some (d', H) /\ same d' c'.
Proof.
  unfold wq_run. induction xs as [|x xs IH]; intros d c c' H Hs; cbn [run]; [intros [= <- <-]; eauto|].
  destruct (exec _ _ _ c x) as [[c1 e]|] eqn:Ex; [|discriminate]. destruct (run _ _ _ c1 xs) as [[c2 H2]|] eqn:Er; [|discriminate]. intros [= <- <-].
  destruct (same_exec d c x c1 e Hs Ex) as (d1 & E1 & S1). destruct (IH _ _ _ _ S1 Er) as (d2 & E2 & S2). exists d2. unfold wq_exec in E1. rewrite E1, E2. auto.
Qed.
Lemma same_trans c1 c2 c3 : same c1 c2 -> same c2 c3 -> same c1 c3.
Proof. intros [E1 E2] [E3 E4]. split; [congruence|]. intros t. rewrite E2. apply E4. Qed.
Lemma same_sym d c : same d c -> same c d.
Proof. intros [E1 E2]. split; [congruence|]. intros t. symmetry. apply E2. Qed.

(** ** A push that has not put anything into the queue yet can be taken back to its beginning. *)
Definition rel (t : nat) (L : option nat) : option nat := match L with Some u => if Nat.eqb u t then None else L | None => None end.
Definition unl (t : nat) q : sqsh ptr := SqSh (rel t (pushL q)) (rel t (pullL q)) (pushE q) (pullE q) (eflag q).
Definition ul (i : lvl) (t : nat) s : wqsh := set_q i (unl t (qof i s)) s.
Definition unc (p : sqpc ptr) : option (sqop ptr) := match p with P0 o | P1 o | P2 o | P3 o | P4 o | P5 o | P8 o | P9 o | P10 o => Some o | _ => None end.
Definition back c (t : nat) (i : lvl) (o : sqop ptr) (k : kont) : wqcfg := Cfg (ul i t (sh c)) (fupd t (Some (Sub i (P0 o) k)) (th c)).

Lemma rel_none t u : u <> t -> rel t (Some u) = Some u.
Proof. intros Hu. cbn. destruct (Nat.eqb_spec u t); [contradiction|reflexivity]. Qed.
Lemma rel_other t L : L <> Some t -> rel t L = L.
Proof. destruct L as [u|]; [|reflexivity]. intros Hu. apply rel_none. congruence. Qed.
Lemma unl_step q t u p q' p' : u <> t -> sq_step q u p tt = Some (q', p') -> sq_step (unl t q) u p tt = Some (unl t q', p').
Proof.
  intros Hu. destruct q as [a b l1 l2 e]. unfold unl. destruct p; cbn [sq_step pushL pullL pushE pullE eflag]; try discriminate; unfold lock_push, lock_pull, unlock_push, unlock_pull, set_push, set_pull, set_flag; cbn [pushL pullL pushE pullE eflag];
    try (destruct a as [a|]; [discriminate|]); try (destruct b as [b|]; [discriminate|]); intros Es;
    try (injection Es as <- <-; cbn [pushL pullL pushE pullE eflag]; rewrite ?rel_none by exact Hu; reflexivity).
  destruct (rev l2); injection Es as <- <-; reflexivity.
Qed.
Lemma dropping_unl t q p : dropping (unl t q) p = dropping q p.
Proof. destruct p; reflexivity. Qed.
Lemma ul_resume s t i u j r k s' pc' : resume nw s u j r k = Some (s', pc') -> resume nw (ul i t s) u j r k = Some (ul i t s', pc').
Proof.
  unfold ul. destruct k; cbn [resume]; destruct r as [|v|n0|b]; try discriminate; try (destruct v as [v|]); unfold hand; intros [= <- <-]; try reflexivity; destruct i; reflexivity.
Qed.
Lemma ul_step s t i u pc k s' pc' : u <> t -> wq_step nw s u pc k = Some (s', pc') -> wq_step nw (ul i t s) u pc k = Some (ul i t s', pc').
Proof.
  intros Hu Es. assert (Hc : (exists j p kk, pc = Sub j p kk) \/ forall j p kk, pc <> Sub j p kk) by (destruct pc; eauto; right; congruence).
  destruct Hc as [(j & p & kk & ->)|Hn].
  - destruct k; cbn [wq_step wq_step0] in *; try discriminate. destruct (sq_fin p) as [r|] eqn:Ef; [apply ul_resume, Es|].
    destruct (sq_step (qof j s) u p tt) as [[q' p']|] eqn:Eq; [|discriminate]. injection Es as <- <-. unfold ul. rewrite qof_set. destruct (lvl_eqb_spec j i) as [->|Hne].
    + rewrite (unl_step _ _ _ _ _ _ Hu Eq), dropping_unl. destruct i; reflexivity.
    + rewrite Eq. destruct i, j; try congruence; reflexivity.
  - destruct s as [a1 a2 a3 a4 a5 a6 lq ws a9 a10 a11 a12 a13 a14 a15]. destruct pc; try (destruct (Hn _ _ _ eq_refl)); destruct k; cbn [wq_step wq_step0] in *; try discriminate; unfold lock_q, hand, ul, is_fin in *;
      repeat match type of Es with
      | context [match ?x with Some _ => _ | None => _ end] => is_var x; destruct x
      | context [match ?l with [] => _ | _ :: _ => _ end] => is_var l; destruct l
      | context [match ?x with BNull => _ | BWork _ => _ end] => is_var x; destruct x
      | context [match ?p with PMed => _ | PLow => _ | PHigh => _ | PReq => _ end] => is_var p; destruct p
      end; destruct i; cbn [set_q qof qH qM qL medc ratio halt qlock waits bfin gone joined got dropped ign ran set_medc set_ratio set_halt set_lock set_waits set_bfin set_gone set_joined log_got log_drop log_ign log_ran] in *;
      repeat match type of Es with
      | context [match lq with _ => _ end] => destruct lq
      | context [inb ?a ?b] => destruct (inb a b)
      | context [Nat.ltb ?a ?b] => destruct (Nat.ltb a b)
      | context [a9 ?b] => destruct (a9 b)
      | context [notify1 ?a ?b] => destruct (notify1 a b)
      end; try discriminate; try (injection Es as <- <-); try reflexivity.
Qed.

(** Who holds the locks of the queues *)
Definition owns (L : option nat) (t : nat) (b : bool) : Prop := if b then L = Some t else L <> Some t.
Lemma own i c : qproj sq0 i c -> forall t p k, th c t = Some (Sub i p k) -> owns (pushL (qof i (sh c))) t (hpush p) /\ owns (pullL (qof i (sh c))) t (hpull p).
Proof.
  intros (xs & ci & H & Er & Esh & Eth) t p k Et.
  destruct (sq_sim false _ _ _ _ (reach_rest _ _ (sqr_new false)) (fun E => False_rect _ (Bool.diff_false_true E)) Er) as (l & g & _ & Hr).
  assert (Et' : th ci t = Some p) by (rewrite Eth, Et; cbn; destruct i; reflexivity). rewrite <- Esh. unfold owns. split.
  - destruct (hpush p) eqn:E; [exact (lk_owner _ _ _ _ _ (r_push _ _ _ Hr) Et' E)|exact (lk_other _ _ _ _ _ (r_push _ _ _ Hr) Et' E)].
  - destruct (hpull p) eqn:E; [exact (lk_owner _ _ _ _ _ (r_pull _ _ _ Hr) Et' E)|exact (lk_other _ _ _ _ _ (r_pull _ _ _ Hr) Et' E)].
Qed.

Lemma unc_step q t p q' p' o : sq_step q t p tt = Some (q', p') -> unc p' = Some o -> owns (pushL q) t (hpush p) -> owns (pullL q) t (hpull p) ->
  unc p = Some o /\ unl t q' = unl t q.
Proof.
  assert (Hr : rel t (Some t) = None) by (cbn; rewrite Nat.eqb_refl; reflexivity).
  destruct q as [a b l1 l2 e]. unfold unl, owns. destruct p; cbn [sq_step pushL pullL pushE pullE eflag hpush hpull]; try discriminate;
    unfold lock_push, lock_pull, unlock_push, unlock_pull, set_push, set_pull, set_flag, cont; cbn [pushL pullL pushE pullE eflag];
    try (destruct a as [a|]; [discriminate|]); try (destruct b as [b|]; [discriminate|]); try (destruct (rev l2)); intros Es Hu Ha Hb;
    injection Es as Eq Ep; subst q' p';
    repeat match type of Hu with
    | context [if ?b then _ else _] => destruct b
    | context [match ?k with Some _ => _ | None => _ end] => destruct k
    end; cbn [unc] in Hu; try discriminate; (split; [exact Hu|]); cbn [pushL pullL pushE pullE eflag]; rewrite ?Ha, ?Hb, ?Hr; reflexivity.
Qed.
Lemma unc_start (o' o : sqop ptr) : unc (sq_start o') = Some o -> sq_start o' = P0 o.
Proof. destruct o'; cbn; intros [= <-]; reflexivity. Qed.
Lemma back_start c t i o k : qproj sq0 i c -> th c t = Some (Sub i (P0 o) k) -> same c (back c t i o k).
Proof.
  intros Hq Et. destruct (own i c Hq _ _ _ Et) as [H1 H2]. cbn in H1, H2. split; cbn [back sh th].
  - unfold ul, unl. rewrite !rel_other by assumption. destruct (sh c), i as []; cbn; match goal with |- context [pushL ?q] => destruct q end; reflexivity.
  - intros u. unfold fupd. destruct (Nat.eqb_spec u t) as [->|]; [exact Et|reflexivity].
Qed.
Lemma step_from s t pc k s' i p kk : wq_step nw s t pc k = Some (s', Sub i p kk) ->
  (exists o, p = sq_start o) \/ exists p1, pc = Sub i p1 kk /\ sq_step (qof i s) t p1 tt = Some (qof i s', p) /\ s' = log_drop (dropping (qof i s) p1) (set_q i (qof i s') s).
Proof.
  intros Es. assert (Hi : lvl_eqb i i = true) by (destruct i; reflexivity). assert (Hc : (exists j p1 k1, pc = Sub j p1 k1) \/ forall j, vq j (Some pc) = None) by (destruct pc; eauto).
  destruct Hc as [(j & p1 & k1 & ->)|Hn].
  - destruct k; cbn [wq_step wq_step0] in Es; try discriminate. destruct (sq_fin p1) as [r|] eqn:Ef.
    + apply resume_fresh in Es as [_ Hf]. destruct (Hf i) as [(o & E)|E]; cbn in E; rewrite Hi in E; [injection E as ->; eauto|discriminate].
    + destruct (sq_step (qof j s) t p1 tt) as [[q' p']|] eqn:Eq; [|discriminate]. injection Es as <- -> -> ->. right. exists p1. split; [reflexivity|].
      assert (E : qof i (log_drop (dropping (qof i s) p1) (set_q i q' s)) = q') by (destruct i; reflexivity). rewrite E. auto.
  - destruct (step_nosub nw _ _ _ _ _ _ Es Hn) as [_ Hf]. destruct (Hf i) as [(o & E)|E]; cbn in E; rewrite Hi in E; [injection E as ->; eauto|discriminate].
Qed.

Lemma back_run f xs : forall c H, wq_run nw (wq_init nw f) xs = Some (c, H) -> forall t i p k o, th c t = Some (Sub i p k) -> unc p = Some o ->
  exists ys d, wq_run nw (wq_init nw f) ys = Some (d, H) /\ same d (back c t i o k).
Proof.
  induction xs as [|x xs IH] using rev_ind; intros c H Er t i p k o Et Hp.
  - injection Er as <- <-. cbn [wq_init th] in Et. destruct (Nat.ltb t nw); [|discriminate]. injection Et as <- <- <-. discriminate.
  - pose proof (qproj_all nw f _ _ _ Er i) as Hq. assert (Efull := Er). unfold wq_run in Er. rewrite run_app in Er. destruct (run _ _ _ (wq_init nw f) xs) as [[c1 H1]|] eqn:E1; [|discriminate]. cbn [run] in Er.
    destruct (exec _ _ _ c1 x) as [[c2 e]|] eqn:Ex; [|discriminate]. injection Er as <- <-. specialize (IH _ _ E1). rewrite app_nil_r in *.
    assert (Hstart : p = P0 o -> exists ys d, wq_run nw (wq_init nw f) ys = Some (d, H1 ++ e) /\ same d (back c2 t i o k)).
    { intros ->. exists (xs ++ [x]), c2. split; [exact Efull|]. apply back_start; assumption. }
    destruct x as [u a]. destruct (Nat.eq_dec u t) as [->|Hne].
    + destruct a as [o'|kk|]; cbn [exec] in Ex; (destruct (th c1 t) as [pc1|] eqn:Et1; try discriminate).
      * injection Ex as <- <-. cbn [th] in Et. rewrite fupd_same in Et. injection Et as Et. apply Hstart.
        destruct o'; cbn [wq_start] in Et; try discriminate; try (injection Et as <- <- <-; discriminate). destruct (Nat.eqb nw 0); [discriminate|]. injection Et as <- <- <-. cbn in *. congruence.
      * destruct (wq_step nw (sh c1) t pc1 kk) as [[s' pc']|] eqn:Es; [|discriminate]. injection Ex as <- <-. cbn [th sh] in *. rewrite fupd_same in Et. injection Et as ->. rewrite app_nil_r in *.
        destruct (step_from _ _ _ _ _ _ _ _ Es) as [(o' & ->)|(p1 & -> & Eq & Es')]; [apply Hstart, unc_start, Hp|].
        assert (Hq1 : qproj sq0 i c1) by (eapply qproj_all; exact E1). destruct (own i c1 Hq1 _ _ _ Et1) as [O1 O2]. destruct (unc_step _ _ _ _ _ _ Eq Hp O1 O2) as [Hp1 Hul].
        destruct (IH t i p1 k o Et1 Hp1) as (ys & d & Ed & Sd). exists ys, d. split; [exact Ed|]. eapply same_trans; [exact Sd|]. split; cbn [back sh th].
        -- unfold ul. rewrite Es' at 2. rewrite Hul. assert (Edr : dropping (qof i (sh c1)) p1 = []) by (destruct p1; try discriminate; reflexivity). rewrite Edr. destruct (sh c1), i; unfold log_drop; cbn; rewrite ?app_nil_r; reflexivity.
        -- intros v. unfold fupd. destruct (Nat.eqb v t); reflexivity.
      * destruct (wq_fin pc1); [|discriminate]. injection Ex as <- _. cbn [th] in Et. rewrite fupd_same in Et. discriminate.
    + assert (Et1 : th c1 t = Some (Sub i p k)). { destruct a as [o'|kk|]; cbn [exec] in Ex; (destruct (th c1 u) as [pc1|]; try discriminate); [| |].
        - injection Ex as <- <-. cbn [th] in Et. rewrite fupd_other in Et by congruence. exact Et.
        - destruct (wq_step nw (sh c1) u pc1 kk) as [[s' pc']|]; [|discriminate]. injection Ex as <- <-. cbn [th] in Et. rewrite fupd_other in Et by congruence. exact Et.
        - destruct (wq_fin pc1); [|discriminate]. injection Ex as <- <-. cbn [th] in Et. rewrite fupd_other in Et by congruence. exact Et. }
      destruct (IH t i p k o Et1 Hp) as (ys & d & Ed & Sd).
      assert (Ex' : exists c', wq_exec nw (back c1 t i o k) (u, a) = Some (c', e) /\ same c' (back c2 t i o k)).
      { unfold wq_exec. destruct a as [o'|kk|]; cbn [exec] in *; cbn [back sh th]; rewrite fupd_other by exact Hne; (destruct (th c1 u) as [pc1|]; try discriminate).
        - injection Ex as <- <-. eexists. split; [reflexivity|]. split; [reflexivity|]. intros v. cbn [back sh th]. unfold fupd. destruct (Nat.eqb_spec v u), (Nat.eqb_spec v t); congruence.
        - destruct (wq_step nw (sh c1) u pc1 kk) as [[s' pc']|] eqn:Es; [|discriminate]. injection Ex as <- <-. rewrite (ul_step _ t i u pc1 kk s' pc' Hne Es). eexists. split; [reflexivity|]. split; [reflexivity|].
          intros v. cbn [back sh th]. unfold fupd. destruct (Nat.eqb_spec v u), (Nat.eqb_spec v t); congruence.
        - destruct (wq_fin pc1); [|discriminate]. injection Ex as <- <-. eexists. split; [reflexivity|]. split; [reflexivity|]. intros v. cbn [back sh th]. unfold fupd. destruct (Nat.eqb_spec v u), (Nat.eqb_spec v t); congruence. }
      destruct Ex' as (c' & Ec' & Sc'). destruct (same_exec d _ _ _ _ Sd Ec') as (d' & Ed' & Sd'). exists (ys ++ [(u, a)]), d'. split; [|eapply same_trans; eassumption].
      unfold wq_run, wq_exec in *. rewrite run_app, Ed. cbn [run]. rewrite Ed'. rewrite app_nil_r. reflexivity.
Qed.

(** So every execution has the history and the state of one without exceptions, in which the calls that threw stand still. *)
Lemma frun_same f zs : forall F H, frun (finit f) zs = Some (F, H) -> exists ys d, wq_run nw (wq_init nw f) ys = Some (d, H) /\ same d (fc F).
Proof.
  induction zs as [|[t a] zs IH] using rev_ind; intros F H Er.
  - injection Er as <- <-. exists [], (wq_init nw f). split; [reflexivity|]. split; reflexivity.
  - rewrite frun_app in Er. destruct (frun (finit f) zs) as [[F1 H1]|] eqn:E1; [|discriminate]. cbn [frun] in Er. destruct (fexec F1 (t, a)) as [[F2 e]|] eqn:Ex; [|discriminate]. injection Er as <- <-.
    destruct (IH _ _ eq_refl) as (ys & d & Ed & Sd). rewrite app_nil_r. unfold fexec in Ex. destruct (inb t (thrown F1)); [discriminate|]. destruct a as [a|].
    + destruct (wq_exec nw (fc F1) (t, a)) as [[c' e']|] eqn:Ec; [|discriminate]. injection Ex as <- <-. destruct (same_exec d _ _ _ _ Sd Ec) as (d' & Ed' & Sd'). exists (ys ++ [(t, a)]), d'. split; [|exact Sd'].
      unfold wq_run, wq_exec in *. rewrite run_app, Ed. cbn [run]. rewrite Ed', app_nil_r. reflexivity.
    + destruct (th (fc F1) t) as [pc|] eqn:Et; [|discriminate]. destruct (fthrow (sh (fc F1)) pc) as [[s' pc']|] eqn:Ef; [|discriminate]. injection Ex as <- <-. rewrite app_nil_r. cbn [fc].
      destruct Sd as [S1 S2]. unfold fthrow in Ef. destruct pc; try discriminate.
      assert (Hback : forall o, unc p = Some o -> s' = ul i t (sh d) -> pc' = Sub i (P0 o) k -> exists ys d', wq_run nw (wq_init nw f) ys = Some (d', H1) /\ same d' (Cfg s' (fupd t (Some pc') (th (fc F1))))).
      { intros o Hp -> ->. destruct (back_run f ys d H1 Ed t i p k o) as (ys' & d' & Ed' & Sd'); [congruence|exact Hp|]. exists ys', d'. split; [exact Ed'|]. eapply same_trans; [exact Sd'|]. split; [reflexivity|].
        intros v. cbn [back th]. unfold fupd. destruct (Nat.eqb v t); auto. }
      assert (Hown : th d t = Some (Sub i p k)) by (rewrite S2; exact Et). destruct (own i d (qproj_all nw f _ _ _ Ed i) _ _ _ Hown) as [O1 O2]. rewrite <- S1 in Ef.
      assert (Hr : rel t (Some t) = None) by (cbn; rewrite Nat.eqb_refl; reflexivity).
      destruct p; try (destruct i; discriminate); cbn [hpush hpull owns] in O1, O2.
      * assert (Ef' : Some (set_q i (unlock_pull (qof i (sh d))) (sh d), Sub i (P0 o) k) = Some (s', pc')) by (destruct i; exact Ef). injection Ef' as <- <-. apply (Hback o); [reflexivity| |reflexivity].
        unfold ul, unl, unlock_pull. rewrite O2, Hr, rel_other by exact O1. reflexivity.
      * assert (Ef' : Some (set_q i (unlock_push (qof i (sh d))) (sh d), Sub i (P0 o) k) = Some (s', pc')) by (destruct i; exact Ef). injection Ef' as <- <-. apply (Hback o); [reflexivity| |reflexivity].
        unfold ul, unl, unlock_push. rewrite O1, Hr, rel_other by exact O2. reflexivity.
      * destruct i; try discriminate. destruct k; try discriminate. injection Ef as <- <-. exists ys, d. split; [exact Ed|]. split; [reflexivity|]. intros v. cbn [th]. unfold fupd. destruct (Nat.eqb_spec v t) as [->|]; [congruence|auto].
Qed.

(** The calls that have thrown *)
Definition failed pc : bool := match pc with Sub _ (P0 _) (KPush _ _ | KPushV) | Sub Hi L0 KClr => true | _ => false end.
Definition thrownI F : Prop := forall t, inb t (thrown F) = true -> nw <= t /\ exists pc, th (fc F) t = Some pc /\ failed pc = true.

Lemma fthrow_failed s pc s' pc' : fthrow s pc = Some (s', pc') -> shape pc -> failed pc' = true /\ workpc pc = false /\ in_close pc' = in_close pc /\ (forall j, joined s' = joined s /\ gone s' = gone s /\ qlock s' = qlock s /\ halt s' = halt s /\ waits s' = waits s /\ ran s' = ran s /\ pullE (qof j s') = pullE (qof j s) /\ pushE (qof j s') = pushE (qof j s)).
Proof.
  unfold fthrow. destruct pc; try discriminate. destruct p; try (destruct i; discriminate); intros Ef (o' & Hk & Ho).
  - assert (Ef' : Some (set_q i (unlock_pull (qof i s)) s, Sub i (P0 o) k) = Some (s', pc')) by (destruct i; exact Ef). injection Ef' as <- <-. cbn in Ho. destruct k; cbn in Hk; try (destruct o'; naive_solver); (destruct i; splits; try reflexivity; intros []; splits; reflexivity).
  - assert (Ef' : Some (set_q i (unlock_push (qof i s)) s, Sub i (P0 o) k) = Some (s', pc')) by (destruct i; exact Ef). injection Ef' as <- <-. cbn in Ho. destruct k; cbn in Hk; try (destruct o'; naive_solver); (destruct i; splits; try reflexivity; intros []; splits; reflexivity).
  - destruct i; try discriminate. destruct k; try discriminate. injection Ef as <- <-. splits. intros j. splits.
Qed.

Lemma fshaped f zs F H : frun (finit f) zs = Some (F, H) -> shaped (fc F).
Proof.
  intros Er. destruct (frun_same f zs F H Er) as (ys & d & Ed & Sd). intros t pc Et. destruct Sd as [_ S2]. rewrite <- S2 in Et. exact (shaped_run nw _ _ _ _ (shaped_init nw f) Ed _ _ Et).
Qed.
Lemma thrown_run f zs : forall F H, frun (finit f) zs = Some (F, H) -> thrownI F.
Proof.
  induction zs as [|[t a] zs IH] using rev_ind; intros F H Er.
  - injection Er as <- <-. intros u E. discriminate.
  - rewrite frun_app in Er. destruct (frun (finit f) zs) as [[F1 H1]|] eqn:E1; [|discriminate]. cbn [frun] in Er. destruct (fexec F1 (t, a)) as [[F2 e]|] eqn:Ex; [|discriminate]. injection Er as <- <-.
    specialize (IH _ _ eq_refl). unfold fexec in Ex. destruct (inb t (thrown F1)) eqn:Ein; [discriminate|]. destruct a as [a|].
    + destruct (wq_exec nw (fc F1) (t, a)) as [[c' e']|] eqn:Ec; [|discriminate]. injection Ex as <- <-. intros u Hu. cbn [thrown fc] in *. destruct (IH u Hu) as (Hn & pc & E2 & E3). split; [exact Hn|]. exists pc. split; [|exact E3].
      assert (Hne : u <> t) by congruence. unfold wq_exec in Ec. destruct a as [o|k|]; cbn in Ec; (destruct (th (fc F1) t) as [pt|]; try discriminate).
      * injection Ec as <- _. cbn [th]. rewrite fupd_other by exact Hne. exact E2.
      * destruct (wq_step nw (sh (fc F1)) t pt k) as [[s' pc']|]; [|discriminate]. injection Ec as <- _. cbn [th]. rewrite fupd_other by exact Hne. exact E2.
      * destruct (wq_fin pt); [|discriminate]. injection Ec as <- _. cbn [th]. rewrite fupd_other by exact Hne. exact E2.
    + destruct (th (fc F1) t) as [pc|] eqn:Et; [|discriminate]. destruct (fthrow (sh (fc F1)) pc) as [[s' pc']|] eqn:Ef; [|discriminate]. injection Ex as <- <-.
      destruct (fthrow_failed _ _ _ _ Ef (fshaped f zs _ _ E1 _ _ Et)) as (J1 & J2 & _). intros u Hu. cbn [thrown fc th] in *. destruct (Nat.eq_dec u t) as [->|Hne].
      * split; [|exists pc'; rewrite fupd_same; auto]. destruct (le_lt_dec nw t) as [|Hlt]; [assumption|exfalso]. destruct (frun_same f zs F1 H1 E1) as (ys & d & Ed & [_ S2]).
        destruct (op_work _ _ (openI_run nw _ _ _ _ (openI_init nw f) Ed) t Hlt) as (pw & E2 & E3). rewrite S2 in E2. congruence.
      * apply inb_spec in Hu as [Hu|Hu]; [congruence|]. destruct (IH u (proj2 (inb_spec _ _) Hu)) as (Hn & pu & E2 & E3). split; [exact Hn|]. exists pu. rewrite fupd_other by exact Hne. auto.
Qed.

(** ** Progress: the step is made by the thread itself, or by one that holds a lock *)
Definition holds pc : bool := hq pc || match pc with Sub _ p _ => hpush p || hpull p | _ => false end.
Definition byl c (t : nat) : Prop := exists u pu, th c u = Some pu /\ (u = t \/ holds pu = true) /\ goes nw c u.

Lemma sub_goes c i u p k : shaped c -> th c u = Some (Sub i p k) -> (sq_fin p = None -> exists q' p', sq_step (qof i (sh c)) u p tt = Some (q', p')) -> goes nw c u.
Proof.
  intros Hs Eu Hgo. destruct (sq_fin p) as [r|] eqn:Ef.
  - assert (Ep : p = SqModel.Ret r) by (destruct p; try discriminate; injection Ef as ->; reflexivity). subst p.
    destruct (Hs _ _ Eu) as (o & Hk & Ho). assert (Er : exists x, resume nw (sh c) u i r k = Some x).
    { destruct k; cbn in Hk; cbn [resume]; destruct r; cbn in Ho; try (destruct o; naive_solver); try (destruct r; eauto); eauto. }
    destruct Er as [[s' pc'] Er]. eapply (goes_int nw c u _ CStep); [exact Eu| |discriminate|discriminate]. cbn. exact Er.
  - destruct (Hgo eq_refl) as (q' & p' & Eq). eapply (goes_int nw c u _ CStep); [exact Eu| |discriminate|discriminate]. cbn [wq_step wq_step0]. rewrite Ef, Eq. reflexivity.
Qed.
Lemma byl_sub c i t p k : shaped c -> qproj sq0 i c -> th c t = Some (Sub i p k) -> byl c t.
Proof.
  intros Hs (xs & ci & H & Er & Esh & Eth) Et. assert (Hi : lvl_eqb i i = true) by (destruct i; reflexivity).
  destruct (sq_sim false _ _ _ _ (reach_rest _ _ (sqr_new false)) (fun E => False_rect _ (Bool.diff_false_true E)) Er) as (l & g & _ & Hr).
  assert (Hcan : forall u pu, th ci u = Some pu -> can_step sq_start sq_step sq_fin ci u -> exists ku, th c u = Some (Sub i pu ku) /\ goes nw c u).
  { intros u pu Eu (a & c' & e & Ha & Ex). rewrite Eth in Eu. unfold vq in Eu. destruct (th c u) as [pc|] eqn:Ecu; [|discriminate]. destruct pc; try discriminate. destruct (lvl_eqb_spec i i0) as [<-|]; [|discriminate]. injection Eu as ->.
    exists k0. split; [reflexivity|]. eapply sub_goes; [exact Hs|exact Ecu|]. intros Ef. unfold exec in Ex. rewrite Eth, Ecu in Ex. cbn [vq] in Ex. rewrite Hi in Ex.
    destruct a as [o|[]|]; [discriminate| |rewrite Ef in Ex; discriminate]. rewrite Esh in Ex. destruct (sq_step (qof i (sh c)) u pu tt) as [[q' p']|]; [eauto|discriminate]. }
  destruct (pushL (sh ci)) as [u|] eqn:E1; [|destruct (pullL (sh ci)) as [u|] eqn:E2].
  - destruct (proj1 (r_push _ _ _ Hr u) E1) as (pu & Eu & Hh). destruct (Hcan u pu Eu) as (ku & Ecu & Hg).
    { eapply sq_can_step; [exact Eu|eapply hinv_nocrash; [exact Hr|eassumption]|..]; intros E; exfalso; destruct pu; discriminate. }
    exists u, (Sub i pu ku). split; [exact Ecu|]. split; [right; cbn; rewrite Hh; reflexivity|exact Hg].
  - destruct (proj1 (r_pull _ _ _ Hr u) E2) as (pu & Eu & Hh). destruct (Hcan u pu Eu) as (ku & Ecu & Hg).
    { eapply sq_can_step; [exact Eu|eapply hinv_nocrash; [exact Hr|eassumption]|auto|]; intros E; exfalso; destruct pu; discriminate. }
    exists u, (Sub i pu ku). split; [exact Ecu|]. split; [right; cbn; rewrite Hh; apply orb_true_r|exact Hg].
  - assert (Ei : th ci t = Some p) by (rewrite Eth, Et; cbn; rewrite Hi; reflexivity). destruct (Hcan t p Ei) as (kt & Ect & Hg); [eapply sq_can_step; [exact Ei|eapply hinv_nocrash; [exact Hr|eassumption]|auto|auto]|].
    exists t, (Sub i p k). auto.
Qed.
Lemma byl_int c t pc k s' pc' : th c t = Some pc -> wq_step nw (sh c) t pc k = Some (s', pc') -> k <> CSpur -> k <> CTime -> byl c t.
Proof. intros Et Es H1 H2. exists t, pc. split; [exact Et|]. split; [auto|]. eapply goes_int; eassumption. Qed.
Ltac gostep Et := eapply (byl_int _ _ _ CStep); [exact Et|cbn [wq_step wq_step0]; reflexivity|discriminate|discriminate].
Section go.
Context (c : wqcfg) (Hs : shaped c) (Hq : forall i, qproj sq0 i c) (Hl : lk (qlock (sh c)) hq (th c)).
Hypothesis Hheld : forall t pc, th c t = Some pc -> hq pc = true -> goes nw c t.
Lemma byl_lock t pc pc' : th c t = Some pc -> wq_step nw (sh c) t pc CStep = lock_q (sh c) t pc' -> byl c t.
Proof.
  intros Et E. destruct (qlock (sh c)) as [u|] eqn:El.
  - destruct (proj1 (Hl u) eq_refl) as (pu & Eu & Hu). exists u, pu. split; [exact Eu|]. split; [right; unfold holds; rewrite Hu; reflexivity|eapply Hheld; eassumption].
  - eapply (byl_int _ _ _ CStep); [exact Et|rewrite E; unfold lock_q; rewrite El; reflexivity|discriminate|discriminate].
Qed.
Lemma byl_base t pc : th c t = Some pc -> ~ dead pc -> ~ asleep (sh c) t pc -> (forall k, pc <> CJ k false) -> byl c t.
Proof.
  intros Et Hd Ha Hk. destruct pc; try (destruct (Hd I)); try gostep Et.
  - eapply byl_sub; eauto.
  - (* A0 *) destruct x as [y|]; [destruct p; destruct (is_fin (sh c) y) eqn:Ey|]; (eapply (byl_int _ _ _ CStep); [exact Et|cbn [wq_step wq_step0]; rewrite ?Ey; reflexivity|discriminate|discriminate]).
  - (* AN *) destruct (waits (sh c)) as [|u ws] eqn:Ew.
    + eapply (byl_int _ _ _ CStep); [exact Et|cbn; rewrite Ew; reflexivity|discriminate|discriminate].
    + eapply (byl_int _ _ _ (CWake u)); [exact Et|cbn; rewrite Ew; unfold inb; cbn; rewrite Nat.eqb_refl; reflexivity|discriminate|discriminate].
  - destruct xs as [|[[|b]|] xs]; gostep Et.
  - destruct (bfin (sh c) b) eqn:Eb; (eapply (byl_int _ _ _ CStep); [exact Et|cbn; rewrite Eb; reflexivity|discriminate|discriminate]).
  - eapply byl_lock; [exact Et|reflexivity].
  - (* W4 *) destruct (inb t (waits (sh c))) eqn:Ei; [destruct Ha; split; auto|].
    eapply (byl_int _ _ _ CStep); [exact Et|cbn; rewrite Ei; reflexivity|discriminate|discriminate].
  - eapply byl_lock; [exact Et|reflexivity].
  - eapply byl_lock; [exact Et|reflexivity].
  - destruct h; [|congruence]. exists t, (CJ k true). split; [exact Et|]. split; [auto|]. eapply Hheld; [exact Et|reflexivity].
  - (* Ret *) exists t, (Ret r). split; [exact Et|]. split; [auto|]. exists ARet. unfold wq_exec. cbn. rewrite Et. cbn. eexists _, _. split; [discriminate|]. split; [discriminate|reflexivity].
Qed.
End go.

(** A thread that has not thrown can make a step: neither a timeout, nor a spurious wakeup, nor a new call, nor an exception. *)
Definition fgo F : Prop := exists t a F' e, (forall k, a = AInt k -> k <> CSpur /\ k <> CTime) /\ (forall o, a <> ACall o) /\ fexec F (t, FDo a) = Some (F', e).
Lemma failed_holds pc : failed pc = true -> holds pc = false.
Proof. destruct pc; try discriminate. destruct p; try (destruct i; discriminate); try reflexivity. Qed.
Lemma byl_fgo F d t : thrownI F -> same d (fc F) -> inb t (thrown F) = false -> byl d t -> fgo F.
Proof.
  intros Hi Sd Ht (u & pu & Eu & Hu & a & c' & e & Ha & Hc & Ex).
  assert (Hut : inb u (thrown F) = false). { destruct Hu as [-> |Hu]; [exact Ht|]. destruct (inb u (thrown F)) eqn:E; [exfalso|reflexivity]. destruct (Hi u E) as (_ & pc & E1 & E2). destruct Sd as [_ S2]. rewrite S2 in Eu.
    rewrite E1 in Eu. injection Eu as ->. rewrite (failed_holds _ E2) in Hu. discriminate. }
  destruct (same_exec (fc F) d _ _ _ (same_sym _ _ Sd) Ex) as (d' & Ed & _). exists u, a. unfold fexec. rewrite Hut, Ed. eexists _, _. split; [exact Ha|]. split; [exact Hc|reflexivity].
Qed.

Lemma throw_open f zs F H t pc : frun (finit f) zs = Some (F, H) -> halt (sh (fc F)) = false -> th (fc F) t = Some pc -> inb t (thrown F) = false ->
  (forall xs, pc <> Crash xs) -> ~ asleep (sh (fc F)) t pc -> fgo F.
Proof.
  intros Er Hh Et Htt Hcr Ha. destruct (frun_same f zs F H Er) as (ys & d & Ed & Sd). pose proof Sd as [S1 S2]. rewrite <- S1 in Hh, Ha. rewrite <- S2 in Et.
  pose proof (openI_run nw _ _ _ _ (openI_init nw f) Ed) as Ho. pose proof (op_late _ _ Ho Hh _ _ Et) as Hl. eapply byl_fgo; [exact (thrown_run f zs F H Er)|exact Sd|exact Htt|].
  eapply byl_base; [apply Ho|exact (qproj_all nw f _ _ _ Ed)|apply Ho| |exact Et| |exact Ha|intros k ->; discriminate].
  - intros u pu Eu Hu. pose proof (op_late _ _ Ho Hh _ _ Eu) as Hlu. destruct pu; try discriminate; (eapply (goes_int nw _ _ _ CStep); [exact Eu|cbn [wq_step wq_step0]; reflexivity|discriminate|discriminate]).
  - destruct pc; cbn; auto; [discriminate|]. intros _. destruct (Hcr _ eq_refl).
Qed.

(** The queue is closed and no call of closeWorkerQueue has thrown. *)
Lemma throw_closing f zs F H t pc : frun (finit f) zs = Some (F, H) -> no_overlap H -> (forall u pu, inb u (thrown F) = true -> th (fc F) u = Some pu -> in_close pu = false) -> halt (sh (fc F)) = true ->
  th (fc F) t = Some pc -> inb t (thrown F) = false -> ~ dead pc -> fgo F.
Proof.
  intros Er Hno Hcl Hh Et Htt Hd. destruct (frun_same f zs F H Er) as (ys & d & Ed & Sd). pose proof Sd as [S1 S2]. rewrite <- S1 in Hh. rewrite <- S2 in Et. pose proof (thrown_run f zs F H Er) as Hthr.
  pose proof (liveI_run nw ys [] _ _ _ (shaped_init nw f) (liveI_init nw f) Ed Hno) as Hl. cbn [app] in Hl. pose proof (shaped_run nw _ _ _ _ (shaped_init nw f) Ed) as Hs.
  assert (Hheld : forall u pu, th d u = Some pu -> hq pu = true -> goes nw d u).
  { intros u pu Eu Hu. destruct pu; try discriminate; try (eapply (goes_int nw _ _ _ CStep); [exact Eu|cbn [wq_step wq_step0]; reflexivity|discriminate|discriminate]). destruct h; [|discriminate].
    destruct (Nat.ltb k nw) eqn:Hk; (eapply (goes_int nw _ _ _ CStep); [exact Eu| |discriminate|discriminate]); cbn [wq_step wq_step0]; rewrite Hk; [|reflexivity].
    apply Nat.ltb_lt in Hk. rewrite (lv_ct _ _ _ Hl _ _ Eu k Hk). reflexivity. }
  assert (Hawake : forall u pu, th d u = Some pu -> inb u (thrown F) = false -> ~ dead pu -> ~ asleep (sh d) u pu -> (forall k, pu <> CJ k false) -> fgo F).
  { intros u pu Eu Hu Hdu Ha Hk. eapply byl_fgo; [exact Hthr|exact Sd|exact Hu|]. eapply byl_base; [exact Hs|exact (qproj_all nw f _ _ _ Ed)|apply Hl|exact Hheld|exact Eu|exact Hdu|exact Ha|exact Hk]. }
  assert (Hbase : forall u pu, th d u = Some pu -> inb u (thrown F) = false -> ~ dead pu -> (forall k, pu <> CJ k false) -> fgo F).
  { intros u pu Eu Hu Hdu Hk. assert (Hda : asleep (sh d) u pu \/ ~ asleep (sh d) u pu) by (unfold asleep; destruct pu; try (right; intros [? _]; discriminate); destruct (inb u (waits (sh d))); [left; auto|right; intros [_ ?]; discriminate]).
    destruct Hda as [Hda|Hda]; [|eapply Hawake; eassumption]. destruct (lv_wait _ _ _ Hl Hh) as [E|(v & pv & Ev & Hv)]; [destruct Hda as [_ Hw]; rewrite E in Hw; discriminate|].
    eapply (Hawake v pv Ev).
    - destruct (inb v (thrown F)) eqn:E; [|reflexivity]. exfalso. pose proof (Hcl v pv E) as E'. rewrite <- S2 in E'. rewrite (closer_in _ (pre_closer _ Hv)) in E'. specialize (E' Ev). discriminate.
    - destruct pv; try discriminate; cbn; auto.
    - destruct pv; try discriminate; intros [? _]; discriminate.
    - intros k ->; discriminate. }
  assert (Hx : (exists k, pc = CJ k false) \/ forall k, pc <> CJ k false) by (destruct pc; try (right; congruence); destruct h; [right; congruence|left; eauto]).
  destruct Hx as [[k ->]|Hx]; [|eapply Hbase; eassumption].
  assert (Hstep : forall s' pc', wq_step nw (sh d) t (CJ k false) CStep = Some (s', pc') -> fgo F).
  { intros s' pc' Es. eapply byl_fgo; [exact Hthr|exact Sd|exact Htt|]. eapply byl_int; [exact Et|exact Es|discriminate|discriminate]. }
  destruct (Nat.ltb k nw) eqn:El; [|eapply Hstep; cbn [wq_step wq_step0]; rewrite El; reflexivity].
  destruct (inb k (joined (sh d))) eqn:Ej; [eapply Hstep; cbn [wq_step wq_step0]; rewrite El, Ej; reflexivity|].
  destruct (inb k (gone (sh d))) eqn:Eg; [eapply Hstep; cbn [wq_step wq_step0]; rewrite El, Ej, Eg; reflexivity|].
  apply Nat.ltb_lt in El. destruct (lv_work _ _ _ Hl k El) as (pk & E1 & E2). eapply Hbase; [exact E1| | |intros k' ->; discriminate].
  - destruct (inb k (thrown F)) eqn:E; [|reflexivity]. destruct (Hthr k E) as [? _]. lia.
  - destruct pk; try discriminate; cbn; auto. pose proof (lv_we _ _ _ Hl _ E1). congruence.
Qed.

(** ** closeWorkerQueue called at most once *)
Definition joining pc : bool := match pc with CJ _ _ | CU => true | _ => false end.
Definition closes H : nat := length (List.filter (fun e => match e with HInv _ OClose => true | _ => false end) H).
Lemma closes_app H K : closes (H ++ K) = closes H + closes K.
Proof. unfold closes. rewrite List.filter_app, app_length. reflexivity. Qed.

Lemma step_join s t pc k s' pc' : wq_step nw s t pc k = Some (s', pc') -> (joined s' = joined s /\ joining pc = false) \/ (joining pc = true /\ (in_close pc' = true -> joining pc' = true)).
Proof.
  intros Es. destruct pc.
  1: { destruct k; cbn [wq_step wq_step0] in Es; try discriminate. destruct (sq_fin p) as [r|] eqn:Ef.
    - destruct k0; wq_resume Es; auto.
    - destruct (sq_step (qof i s) t p tt) as [[q' p']|]; [|discriminate]. inj Es. left. split; [destruct i; reflexivity|reflexivity]. }
  all: destruct k; cbn [wq_step wq_step0] in Es; try discriminate; wq_cases Es; inj Es; auto.
  all: right; (split; [reflexivity|]); destruct h; [reflexivity|discriminate].
Qed.

Record onceI H c : Prop := {
  oi_none : closes H = 0 -> joined (sh c) = [] /\ forall t pc, th c t = Some pc -> in_close pc = false;
  oi_uniq : closes H <= 1 -> forall t u pt pu, th c t = Some pt -> th c u = Some pu -> in_close pt = true -> in_close pu = true -> t = u;
  oi_join : closes H <= 1 -> forall t pc, th c t = Some pc -> in_close pc = true -> joining pc = false -> joined (sh c) = [];
}.
Lemma onceI_run f xs : forall c H, wq_run nw (wq_init nw f) xs = Some (c, H) -> onceI H c.
Proof.
  induction xs as [|x xs IH] using rev_ind; intros c H Er.
  - injection Er as <- <-. constructor; cbn [wq_init sh th].
    + intros _. split; [reflexivity|]. intros t pc. destruct (Nat.ltb t nw); [intros [= <-]; reflexivity|discriminate].
    + intros _ t u pt pu. destruct (Nat.ltb t nw); [intros [= <-]|]; discriminate.
    + intros _ t pc. destruct (Nat.ltb t nw); [intros [= <-]|]; discriminate.
  - unfold wq_run in Er. rewrite run_app in Er. destruct (run _ _ _ (wq_init nw f) xs) as [[c1 H1]|] eqn:E1; [|discriminate]. cbn [run] in Er.
    destruct (exec _ _ _ c1 x) as [[c2 e]|] eqn:Ex; [|discriminate]. injection Er as <- <-. rewrite app_nil_r. destruct (IH _ _ E1) as [O1 O2 O3]. pose proof (shaped_run nw _ _ _ _ (shaped_init nw f) E1) as Hs.
    destruct x as [t [o|k|]]; cbn [exec] in Ex; (destruct (th c1 t) as [pc|] eqn:Et; try discriminate).
    + injection Ex as <- <-. pose proof (start_live nw o) as (_ & _ & _ & _ & S5).
      assert (Ho : in_close (wq_start nw o) = true -> o = OClose) by exact S5. destruct (in_close (wq_start nw o)) eqn:Ei.
      * rewrite (Ho eq_refl) in *. assert (Ec : closes [HInv t OClose] = 1) by reflexivity. constructor; rewrite closes_app, Ec; cbn [sh th].
        -- lia.
        -- intros Hle u v pu pv. destruct (O1 ltac:(lia)) as [_ Hn]. unfold fupd. destruct (Nat.eqb_spec u t) as [->|], (Nat.eqb_spec v t) as [->|]; intros E2 E3 E4 E5; auto; [pose proof (Hn _ _ E3)|pose proof (Hn _ _ E2)|pose proof (Hn _ _ E2)]; congruence.
        -- intros Hle u pu _ _ _. destruct (O1 ltac:(lia)) as [E _]. exact E.
      * assert (Ec : closes [HInv t o] = 0) by (destruct o; try reflexivity; discriminate). constructor; rewrite closes_app, Ec, Nat.add_0_r; cbn [sh th].
        -- intros E0. destruct (O1 E0) as [J1 J2]. split; [exact J1|]. intros u pu. unfold fupd. destruct (Nat.eqb u t); [intros [= <-]; exact Ei|apply J2].
        -- intros Hle u v pu pv. unfold fupd. destruct (Nat.eqb u t); [intros [= <-] _ E; congruence|]. destruct (Nat.eqb v t); [intros _ [= <-] _ E; congruence|]. apply O2, Hle.
        -- intros Hle u pu. unfold fupd. destruct (Nat.eqb u t); [intros [= <-] E; congruence|apply O3, Hle].
    + destruct (wq_step nw (sh c1) t pc k) as [[s' pc']|] eqn:Es; [|discriminate]. injection Ex as <- <-. rewrite app_nil_r.
      pose proof (sl_close _ _ _ _ _ _ (step_live nw _ _ _ _ _ _ Es (Hs _ _ Et))) as Hcl. pose proof (step_join _ _ _ _ _ _ Es) as Hj. constructor; cbn [sh th].
      * intros E0. destruct (O1 E0) as [J1 J2]. pose proof (J2 _ _ Et) as Hi. destruct Hj as [[Hj _]|[Hj _]]; [|destruct pc; discriminate]. split; [congruence|].
        intros u pu. unfold fupd. destruct (Nat.eqb u t); [intros [= <-]; destruct (in_close pc'); [rewrite Hcl in Hi by reflexivity; discriminate|reflexivity]|apply J2].
      * intros Hle u v pu pv. unfold fupd. destruct (Nat.eqb_spec u t) as [->|]; destruct (Nat.eqb_spec v t) as [->|]; auto.
        -- intros [= <-] E2 E3 E4. eapply (O2 Hle); [exact Et|exact E2|auto|exact E4].
        -- intros E2 [= <-] E3 E4. eapply (O2 Hle); [exact E2|exact Et|exact E3|auto].
        -- intros E2 E3 E4 E5. eapply (O2 Hle); eassumption.
      * intros Hle u pu. unfold fupd. destruct (Nat.eqb_spec u t) as [->|Hne].
        -- intros [= <-] E2 E3. destruct Hj as [[Hj Hj']|[Hj Hj']]; [|specialize (Hj' E2); congruence]. rewrite Hj. eapply O3; [exact Hle|exact Et|auto|exact Hj'].
        -- intros E2 E3 E4. pose proof (O3 Hle _ _ E2 E3 E4) as E5. destruct Hj as [[Hj _]|[Hj _]]; [congruence|]. exfalso. apply Hne. eapply (O2 Hle); [exact E2|exact Et|exact E3|destruct pc; try discriminate; reflexivity].
    + destruct (wq_fin pc) as [r|]; [|discriminate]. injection Ex as <- <-. assert (Ec : closes [HRet t r : hev wqop wqret] = 0) by reflexivity. constructor; rewrite closes_app, Ec, Nat.add_0_r; cbn [sh th].
      * intros E0. destruct (O1 E0) as [J1 J2]. split; [exact J1|]. intros u pu. unfold fupd. destruct (Nat.eqb u t); [discriminate|apply J2].
      * intros Hle u v pu pv. unfold fupd. destruct (Nat.eqb u t); [discriminate|]. destruct (Nat.eqb v t); [discriminate|apply O2, Hle].
      * intros Hle u pu. unfold fupd. destruct (Nat.eqb u t); [discriminate|apply O3, Hle].
Qed.

(** ** closeWorkerQueue called when [halt] is set and a worker has not ended *)
Record stuckI (u w : nat) F : Prop := {
  st_w : w < nw;
  st_u : exists pu, th (fc F) u = Some pu /\ (pu = CL1 /\ halt (sh (fc F)) = true \/ exists j, pu = CJ j true /\ j <= w);
  st_lock : qlock (sh (fc F)) = Some u;
  st_run : exists pw, th (fc F) w = Some pw /\ workpc pw = true /\ hq pw = false /\ pw <> W8 /\ pw <> WE;
  st_gone : inb w (gone (sh (fc F))) = false;
  st_join : inb w (joined (sh (fc F))) = false;
}.
Lemma work_step s t pc k s' pc' u : wq_step nw s t pc k = Some (s', pc') -> shape pc -> qlock s = Some u -> workpc pc = true -> hq pc = false -> pc <> W8 ->
  workpc pc' = true /\ hq pc' = false /\ pc' <> W8 /\ pc' <> WE.
Proof.
  intros Es Hsh Hl Hw Hh H8. pose proof (step_live nw _ _ _ _ _ _ Es Hsh) as L. split; [exact (sl_work _ _ _ _ _ _ L Hw)|].
  assert (Hh' : hq pc' = false) by (destruct (sl_lock _ _ _ _ _ _ L) as [[_ E]|[(E & _)|(E & _)]]; congruence). split; [exact Hh'|].
  destruct pc; try discriminate; try congruence.
  1: { destruct k; cbn [wq_step wq_step0] in Es; try discriminate. destruct (sq_fin p) as [r|] eqn:Ef.
    - destruct k0; wq_resume Es; clear; unfold gstart, after_add, dummies, after_exec; repeat match goal with |- context [match ?z with _ => _ end] => destruct z end; split; discriminate.
    - destruct (sq_step (qof i s) t p tt) as [[q' p']|]; [|discriminate]. inj Es. split; discriminate. }
  all: destruct k; cbn [wq_step wq_step0] in Es; try discriminate; wq_cases Es; inj Es; unfold gstart, after_exec, loop in *;
    repeat match goal with |- context [match ?z with _ => _ end] => destruct z end; try (split; discriminate); try discriminate.
Qed.

Lemma flock f zs F H : frun (finit f) zs = Some (F, H) -> lk (qlock (sh (fc F))) hq (th (fc F)).
Proof.
  intros Er. destruct (frun_same f zs F H Er) as (ys & d & Ed & [S1 S2]). pose proof (op_lock _ _ (openI_run nw _ _ _ _ (openI_init nw f) Ed)) as Hl. intros u. rewrite <- S1. rewrite (Hl u). split; intros (pc & E1 & E2); exists pc; rewrite S2 in *; auto.
Qed.

Lemma stuck_exec f zs F H u w x F' e : frun (finit f) zs = Some (F, H) -> stuckI u w F -> fexec F x = Some (F', e) -> stuckI u w F' /\ forall r, ~ In (HRet u r) e.
Proof.
  intros Er [Hw (pu & Eu & Hu) Hlk (pw & Ew & W1 & W2 & W3 & W4) Hg Hj] Ex. pose proof (fshaped f zs F H Er) as Hs. pose proof (flock f zs F H Er) as Hl.
  assert (Huw : u <> w). { intros ->. rewrite Eu in Ew. injection Ew as <-. destruct Hu as [[-> _]|(j & -> & _)]; discriminate. }
  destruct x as [t a]. unfold fexec in Ex. destruct (inb t (thrown F)); [discriminate|]. destruct a as [[o|k|]|].
  - unfold wq_exec in Ex. cbn in Ex. destruct (th (fc F) t) eqn:Et; [discriminate|]. injection Ex as <- <-. split; [|intros r [E|[]]; discriminate].
    constructor; cbn [fc sh th]; auto; [exists pu|exists pw]; (rewrite fupd_other by congruence); auto.
  - unfold wq_exec in Ex. cbn in Ex. destruct (th (fc F) t) as [pc|] eqn:Et; [|discriminate]. destruct (wq_step nw (sh (fc F)) t pc k) as [[s' pc']|] eqn:Es; [|discriminate]. injection Ex as <- <-. split; [|intros r []].
    pose proof (step_live nw _ _ _ _ _ _ Es (Hs _ _ Et)) as L. destruct (step_gone nw _ _ _ _ _ _ Es) as (G1 & G2 & _).
    assert (Hg' : inb w (gone s') = false).
    { destruct G1 as [->|[-> E]]; [exact Hg|]. unfold inb. cbn [existsb]. destruct (Nat.eqb_spec w t) as [Ewt|]; [|exact Hg]. exfalso. subst t. rewrite Ew in Et. injection Et as <-.
      destruct (work_step _ _ _ _ _ _ u Es (Hs _ _ Ew) Hlk W1 W2 W3) as (_ & _ & _ & E'). congruence. }
    assert (Hj' : inb w (joined s') = false).
    { destruct G2 as [->|(j & -> & E)]; [exact Hj|]. unfold inb. cbn [existsb]. destruct (Nat.eqb_spec w j) as [Ewj|]; [subst j; congruence|exact Hj]. }
    destruct (Nat.eq_dec t u) as [->|Htu].
    + rewrite Eu in Et. injection Et as <-. assert (Hn : exists j, pc' = CJ j true /\ j <= w /\ qlock s' = qlock (sh (fc F))).
      { destruct Hu as [[-> Hh]|(j & -> & Hjw)]; destruct k; cbn [wq_step wq_step0] in Es; try discriminate.
        - rewrite Hh in Es. inj Es. exists 0. splits; lia.
        - destruct (Nat.ltb_spec j nw) as [_|Hge]; [|exfalso; clear - Hge Hjw Hw; lia]. destruct (inb j (joined (sh (fc F)))) eqn:Ej.
          + inj Es. exists (S j). splits. destruct (Nat.eq_dec j w) as [->|]; [congruence|lia].
          + destruct (inb j (gone (sh (fc F)))) eqn:Eg; [|discriminate]. inj Es. exists (S j). splits. destruct (Nat.eq_dec j w) as [->|]; [congruence|lia]. }
      destruct Hn as (j & -> & Hjw & El). constructor; cbn [fc sh th]; auto; [|congruence|].
      * exists (CJ j true). rewrite fupd_same. split; [reflexivity|]. right. eauto.
      * exists pw. rewrite fupd_other by congruence. auto.
    + assert (Hnh : hq pc = false). { destruct (hq pc) eqn:E; [|reflexivity]. pose proof (proj2 (Hl t) ltac:(eauto)) as E'. congruence. }
      assert (El : qlock s' = Some u) by (destruct (sl_lock _ _ _ _ _ _ L) as [[E _]|[(E & _)|(E & _)]]; congruence).
      constructor; cbn [fc sh th]; auto.
      * exists pu. rewrite fupd_other by congruence. split; [exact Eu|]. destruct Hu as [[-> Hh]|Hu]; [left|right; exact Hu]. split; [reflexivity|]. exact (sl_halt _ _ _ _ _ _ L Hh).
      * destruct (Nat.eq_dec t w) as [->|Htw]; [|exists pw; rewrite fupd_other by congruence; auto]. rewrite Ew in Et. injection Et as <-. exists pc'. rewrite fupd_same. split; [reflexivity|].
        exact (work_step _ _ _ _ _ _ u Es (Hs _ _ Ew) Hlk W1 W2 W3).
  - unfold wq_exec in Ex. cbn in Ex. destruct (th (fc F) t) as [pc|] eqn:Et; [|discriminate]. destruct (wq_fin pc) as [r|] eqn:Ef; [|discriminate]. injection Ex as <- <-.
    assert (Htu : t <> u). { intros ->. rewrite Eu in Et. injection Et as <-. destruct Hu as [[-> _]|(j & -> & _)]; discriminate. }
    assert (Htw : t <> w). { intros ->. rewrite Ew in Et. injection Et as <-. destruct pw; discriminate. }
    split; [|intros r' [[= E _]|[]]; congruence]. constructor; cbn [fc sh th]; auto; [exists pu|exists pw]; (rewrite fupd_other by congruence); auto.
  - destruct (th (fc F) t) as [pc|] eqn:Et; [|discriminate]. destruct (fthrow (sh (fc F)) pc) as [[s' pc']|] eqn:Ef; [|discriminate]. injection Ex as <- <-. split; [|intros r []].
    destruct (fthrow_failed _ _ _ _ Ef (Hs _ _ Et)) as (_ & J2 & _ & J4). destruct (J4 Hi) as (E1 & E2 & E3 & E4 & _).
    assert (Htu : t <> u). { intros ->. rewrite Eu in Et. injection Et as <-. destruct Hu as [[-> _]|(j & -> & _)]; discriminate. }
    assert (Htw : t <> w) by congruence.
    constructor; cbn [fc sh th]; try congruence; auto; [exists pu|exists pw]; (rewrite fupd_other by congruence); auto. rewrite E4. auto.
Qed.
Lemma stuck_run f zs2 u w : forall zs F H F' H', frun (finit f) zs = Some (F, H) -> stuckI u w F -> frun F zs2 = Some (F', H') -> stuckI u w F' /\ forall r, ~ In (HRet u r) H'.
Proof.
  induction zs2 as [|x zs2 IH]; intros zs F H F' H' Er Hs E2; cbn [frun] in E2.
  - injection E2 as <- <-. split; [exact Hs|intros r []].
  - destruct (fexec F x) as [[F1 e]|] eqn:Ex; [|discriminate]. destruct (frun F1 zs2) as [[F2 H2]|] eqn:E3; [|discriminate]. injection E2 as <- <-.
    destruct (stuck_exec f zs F H u w x F1 e Er Hs Ex) as [Hs1 He]. destruct (IH (zs ++ [x]) F1 (H ++ e) F2 H2) as [Hs2 H2e]; [|exact Hs1|exact E3|].
    + rewrite frun_app, Er. cbn [frun]. rewrite Ex, app_nil_r. reflexivity.
    + split; [exact Hs2|]. intros r E. apply in_app_iff in E as [E|E]; [exact (He _ E)|exact (H2e _ E)].
Qed.

(** ** The steps end *)
Definition fcall (a : fact) : bool := match a with FDo (ACall _) => true | _ => false end.
Section ends.
Variables (f : nat -> bool) (n : nat) (ok : nat * fact -> fcfg -> Prop).
Definition below F : Prop := forall t, n <= t -> th (fc F) t = None.
Definition nextF F' F : Prop := exists x e, fexec F x = Some (F', e) /\ fcall (snd x) = false /\ ok x F'.
Definition reachF F : Prop := exists zs H, frun (finit f) zs = Some (F, H).
(** Runs without exceptions, from each state, have a bounded length. *)
Definition bounded F : Prop := exists B, forall xs F' H, frun F (map (fun x => (fst x, FDo (snd x))) xs) = Some (F', H) -> calls xs = [] ->
  (forall xs1 x xs2 F1 H1, xs = xs1 ++ x :: xs2 -> frun F (map (fun x => (fst x, FDo (snd x))) (xs1 ++ [x])) = Some (F1, H1) -> ok (fst x, FDo (snd x)) F1) -> length xs <= B.

Lemma thrown_nodup zs : forall F H, frun (finit f) zs = Some (F, H) -> List.NoDup (thrown F).
Proof.
  induction zs as [|[t a] zs IH] using rev_ind; intros F H Er; [injection Er as <- <-; constructor|].
  rewrite frun_app in Er. destruct (frun (finit f) zs) as [[F1 H1]|] eqn:E1; [|discriminate]. cbn [frun] in Er. destruct (fexec F1 (t, a)) as [[F2 e]|] eqn:Ex; [|discriminate]. injection Er as <- <-.
  specialize (IH _ _ eq_refl). unfold fexec in Ex. destruct (inb t (thrown F1)) eqn:Ein; [discriminate|]. destruct a as [a|].
  - destruct (wq_exec nw (fc F1) (t, a)) as [[c' e']|]; [|discriminate]. injection Ex as <- <-. exact IH.
  - destruct (th (fc F1) t) as [pc|]; [|discriminate]. destruct (fthrow (sh (fc F1)) pc) as [[s' pc']|]; [|discriminate]. injection Ex as <- <-. cbn [thrown]. constructor; [|exact IH].
    intros Hin. rewrite (proj2 (inb_spec _ _) Hin) in Ein. discriminate.
Qed.
Lemma below_exec F x F' e : below F -> fexec F x = Some (F', e) -> fcall (snd x) = false -> below F'.
Proof.
  intros Hb Ex Hc. destruct x as [t a]. unfold fexec in Ex. destruct (inb t (thrown F)); [discriminate|]. intros v Hv. destruct a as [[o|k|]|]; [discriminate|..].
  - unfold wq_exec in Ex. cbn in Ex. destruct (th (fc F) t) as [pc|] eqn:Et; [|discriminate]. destruct (wq_step nw (sh (fc F)) t pc k) as [[s' pc']|]; [|discriminate]. injection Ex as <- <-. cbn [fc th].
    rewrite fupd_other; [exact (Hb v Hv)|]. intros ->. rewrite (Hb t Hv) in Et. discriminate.
  - unfold wq_exec in Ex. cbn in Ex. destruct (th (fc F) t) as [pc|] eqn:Et; [|discriminate]. destruct (wq_fin pc); [|discriminate]. injection Ex as <- <-. cbn [fc th].
    rewrite fupd_other; [exact (Hb v Hv)|]. intros ->. rewrite (Hb t Hv) in Et. discriminate.
  - destruct (th (fc F) t) as [pc|] eqn:Et; [|discriminate]. destruct (fthrow (sh (fc F)) pc) as [[s' pc']|]; [|discriminate]. injection Ex as <- <-. cbn [fc th].
    rewrite fupd_other; [exact (Hb v Hv)|]. intros ->. rewrite (Hb t Hv) in Et. discriminate.
Qed.
Lemma reach_exec F x F' e : reachF F -> fexec F x = Some (F', e) -> reachF F'.
Proof. intros (zs & H & Er) Ex. exists (zs ++ [x]), (H ++ e). rewrite frun_app, Er. cbn [frun]. rewrite Ex, app_nil_r. reflexivity. Qed.
Lemma thrown_le F : reachF F -> below F -> length (thrown F) <= n.
Proof.
  intros (zs & H & Er) Hb. rewrite <- (seq_length n 0). apply NoDup_incl_length; [exact (thrown_nodup zs F H Er)|]. intros t Hin. apply in_seq. destruct (thrown_run f zs F H Er t (proj2 (inb_spec _ _) Hin)) as (_ & pc & Et & _).
  destruct (le_lt_dec n t) as [Hge|]; [rewrite (Hb t Hge) in Et; discriminate|lia].
Qed.
Variable good : fcfg -> Prop.
Hypothesis good_bounded : forall F, reachF F -> below F -> good F -> bounded F.
Hypothesis good_next : forall F F', good F -> nextF F' F -> good F'.
Lemma calls_snoc (xs : list (nat * act cvc wqop)) t a : fcall (FDo a) = false -> calls xs = [] -> calls (xs ++ [(t, a)]) = [].
Proof. unfold calls. intros Ha Hx. induction xs as [|[u b] xs IH]; cbn in *; [destruct a; try discriminate; reflexivity|]. destruct b; try discriminate; auto. Qed.
Lemma ends_acc m : forall F, reachF F -> below F -> good F -> n < length (thrown F) + m -> Acc nextF F.
Proof.
  induction m as [|m IHm]; intros F Hr Hb Hg Hm; [pose proof (thrown_le F Hr Hb); lia|].
  destruct (good_bounded F Hr Hb Hg) as [B HB].
  enough (G : forall j xs F' H, B < length xs + j -> frun F (map (fun x => (fst x, FDo (snd x))) xs) = Some (F', H) -> calls xs = [] ->
    (forall xs1 x xs2 F1 H1, xs = xs1 ++ x :: xs2 -> frun F (map (fun x => (fst x, FDo (snd x))) (xs1 ++ [x])) = Some (F1, H1) -> ok (fst x, FDo (snd x)) F1) ->
    reachF F' -> below F' -> good F' -> thrown F' = thrown F -> Acc nextF F').
  { apply (G (S B) [] F []); [cbn; lia|reflexivity|reflexivity| |exact Hr|exact Hb|exact Hg|reflexivity]. intros xs1 x xs2 F1 H1 E. destruct xs1; discriminate. }
  induction j as [|j IHj]; intros xs F' H Hj Er Hc Hok Hr' Hb' Hg' Et.
  - pose proof (HB xs F' H Er Hc Hok). lia.
  - constructor. intros F2 Hn. pose proof Hn as ([t a] & e & Ex & Hca & Hx). cbn [snd] in Hca.
    pose proof (reach_exec _ _ _ _ Hr' Ex) as Hr2. pose proof (below_exec _ _ _ _ Hb' Ex Hca) as Hb2. pose proof (good_next _ _ Hg' Hn) as Hg2. destruct a as [a|].
    + assert (E2 : frun F (map (fun x => (fst x, FDo (snd x))) (xs ++ [(t, a)])) = Some (F2, H ++ e)) by (rewrite map_app, frun_app, Er; cbn [map frun fst snd]; rewrite Ex, app_nil_r; reflexivity).
      apply (IHj (xs ++ [(t, a)]) F2 (H ++ e)); auto.
      * rewrite app_length. cbn. lia.
      * apply calls_snoc; assumption.
      * intros xs1 x xs2 F1 H1 E E1. destruct (rev xs2) as [|y ys] eqn:Ey.
        -- apply (f_equal (@rev _)) in Ey. rewrite rev_involutive in Ey. cbn in Ey. subst xs2. apply app_inj_tail in E as [<- <-]. rewrite E2 in E1. injection E1 as <- _. exact Hx.
        -- apply (f_equal (@rev _)) in Ey. rewrite rev_involutive in Ey. cbn in Ey. subst xs2. rewrite app_comm_cons, app_assoc in E. apply app_inj_tail in E as [-> _]. eapply Hok; [reflexivity|exact E1].
      * unfold fexec in Ex. destruct (inb t (thrown F')); [discriminate|]. destruct (wq_exec nw (fc F') (t, a)) as [[c' e']|]; [|discriminate]. injection Ex as <- <-. exact Et.
    + apply IHm; auto. unfold fexec in Ex. destruct (inb t (thrown F')); [discriminate|]. destruct (th (fc F') t) as [pc|]; [|discriminate]. destruct (fthrow (sh (fc F')) pc) as [[s' pc']|]; [|discriminate]. injection Ex as <- <-.
      cbn [thrown length]. rewrite Et. lia.
Qed.
End ends.
Lemma below_reach f zs : forall F H, frun (finit f) zs = Some (F, H) -> exists n, below n F.
Proof.
  induction zs as [|[t a] zs IH] using rev_ind; intros F H Er.
  - injection Er as <- <-. exists nw. intros t Ht. cbn [finit fc wq_init th]. destruct (Nat.ltb_spec t nw); [lia|reflexivity].
  - rewrite frun_app in Er. destruct (frun (finit f) zs) as [[F1 H1]|] eqn:E1; [|discriminate]. cbn [frun] in Er. destruct (fexec F1 (t, a)) as [[F2 e]|] eqn:Ex; [|discriminate]. injection Er as <- <-.
    destruct (IH _ _ eq_refl) as (n & Hn). destruct (fcall a) eqn:Hc; [|exists n; eapply below_exec; eassumption]. exists (Nat.max n (S t)). intros v Hv.
    destruct a as [[o| |]|]; try discriminate. unfold fexec in Ex. destruct (inb t (thrown F1)); [discriminate|]. unfold wq_exec in Ex. cbn in Ex. destruct (th (fc F1) t); [discriminate|]. injection Ex as <- <-. cbn [fc th].
    rewrite fupd_other by lia. apply Hn. lia.
Qed.
Lemma fdo_run xs : forall F F' H, frun F (map (fun x => (fst x, FDo (snd x))) xs) = Some (F', H) -> wq_run nw (fc F) xs = Some (fc F', H) /\ thrown F' = thrown F.
Proof.
  unfold wq_run. induction xs as [|[t a] xs IH]; intros F F' H Er; cbn [map frun run fst snd] in *; [injection Er as <- <-; auto|].
  destruct (fexec F (t, FDo a)) as [[F1 e]|] eqn:Ex; [|discriminate]. destruct (frun F1 _) as [[F2 H2]|] eqn:E2; [|discriminate]. injection Er as <- <-. unfold fexec in Ex. destruct (inb t (thrown F)); [discriminate|].
  unfold wq_exec in Ex. destruct (exec _ _ _ (fc F) (t, a)) as [[c' e']|]; [|discriminate]. injection Ex as <- <-. destruct (IH _ _ _ E2) as [J1 J2]. cbn [fc] in J1. rewrite J1. auto.
Qed.
End wq.
