(** WorkQueue: which points a call can be at, and the three queues as SimpleQueues used by many threads *)
From stdpp Require Import list.
From Verif Require Import Base Conc CondVar SqModel SqSpec SqProofs WqModel.

(** A thread can be at [p] while it executes [o] on a SimpleQueue. *)
Definition sqat {V} (o : sqop V) (p : sqpc V) : Prop :=
  match p with
  | P0 o' | P1 o' | P2 o' | P3 o' | P4 o' | P5 o' | P6 o' | P7 o' | P8 o' | P9 o' | P10 o' | P11 o' => o' = o /\ is_push o
  | O0 | C0 _ | C1 _ | C2 _ | C3 _ | C4 _ | C5 _ | C6 _ | C7 _ | O1 | O2 | O3 _ | SqModel.Crash => o = QPop
  | K0 | K1 | K2 _ => o = QPeek
  | S0 | S1 | S2 | S3 _ | S4 _ => o = QSize
  | L0 | L1 | L2 | L3 | L4 | L5 | L6 => o = QClear
  | V0 n | V1 n | V2 n | V3 n | V4 n => o = QReserve n
  | E0 => o = QEmpty
  | SqModel.Ret r => match o, r with
             | (QPush _ | QEmplace _ | QPushVec _ | QClear | QReserve _), QUnit | (QPop | QPeek), QVal _ | QSize, QNum _ | QEmpty, QBool _ => True
             | _, _ => False
             end
  end.

Lemma sqat_start {V} (o : sqop V) : sqat o (sq_start o).
Proof. destruct o; cbn; auto. Qed.
Lemma sqat_step {V} (s : sqsh V) t p k s' p' o : sq_step s t p k = Some (s', p') -> sqat o p -> sqat o p'.
Proof.
  destruct p; cbn [sq_step]; try discriminate; unfold lock_push, lock_pull; intros Es Ha; cbn [sqat] in Ha;
    try (destruct (pushL s); [discriminate|]); try (destruct (pullL s); [discriminate|]);
    try (destruct (rev (pullE s))); injection Es as <- <-; cbn [sqat]; auto;
    try (destruct (nonempty _)); try (destruct (eflag s)); try (destruct k0 as [?|]); cbn [sqat cont]; auto; try (subst o; exact I).
  all: destruct Ha as [-> Ha]; destruct o; cbn in *; tauto.
Qed.

(** The operation a continuation belongs to *)
Definition kat (i : lvl) (k : kont) (o : sqop ptr) : Prop :=
  match k with
  | KSize x a => o = QSize /\ match a with AClose _ => i = Hi | AUser => True end
  | KPush _ a => (exists x, o = QPush x) /\ match a with AClose _ => i = Hi | AUser => True end
  | KPushV => exists xs, o = QPushVec xs
  | KE _ => o = QEmpty
  | KN _ => o = QSize
  | KPop1 _ => o = QPop /\ i = Hi
  | KLowE _ => o = QEmpty /\ i = Lo
  | KPop2 _ | KPop4 _ => o = QPop /\ i = Lo
  | KPop3 _ => o = QPop /\ i = Med
  | KClr => o = QClear
  end.
Definition shape (pc : wqpc) : Prop := match pc with Sub i p k => exists o, kat i k o /\ sqat o p | _ => True end.

(* injection without simplification *)
Lemma some_pair {A B} (a c : A) (b d : B) : Some (a, b) = Some (c, d) -> c = a /\ d = b.
Proof. intros [= -> ->]. auto. Qed.
Ltac inj H := apply some_pair in H as [-> ->].

Section wq.
Variable nw : nat.
Notation wqcfg := (cfg wqsh wqpc).
Implicit Types (s : wqsh) (pc : wqpc) (c : wqcfg).

Lemma shape_call i o k : kat i k o -> shape (Sub i (sq_start o) k).
Proof. intros Hk. exists o. split; [exact Hk|apply sqat_start]. Qed.
Lemma shape_start o : shape (wq_start nw o).
Proof. destruct o; cbn [wq_start]; try exact I; try (destruct (Nat.eqb nw 0); [exact I|]); apply shape_call; cbn; eauto. Qed.
Lemma shape_loop : shape loop.
Proof. apply shape_call. cbn. reflexivity. Qed.
Lemma shape_gstart g : shape (gstart g).
Proof. apply shape_call. cbn. auto. Qed.
Lemma shape_dummies r : shape (dummies r).
Proof. destruct r; [exact I|]. apply shape_call. cbn. auto. Qed.
Lemma shape_after_add a : shape (after_add a).
Proof. destruct a; [exact I|apply shape_dummies]. Qed.
Lemma shape_after_exec e : shape (after_exec e).
Proof. destruct e; [apply shape_loop|exact I]. Qed.
Lemma shape_hand s t x g : shape (snd (hand s t x g)).
Proof. destruct g; exact I. Qed.
Hint Resolve shape_loop shape_gstart shape_dummies shape_after_add shape_after_exec : core.

Lemma shape_resume s t i p r k s' pc' : shape (Sub i p k) -> sq_fin p = Some r -> resume nw s t i r k = Some (s', pc') -> shape pc'.
Proof.
  intros (o & Hk & Ho) Ef. destruct p; try discriminate. injection Ef as ->. cbn in Ho.
  destruct k; cbn [resume kat] in *; destruct r as [|v|n0|b]; try discriminate; try (destruct v as [v|]);
    intros Er; inj Er; try exact I; auto; try (destruct g; exact I).
  - apply shape_call. cbn. destruct Hk as [_ Hk]. split; [eauto|exact Hk].
  - destruct few; auto; exact I.
  - destruct b; [destruct (nextq i) as [j|]; [apply shape_call; reflexivity|destruct e; exact I]|destruct e; auto; exact I].
  - destruct (nextq i); [apply shape_call; reflexivity|exact I].
  - destruct b; apply shape_call; cbn; auto.
  - apply shape_call; cbn; auto.
  - apply shape_call; cbn; auto.
  - destruct (nextq i); [apply shape_call; reflexivity|exact I].
Qed.

Lemma shape_step s t pc k s' pc' : wq_step nw s t pc k = Some (s', pc') -> shape pc -> shape pc'.
Proof.
  intros Es Hs. destruct pc; destruct k; cbn [wq_step wq_step0] in Es; try discriminate.
  - destruct (sq_fin p) as [r|] eqn:Ef; [eapply shape_resume; eassumption|].
    destruct (sq_step (qof i s) t p tt) as [[q' p']|] eqn:Eq; [|discriminate]. inj Es.
    destruct Hs as (o & Hk & Ho). exists o. split; [exact Hk|]. eapply sqat_step; eassumption.
  - destruct x as [y|]; [|inj Es; exact I]. destruct p; try destruct (is_fin s y); inj Es; try exact I;
      destruct (Nat.eqb nw 0); try exact I; apply shape_call; cbn; auto.
  - destruct (notify1 _ _); [|discriminate]. inj Es. auto.
  - destruct (notify1 _ _); [|discriminate]. inj Es. auto.
  - inj Es. exact I.
  - destruct xs as [|[[|b]|] xs]; inj Es; exact I.
  - destruct (bfin s b); inj Es; auto; exact I.
  - inj Es. auto.
  - inj Es. exact I.
  - inj Es. destruct (ratio s <=? m); apply shape_call; cbn; auto.
  - inj Es. destruct g; exact I.
  - inj Es. destruct g; exact I.
  - unfold lock_q in Es. destruct (qlock s); [discriminate|]. inj Es. exact I.
  - inj Es. destruct (halt s); exact I.
  - inj Es. exact I.
  - destruct (inb t (waits s)); [discriminate|]. inj Es. exact I.
  - destruct (inb t (waits s)); [|discriminate]. inj Es. exact I.
  - destruct (inb t (waits s)); [|discriminate]. inj Es. exact I.
  - unfold lock_q in Es. destruct (qlock s); [discriminate|]. inj Es. exact I.
  - inj Es. destruct (halt s); exact I.
  - inj Es. auto.
  - inj Es. exact I.
  - inj Es. exact I.
  - inj Es. destruct x as [[|b]|]; auto. destruct (bfin s b); auto; exact I.
  - unfold lock_q in Es. destruct (qlock s); [discriminate|]. inj Es. exact I.
  - inj Es. destruct (halt s); exact I.
  - inj Es. exact I.
  - inj Es. apply shape_call. reflexivity.
  - inj Es. auto.
  - inj Es. exact I.
  - destruct (Nat.ltb k0 nw); [destruct (inb k0 (joined s)); [|destruct (inb k0 (gone s)); [|discriminate]]|]; inj Es; try exact I; destruct h; exact I.
  - inj Es. exact I.
  - inj Es. exact I.
  - inj Es. exact I.
Qed.

(** Every thread is at such a point. *)
Definition shaped c : Prop := forall t pc, th c t = Some pc -> shape pc.

Lemma shaped_run xs c c' H : shaped c -> wq_run nw c xs = Some (c', H) -> shaped c'.
Proof.
  intros Hc Er. eapply (inv_run (wq_start nw) (wq_step nw) wq_fin (fun _ => True) shaped); [..|exact Hc| |exact Er].
  - intros c0 t o Hi _ Et u pc. cbn. unfold fupd. destruct (Nat.eqb u t); [intros [= <-]; apply shape_start|apply Hi].
  - intros c0 t k pc s' pc' Hi Et Es u pu. cbn. unfold fupd. destruct (Nat.eqb u t); [intros [= <-]; eapply shape_step; eauto|apply Hi].
  - intros c0 t pc r Hi Et Ef u pu. cbn. unfold fupd. destruct (Nat.eqb u t); [discriminate|apply Hi].
  - apply Forall_forall. auto.
Qed.
Lemma shaped_init f : shaped (wq_init nw f).
Proof. intros t pc. cbn [wq_init th]. destruct (Nat.ltb t nw); [intros [= <-]; apply shape_loop|discriminate]. Qed.

(** ** The three queues *)

(** What thread [t] is doing on queue [i] *)
Definition lvl_eqb (i j : lvl) : bool := match i, j with Hi, Hi | Med, Med | Lo, Lo => true | _, _ => false end.
Definition vq (i : lvl) (x : option wqpc) : option (sqpc ptr) :=
  match x with Some (Sub j p _) => if lvl_eqb i j then Some p else None | _ => None end.

Lemma lvl_eqb_spec i j : Bool.reflect (i = j) (lvl_eqb i j).
Proof. destruct i, j; constructor; congruence. Qed.
Lemma qof_set i j q s : qof i (set_q j q s) = if lvl_eqb i j then q else qof i s.
Proof. destruct i, j; reflexivity. Qed.

(** What a step of [t] does to one queue: nothing, a step of its operation, a return, a call, or a return and a call *)
Inductive qmove (q : sqsh ptr) (t : nat) : option (sqpc ptr) -> sqsh ptr -> option (sqpc ptr) -> Prop :=
| qm_same x : qmove q t x q x
| qm_int p q' p' : sq_step q t p tt = Some (q', p') -> qmove q t (Some p) q' (Some p')
| qm_ret p r : sq_fin p = Some r -> qmove q t (Some p) q None
| qm_call o : qmove q t None q (Some (sq_start o))
| qm_again p r o : sq_fin p = Some r -> qmove q t (Some p) q (Some (sq_start o)).

Lemma qmove_none q t x : (exists o, x = Some (sq_start o)) \/ x = None -> qmove q t None q x.
Proof. intros [[o ->]| ->]; constructor. Qed.
Lemma qmove_fin q t p r x : sq_fin p = Some r -> (exists o, x = Some (sq_start o)) \/ x = None -> qmove q t (Some p) q x.
Proof. intros Ef [[o ->]| ->]; econstructor; exact Ef. Qed.

Definition fresh_pc pc : Prop := forall i, (exists o, vq i (Some pc) = Some (sq_start o)) \/ vq i (Some pc) = None.
Lemma fresh_call i o k : fresh_pc (Sub i (sq_start o) k).
Proof. intros j. cbn. destruct (lvl_eqb j i); eauto. Qed.
Lemma fresh_other pc : (forall i, vq i (Some pc) = None) -> fresh_pc pc.
Proof. intros H i. auto. Qed.
Lemma fresh_start o : fresh_pc (wq_start nw o).
Proof. destruct o; cbn [wq_start]; try destruct (Nat.eqb nw 0); try apply fresh_call; apply fresh_other; reflexivity. Qed.
Lemma fresh_dummies r : fresh_pc (dummies r).
Proof. destruct r; [apply fresh_other; reflexivity|apply fresh_call]. Qed.
Lemma fresh_after_add a : fresh_pc (after_add a).
Proof. destruct a; [apply fresh_other; reflexivity|apply fresh_dummies]. Qed.
Lemma fresh_after_exec e : fresh_pc (after_exec e).
Proof. destruct e; [apply fresh_call|apply fresh_other; reflexivity]. Qed.
Hint Resolve fresh_call fresh_dummies fresh_after_add fresh_after_exec : core.

Lemma resume_fresh s t i r k s' pc' : resume nw s t i r k = Some (s', pc') -> (forall j, qof j s' = qof j s) /\ fresh_pc pc'.
Proof.
  destruct k; cbn [resume]; destruct r as [|v|n0|b]; try discriminate; try (destruct v as [v|]); intros Er; inj Er; (split; [intros []; reflexivity|]);
    try (apply fresh_other; reflexivity); auto; try (destruct g; apply fresh_other; reflexivity).
  - destruct few; auto. apply fresh_other; reflexivity.
  - destruct b; [destruct (nextq i) as [j|]; [apply fresh_call|destruct e; apply fresh_other; reflexivity]|destruct e; [apply fresh_other; reflexivity|apply fresh_call]].
  - destruct (nextq i); [apply fresh_call|apply fresh_other; reflexivity].
  - destruct b; apply fresh_call.
  - destruct (nextq i); [apply fresh_call|apply fresh_other; reflexivity].
Qed.

Lemma step_nosub s t pc k s' pc' : wq_step nw s t pc k = Some (s', pc') -> (forall i, vq i (Some pc) = None) -> (forall j, qof j s' = qof j s) /\ fresh_pc pc'.
Proof.
  intros Es Hn. destruct pc; destruct k; cbn [wq_step wq_step0] in Es; try discriminate; unfold lock_q, hand in Es;
    try (specialize (Hn i); cbn in Hn; destruct i; discriminate);
    repeat match type of Es with
    | context [match ?x with Some _ => _ | None => _ end] => is_var x; destruct x
    | context [match qlock s with _ => _ end] => destruct (qlock s)
    | context [notify1 ?a ?b] => destruct (notify1 a b)
    | context [inb ?a ?b] => destruct (inb a b)
    | context [Nat.ltb ?a ?b] => destruct (Nat.ltb a b)
    | context [bfin s ?b] => destruct (bfin s b)
    | context [match ?l with [] => _ | _ :: _ => _ end] => destruct l
    | context [match ?x with BNull => _ | BWork _ => _ end] => destruct x
    | context [match ?p with PMed => _ | PLow => _ | PHigh => _ | PReq => _ end] => destruct p
    | context [is_fin s ?y] => destruct (is_fin s y)
    end; try discriminate; inj Es; (split; [intros []; reflexivity|]);
    try (apply fresh_other; reflexivity); auto;
    repeat match goal with
    | |- context [if ?b then _ else _] => destruct b
    | |- context [match ?g with GUser => _ | GWork _ => _ end] => destruct g
    end; try (apply fresh_other; reflexivity); auto; apply fresh_call.
Qed.

Lemma wq_qmove s t pc k s' pc' i : wq_step nw s t pc k = Some (s', pc') -> qmove (qof i s) t (vq i (Some pc)) (qof i s') (vq i (Some pc')).
Proof.
  intros Es. assert (Hc : (exists j p kk, pc = Sub j p kk) \/ forall i, vq i (Some pc) = None) by (destruct pc; eauto).
  destruct Hc as [(j & p & kk & ->)|Hn].
  - destruct k; cbn [wq_step wq_step0] in Es; try discriminate. destruct (sq_fin p) as [r|] eqn:Ef.
    + apply resume_fresh in Es as [Hq Hf]. rewrite Hq. cbn [vq]. destruct (lvl_eqb_spec i j) as [->|Hne].
      * eapply qmove_fin; [exact Ef|apply Hf].
      * apply qmove_none, Hf.
    + destruct (sq_step (qof j s) t p tt) as [[q' p']|] eqn:Eq; [|discriminate]. injection Es as <- <-. cbn [vq].
      assert (Hq : qof i (log_drop (dropping (qof j s) p) (set_q j q' s)) = qof i (set_q j q' s)) by (destruct i; reflexivity).
      rewrite Hq, qof_set. destruct (lvl_eqb_spec i j) as [->|Hne]; [apply qm_int, Eq|apply qm_same].
  - destruct (step_nosub _ _ _ _ _ _ Es Hn) as [Hq Hf]. rewrite Hq, Hn. apply qmove_none, Hf.
Qed.

(** Queue [i] has been used as a SimpleQueue. *)
Definition qproj (q0 : sqsh ptr) (i : lvl) c : Prop :=
  exists xs ci H, sq_run (init q0) xs = Some (ci, H) /\ sh ci = qof i (sh c) /\ forall t, th ci t = vq i (th c t).

Lemma qproj_move q0 i c t s' x : qproj q0 i c -> qmove (qof i (sh c)) t (vq i (th c t)) (qof i s') (vq i x) ->
  qproj q0 i (Cfg s' (fupd t x (th c))).
Proof.
  intros (xs & ci & H & Er & Esh & Eth) Hm.
  assert (Hother : forall y f, (forall u, u <> t -> f u = th ci u) -> f t = y -> y = vq i x -> forall u, f u = vq i (fupd t x (th c) u)).
  { intros y f H1 H2 H3 u. unfold fupd. destruct (Nat.eqb_spec u t) as [->|Hne]; [congruence|]. rewrite H1 by exact Hne. apply Eth. }
  assert (Hstep : forall ys d2 H2, sq_run ci ys = Some (d2, H2) -> sh d2 = qof i s' -> (forall u, th d2 u = vq i (fupd t x (th c) u)) -> qproj q0 i (Cfg s' (fupd t x (th c)))).
  { intros ys d2 H2 Er2 E1 E2. exists (xs ++ ys), d2, (H ++ H2). split; [|split; [exact E1|exact E2]]. unfold sq_run in *. rewrite run_app, Er, Er2. reflexivity. }
  inversion Hm as [y Ey Eq Ey'|p q' p' Est Ey Eq Ey'|p r Ef Ey Eq Ey'|o Ey Eq Ey'|p r o Ef Ey Eq Ey'].
  - apply (Hstep [] ci []); [reflexivity|congruence|]. apply (Hother (th ci t)); [reflexivity|reflexivity|rewrite Eth; congruence].
  - apply (Hstep [(t, AInt tt)] (Cfg (qof i s') (fupd t (Some p') (th ci))) []).
    + unfold sq_run. cbn. rewrite Eth, <- Ey, Esh, Est. reflexivity.
    + reflexivity.
    + apply (Hother (Some p')); [intros u Hu; cbn; apply fupd_other, Hu|cbn; apply fupd_same|exact Ey'].
  - apply (Hstep [(t, ARet)] (Cfg (sh ci) (fupd t None (th ci))) [HRet t r]).
    + unfold sq_run. cbn. rewrite Eth, <- Ey, Ef. reflexivity.
    + cbn; congruence.
    + apply (Hother None); [intros u Hu; cbn; apply fupd_other, Hu|cbn; apply fupd_same|exact Ey'].
  - apply (Hstep [(t, ACall o)] (Cfg (sh ci) (fupd t (Some (sq_start o)) (th ci))) [HInv t o]).
    + unfold sq_run. cbn. rewrite Eth, <- Ey. reflexivity.
    + cbn; congruence.
    + apply (Hother (Some (sq_start o))); [intros u Hu; cbn; apply fupd_other, Hu|cbn; apply fupd_same|exact Ey'].
  - apply (Hstep [(t, ARet); (t, ACall o)] (Cfg (sh ci) (fupd t (Some (sq_start o)) (fupd t None (th ci)))) [HRet t r; HInv t o]).
    + unfold sq_run. cbn. rewrite Eth, <- Ey, Ef. cbn. rewrite fupd_same. reflexivity.
    + cbn; congruence.
    + apply (Hother (Some (sq_start o))); [intros u Hu; cbn; rewrite !fupd_other by exact Hu; reflexivity|cbn; apply fupd_same|exact Ey'].
Qed.

Lemma qproj_run q0 xs c c' H : (forall i, qproj q0 i c) -> wq_run nw c xs = Some (c', H) -> forall i, qproj q0 i c'.
Proof.
  intros Hc Er. eapply (inv_run (wq_start nw) (wq_step nw) wq_fin (fun _ => True) (fun c => forall i, qproj q0 i c)); [..|exact Hc| |exact Er].
  - intros c0 t o Hi _ Et i. apply qproj_move; [apply Hi|]. rewrite Et. apply qmove_none. apply fresh_start.
  - intros c0 t k pc s' pc' Hi Et Es i. apply qproj_move; [apply Hi|]. rewrite Et. eapply wq_qmove. exact Es.
  - intros c0 t pc r Hi Et Ef i. apply qproj_move; [apply Hi|]. rewrite Et. destruct pc; try discriminate. apply qm_same.
  - apply Forall_forall. auto.
Qed.

(** At the start the workers have called empty() on the first queue: the schedule of the projection begins with these calls. *)
Lemma call_all (n : nat) : exists ci H, sq_run (init sq0) (map (fun t => (t, ACall QEmpty)) (List.seq 0 n)) = Some (ci, H) /\ sh ci = @sq0 ptr /\
  forall t, th ci t = if Nat.ltb t n then Some E0 else None.
Proof.
  induction n as [|n (ci & H & Er & Esh & Eth)].
  - exists (init sq0), []. repeat split.
  - rewrite seq_S, map_app. cbn. unfold sq_run in *. rewrite run_app, Er. cbn. rewrite Eth, Nat.ltb_irrefl. do 2 eexists. split; [reflexivity|]. split; [exact Esh|].
    intros t. cbn [th]. unfold fupd. destruct (Nat.eqb_spec t n) as [->|Hne]; [rewrite Nat.leb_refl; reflexivity|].
    rewrite Eth. destruct (Nat.ltb_spec t n), (Nat.leb_spec t n); try reflexivity; lia.
Qed.
Lemma qproj_init f i : qproj sq0 i (wq_init nw f).
Proof.
  destruct i.
  - destruct (call_all nw) as (ci & H & Er & Esh & Eth). exists (map (fun t => (t, ACall QEmpty)) (List.seq 0 nw)), ci, H. split; [exact Er|]. split; [exact Esh|].
    intros t. rewrite Eth. cbn [wq_init th]. destruct (Nat.ltb t nw); reflexivity.
  - exists [], (init sq0), []. split; [reflexivity|]. split; [reflexivity|]. intros t. cbn [wq_init th]. destruct (Nat.ltb t nw); reflexivity.
  - exists [], (init sq0), []. split; [reflexivity|]. split; [reflexivity|]. intros t. cbn [wq_init th]. destruct (Nat.ltb t nw); reflexivity.
Qed.

(** A thread inside an operation of a queue: somebody inside an operation of this queue can step. *)
Lemma qproj_live q0 i c : sq_reach false q0 -> qproj q0 i c -> (exists t p k, th c t = Some (Sub i p k)) ->
  exists u p k, th c u = Some (Sub i p k) /\ (sq_fin p = None -> exists q' p', sq_step (qof i (sh c)) u p tt = Some (q', p')).
Proof.
  intros Hq (xs & ci & H & Er & Esh & Eth) (t & p & k & Et).
  destruct (sq_sim false _ _ _ _ (reach_rest _ _ Hq) (fun E => False_rect _ (Bool.diff_false_true E)) Er) as (q & f & _ & Hr).
  destruct (sq_live _ _ _ Hr) as (u & a & c' & e & Hu & Ex).
  { exists t. rewrite Eth, Et. cbn. destruct i; discriminate. }
  rewrite Eth in Hu. unfold vq in Hu. destruct (th c u) as [pc|] eqn:Eu; [|congruence]. destruct pc; try congruence. rename i0 into j, p0 into pu, k0 into ku.
  destruct (lvl_eqb_spec i j) as [<-|]; [|congruence].
  exists u, pu, ku. split; [exact Eu|]. intros Ef. unfold exec in Ex. rewrite Eth, Eu in Ex. cbn [vq] in Ex. replace (lvl_eqb i i) with true in Ex by (destruct i; reflexivity).
  destruct a as [o|[]|]; [discriminate| |rewrite Ef in Ex; discriminate]. rewrite Esh in Ex. destruct (sq_step (qof i (sh c)) u pu tt) as [[q' p']|]; [eauto|discriminate].
Qed.

End wq.
