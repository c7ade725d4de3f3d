(** WorkQueue: which data that is not atomic each step accesses *)
From stdpp Require Import list.
From Verif Require Import Base Conc CondVar Herlihy SqModel SqSpec SqProofs WqModel WqProofs WqCount WqMore WqBound WqLive Props_Access Props_Wq Props_Wq5.
Local Open Scope nat_scope.

(** Data that is neither atomic nor a lock nor the condition variable: the vectors of the three queues ([true]: pullElements)
    [498-506 and SimpleQueue.hpp 35-36], the std::thread objects of threadpool [512], [finished] of the work blocks [137, 211;
    see C90, C91 for WorkBlock itself].  numWorkers is const [509]. *)
Inductive wloc := LVec (i : lvl) (pull : bool) | LThread (w : nat) | LFin (b : nat).

(** Accesses of the step a thread is about to make, and whether it writes.  joinable() [332] reads a thread object, join() [333]
    writes it, also while it waits. *)
Definition wq_acc (nw : nat) (s : wqsh) (pc : wqpc) : list (wloc * bool) :=
  match pc with
  | Sub i p _ => map (fun xw => (LVec i (fst xw), snd xw)) (sq_acc p)
  | A0 (Some (BWork b)) _ | X0 (Some (BWork b)) | X1 b _ => [(LFin b, false)]
  | X2 b _ => [(LFin b, true)]
  | CJ k _ => if Nat.ltb k nw then [(LThread k, negb (inb k (joined s)))] else []
  | _ => []
  end.

(** Two threads are about to access the same data, one of them to write it. *)
Definition wq_race (nw : nat) (c : cfg wqsh wqpc) (x : wloc) : Prop :=
  exists t u pt pu w w', t <> u /\ th c t = Some pt /\ th c u = Some pu /\ In (x, w) (wq_acc nw (sh c) pt) /\ In (x, w') (wq_acc nw (sh c) pu) /\ (w = true \/ w' = true).

(** Equal in everything that is atomic, a lock or the condition variable *)
Definition same_atomics (s1 s2 : wqsh) : Prop :=
  (forall i, pushL (qof i s1) = pushL (qof i s2) /\ pullL (qof i s1) = pullL (qof i s2) /\ eflag (qof i s1) = eflag (qof i s2)) /\
  medc s1 = medc s2 /\ ratio s1 = ratio s2 /\ halt s1 = halt s2 /\ qlock s1 = qlock s2 /\ waits s1 = waits s2 /\ gone s1 = gone s2.
(** Equal at [x] *)
Definition same_at (s1 s2 : wqsh) (x : wloc) : Prop :=
  match x with
  | LVec i true => pullE (qof i s1) = pullE (qof i s2)
  | LVec i false => pushE (qof i s1) = pushE (qof i s2)
  | LThread w => inb w (joined s1) = inb w (joined s2)
  | LFin b => bfin s1 b = bfin s2 b
  end.

Section wq.
Variable nw : nat.
Notation wqcfg := (cfg wqsh wqpc).
Implicit Types (s : wqsh) (c : wqcfg) (f : nat -> bool) (xs : list (nat * act cvc wqop)).

Lemma in_sub i p x w : In (LVec i x, w) (map (fun xw => (LVec i (fst xw), snd xw)) (sq_acc (V := ptr) p)) <-> In (x, w) (sq_acc p).
Proof.
  split; intros Hi.
  - apply in_map_iff in Hi as ([y v] & [= <- <-] & Hy). exact Hy.
  - apply in_map_iff. exists (x, w). auto.
Qed.

(** ** The lists are what the steps do *)
Lemma acc_writes s t pc k s' pc' x : wq_step nw s t pc k = Some (s', pc') -> ~ In (x, true) (wq_acc nw s pc) -> same_at s s' x.
Proof.
  intros Es. destruct pc.
  1: { destruct k; cbn [wq_step wq_step0] in Es; try discriminate. destruct (sq_fin p) as [r|] eqn:Ef.
    - destruct (resume_data nw _ _ _ _ _ _ _ Es) as (_ & E1 & _ & _ & _ & _ & _ & _ & E2). destruct (resume_fresh nw _ _ _ _ _ _ _ Es) as [E3 _]. intros _.
      destruct x as [j []|w|b]; cbn [same_at]; rewrite ?E1, ?E2, ?E3; reflexivity.
    - destruct (sq_step (qof i s) t p tt) as [[q' p']|] eqn:Eq; [|discriminate]. inj Es. destruct (C40_writes _ _ _ _ _ Eq) as [E1 E2]. cbn [wq_acc]. intros Hn.
      destruct x as [j b|w|b].
      + assert (Eq2 : qof j (log_drop (dropping (qof i s) p) (set_q i q' s)) = if lvl_eqb j i then q' else qof j s) by (rewrite <- (qof_set j i q' s); destruct j; reflexivity).
        cbn [same_at]. rewrite !Eq2. destruct (lvl_eqb_spec j i) as [->|]; [|destruct b; reflexivity].
        destruct b; symmetry; [apply E1|apply E2]; intros Hi; apply Hn; apply in_sub; exact Hi.
      + destruct i; reflexivity.
      + destruct i; reflexivity. }
  all: destruct k; cbn [wq_step wq_step0] in Es; try discriminate; wq_cases Es; inj Es; cbn [wq_acc]; intros Hn; destruct x as [[] []|w|b']; try reflexivity.
  all: cbn [same_at bfin joined set_bfin set_joined fupd]; try reflexivity.
  all: repeat match goal with E : ?a = _ |- _ => is_var a; fail 1 | E : Nat.ltb _ _ = _ |- _ => rewrite E in Hn; clear E | E : inb _ (joined _) = _ |- _ => rewrite ?E in Hn; clear E end.
  - unfold fupd. destruct (Nat.eqb_spec b' b) as [->|]; [|reflexivity]. exfalso. apply Hn. left. reflexivity.
  - unfold inb. cbn. destruct (Nat.eqb_spec w k0) as [->|]; [|reflexivity]. exfalso. apply Hn. left. reflexivity.
Qed.
Lemma same_log s1 s2 d1 d2 : same_atomics s1 s2 -> same_atomics (log_drop d1 s1) (log_drop d2 s2).
Proof. intros [Hq Hr]. split; [intros j; specialize (Hq j); destruct j; exact Hq|exact Hr]. Qed.
Lemma same_setq i s1 s2 q1 q2 : same_atomics s1 s2 -> pushL q1 = pushL q2 -> pullL q1 = pullL q2 -> eflag q1 = eflag q2 -> same_atomics (set_q i q1 s1) (set_q i q2 s2).
Proof.
  intros [Hq Hr] E1 E2 E3. split; [intros j; rewrite !qof_set; destruct (lvl_eqb j i); [auto|apply Hq]|]. destruct i; exact Hr.
Qed.

Lemma acc_reads s1 s2 t pc k : same_atomics s1 s2 -> (forall x w, In (x, w) (wq_acc nw s1 pc) -> same_at s1 s2 x) ->
  wq_acc nw s1 pc = wq_acc nw s2 pc /\
  match wq_step nw s1 t pc k, wq_step nw s2 t pc k with
  | Some (s1', p1), Some (s2', p2) => p1 = p2 /\ same_atomics s1' s2' /\ forall x w, In (x, w) (wq_acc nw s1 pc) -> same_at s1' s2' x
  | None, None => True
  | _, _ => False
  end.
Proof.
  intros Ha Hx. pose proof Ha as (Hq & E1 & E2 & E3 & E4 & E5 & E6). destruct pc.
  1: { split; [reflexivity|]. destruct k; cbn [wq_step wq_step0]; try exact I. destruct (sq_fin p) as [r|] eqn:Ef.
    - assert (En : sq_acc p = []) by (destruct p; try discriminate; reflexivity). cbn [wq_acc]. rewrite En. cbn [map].
      destruct k0, r; cbn [resume]; try exact I; try (destruct r; cbn [resume hand]); unfold hand; (split; [reflexivity|split; [|intros ? ? []]]); try exact Ha; (split; [intros []; [apply (Hq Hi)|apply (Hq Med)|apply (Hq Lo)]|cbn; auto 9]).
    - destruct (Hq i) as (F1 & F2 & F3). cbn [wq_acc] in Hx. pose proof (C40_reads (qof i s1) (qof i s2) t p F1 F2 F3) as R.
      specialize (R (fun w Hw => Hx (LVec i true) w (proj2 (in_sub i p true w) Hw)) (fun w Hw => Hx (LVec i false) w (proj2 (in_sub i p false w) Hw))).
      destruct (sq_step (qof i s1) t p tt) as [[q1 p1]|], (sq_step (qof i s2) t p tt) as [[q2 p2]|]; try contradiction; [|exact I].
      destruct R as (-> & G1 & G2 & G3 & G4 & G5). split; [reflexivity|]. split; [apply same_log, same_setq; assumption|].
      intros x w Hi. cbn [wq_acc] in Hi. apply in_map_iff in Hi as ([y v] & [= <- <-] & Hy). cbn [fst same_at].
      assert (Eq2 : forall d q s, qof i (log_drop d (set_q i q s)) = q) by (intros d q s; destruct i; reflexivity). rewrite !Eq2. destruct y; [exact (G4 _ Hy)|exact (G5 _ Hy)]. }
  all: try match goal with |- context [A0 ?x ?p] => destruct x as [[|?]|]; destruct p end.
  all: try match goal with |- context [X0 ?x] => destruct x as [[|?]|] end.
  all: try match goal with |- context [XV ?l] => destruct l as [|[[|]|] ?] end.
  all: cbn [wq_acc] in Hx |- *; try (pose proof (Hx _ _ (or_introl eq_refl)) as Ex; cbn [same_at] in Ex).
  all: try match goal with |- context [CJ ?k ?h] => destruct (Nat.ltb k nw) eqn:El; [pose proof (Hx _ _ (or_introl eq_refl)) as Ex; cbn [same_at] in Ex; rewrite <- Ex|] end.
  all: split; [reflexivity|]; destruct k; cbn [wq_step wq_step0 is_fin]; unfold lock_q, hand; rewrite ?El, <- ?Ex, <- ?E1, <- ?E2, <- ?E3, <- ?E4, <- ?E5, <- ?E6; try exact I.
  all: repeat match goal with
    | |- context [match qlock ?s with _ => _ end] => destruct (qlock s)
    | |- context [match notify1 ?a ?b with _ => _ end] => destruct (notify1 a b)
    | |- context [if inb ?a ?b then _ else _] => destruct (inb a b) eqn:?
    | |- context [if bfin ?a ?b then _ else _] => destruct (bfin a b) eqn:?
    end; try exact I; (split; [reflexivity|]; split; [first [exact Ha|split; [intros []; [apply (Hq Hi)|apply (Hq Med)|apply (Hq Lo)]|cbn; rewrite ?E1, ?E2, ?E3, ?E4, ?E5, ?E6; auto 9]]|]); intros y v Hi; try (destruct Hi; fail); try (destruct Hi as [[= <- <-]|[]]; cbn; unfold fupd; rewrite ?Nat.eqb_refl; congruence).
  destruct Hi as [[= <- <-]|[]]. cbn [same_at joined set_joined]. unfold inb. cbn. rewrite Nat.eqb_refl. reflexivity.
Qed.

(** ** The vectors *)
Lemma race_vec f xs c H i x t u pt pu w w' : wq_run nw (wq_init nw f) xs = Some (c, H) -> th c t = Some pt -> th c u = Some pu ->
  In (LVec i x, w) (wq_acc nw (sh c) pt) -> In (LVec i x, w') (wq_acc nw (sh c) pu) -> t = u.
Proof.
  intros Er Et Eu Ht Hu. pose proof (qproj_run nw sq0 _ _ _ _ (qproj_init nw f) Er i) as (ys & ci & Hi & Ei & Esh & Eth).
  assert (F : forall pc w, In (LVec i x, w) (wq_acc nw (sh c) pc) -> exists p, vq i (Some pc) = Some p /\ In (x, w) (sq_acc p)).
  { intros pc v Hp. destruct pc; cbn [wq_acc] in Hp; try (destruct Hp; fail); try (repeat case_match; cbn in Hp; naive_solver).
    apply in_map_iff in Hp as ([y v'] & [= <- <- <-] & Hy). exists p. split; [cbn; destruct i0; reflexivity|exact Hy]. }
  destruct (F _ _ Ht) as (p & Ep & Hp). destruct (F _ _ Hu) as (q & Eq & Hq).
  destruct (sq_sim false _ _ _ _ (reach_rest _ _ (sqr_new false)) (fun E => False_rect _ (Bool.diff_false_true E)) Ei) as (qq & ff & _ & Hr).
  eapply sq_norace; [exact Hr|rewrite Eth, Et; exact Ep|rewrite Eth, Eu; exact Eq|exact Hp|exact Hq].
Qed.

(** ** The thread objects *)
Lemma acc_thread s pc k w : In (LThread k, w) (wq_acc nw s pc) -> exists h, pc = CJ k h /\ k < nw.
Proof.
  destruct pc; cbn [wq_acc]; try (intros []; fail); try (repeat case_match; cbn; naive_solver).
  - intros Hi. apply in_map_iff in Hi as (? & [=] & _).
  - destruct (Nat.ltb_spec k0 nw) as [Hk|]; [|intros []]. intros [[= -> _]|[]]. eauto.
Qed.
Lemma race_thread f xs c H k t u pt pu w w' : wq_run nw (wq_init nw f) xs = Some (c, H) -> no_overlap H -> th c t = Some pt -> th c u = Some pu ->
  In (LThread k, w) (wq_acc nw (sh c) pt) -> In (LThread k, w') (wq_acc nw (sh c) pu) -> t = u.
Proof.
  intros Er Ho Et Eu Ht Hu. pose proof (liveI_run nw _ [] _ _ _ (shaped_init nw f) (liveI_init nw f) Er Ho) as Hl.
  apply acc_thread in Ht as (h & -> & _). apply acc_thread in Hu as (h' & -> & _). eapply live_uniq; [exact Ho|exact Hl|exact Et|exact Eu|reflexivity|reflexivity].
Qed.

(** ** The blocks *)
Lemma acc_fin s pc b w : In (LFin b, w) (wq_acc nw s pc) -> 1 <= coming b pc + about b pc + at2 b pc.
Proof.
  destruct pc; cbn [wq_acc]; try (intros []; fail).
  - intros Hi. apply in_map_iff in Hi as (? & [=] & _).
  - destruct x as [[|b']|]; try (intros []; fail). intros [[= -> _]|[]]. cbn. rewrite Nat.eqb_refl. lia.
  - intros [[= -> _]|[]]. cbn. rewrite Nat.eqb_refl. lia.
  - intros [[= -> _]|[]]. cbn. rewrite Nat.eqb_refl. lia.
  - destruct x as [[|b']|]; try (intros []; fail). intros [[= -> _]|[]]. cbn. rewrite Nat.eqb_refl. lia.
  - destruct (Nat.ltb k nw); intros []; [discriminate|destruct H].
Qed.
Lemma enough xs t u : exists n, onn n xs /\ t < n /\ u < n.
Proof.
  induction xs as [|[v a] xs (n & Hn & Ht & Hu)]; [exists (S (t + u)); split; [constructor|lia]|].
  exists (n + S v). split; [|lia]. constructor; [cbn; lia|]. eapply Forall_impl; [exact Hn|]. cbn. intros; lia.
Qed.
Lemma race_fin f xs c H b t u pt pu w w' : wq_run nw (wq_init nw f) xs = Some (c, H) -> submitted b H <= 1 -> th c t = Some pt -> th c u = Some pu ->
  In (LFin b, w) (wq_acc nw (sh c) pt) -> In (LFin b, w') (wq_acc nw (sh c) pu) -> t = u.
Proof.
  intros Er Hb Et Eu Ht Hu. destruct (Nat.eq_dec t u) as [|Hne]; [assumption|exfalso]. apply acc_fin in Ht, Hu. destruct (enough xs t u) as (n & Hn & Htn & Hun).
  pose proof (C56_accounting nw f n _ _ _ b Hn Er) as Ea. pose proof (runs_run b nw n _ _ _ _ Hn Er (proj2 (everything_init b nw n f))) as Hr. unfold runs_bound in Hr.
  pose proof (at2_run nw b n f _ _ _ Hn Er) as H2.
  pose proof (tsum_two n (fun t => opt (coming b) (th c t)) t u Hne Htn Hun) as F0.
  pose proof (tsum_two n (fun t => opt (about b) (th c t)) t u Hne Htn Hun) as F1. pose proof (tsum_two n (fun t => opt (at2 b) (th c t)) t u Hne Htn Hun) as F2. cbn beta in F0, F1, F2.
  rewrite Et, Eu in F0, F1, F2. cbn [opt] in F0, F1, F2. lia.
Qed.
End wq.
