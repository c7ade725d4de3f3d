(** WorkQueue: nobody is stuck while a single thread closes the queue *)
From stdpp Require Import list.
From Verif Require Import Base Conc CondVar Herlihy SqModel SqSpec SqProofs WqModel WqProofs WqCount WqMore.
Local Open Scope nat_scope.

(** No two calls of closeWorkerQueue overlap. *)
Definition no_overlap (H : list (hev wqop wqret)) : Prop :=
  forall i j t u, i < j -> H !! i = Some (HInv t OClose) -> H !! j = Some (HInv u OClose) -> exists k r, i < k < j /\ H !! k = Some (HRet t r).

Lemma no_overlap_app H K : no_overlap (H ++ K) -> no_overlap H.
Proof.
  intros Ho i j t u Hij Ei Ej. destruct (Ho i j t u Hij) as (k & r & Hk & Ek); [apply lookup_app_l_Some, Ei|apply lookup_app_l_Some, Ej|].
  exists k, r. split; [exact Hk|]. apply lookup_lt_Some in Ej. rewrite lookup_app_l in Ek by lia. exact Ek.
Qed.

Section wq.
Variable nw : nat.
Notation wqcfg := (cfg wqsh wqpc).
Implicit Types (s : wqsh) (pc : wqpc) (c : wqcfg) (H : list (hev wqop wqret)).

(** ** Program points *)
(* holding queueLock *)
Definition hq pc : bool := match pc with W2 | W3 | W5 | W6 | W7 | CL1 | CL2 | CL3 | CJ _ true | CU => true | _ => false end.
(* in workerLoop *)
Definition is_w (g : gctx) : bool := match g with GWork _ => true | GUser => false end.
Definition workpc pc : bool :=
  match pc with
  | Sub _ _ (KE EWork) => true
  | Sub _ _ (KPop1 g | KLowE g | KPop2 g | KPop3 g | KPop4 g) | G1 g | G1b g _ | G2 _ g | G3 _ g => is_w g
  | X0 _ | X1 _ XWork | X2 _ XWork | W1 | W2 | W3 | W4 | W4b | W5 | W6 | W7 | W8 | WE => true
  | _ => false
  end.
(* in closeWorkerQueue; before the first notify_all, the queue halted; up to the end of the joins *)
Definition in_close pc : bool :=
  match pc with
  | CL0 | CL1 | CL2 | CL3 | Sub _ _ KClr | CN1 | Sub _ _ (KSize _ (AClose _)) | Sub _ _ (KPush _ (AClose _)) | AN (AClose _) | CN2 | CJ _ _ | CU => true
  | _ => false
  end.
Definition pre_n pc : bool := match pc with CL3 | Sub _ _ KClr | CN1 => true | _ => false end.
Definition closer pc : bool :=
  match pc with
  | CL3 | Sub _ _ KClr | CN1 | Sub _ _ (KSize _ (AClose _)) | Sub _ _ (KPush _ (AClose _)) | AN (AClose _) | CN2 | CJ _ false => true
  | _ => false
  end.
Lemma pre_closer pc : pre_n pc = true -> closer pc = true.
Proof. destruct pc; try discriminate; try reflexivity. destruct k; try discriminate; reflexivity. Qed.
Lemma closer_in pc : closer pc = true -> in_close pc = true.
Proof. destruct pc; cbn; try discriminate; auto. Qed.

(** ** One step *)
Definition lock_move s t pc s' pc' : Prop :=
  (qlock s' = qlock s /\ hq pc' = hq pc) \/ (qlock s = None /\ qlock s' = Some t /\ hq pc = false /\ hq pc' = true) \/ (hq pc = true /\ hq pc' = false /\ qlock s' = None).
Definition plain pc' : Prop := hq pc' = false /\ pc' <> W3 /\ pc' <> WE /\ (forall k h, pc' <> CJ k h).

Ltac pl := unfold plain; cbn; splits; intros; try discriminate; try congruence; auto.
Lemma plain_dummies r : plain (dummies r) /\ closer (dummies r) = true /\ pre_n (dummies r) = false.
Proof. destruct r; pl. Qed.
Lemma plain_loop : plain loop.
Proof. pl. Qed.
Lemma plain_gstart g : plain (gstart g).
Proof. pl. Qed.
Lemma plain_after_exec e : plain (after_exec e) /\ in_close (after_exec e) = false /\ closer (after_exec e) = false.
Proof. destruct e; [split; [apply plain_loop|split; reflexivity]|]. pl. Qed.

Definition closer_move pc pc' : Prop := closer pc = true -> closer pc' = true \/ (exists k, pc = CJ k false /\ nw <= k).

Lemma resume_live s t i r k s' pc' : shape (Sub i (SqModel.Ret r) k) -> resume nw s t i r k = Some (s', pc') ->
  qlock s' = qlock s /\ waits s' = waits s /\ gone s' = gone s /\ joined s' = joined s /\ halt s' = halt s /\ plain pc' /\
  (workpc (Sub i (SqModel.Ret r) k) = true -> workpc pc' = true) /\
  (in_close pc' = true -> in_close (Sub i (SqModel.Ret r) k) = true) /\
  (closer (Sub i (SqModel.Ret r) k) = true -> closer pc' = true) /\
  (pre_n (Sub i (SqModel.Ret r) k) = true -> pre_n pc' = true).
Proof.
  intros Hs Er. destruct k; wq_resume Er; cbn [workpc in_close closer pre_n]; try solve [pl].
  - destruct a as [|r]; cbn; [destruct few; pl|]. pose proof (plain_dummies r) as ((P1 & P2 & P3 & P4) & E2 & E3).
    destruct few; [pl|cbn; splits; auto; try (intros; discriminate); unfold plain; auto].
  - destruct bb; [destruct (nextq i); [|destruct e]|destruct e]; pl.
  - destruct (nextq i); pl.
  - destruct g; pl.
  - destruct bb; pl.
  - destruct g; pl.
  - destruct g; pl.
  - destruct (nextq i); pl.
Qed.

Record stepL s t pc s' pc' : Prop := {
  sl_lock : lock_move s t pc s' pc';
  sl_gone : forall u, inb u (gone s) = true -> inb u (gone s') = true;
  sl_join : forall u, inb u (joined s) = true -> inb u (joined s') = true;
  sl_we : pc' = WE -> pc = WE \/ inb t (gone s') = true;
  sl_work : workpc pc = true -> workpc pc' = true;
  sl_close : in_close pc' = true -> in_close pc = true;
  sl_halt : halt s = true -> halt s' = true;
  sl_set : halt s' = true -> halt s = true \/ (pc = CL2 /\ pre_n pc' = true);
  sl_w3 : pc' = W3 -> pc = W3 \/ halt s' = false;
  sl_waits : waits s = [] -> waits s' = [] \/ pc = W3;
  sl_pre : pre_n pc = true -> pre_n pc' = true \/ waits s' = [];
  sl_closer : closer_move pc pc';
  sl_ct : forall k, pc' = CJ k true -> (exists k', pc = CJ k' true) \/ (pc = CL1 /\ halt s = true);
  sl_cf : forall k, pc' = CJ k false -> (pc = CN2 /\ k = 0) \/ (exists k', pc = CJ k' false /\ k = S k' /\ inb k' (joined s') = true);
}.

Lemma notify_nil k ws : notify1 [] k = Some ws -> ws = [].
Proof. destruct k; cbn; congruence. Qed.

Lemma step_live s t pc k s' pc' : wq_step nw s t pc k = Some (s', pc') -> shape pc -> stepL s t pc s' pc'.
Proof.
  intros Es Hs. destruct pc.
  1: { destruct k; cbn [wq_step wq_step0] in Es; try discriminate. destruct (sq_fin p) as [r|] eqn:Ef.
    - assert (Ep : p = SqModel.Ret r) by (destruct p; try discriminate; injection Ef as ->; reflexivity). subst p.
      destruct (resume_live _ _ _ _ _ _ _ Hs Es) as (E1 & E2 & E3 & E4 & E5 & (P1 & P2 & P3 & P4) & E6 & E7 & E8 & E9).
      constructor; rewrite ?E1, ?E2, ?E3, ?E4, ?E5; auto; try (intros; exfalso; eauto; fail).
      + left. rewrite P1. auto.
      + intros E. left. auto.
      + intros k E. destruct (P4 _ _ E).
      + intros k E. destruct (P4 _ _ E).
    - destruct (sq_step (qof i s) t p tt) as [[q' p']|] eqn:Eq; [|discriminate]. inj Es.
      constructor; destruct i; cbn; auto; try congruence; try (intros E; left; exact E); try (left; split; reflexivity). }
  all: destruct k; cbn [wq_step wq_step0] in Es; try discriminate; wq_cases Es; inj Es.
  all: repeat match goal with
    | |- context [if Nat.eqb nw 0 then _ else _] => destruct (Nat.eqb nw 0)
    | |- context [if (ratio ?s <=? ?m)%Z then _ else _] => destruct (ratio s <=? m)%Z
    | |- context [if halt ?s then _ else _] => destruct (halt s) eqn:?
    | |- context [if ?h then CU else _] => is_var h; destruct h
    | |- context [after_exec ?e] => is_var e; destruct e
    | |- context [match ?g with GUser => _ | GWork _ => _ end] => is_var g; destruct g
    | |- context [after_add ?a] => is_var a; destruct a as [|[|]]
    | |- context [dummies nw] => destruct nw eqn:?
    | |- context [CJ ?k ?h] => is_var h; destruct h
    end.
  all: constructor; unfold lock_move, closer_move; cbn; auto 7; try congruence; try (intros; solve [discriminate|congruence|auto 7]).
  all: try (intros E0; rewrite E0 in *; left; eapply notify_nil; eassumption).
  all: try (intros E0; rewrite E0; left; reflexivity).
  all: try (intros u Hu; unfold inb in Hu; rewrite Hu; destruct (Nat.eqb _ _); reflexivity).
  all: try (intros _; right; rewrite Nat.eqb_refl; reflexivity).
  all: try (intros k [= <-]; left; split; reflexivity).
  all: try (intros k [= <-]; left; eexists; reflexivity).
  all: try (intros _; right; eexists; split; [reflexivity|]; match goal with E : (_ <? _) = false |- _ => apply Nat.ltb_ge in E; exact E end).
  - intros k [= <-]. right. exists k0. auto.
  - intros k [= <-]. right. exists k0. split; [reflexivity|split; [reflexivity|]]. unfold inb. cbn. rewrite Nat.eqb_refl. reflexivity.
Qed.

(** ** Invariant *)
Record liveI H c : Prop := {
  lv_lock : lk (qlock (sh c)) hq (th c);
  lv_work : forall t, t < nw -> exists pc, th c t = Some pc /\ workpc pc = true;
  lv_we : forall t, th c t = Some WE -> inb t (gone (sh c)) = true;
  lv_w3 : halt (sh c) = true -> forall t, th c t <> Some W3;
  lv_wait : halt (sh c) = true -> waits (sh c) = [] \/ exists u pc, th c u = Some pc /\ pre_n pc = true;
  lv_done : halt (sh c) = true -> (forall j, j < nw -> inb j (joined (sh c)) = true) \/ exists u pc, th c u = Some pc /\ closer pc = true;
  lv_ct : forall u k, th c u = Some (CJ k true) -> forall j, j < nw -> inb j (joined (sh c)) = true;
  lv_cf : forall u k, th c u = Some (CJ k false) -> forall j, j < k -> inb j (joined (sh c)) = true;
  lv_hist : forall t pc, th c t = Some pc -> in_close pc = true -> exists i, last_ev H t i (HInv t OClose);
}.

Lemma live_uniq H c t u pt pu : no_overlap H -> liveI H c -> th c t = Some pt -> th c u = Some pu -> in_close pt = true -> in_close pu = true -> t = u.
Proof.
  intros Hn Hl Et Eu Ht Hu. destruct (lv_hist _ _ Hl _ _ Et Ht) as (i & Hi & _ & Ti). destruct (lv_hist _ _ Hl _ _ Eu Hu) as (j & Hj & _ & Tj).
  destruct (lt_eq_lt_dec i j) as [[Hij| ->]|Hij].
  - destruct (Hn _ _ _ _ Hij Hi Hj) as (k & r & [Hk _] & Ek). destruct (Ti _ _ Hk Ek eq_refl).
  - congruence.
  - destruct (Hn _ _ _ _ Hij Hj Hi) as (k & r & [Hk _] & Ek). destruct (Tj _ _ Hk Ek eq_refl).
Qed.

Lemma lk_move L h (f : nat -> option wqpc) s t pc s' pc' : h = hq -> L = qlock s -> lk L h f -> f t = Some pc -> lock_move s t pc s' pc' -> lk (qlock s') h (fupd t (Some pc') f).
Proof.
  intros -> -> Hl Et [[E1 E2]|[(E1 & E2 & E3 & E4)|(E1 & E2 & E3)]].
  - rewrite E1. eapply lk_keep; eassumption.
  - rewrite E2. apply lk_acq; [rewrite <- E1; exact Hl|exact E4].
  - rewrite E3. eapply lk_rel; eassumption.
Qed.

Lemma start_live o : hq (wq_start nw o) = false /\ wq_start nw o <> WE /\ wq_start nw o <> W3 /\ (forall k h, wq_start nw o <> CJ k h) /\ (in_close (wq_start nw o) = true -> o = OClose).
Proof. destruct o; cbn [wq_start]; try (destruct (Nat.eqb nw 0)); cbn; splits; intros; try discriminate; try congruence; auto. Qed.

Lemma liveI_exec H c x c' e : shaped c -> no_overlap (H ++ e) -> liveI H c -> wq_exec nw c x = Some (c', e) -> liveI (H ++ e) c'.
Proof.
  intros Hsh Hn Hl. destruct x as [t [o|k|]]; unfold wq_exec; cbn.
  - destruct (th c t) eqn:Et; [discriminate|]. intros [= <- <-]. pose proof (start_live o) as (S1 & S2 & S3 & S4 & S5). destruct Hl as [L1 L2 L3 L4 L5 L6 L7 L8 L9].
    constructor; cbn [sh th].
    + apply lk_call; assumption.
    + intros u Hu. destruct (L2 u Hu) as (pc & E1 & E2). exists pc. rewrite fupd_other; [auto|]. congruence.
    + intros u. unfold fupd. destruct (Nat.eqb u t); [congruence|apply L3].
    + intros Hh u. unfold fupd. destruct (Nat.eqb u t); [congruence|apply L4, Hh].
    + intros Hh. destruct (L5 Hh) as [E|(u & pc & E1 & E2)]; [auto|right]. exists u, pc. rewrite fupd_other; [auto|congruence].
    + intros Hh. destruct (L6 Hh) as [E|(u & pc & E1 & E2)]; [auto|right]. exists u, pc. rewrite fupd_other; [auto|congruence].
    + intros u k. unfold fupd. destruct (Nat.eqb u t); [intros [= E]; destruct (S4 _ _ E)|apply L7].
    + intros u k. unfold fupd. destruct (Nat.eqb u t); [intros [= E]; destruct (S4 _ _ E)|apply L8].
    + intros u pc. unfold fupd. destruct (Nat.eqb_spec u t) as [->|Hne].
      * intros [= <-] E. rewrite (S5 E). exists (length H). apply last_new. reflexivity.
      * intros E1 E2. destruct (L9 _ _ E1 E2) as (i & Hi). exists i. apply last_old; [cbn; congruence|exact Hi].
  - destruct (th c t) as [pc|] eqn:Et; [|discriminate]. destruct (wq_step nw (sh c) t pc k) as [[s' pc']|] eqn:Es; [|discriminate]. intros [= <- <-]. rewrite app_nil_r in *.
    assert (Hu : forall u pu, th c u = Some pu -> in_close pc = true -> in_close pu = true -> u = t) by (intros u pu Eu E1 E2; eapply live_uniq; eassumption).
    destruct (step_live _ _ _ _ _ _ Es (Hsh _ _ Et)) as [T1 T2 T3 T4 T5 T6 T7 T8 T9 T10 T11 T12 T13 T14]. destruct Hl as [L1 L2 L3 L4 L5 L6 L7 L8 L9].
    constructor; cbn [sh th].
    + eapply lk_move; eauto.
    + intros u Hlt. destruct (L2 u Hlt) as (pu & E1 & E2). unfold fupd. destruct (Nat.eqb_spec u t) as [->|]; [exists pc'; split; [reflexivity|apply T5; congruence]|eauto].
    + intros u. unfold fupd. destruct (Nat.eqb_spec u t) as [->|]; [intros [= E]|auto]. destruct (T4 E) as [->|E']; auto.
    + intros Hh u. unfold fupd. destruct (Nat.eqb_spec u t) as [->|Hne].
      * intros [= E]. destruct (T9 E) as [->|]; [|congruence]. destruct (T8 Hh) as [E'|[E' _]]; [exact (L4 E' _ Et)|discriminate].
      * intros E. destruct (T8 Hh) as [E'|[-> _]]; [exact (L4 E' _ E)|].
        assert (qlock (sh c) = Some t) by (eapply lk_owner; eauto; reflexivity). assert (qlock (sh c) = Some u) by (eapply lk_owner; eauto; reflexivity). congruence.
    + intros Hh. destruct (T8 Hh) as [E'|[_ E']]; [|right; exists t, pc'; rewrite fupd_same; auto].
      destruct (L5 E') as [E|(u & pu & E1 & E2)].
      * destruct (T10 E) as [| ->]; [auto|]. destruct (L4 E' _ Et).
      * unfold fupd. destruct (Nat.eqb_spec u t) as [->|Hne].
        -- rewrite Et in E1. injection E1 as <-. destruct (T11 E2) as [E3|E3]; [right; exists t, pc'; rewrite Nat.eqb_refl; auto|auto].
        -- right. exists u, pu. destruct (Nat.eqb_spec u t); [contradiction|auto].
    + intros Hh. destruct (T8 Hh) as [E'|[_ E']]; [|right; exists t, pc'; rewrite fupd_same; split; [reflexivity|apply pre_closer, E']].
      destruct (L6 E') as [E|(u & pu & E1 & E2)]; [left; auto|]. destruct (Nat.eq_dec u t) as [->|Hne].
      * rewrite Et in E1. injection E1 as <-. destruct (T12 E2) as [E3|(k' & -> & Hk)]; [right; exists t, pc'; rewrite fupd_same; auto|].
        left. intros j Hj. apply T3. eapply L8; [exact Et|lia].
      * right. exists u, pu. rewrite fupd_other by exact Hne. auto.
    + intros u k'. unfold fupd. destruct (Nat.eqb_spec u t) as [->|Hne].
      * intros [= E] j Hj. apply T3. destruct (T13 _ E) as [(k'' & ->)|[-> Hh]]; [eauto|].
        destruct (L6 Hh) as [E6|(u & pu & E1 & E2)]; [auto|]. exfalso. assert (u = t) by (eapply Hu; [exact E1|reflexivity|apply closer_in, E2]). subst u. rewrite Et in E1. injection E1 as <-. discriminate.
      * intros E j Hj. apply T3. eauto.
    + intros u k'. unfold fupd. destruct (Nat.eqb_spec u t) as [->|Hne].
      * intros [= E] j Hj. destruct (T14 _ E) as [[-> ->]|(k'' & -> & -> & E3)]; [lia|]. destruct (Nat.eq_dec j k'') as [->|]; [exact E3|]. apply T3. eapply L8; [exact Et|lia].
      * intros E j Hj. apply T3. eauto.
    + intros u pu. unfold fupd. destruct (Nat.eqb_spec u t) as [->|Hne]; [|apply L9]. intros [= <-] E. eapply L9; [exact Et|auto].
  - destruct (th c t) as [pc|] eqn:Et; [|discriminate]. destruct (wq_fin pc) as [r|] eqn:Ef; [|discriminate]. intros [= <- <-]. destruct pc; try discriminate. destruct Hl as [L1 L2 L3 L4 L5 L6 L7 L8 L9].
    constructor; cbn [sh th].
    + eapply lk_ret; eauto.
    + intros u Hlt. destruct (L2 u Hlt) as (pu & E1 & E2). exists pu. rewrite fupd_other; [auto|]. intros ->. rewrite Et in E1. injection E1 as <-. discriminate.
    + intros u. unfold fupd. destruct (Nat.eqb u t); [discriminate|apply L3].
    + intros Hh u. unfold fupd. destruct (Nat.eqb u t); [discriminate|apply L4, Hh].
    + intros Hh. destruct (L5 Hh) as [E|(u & pu & E1 & E2)]; [auto|right]. exists u, pu. rewrite fupd_other; [auto|]. intros ->. rewrite Et in E1. injection E1 as <-. discriminate.
    + intros Hh. destruct (L6 Hh) as [E|(u & pu & E1 & E2)]; [auto|right]. exists u, pu. rewrite fupd_other; [auto|]. intros ->. rewrite Et in E1. injection E1 as <-. discriminate.
    + intros u k. unfold fupd. destruct (Nat.eqb u t); [discriminate|apply L7].
    + intros u k. unfold fupd. destruct (Nat.eqb u t); [discriminate|apply L8].
    + intros u pu. unfold fupd. destruct (Nat.eqb_spec u t) as [->|Hne]; [discriminate|]. intros E1 E2. destruct (L9 _ _ E1 E2) as (i & Hi). exists i. apply last_old; [cbn; congruence|exact Hi].
Qed.

Lemma liveI_run xs : forall H c c' H', shaped c -> liveI H c -> wq_run nw c xs = Some (c', H') -> no_overlap (H ++ H') -> liveI (H ++ H') c'.
Proof.
  induction xs as [|x xs IH]; intros H c c' H' Hs Hl; unfold wq_run; cbn [run].
  - intros [= <- <-] _. rewrite app_nil_r. exact Hl.
  - destruct (exec _ _ _ c x) as [[c1 e]|] eqn:Ex; [|discriminate]. destruct (run _ _ _ c1 xs) as [[c2 H2]|] eqn:Er; [|discriminate]. intros [= <- <-] Hn.
    rewrite app_assoc in *. eapply IH; [eapply shaped_exec; eassumption| |exact Er|exact Hn]. eapply liveI_exec; [exact Hs| |exact Hl|exact Ex]. eapply no_overlap_app, Hn.
Qed.

Lemma liveI_init f : liveI [] (wq_init nw f).
Proof.
  assert (Hf : forall t pc, th (wq_init nw f) t = Some pc -> pc = loop). { intros t pc. cbn [wq_init th]. destruct (Nat.ltb t nw); congruence. }
  constructor; cbn [wq_init sh wq0 halt qlock]; try discriminate.
  - intros t. split; [discriminate|]. intros (pc & E & Eh). apply Hf in E. subst pc. discriminate.
  - intros t Ht. exists loop. split; [|reflexivity]. cbn [wq_init th]. apply Nat.ltb_lt in Ht. rewrite Ht. reflexivity.
  - intros t E. apply Hf in E. discriminate.
  - intros t k E. apply Hf in E. discriminate.
  - intros t k E. apply Hf in E. discriminate.
  - intros t pc E Eh. apply Hf in E. subst pc. discriminate.
Qed.

(** ** Progress *)
Definition can_go c : Prop :=
  exists t a c' e, th c t <> None /\ (forall k, a = AInt k -> k <> CSpur /\ k <> CTime) /\ wq_exec nw c (t, a) = Some (c', e).
Definition asleep s t pc : Prop := pc = W4 /\ inb t (waits s) = true.

Lemma go_int c t pc k s' pc' : th c t = Some pc -> wq_step nw (sh c) t pc k = Some (s', pc') -> k <> CSpur -> k <> CTime -> can_go c.
Proof.
  intros Et Es H1 H2. exists t, (AInt k). unfold wq_exec. cbn. rewrite Et, Es. eexists _, _. split; [discriminate|]. split; [intros ? [= <-]; auto|reflexivity].
Qed.
Lemma go_sub c i t p k : shaped c -> qproj sq0 i c -> th c t = Some (Sub i p k) -> can_go c.
Proof.
  intros Hs Hq Et. destruct (qproj_live sq0 i c) as (u & pu & ku & Eu & Hgo); [constructor|exact Hq|eauto|].
  destruct (sq_fin pu) as [r|] eqn:Ef.
  - assert (Ep : pu = SqModel.Ret r) by (destruct pu; try discriminate; injection Ef as ->; reflexivity). subst pu.
    destruct (Hs _ _ Eu) as (o & Hk & Ho). assert (Er : exists x, resume nw (sh c) u i r ku = Some x).
    { destruct ku; cbn in Hk; cbn [resume]; destruct r; cbn in Ho; try (destruct o; naive_solver); try (destruct r; eauto); eauto. }
    destruct Er as [[s' pc'] Er]. eapply (go_int c u _ CStep); [exact Eu| |discriminate|discriminate]. cbn. exact Er.
  - destruct (Hgo eq_refl) as (q' & p' & Eq). eapply (go_int c u _ CStep); [exact Eu| |discriminate|discriminate]. cbn [wq_step wq_step0]. rewrite Ef, Eq. reflexivity.
Qed.

Ltac gostep Et := eapply (go_int _ _ _ CStep); [exact Et|cbn [wq_step wq_step0]; reflexivity|discriminate|discriminate].

Section go.
Context (H : list (hev wqop wqret)) (c : wqcfg) (Hs : shaped c) (Hq : forall i, qproj sq0 i c) (Hl : liveI H c).

Lemma go_held t pc : th c t = Some pc -> hq pc = true -> can_go c.
Proof.
  intros Et Eh. destruct pc; try discriminate; try gostep Et. destruct h; [|discriminate].
  destruct (Nat.ltb k nw) eqn:Hk; (eapply (go_int _ _ _ CStep); [exact Et| |discriminate|discriminate]); cbn [wq_step wq_step0]; rewrite Hk; [|reflexivity].
  apply Nat.ltb_lt in Hk. rewrite (lv_ct _ _ Hl _ _ Et k Hk). reflexivity.
Qed.
Lemma go_lock t pc pc' : th c t = Some pc -> wq_step nw (sh c) t pc CStep = lock_q (sh c) t pc' -> can_go c.
Proof.
  intros Et E. destruct (qlock (sh c)) as [u|] eqn:El.
  - apply (lv_lock _ _ Hl) in El as (pu & Eu & Hu). eapply go_held; eassumption.
  - eapply (go_int _ _ _ CStep); [exact Et|rewrite E; unfold lock_q; rewrite El; reflexivity|discriminate|discriminate].
Qed.

Definition dead pc : Prop := match pc with WE | Crash _ => True | _ => False end.

Lemma go_base t pc : th c t = Some pc -> ~ dead pc -> (halt (sh c) = true \/ ~ asleep (sh c) t pc) -> (forall k, pc <> CJ k false) -> can_go c.
Proof.
  intros Et Hd Ha Hk. destruct pc; try (destruct (Hd I)); try gostep Et.
  - eapply go_sub; eauto.
  - (* A0 *) destruct x as [y|]; [destruct p; destruct (is_fin (sh c) y) eqn:Ey|]; (eapply (go_int _ _ _ CStep); [exact Et|cbn [wq_step wq_step0]; rewrite ?Ey; reflexivity|discriminate|discriminate]).
  - (* AN *) destruct (waits (sh c)) as [|u ws] eqn:Ew.
    + eapply (go_int _ _ _ CStep); [exact Et|cbn; rewrite Ew; reflexivity|discriminate|discriminate].
    + eapply (go_int _ _ _ (CWake u)); [exact Et|cbn; rewrite Ew; unfold inb; cbn; rewrite Nat.eqb_refl; reflexivity|discriminate|discriminate].
  - destruct xs as [|[[|b]|] xs]; gostep Et.
  - destruct (bfin (sh c) b) eqn:Eb; (eapply (go_int _ _ _ CStep); [exact Et|cbn; rewrite Eb; reflexivity|discriminate|discriminate]).
  - eapply go_lock; [exact Et|reflexivity].
  - (* W4 *) destruct (inb t (waits (sh c))) eqn:Ei.
    + destruct Ha as [Hh|Ha]; [|exfalso; apply Ha; split; auto]. destruct (lv_wait _ _ Hl Hh) as [E|(u & pu & Eu & Hu)]; [rewrite E in Ei; discriminate|].
      destruct pu; try discriminate; try gostep Eu. eapply go_sub; eauto.
    + eapply (go_int _ _ _ CStep); [exact Et|cbn; rewrite Ei; reflexivity|discriminate|discriminate].
  - eapply go_lock; [exact Et|reflexivity].
  - eapply go_lock; [exact Et|reflexivity].
  - destruct h; [|congruence]. eapply go_held; [exact Et|reflexivity].
  - (* Ret *) exists t, ARet. unfold wq_exec. cbn. rewrite Et. cbn. eexists _, _. split; [discriminate|]. split; [discriminate|reflexivity].
Qed.

Lemma go_any t pc : th c t = Some pc -> ~ dead pc -> (halt (sh c) = true \/ ~ asleep (sh c) t pc) -> (forall k, pc = CJ k false -> halt (sh c) = true) -> can_go c.
Proof.
  intros Et Hd Ha Hc. assert (Hx : (exists k, pc = CJ k false) \/ forall k, pc <> CJ k false) by (destruct pc; try (right; congruence); destruct h; [right; congruence|left; eauto]).
  destruct Hx as [[k ->]|Hx]; [|eapply go_base; eassumption]. destruct (Nat.ltb k nw) eqn:El.
  - destruct (inb k (joined (sh c))) eqn:Ej; [eapply (go_int _ _ _ CStep); [exact Et|cbn [wq_step wq_step0]; rewrite El, Ej; reflexivity|discriminate|discriminate]|].
    destruct (inb k (gone (sh c))) eqn:Eg; [eapply (go_int _ _ _ CStep); [exact Et|cbn [wq_step wq_step0]; rewrite El, Ej, Eg; reflexivity|discriminate|discriminate]|].
    apply Nat.ltb_lt in El. destruct (lv_work _ _ Hl k El) as (pk & Ek & Hk).
    apply (go_base k pk Ek); [|left; eapply Hc; reflexivity|intros k' ->; discriminate].
    destruct pk; try discriminate; cbn; auto. pose proof (lv_we _ _ Hl _ Ek). congruence.
  - eapply (go_int _ _ _ CStep); [exact Et|cbn [wq_step wq_step0]; rewrite El; reflexivity|discriminate|discriminate].
Qed.
End go.

End wq.
