(** Blocking queues: what holds at each program point *)
From stdpp Require Import list.
From Verif Require Import Base Conc CondVar BqModel BqSpec.

Section bq.
Context {V : Type}.
Variable bp : bool.
Notation bqcfg := (cfg (bqsh V) (bqpc V)).
Implicit Types (s : bqsh V) (pc : bqpc V) (c : bqcfg).

Definition hpush pc : bool :=
  match pc with
  | P1 _ | P2 _ | P3 _ | PA _ | P9 true | PB true | PC | PD _ | PE | PF | PH _ | PG | C2 _ _ | C3 _ _ | C4 _ _ | C6 _ _ | C7 _ _
  | S2 | S3 _ | L2 | L3 | LP | L4 | L5 | V2 _ | V3 _ => true
  | _ => false
  end.
Definition hpull pc : bool :=
  match pc with
  | P5 _ | P6 _ | P7 _ | P8 _ | PA _ | P9 _ | PB _ | R2 _ | R3 _ | R4 | R6 _ | R7 | R8 | OP _ | OQ _
  | C0 _ _ | C1 _ _ | C2 _ _ | C3 _ _ | C4 _ _ | C5 _ _ | C6 _ _ | C7 _ _ | O1 _ _ | O2 _ | O3 _ _
  | WP _ _ | WQ _ | W1 _ _ | W2 _ | W3 _ | W4 _ | W7 _ | K1 | K2 _ | S1 | S2 | S3 _ | S4 _
  | L1 | L2 | L3 | LP | L4 | L5 | L6 | V1 _ | V2 _ | V3 _ | V4 _ | Crash => true
  | _ => false
  end.

Definition noprio {A} (k : option A) s : Prop := match k with None => prioE s = [] | Some _ => True end.

Definition sinv s pc : Prop :=
  match pc with
  | P2 _ | P3 _ => pushE s = []
  | PH _ => pushE s <> []
  | P7 _ => pullE s = []
  | P8 _ | PA _ | P9 _ => pullE s <> []
  | R4 => prioE s <> []
  | OQ _ | WQ _ => prioE s <> []
  | C0 _ k => noprio k s
  | C1 _ k | C2 _ k => noprio k s /\ pullE s = []
  | C3 _ k => noprio k s /\ pullE s = [] /\ pushE s <> []
  | C4 _ k => noprio k s /\ pullE s <> [] /\ pushE s = []
  | C5 _ k => noprio k s /\ pullE s <> []
  | C6 _ k | C7 _ k => noprio k s /\ pullE s = [] /\ pushE s = []
  | O1 _ e => prioE s = [] /\ if e then pullE s = [] else pullE s <> []
  | O2 _ | W2 _ => prioE s = [] /\ pullE s <> []
  | W1 _ _ => prioE s = []
  | W4 _ => prioE s = [] /\ pullE s = []
  | R7 => prioE s <> []
  | L3 => pullE s = []
  | LP => pullE s = [] /\ pushE s = []
  | L4 | L5 => pullE s = [] /\ pushE s = [] /\ prioE s = []
  | L6 => pullE s = [] /\ prioE s = []
  | Crash => False
  | _ => True
  end.

Definition is_push (o : bqop V) : Prop := match o with BPush _ | BEmplace _ => True | _ => False end.
Definition is_prio (o : bqop V) : Prop := match o with BPushPri _ | BEmplacePri _ => bp = true | _ => False end.
Definition okpc pc : Prop :=
  match pc with
  | P0 o | P1 o | P2 o | P3 o | P4 o | P5 o | P6 o | P7 o | P8 o | PA o | PD o | PH o => is_push o
  | R0 o | R1 o | R2 o | R3 o | R5 o | R6 o => is_prio o
  | R4 | R7 | R8 => bp = true
  | _ => True
  end.

Record bqI c : Prop := {
  i_push : lk (pushL (sh c)) hpush (th c);
  i_pull : lk (pullL (sh c)) hpull (th c);
  i_pc : forall t pc, th c t = Some pc -> sinv (sh c) pc /\ okpc pc;
  i_wait : forall t, In t (bwait (sh c)) -> exists m, th c t = Some (W5 m);
  i_prio : bp = false -> prioE (sh c) = [];
}.

Lemma sinv_frame s s' pc : sinv s pc -> (hpull pc = true -> pullE s' = pullE s /\ prioE s' = prioE s) -> (hpush pc = true -> pushE s' = pushE s) -> sinv s' pc.
Proof.
  intros Hs Hl Hp. destruct pc; cbn [hpull hpush] in Hl, Hp; cbn [sinv] in *; try exact I; try (destruct (Hl eq_refl) as [E1 E2]); try (pose proof (Hp eq_refl) as E3);
    unfold noprio in *; rewrite ?E1, ?E2, ?E3; exact Hs.
Qed.

Ltac step_cases Es :=
  repeat lazymatch type of Es with
  | context [match ?x with _ => _ end] => destruct x eqn:?
  end; try discriminate Es; try (injection Es as <- <-).

Lemma nonempty_true (l : list V) : nonempty l = true -> l <> [].
Proof. destruct l; [discriminate|congruence]. Qed.
Lemma nonempty_false (l : list V) : nonempty l = false -> l = [].
Proof. destruct l; [reflexivity|discriminate]. Qed.
Lemma rev_nil_inv {A} (l : list A) : rev l = [] -> l = [].
Proof. intros E. rewrite <- (rev_involutive l), E. reflexivity. Qed.

Lemma step_frame s t pc k s' pc' : bq_step bp s t pc k = Some (s', pc') ->
  (hpull pc = false -> pullE s' = pullE s /\ prioE s' = prioE s) /\ (hpush pc = false -> pushE s' = pushE s).
Proof.
  intros Es. destruct k as [|u| |]; cbn [bq_step] in Es; try discriminate.
  - destruct pc; cbn [bq_step0] in Es; cbn [hpull hpush]; unfold lock_push, lock_pull in Es; step_cases Es; auto; split; try discriminate; auto; intros; try discriminate.
  - destruct pc; try discriminate. step_cases Es; auto.
  - destruct pc; try discriminate. step_cases Es; auto.
Qed.

(** How a step changes a lock *)
Definition lock_change (L L' : option nat) (t : nat) (b b' : bool) : Prop :=
  (b' = b /\ L' = L) \/ (b = false /\ b' = true /\ L = None /\ L' = Some t) \/ (b = true /\ b' = false /\ L' = None).

Lemma lk_change L L' h (f : nat -> option (bqpc V)) t pc pc' : lk L h f -> f t = Some pc -> lock_change L L' t (h pc) (h pc') -> lk L' h (fupd t (Some pc') f).
Proof.
  intros Hl Et [[E ->]|[(E1 & E2 & -> & ->)|(E1 & E2 & ->)]].
  - eapply lk_keep; eassumption.
  - eapply lk_acq; eassumption.
  - eapply lk_rel; eassumption.
Qed.

Lemma step_locks s t pc k s' pc' : bq_step bp s t pc k = Some (s', pc') ->
  lock_change (pullL s) (pullL s') t (hpull pc) (hpull pc') /\ lock_change (pushL s) (pushL s') t (hpush pc) (hpush pc').
Proof.
  unfold lock_change. intros Es. destruct k as [|u| |]; cbn [bq_step] in Es; try discriminate.
  - destruct pc; cbn [bq_step0] in Es; unfold lock_push, lock_pull, cont, after, test in Es; step_cases Es; cbn; auto 10.
  - destruct pc; try discriminate. step_cases Es; auto.
  - destruct pc; try discriminate. step_cases Es; auto.
Qed.

Lemma step_okpc s t pc k s' pc' : bq_step bp s t pc k = Some (s', pc') -> okpc pc -> okpc pc'.
Proof.
  intros Es. destruct k as [|u| |]; cbn [bq_step] in Es; try discriminate.
  - destruct pc; cbn [bq_step0] in Es; unfold lock_push, lock_pull, cont, after, test in Es; step_cases Es; cbn; auto; unfold is_prio; try (destruct o; tauto).
  - destruct pc; try discriminate. step_cases Es; auto.
  - destruct pc; try discriminate. step_cases Es; auto.
Qed.

Lemma step_prio s t pc k s' pc' : bq_step bp s t pc k = Some (s', pc') -> okpc pc -> bp = false -> prioE s = [] -> prioE s' = [].
Proof.
  intros Es Ho Hb Hp. destruct k as [|u| |]; cbn [bq_step] in Es; try discriminate.
  - destruct pc; cbn [bq_step0] in Es; unfold lock_push, lock_pull in Es; step_cases Es; cbn; auto; try congruence; exfalso; destruct o; cbn in Ho; try contradiction; congruence.
  - destruct pc; try discriminate. step_cases Es; auto.
  - destruct pc; try discriminate. step_cases Es; auto.
Qed.

Lemma app_vals_ne l o : is_push o \/ is_prio o -> l ++ bvals o <> [].
Proof. intros Ho E. apply app_eq_nil in E as [_ E]. destruct o; destruct Ho as [Ho|Ho]; try contradiction; discriminate. Qed.

Lemma step_sinv s t pc k s' pc' : bq_step bp s t pc k = Some (s', pc') -> okpc pc -> (bp = false -> prioE s = []) -> sinv s pc -> sinv s' pc'.
Proof.
  intros Es Ho Hb Hs. destruct k as [|u| |]; cbn [bq_step] in Es; try discriminate.
  - destruct pc; cbn [bq_step0] in Es; unfold lock_push, lock_pull, cont, after, test in Es; step_cases Es; cbn [sinv noprio] in *; unfold noprio in *;
      cbn [pushE pullE prioE set_push set_pull set_prio set_flag set_wait unlock_push unlock_pull] in *;
      repeat match goal with H : nonempty _ = true |- _ => apply nonempty_true in H | H : nonempty _ = false |- _ => apply nonempty_false in H end;
      try tauto; try (apply app_vals_ne; tauto); try congruence; auto.
    + split; [tauto|]. intros E. apply rev_nil_inv in E. tauto.
    + destruct Hs as [_ Hs]. apply Hs, rev_nil_inv. assumption.
    + destruct Hs as [_ Hs]. apply Hs, rev_nil_inv. assumption.
  - destruct pc; try discriminate. step_cases Es; auto.
  - destruct pc; try discriminate. step_cases Es; auto.
Qed.

Lemma step_wait s t pc k s' pc' : bq_step bp s t pc k = Some (s', pc') -> (In t (bwait s) -> exists m, pc = W5 m) ->
  (forall u, In u (bwait s') -> u <> t -> In u (bwait s)) /\ (In t (bwait s') -> exists m, pc' = W5 m).
Proof.
  intros Es Hw. destruct k as [|u| |]; cbn [bq_step] in Es; try discriminate.
  - assert (Hd : (exists m, pc = W5 m) \/ ~ In t (bwait s)) by (destruct pc; eauto; right; intros Hi; destruct (Hw Hi); discriminate).
    destruct pc; cbn [bq_step0] in Es; unfold lock_push, lock_pull, cont, after, test in Es; step_cases Es; cbn; split; intros; try tauto; eauto;
      try (destruct Hd as [[? ?]|Hd]; [discriminate|contradiction]).
    all: try (destruct H; [congruence|assumption]). all: exfalso; apply inb_false in Heqb; contradiction.
  - destruct pc; try discriminate. step_cases Es. cbn. split; [intros u Hu _; apply rm_spec in Hu; tauto|eauto].
  - destruct pc; try discriminate. step_cases Es. cbn. split; [intros u Hu _; apply rm_spec in Hu; tauto|eauto].
Qed.

(** Nobody is using the queue. *)
Definition rest s : Prop := pushL s = None /\ pullL s = None /\ bwait s = [] /\ (bp = false -> prioE s = []).

Lemma bqI_init s : rest s -> bqI (init s).
Proof.
  intros (E1 & E2 & E3 & E4). split; cbn.
  - rewrite E1. apply lk_init.
  - rewrite E2. apply lk_init.
  - discriminate.
  - rewrite E3. intros t [].
  - exact E4.
Qed.

Lemma bqI_call c t o : bqI c -> has_op bp o -> th c t = None -> bqI (Cfg (sh c) (fupd t (Some (bq_start o)) (th c))).
Proof.
  intros [H1 H2 H3 H4 H5] Ho Et. split; cbn [sh th].
  - apply lk_call; [exact H1|exact Et|destruct o; reflexivity].
  - apply lk_call; [exact H2|exact Et|destruct o; reflexivity].
  - intros u pc Eu. unfold fupd in Eu. destruct (Nat.eqb_spec u t) as [->|]; [|eauto]. injection Eu as <-. destruct o; cbn in *; auto.
  - intros u Hu. destruct (H4 u Hu) as [m E]. exists m. rewrite fupd_other by congruence. exact E.
  - exact H5.
Qed.

Lemma bqI_ret c t pc r : bqI c -> th c t = Some pc -> bq_fin pc = Some r -> bqI (Cfg (sh c) (fupd t None (th c))).
Proof.
  intros [H1 H2 H3 H4 H5] Et Ef. destruct pc; try discriminate. split; cbn [sh th].
  - eapply lk_ret; [exact H1|exact Et|reflexivity].
  - eapply lk_ret; [exact H2|exact Et|reflexivity].
  - intros u pc Eu. unfold fupd in Eu. destruct (Nat.eqb_spec u t) as [->|]; [discriminate|eauto].
  - intros u Hu. destruct (H4 u Hu) as [m E]. exists m. rewrite fupd_other by congruence. exact E.
  - exact H5.
Qed.

Lemma bqI_int c t k pc s' pc' : bqI c -> th c t = Some pc -> bq_step bp (sh c) t pc k = Some (s', pc') -> bqI (Cfg s' (fupd t (Some pc') (th c))).
Proof.
  intros [H1 H2 H3 H4 H5] Et Es. destruct (step_locks _ _ _ _ _ _ Es) as [Hl1 Hl2]. destruct (H3 _ _ Et) as [Hs Ho].
  split; cbn [sh th].
  - eapply lk_change; eassumption.
  - eapply lk_change; eassumption.
  - intros u pc1 Eu. unfold fupd in Eu. destruct (Nat.eqb_spec u t) as [->|Hne].
    + injection Eu as <-. split; [eapply step_sinv; eassumption|eapply step_okpc; eassumption].
    + destruct (H3 _ _ Eu) as [Hs1 Ho1]. split; [|exact Ho1]. destruct (step_frame _ _ _ _ _ _ Es) as [F1 F2]. eapply sinv_frame; [exact Hs1|..].
      * intros Hh. apply F1. destruct (hpull pc) eqn:E; [|reflexivity]. exfalso. apply Hne.
        assert (pullL (sh c) = Some t) by (eapply lk_owner; eauto). assert (pullL (sh c) = Some u) by (eapply lk_owner; eauto). congruence.
      * intros Hh. apply F2. destruct (hpush pc) eqn:E; [|reflexivity]. exfalso. apply Hne.
        assert (pushL (sh c) = Some t) by (eapply lk_owner; eauto). assert (pushL (sh c) = Some u) by (eapply lk_owner; eauto). congruence.
  - intros u Hu. destruct (step_wait _ _ _ _ _ _ Es) as [W1 W2]; [intros Hi; destruct (H4 t Hi) as [m E]; exists m; congruence|]. unfold fupd. destruct (Nat.eqb_spec u t) as [->|Hne].
    + destruct (W2 Hu) as [m ->]. eauto.
    + apply H4, W1; assumption.
  - intros Hb. eapply step_prio; eauto.
Qed.

Lemma bqI_exec c x c' e : bqI c -> (forall o, snd x = ACall o -> has_op bp o) -> bq_exec bp c x = Some (c', e) -> bqI c'.
Proof. apply inv_exec; eauto using bqI_call, bqI_int, bqI_ret. Qed.
Lemma bqI_run xs c c' H : bqI c -> Forall (has_op bp) (calls xs) -> bq_run bp c xs = Some (c', H) -> bqI c'.
Proof. apply inv_run; eauto using bqI_call, bqI_int, bqI_ret. Qed.
End bq.

