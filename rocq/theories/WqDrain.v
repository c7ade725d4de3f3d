(** WorkQueue: once nobody brings new work, a worker that wakes up empties the queues *)
From stdpp Require Import list.
From Verif Require Import Base Conc CondVar Herlihy SqModel SqSpec SqProofs WqModel WqProofs WqCount WqMore WqBound WqLive WqSeq WqPrio WqOpen.
Local Open Scope nat_scope.

Section wq.
Variable nw : nat.
Notation wqcfg := (cfg wqsh wqpc).
Implicit Types (s : wqsh) (pc : wqpc) (c : wqcfg) (H : list (hev wqop wqret)).

(** ** With workers, addWorkBlock executes nothing itself *)
Definition direct pc : bool := match pc with XV _ | Crash _ | X1 _ (XAdd _) | X2 _ (XAdd _) => true | _ => false end.
Lemma direct_start o : 0 < nw -> direct (wq_start nw o) = false.
Proof. intros Hn. destruct o; try reflexivity. cbn [wq_start]. destruct (Nat.eqb_spec nw 0); [lia|reflexivity]. Qed.
Lemma direct_dummies r : direct (dummies r) = false.
Proof. destruct r; reflexivity. Qed.
Lemma direct_step s t pc k s' pc' : 0 < nw -> wq_step nw s t pc k = Some (s', pc') -> direct pc = false -> direct pc' = false.
Proof.
  intros Hn Es Hd. destruct pc.
  1: { destruct k; cbn [wq_step wq_step0] in Es; try discriminate. destruct (sq_fin p) as [r|] eqn:Ef.
    - destruct k0; wq_resume Es; try reflexivity; repeat match goal with
        | |- context [match ?g with GUser => _ | GWork _ => _ end] => is_var g; destruct g
        | |- context [if ?z then _ else _] => destruct z
        | |- context [nextq ?i] => destruct (nextq i)
        | |- context [match ?e with EUser => _ | EWork => _ end] => is_var e; destruct e
        | |- context [after_add ?a] => is_var a; destruct a
        end; try reflexivity; apply direct_dummies.
    - destruct (sq_step (qof i s) t p tt) as [[q' p']|]; [|discriminate]. inj Es. reflexivity. }
  all: destruct k; cbn [wq_step wq_step0] in Es; try discriminate; wq_cases Es; inj Es; cbn [direct] in Hd; try discriminate; try reflexivity;
    repeat match goal with
    | |- context [if Nat.eqb nw 0 then _ else _] => destruct (Nat.eqb_spec nw 0); [lia|]
    | |- context [match ?g with GUser => _ | GWork _ => _ end] => is_var g; destruct g
    | |- context [if ?z then _ else _] => destruct z
    | |- context [after_add ?a] => is_var a; destruct a
    | |- context [after_exec ?a] => is_var a; destruct a
    end; try reflexivity; try discriminate; try exact Hd; apply direct_dummies.
Qed.
Lemma direct_run f xs c H : 0 < nw -> wq_run nw (wq_init nw f) xs = Some (c, H) -> forall t pc, th c t = Some pc -> direct pc = false.
Proof.
  intros Hn Er. eapply (inv_run (wq_start nw) (wq_step nw) wq_fin (fun _ => True) (fun c => forall t pc, th c t = Some pc -> direct pc = false)); [..| |exact Er].
  - intros c0 t o I0 _ Et u pc. cbn. unfold fupd. destruct (Nat.eqb u t); [intros [= <-]; apply direct_start, Hn|apply I0].
  - intros c0 t k pc s' pc' I0 Et Es u pu. cbn. unfold fupd. destruct (Nat.eqb u t); [intros [= <-]; eapply direct_step; eauto|apply I0].
  - intros c0 t pc r I0 Et Ef u pu. cbn. unfold fupd. destruct (Nat.eqb u t); [discriminate|apply I0].
  - intros t pc. cbn [wq_init th]. destruct (Nat.ltb t nw); [intros [= <-]; reflexivity|discriminate].
  - apply Forall_forall. auto.
Qed.

(** ** Everybody asleep *)
Definition quiet c : Prop := (forall t, t < nw -> exists pc, th c t = Some pc /\ asleep (sh c) t pc) /\ (forall t, nw <= t -> th c t = None).

Lemma quiet_no_go c : quiet c -> ~ can_go nw c.
Proof.
  intros [Q1 Q2] (t & a & c' & e & Hn & Ha & Ex). destruct (le_lt_dec nw t) as [Hge|Hlt]; [apply Hn, Q2, Hge|].
  destruct (Q1 t Hlt) as (pc & Et & -> & Hw). unfold wq_exec in Ex. cbn in Ex. rewrite Et in Ex. destruct a as [o|k|]; try discriminate.
  destruct (Ha _ eq_refl). destruct k; cbn in Ex; try congruence. rewrite Hw in Ex. discriminate.
Qed.
Lemma no_go_quiet f xs c H : 0 < nw -> wq_run nw (wq_init nw f) xs = Some (c, H) -> halt (sh c) = false -> ~ can_go nw c -> quiet c.
Proof.
  intros Hn Er Hh Hg. pose proof (openI_run nw _ _ _ _ (openI_init nw f) Er) as Ho.
  assert (Hq : forall i, qproj sq0 i c) by (intros i; eapply qproj_run; [|exact Er]; intros j; apply qproj_init).
  assert (Hz : forall t pc, th c t = Some pc -> asleep (sh c) t pc).
  { intros t pc Et. assert (Hc : forall xs, pc <> Crash xs) by (intros xs0 ->; pose proof (direct_run _ _ _ _ Hn Er _ _ Et); discriminate).
    assert (Hd : pc = W4 \/ pc <> W4) by (destruct pc; try (right; discriminate); left; reflexivity).
    destruct (inb t (waits (sh c))) eqn:Ew; [destruct Hd as [Hd|Hd]; [split; assumption|]|];
      exfalso; apply Hg; refine (open_go nw c _ _ _ t pc Et Hc _); try assumption; intros [E1 E2]; congruence. }
  split.
  - intros t Ht. destruct (op_work _ _ Ho t Ht) as (pc & Et & _). eauto.
  - intros t Ht. destruct (th c t) as [pc|] eqn:Et; [|reflexivity]. destruct (Hz _ _ Et) as [-> _]. pose proof (op_user _ _ Ho Hh _ _ Ht Et). discriminate.
Qed.

(** ** Only workers are at work *)
Definition void s (i : lvl) : Prop := pullE (qof i s) = [] /\ pushE (qof i s) = [].
Lemma void_content s i : void s i <-> content i s = [].
Proof.
  unfold void, content, sq_content. split; [intros [-> ->]; reflexivity|]. intros E. apply app_eq_nil in E as [E1 E2]. split; [|exact E2].
  apply (f_equal (@rev _)) in E1. rewrite rev_involutive in E1. exact E1.
Qed.

Definition taking (o : sqop ptr) : Prop := o = QPop \/ o = QEmpty.
Lemma work_op i p k : shape (Sub i p k) -> workpc (Sub i p k) = true -> exists o, taking o /\ sqat o p.
Proof.
  intros (o & Hk & Ho) Hw. exists o. split; [|exact Ho]. destruct k; cbn in Hw, Hk; try discriminate; unfold taking; try (destruct e; [discriminate|]); naive_solver.
Qed.
Lemma take_step q t p q' p' o : sq_step q t p tt = Some (q', p') -> sqat o p -> taking o -> pullE q = [] -> pushE q = [] -> pullE q' = [] /\ pushE q' = [].
Proof.
  intros Es Ha Ho E1 E2. destruct p; cbn in Ha; try (destruct Ho; subst o; try discriminate; try contradiction; try (exfalso; exact (proj2 Ha)); fail);
    cbn [sq_step] in Es; unfold lock_push, lock_pull in Es; rewrite ?E1, ?E2 in Es; cbn in Es;
    repeat match type of Es with context [match ?x with Some _ => _ | None => _ end] => destruct x; try discriminate end;
    try discriminate; apply some_pair in Es as [-> ->]; cbn; rewrite ?E1, ?E2; auto.
Qed.

Lemma step_void s t pc k s' pc' i : wq_step nw s t pc k = Some (s', pc') -> shape pc -> workpc pc = true -> void s i -> void s' i.
Proof.
  intros Es Hs Hw [E1 E2]. destruct pc.
  1: { destruct k; cbn [wq_step wq_step0] in Es; try discriminate. destruct (sq_fin p) as [r|] eqn:Ef.
    - unfold void. rewrite (proj1 (resume_fresh nw _ _ _ _ _ _ _ Es) i). auto.
    - destruct (sq_step (qof i0 s) t p tt) as [[q' p']|] eqn:Eq; [|discriminate]. inj Es. destruct (work_op _ _ _ Hs Hw) as (o & Ho & Ha).
      unfold void. assert (Eo : qof i (log_drop (dropping (qof i0 s) p) (set_q i0 q' s)) = qof i (set_q i0 q' s)) by (destruct i; reflexivity). rewrite Eo, qof_set.
      destruct (lvl_eqb_spec i i0) as [->|]; [|auto]. eapply take_step; eauto. }
  all: unfold void; rewrite (proj1 (step_nosub nw _ _ _ _ _ _ Es (fun i => eq_refl)) i); auto.
Qed.

(** What a worker on its way to sleep knows *)
Definition known s w pc : Prop :=
  match pc with
  | Sub i p (KE EWork) =>
      match i with Hi => True | Med => void s Hi | Lo => void s Hi /\ void s Med end /\ (p = SqModel.Ret (QBool true) -> void s i)
  | W1 | W2 | W3 => forall i, void s i
  | W4 => inb w (waits s) = true -> forall i, void s i
  | _ => True
  end.
Lemma known_mono s s' w pc : (forall i, void s i -> void s' i) -> (inb w (waits s') = true -> inb w (waits s) = true) -> known s w pc -> known s' w pc.
Proof. intros Hm Hw. destruct pc; cbn; auto. destruct k; auto. destruct e; auto. destruct i; intros [H1 H2]; split; auto; destruct H1; auto. Qed.
Lemma step_waits s t pc k s' pc' w : wq_step nw s t pc k = Some (s', pc') -> w <> t -> inb w (waits s') = true -> inb w (waits s) = true.
Proof.
  intros Es Hne. destruct pc.
  1: { destruct k; cbn [wq_step wq_step0] in Es; try discriminate. destruct (sq_fin p) as [r|] eqn:Ef.
    - destruct k0; wq_resume Es; auto.
    - destruct (sq_step (qof i s) t p tt) as [[q' p']|]; [|discriminate]. inj Es. destruct i; auto. }
  all: destruct k; cbn [wq_step wq_step0] in Es; try discriminate; wq_cases Es; inj Es; auto; cbn [waits set_waits set_lock]; auto; try discriminate.
  all: intros E; apply inb_spec; apply inb_spec in E; try (apply rm_spec in E; tauto).
  - cbn in Heqo. destruct (waits s); [injection Heqo as <-; exact E|discriminate].
  - cbn in Heqo. destruct (inb _ _); [injection Heqo as <-; apply rm_spec in E; tauto|discriminate].
  - destruct E as [E|E]; [congruence|exact E].
Qed.
Lemma known_loop s w : known s w loop.
Proof. split; [exact I|discriminate]. Qed.

(** The flag of a queue nobody pushes to *)
Lemma flag_void c i : qproj sq0 i c -> shaped c -> (forall t pc, th c t = Some pc -> workpc pc = true) -> eflag (qof i (sh c)) = true -> void (sh c) i.
Proof.
  intros Hq Hs Hw Ef. destruct (qR i c Hq) as [q HR]. destruct (empty_flag _ _ HR Ef) as [E|(u & p & Eu & Hb)]; [apply void_content, E|exfalso].
  cbn in Eu. unfold vq in Eu. destruct (th c u) as [pc|] eqn:Et; [|discriminate]. destruct pc as [j p0 k| | | | | | | | | | | | | | | | | | | | | | | | | | | | | | | | |]; try discriminate.
  destruct (lvl_eqb i j); [|discriminate]. injection Eu as ->. destruct (work_op _ _ _ (Hs _ _ Et) (Hw _ _ Et)) as (o & Ho & Ha).
  destruct p; try discriminate Hb; cbn in Ha; destruct Ho; subst o; try discriminate; try contradiction; exact (proj2 Ha).
Qed.

Record drainI (w : nat) c : Prop := {
  dr_work : forall t pc, th c t = Some pc -> workpc pc = true;
  dr_halt : halt (sh c) = false;
  dr_shape : shaped c;
  dr_q : forall i, qproj sq0 i c;
  dr_known : forall pc, th c w = Some pc -> known (sh c) w pc;
}.

Lemma known_step c t pc k s' pc' : wq_step nw (sh c) t pc k = Some (s', pc') -> th c t = Some pc -> (forall i, qproj sq0 i c) -> shaped c ->
  (forall t pc, th c t = Some pc -> workpc pc = true) -> halt (sh c) = false -> known (sh c) t pc -> known s' t pc'.
Proof.
  intros Es Et Hq Hs Hw Hh Hk. pose proof (Hw _ _ Et) as Hwp. assert (Hv : forall i, void (sh c) i -> void s' i) by (intros i; eapply step_void; eauto). destruct pc; try discriminate.
  1: { destruct k; cbn [wq_step wq_step0] in Es; try discriminate. destruct (sq_fin p) as [r|] eqn:Ef.
    - assert (Ep : p = SqModel.Ret r) by (destruct p; try discriminate; injection Ef as ->; reflexivity). subst p.
      destruct k0; wq_resume Es; try exact I; try discriminate.
      + destruct e; [discriminate|]. cbn in Hk. destruct Hk as [K1 K2]. destruct bb; [|exact I]. specialize (K2 eq_refl).
        destruct i; cbn; splits; auto; try discriminate; try tauto. intros []; tauto.
      + destruct g; exact I.
      + destruct bb; exact I.
      + destruct g; exact I.
      + destruct g; exact I.
    - destruct (sq_step (qof i (sh c)) t p tt) as [[q' p']|] eqn:Eq; [|discriminate]. inj Es. destruct k0; try exact I. destruct e; [exact I|].
      eapply known_mono in Hk; [|exact Hv|]; [|intros E; rewrite <- E; destruct i; reflexivity]. destruct Hk as [K1 K2]. split; [exact K1|]. intros ->. apply Hv.
      destruct (Hs _ _ Et) as (o & Ho & Ha). cbn in Ho. subst o. destruct p; cbn in Ha; try discriminate; try contradiction; try (exfalso; exact (proj2 Ha)).
      cbn in Eq. injection Eq as _ Eb. eapply flag_void; eauto. }
  all: destruct k; cbn [wq_step wq_step0] in Es; try discriminate; wq_cases Es; inj Es; try exact I; try apply known_loop.
  all: repeat match goal with
    | |- context [match ?g with GUser => _ | GWork _ => _ end] => is_var g; destruct g
    | Hz : halt ?z = false |- context [if halt ?z then _ else _] => rewrite Hz
    | |- context [if ?z then _ else _] => destruct z
    | |- context [after_exec ?a] => is_var a; destruct a
    end; try exact I; try apply known_loop; try discriminate.
  all: cbn in Hk |- *; auto.
Qed.

Lemma drainI_exec w c x c' e : drainI w c -> (forall o, snd x <> ACall o) -> wq_exec nw c x = Some (c', e) -> drainI w c'.
Proof.
  intros [D1 D2 D3 D4 D5] Hx Ex. assert (D3' : shaped c') by (eapply shaped_exec; eassumption).
  assert (D4' : forall i, qproj sq0 i c'). { intros i. apply (qproj_run nw sq0 [x] c c' e D4). unfold wq_run, wq_exec in *. cbn [run]. rewrite Ex, app_nil_r. reflexivity. }
  destruct x as [t [o|k|]]; unfold wq_exec in Ex; cbn in Ex; [destruct (Hx o eq_refl)| |]; (destruct (th c t) as [pc|] eqn:Et; [|discriminate]).
  - destruct (wq_step nw (sh c) t pc k) as [[s' pc']|] eqn:Es; [|discriminate]. injection Ex as <- <-. pose proof (D1 _ _ Et) as Hw.
    pose proof (step_live nw _ _ _ _ _ _ Es (D3 _ _ Et)) as Hst. constructor; auto; cbn [sh th].
    + intros u pu. unfold fupd. destruct (Nat.eqb u t); [intros [= <-]; apply Hst, Hw|apply D1].
    + destruct (halt s') eqn:E; [|reflexivity]. destruct (sl_set _ _ _ _ _ _ Hst E) as [E'|[-> _]]; [congruence|discriminate].
    + intros pu. unfold fupd. destruct (Nat.eqb_spec w t) as [->|Hne]; [intros [= <-]; eapply known_step; eauto|].
      intros Ew. eapply known_mono; [intros i; eapply step_void; eauto|eapply step_waits; eauto|apply D5, Ew].
  - destruct (wq_fin pc) as [r|] eqn:Ef; [|discriminate]. destruct pc; try discriminate. pose proof (D1 _ _ Et). discriminate.
Qed.
Lemma drainI_run w xs : forall c c' H, drainI w c -> calls xs = [] -> wq_run nw c xs = Some (c', H) -> drainI w c'.
Proof.
  induction xs as [|x xs IH]; intros c c' H Hc Hx; unfold wq_run; cbn [run]; [intros [= <- <-]; exact Hc|].
  destruct (exec _ _ _ c x) as [[c1 e]|] eqn:Ex; [|discriminate]. destruct (run _ _ _ c1 xs) as [[c2 H2]|] eqn:Er; [|discriminate]. intros [= <- <-].
  eapply IH; [|destruct x as [u []]; cbn in Hx; try discriminate; exact Hx|exact Er]. eapply drainI_exec; [exact Hc| |exact Ex].
  intros o E. destruct x as [u a]. cbn in E. subst a. discriminate.
Qed.

(** ** Workers run what they are handed *)
Definition onit (b : nat) pc : Prop := pc = X0 (Some (BWork b)) \/ pc = X1 b XWork \/ pc = X2 b XWork.
Lemma step_handed s t pc k s' pc' : wq_step nw s t pc k = Some (s', pc') ->
  got s' = got s \/ exists x, got s' = got s ++ [(t, x)] /\ (workpc pc = true -> pc' = X0 x).
Proof.
  intros Es. destruct pc.
  1: { destruct k; cbn [wq_step wq_step0] in Es; try discriminate. destruct (sq_fin p) as [r|] eqn:Ef.
    - destruct k0; wq_resume Es; auto; try (right; eexists; split; [reflexivity|]; cbn; destruct g; [discriminate|reflexivity]).
    - destruct (sq_step (qof i s) t p tt) as [[q' p']|]; [|discriminate]. inj Es. left. destruct i; reflexivity. }
  all: destruct k; cbn [wq_step wq_step0] in Es; try discriminate; wq_cases Es; inj Es; auto.
  all: right; eexists; split; [reflexivity|]; cbn; intros Hw; try discriminate.
  all: try (match goal with |- context [match ?g with GUser => _ | GWork _ => _ end] => destruct g end; [discriminate|reflexivity]).
Qed.
Lemma step_onit s t pc k s' pc' b : wq_step nw s t pc k = Some (s', pc') -> onit b pc -> bfin s' b = true \/ onit b pc'.
Proof.
  unfold onit. intros Es [-> | [-> | ->]]; destruct k; cbn [wq_step wq_step0] in Es; try discriminate.
  - inj Es. destruct (bfin s b) eqn:E; auto.
  - destruct (bfin s b) eqn:E; inj Es; auto.
  - inj Es. left. cbn. apply fupd_same.
Qed.

Definition gotI c : Prop := forall t b, In (t, Some (BWork b)) (got (sh c)) -> t < nw -> bfin (sh c) b = true \/ exists pc, th c t = Some pc /\ onit b pc.
Lemma gotI_exec c x c' e : openI nw c -> gotI c -> wq_exec nw c x = Some (c', e) -> gotI c'.
Proof.
  intros Ho Hg Ex. destruct x as [t [o|k|]]; unfold wq_exec in Ex; cbn in Ex; (destruct (th c t) as [pc|] eqn:Et; [|]); try discriminate.
  - injection Ex as <- <-. intros u b Hx Hu. destruct (Hg u b Hx Hu) as [|(pu & E1 & E2)]; [auto|right]. exists pu. cbn. rewrite fupd_other; [auto|congruence].
  - destruct (wq_step nw (sh c) t pc k) as [[s' pc']|] eqn:Es; [|discriminate]. injection Ex as <- <-. intros u b Hx Hu. cbn [sh th] in *.
    assert (Hold : In (u, Some (BWork b)) (got (sh c)) -> bfin s' b = true \/ exists pu, fupd t (Some pc') (th c) u = Some pu /\ onit b pu).
    { intros Hx'. destruct (Hg u b Hx' Hu) as [E|(pu & E1 & E2)]; [left; apply (proj1 (proj2 (step_data nw _ _ _ _ _ _ Es))), E|].
      destruct (Nat.eq_dec u t) as [->|Hne].
      - rewrite Et in E1. injection E1 as <-. destruct (step_onit _ _ _ _ _ _ _ Es E2) as [|E3]; [auto|right]. exists pc'. rewrite fupd_same. auto.
      - right. exists pu. rewrite fupd_other by exact Hne. auto. }
    destruct (step_handed _ _ _ _ _ _ Es) as [E|(x & E & Ew)]; rewrite E in Hx; [auto|]. apply in_app_or in Hx as [Hx|[Hx|[]]]; [auto|]. injection Hx as -> ->.
    right. exists pc'. rewrite fupd_same. split; [reflexivity|]. left. apply Ew. destruct (op_work _ _ Ho u Hu) as (pu & E1 & E2). congruence.
  - destruct (wq_fin pc) as [r|] eqn:Ef; [|discriminate]. injection Ex as <- <-. destruct pc; try discriminate. intros u b Hx Hu. cbn [sh th] in *.
    destruct (Hg u b Hx Hu) as [|(pu & E1 & E2)]; [auto|right]. exists pu. rewrite fupd_other; [auto|]. intros ->. rewrite Et in E1. injection E1 as <-. destruct E2 as [|[|]]; discriminate.
Qed.
Lemma gotI_run f xs c H : wq_run nw (wq_init nw f) xs = Some (c, H) -> gotI c.
Proof.
  intros Er. enough (Hx : forall ys c0 c1 H1, openI nw c0 -> gotI c0 -> wq_run nw c0 ys = Some (c1, H1) -> gotI c1).
  { eapply Hx; [apply openI_init| |exact Er]. intros t b []. }
  clear. induction ys as [|x xs IH]; intros c c' H Ho Hc; unfold wq_run; cbn [run]; [intros [= <- <-]; exact Hc|].
  destruct (exec _ _ _ c x) as [[c1 e]|] eqn:Ex; [|discriminate]. destruct (run _ _ _ c1 xs) as [[c2 H2]|] eqn:Er; [|discriminate]. intros [= <- <-].
  eapply IH; [eapply openI_exec; eassumption|eapply gotI_exec; eassumption|exact Er].
Qed.
End wq.
