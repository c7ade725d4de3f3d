(** BlockingQueue and BlockingPriorityQueue: calls made by the destructors of elements that clear() destroys and by the callback of
    popOrCall *)
From stdpp Require Import list.
From Verif Require Import Base Conc CondVar BqModel BqSpec BqInv BqMore NestModel.
Local Open Scope nat_scope.

Section bq.
Context {V : Type}.
Variable bp : bool.
Notation bqcfg := (cfg (bqsh V) (bqpc V)).
Implicit Types (s : bqsh V) (pc : bqpc V) (c : bqcfg) (o : bqop V).
Notation ncfg := (ncfg (Sh := bqsh V) (Pc := bqpc V)).
Notation nact := (nact (Ch := cvc) (Op := bqop V)).

(** clear(): lines q 94-95 and p 55-59, with the elements destroyed there; the callback runs at CB (q 283, p 356). *)
Definition bq_runs s pc : bool :=
  match pc with L2 => nonempty (pullE s) | L3 => nonempty (pushE s) | LP => nonempty (prioE s) | CB => true | _ => false end.
Definition bq_clears pc : bool := match pc with L2 | L3 | LP => true | _ => false end.
Definition bq_inside pc : bool := match pc with L2 | L3 | LP | CB => true | _ => false end.
Definition bq_light pc : bool := match pc with E0 | Ret _ => true | _ => false end.

Definition bq_nexec : ncfg -> nat * nact -> option (ncfg * list (hev (bqop V) (bqret V))) := nexec bq_start (bq_step bp) bq_fin bq_runs.
Definition bq_nrun : ncfg -> list (nat * nact) -> option (ncfg * list (hev (bqop V) (bqret V))) := nrun bq_start (bq_step bp) bq_fin bq_runs.

(** The destructors call nothing but empty(); callbacks call what they like. *)
Fixpoint bq_calm (N : ncfg) (zs : list (nat * nact)) : Prop :=
  match zs with
  | [] => True
  | x :: zs' => (forall u o p l pc, snd x = NCall u o -> stk N (fst x) = p :: l -> th (fl N) p = Some pc -> pc <> CB -> o = BEmpty) /\
      forall N1 e, bq_nexec N x = Some (N1, e) -> bq_calm N1 zs'
  end.

(** A test for it *)
Fixpoint calm_b (N : ncfg) (zs : list (nat * nact)) : bool :=
  match zs with
  | [] => true
  | x :: zs' => match snd x, stk N (fst x) with
                | NCall _ BEmpty, _ | NInt _, _ | NRet, _ | _, [] => true
                | _, p :: _ => match th (fl N) p with Some CB => true | _ => false end
                end &&
      match bq_nexec N x with Some (N1, _) => calm_b N1 zs' | None => true end
  end.
Lemma calm_b_ok zs : forall N, calm_b N zs = true -> bq_calm N zs.
Proof.
  induction zs as [|x zs IH]; intros N; cbn [calm_b bq_calm]; [auto|]. rewrite andb_true_iff. intros [H1 H2]. split.
  - intros u o p l pc E Es Ep Hcb. rewrite E, Es, Ep in H1. destruct o; try reflexivity; destruct pc; try discriminate; congruence.
  - intros N1 e E. rewrite E in H2. apply IH, H2.
Qed.

Lemma bqI_nrun s zs N H : rest bp s -> Forall (has_op bp) (ncalls zs) -> bq_nrun (ninit s) zs = Some (N, H) -> bqI bp (fl N).
Proof. intros Hr Hok E. destruct (nrun_flat _ _ _ _ _ _ _ _ E) as (xs & Ex & Ec). eapply bqI_run; [apply bqI_init, Hr|rewrite Ec; exact Hok|exact Ex]. Qed.

Lemma light_go s t pc : bq_light pc = true -> bq_fin pc <> None \/ exists k, k = CStep /\ bq_step bp s t pc k <> None.
Proof. destruct pc; try discriminate; intros _; [right; exists CStep; split; [reflexivity|]|left]; cbn; discriminate. Qed.
Lemma light_step s t pc k s' pc' : bq_step bp s t pc k = Some (s', pc') -> bq_light pc = true -> bq_light pc' = true.
Proof. destruct pc; try discriminate; destruct k; try discriminate. cbn. intros [= <- <-] _. reflexivity. Qed.
Lemma calm_tame zs : forall N, bq_calm N zs -> tame bq_start (bq_step bp) bq_fin bq_runs bq_clears bq_light N zs.
Proof.
  induction zs as [|x zs IH]; intros N; cbn [bq_calm tame]; [auto|]. intros [H1 H2]. split; [|intros N1 e E; apply IH, (H2 _ _ E)].
  unfold tame_act. destruct x as [t [u o|k|]]; cbn [fst snd] in *; auto. destruct (stk N t) as [|p l] eqn:Es; [exact I|]. intros pc Ep Hl. rewrite (H1 u o p l pc eq_refl); [reflexivity|first [exact Es|reflexivity]|exact Ep|]. intros ->. discriminate.
Qed.

Lemma bq_nest_live s zs N H t u l : rest bp s -> Forall (has_op bp) (ncalls zs) -> bq_calm (ninit s) zs -> bq_nrun (ninit s) zs = Some (N, H) ->
  stk N t = u :: l -> ~ bq_waits (fl N) u -> goes bq_start (bq_step bp) bq_fin bq_runs (fun k => k = CStep) N.
Proof.
  intros Hr Hok Hc E Es Hw. pose proof (bqI_nrun _ _ _ _ Hr Hok E) as Hi.
  assert (Hs : stkI N) by (eapply stk_run; [apply stk0|exact E]).
  assert (Hcal : calI bq_inside bq_clears bq_light N).
  { eapply (cal_run bq_start (bq_step bp) bq_fin bq_runs bq_inside bq_clears bq_light); [|apply light_step|apply stk0|apply cal0|apply calm_tame, Hc|exact E]. intros s0 pc. destruct pc; cbn; auto. }
  assert (Hgo : forall v pc, th (fl N) v = Some pc -> (exists x, bq_step0 bp (sh (fl N)) v pc = Some x) -> flat_goes bq_start (bq_step bp) bq_fin (fun k => k = CStep) (fl N) v).
  { intros v pc Ev [[s' pc'] Ex]. exists (AInt CStep). split; [eauto|]. cbn. rewrite Ev. cbn [bq_step]. rewrite Ex. discriminate. }
  assert (Hany : forall v pc, th (fl N) v = Some pc -> (pc <> CB) -> flat_goes bq_start (bq_step bp) bq_fin (fun k => k = CStep) (fl N) v -> goes bq_start (bq_step bp) bq_fin bq_runs (fun k => k = CStep) N).
  { intros v pc Ev Hcb Hg. eapply (any_goes bq_start (bq_step bp) bq_fin bq_runs bq_inside bq_clears bq_light); [|apply light_go|exact Hs|exact Hcal|exact Ev| |exact Hg]; [intros pc0; destruct pc0; cbn; auto; discriminate|destruct pc; cbn; auto; congruence]. }
  destruct (pushL (sh (fl N))) as [v|] eqn:E1.
  { destruct (proj1 (i_push _ _ Hi v) E1) as (pc & Ev & Hh). eapply Hany; [exact Ev|intros ->; discriminate|]. eapply Hgo; [exact Ev|]. apply push_holder_steps; [apply (i_pc _ _ Hi _ _ Ev)|exact Hh]. }
  destruct (pullL (sh (fl N))) as [v|] eqn:E2.
  { destruct (proj1 (i_pull _ _ Hi v) E2) as (pc & Ev & Hh). eapply Hany; [exact Ev|intros ->; discriminate|]. eapply Hgo; [exact Ev|]. apply pull_holder_steps; [apply (i_pc _ _ Hi _ _ Ev)|exact Hh|exact E1]. }
  destruct (th (fl N) u) as [pc|] eqn:Eu; [|exfalso; apply (proj2 (s_in _ Hs u)); [exists t; rewrite Es; left|exact Eu]].
  eapply top_goes; [exact Es|].
  assert (Hret : (exists r, pc = Ret r) \/ forall r, pc <> Ret r) by (destruct pc; (left; eexists; reflexivity) || (right; intros ?; discriminate)).
  destruct Hret as [[r ->]|Hret]; [exists ARet; split; [auto|]; cbn; rewrite Eu; discriminate|].
  eapply Hgo; [exact Eu|]. apply free_steps; auto; [apply (i_pc _ _ Hi _ _ Eu)|]. intros m -> Hin. apply Hw. exists m. auto.
Qed.

(** ** Other calls wait for ever *)
Definition bq_first pc : Prop := match pc with P0 _ | R0 _ | R1 _ | R5 _ | O0 _ | K0 | S0 | L0 | V0 _ => True | _ => False end.
Lemma first_start o : o <> BEmpty -> bq_first (bq_start o).
Proof. destruct o; cbn; auto. Qed.
Lemma first_step p pc0 c u pc k s' pc' : bq_clears pc0 = true -> bqI bp c -> th c p = Some pc0 -> th c u = Some pc -> bq_first pc -> bq_step bp (sh c) u pc k = Some (s', pc') -> bq_first pc'.
Proof.
  intros Hin Hi Ep _ Hf Es. assert (E1 : pushL (sh c) = Some p) by (apply (i_push _ _ Hi p); exists pc0; split; [exact Ep|destruct pc0; try discriminate; reflexivity]).
  assert (E2 : pullL (sh c) = Some p) by (apply (i_pull _ _ Hi p); exists pc0; split; [exact Ep|destruct pc0; try discriminate; reflexivity]).
  destruct pc; try (destruct Hf); destruct k; try discriminate; cbn [bq_step bq_step0] in Es; unfold lock_push, lock_pull in Es; rewrite ?E1, ?E2 in Es; try discriminate.
  destruct (eflag (sh c)); injection Es as <- <-; exact I.
Qed.

Lemma bq_nest_stuck s zs N H t p pc0 l u o N1 e : rest bp s -> Forall (has_op bp) (ncalls zs) -> bq_nrun (ninit s) zs = Some (N, H) ->
  stk N t = p :: l -> th (fl N) p = Some pc0 -> bq_clears pc0 = true -> has_op bp o -> bq_nexec N (t, NCall u o) = Some (N1, e) -> o <> BEmpty ->
  forall zs' N' H', Forall (has_op bp) (ncalls zs') -> bq_nrun N1 zs' = Some (N', H') ->
    stk N' t = u :: p :: l /\ (forall v r, v ∈ u :: p :: l -> ~ In (HRet v r) H') /\
    forall t1 u1 o1 N2 e1, has_op bp o1 -> bq_nexec N' (t1, NCall u1 o1) = Some (N2, e1) -> o1 <> BEmpty ->
      forall zs2 N3 H3, Forall (has_op bp) (ncalls zs2) -> bq_nrun N2 zs2 = Some (N3, H3) -> stk N3 t1 = u1 :: stk N' t1 /\ forall v r, v ∈ u1 :: stk N' t1 -> ~ In (HRet v r) H3.
Proof.
  intros Hr Hok E Es Ep Hin Hop Ec Ho zs' N' H' Hok' E'. assert (Hs : stkI N) by (eapply stk_run; [apply stk0|exact E]). pose proof (bqI_nrun _ _ _ _ Hr Hok E) as Hi.
  assert (Hfin : forall pc, bq_first pc -> bq_fin pc = None) by (intros pc; destruct pc; intros []; reflexivity).
  assert (Hruns : forall s1 pc, bq_first pc -> bq_runs s1 pc = false) by (intros s1 pc; destruct pc; intros []; reflexivity).
  assert (Hcall : forall N0 t0 u0 o0 Nx ex, stkI N0 -> bqI bp (fl N0) -> th (fl N0) p = Some pc0 -> has_op bp o0 -> bq_nexec N0 (t0, NCall u0 o0) = Some (Nx, ex) -> o0 <> BEmpty ->
    stkI Nx /\ bqI bp (fl Nx) /\ at_Z bq_first Nx t0 /\ stk Nx t0 = u0 :: stk N0 t0 /\ th (fl Nx) p = Some pc0 /\ (forall t', t' <> t0 -> stk Nx t' = stk N0 t') /\ th (fl N0) u0 = None /\ forall v, v <> u0 -> th (fl Nx) v = th (fl N0) v).
  { intros N0 t0 u0 o0 Nx ex Hs0 Hi0 Ep0 Hop0 Ex Ho0. pose proof Ex as Ex'. apply nexec_cases in Ex' as (_ & Eu & Ef & Est & _). split; [eapply stk_exec; eassumption|].
    split; [rewrite Ef; apply bqI_call; assumption|].
    assert (Et0 : stk Nx t0 = u0 :: stk N0 t0) by (rewrite Est, fupd_same; reflexivity).
    split; [exists u0, (stk N0 t0), (bq_start o0); split; [exact Et0|]; split; [rewrite Ef; cbn; rewrite fupd_same; reflexivity|apply first_start, Ho0]|].
    split; [exact Et0|]. split; [rewrite Ef; cbn; rewrite fupd_other by congruence; exact Ep0|]. split; [intros t' Hne; rewrite Est, fupd_other by exact Hne; reflexivity|]. split; [exact Eu|]. intros v Hv. rewrite Ef. cbn. rewrite fupd_other by exact Hv. reflexivity. }
  destruct (Hcall _ _ _ _ _ _ Hs Hi Ep Hop Ec Ho) as (Hs1 & Hi1 & Hz1 & Et1 & Ep1 & _). rewrite Es in Et1.
  assert (Hb1 : below p pc0 bq_first N1 t) by (split; [exact Ep1|]; split; [exact Hz1|rewrite Et1; cbn; left]).
  destruct (dead_run bq_start (bq_step bp) bq_fin bq_runs (has_op bp) (bqI bp) (bqI_exec bp) p pc0 bq_first (fun c u pc k s' pc' => first_step p pc0 c u pc k s' pc' Hin) Hfin Hruns
    zs' N1 N' H' t Hs1 Hi1 Hb1 Hok' E') as (Hb' & Hi' & Hz'). destruct (Hz' t Hz1) as (_ & Est & Hret). rewrite Et1 in Est, Hret.
  split; [exact Est|]. split; [intros v r Hv; apply Hret, Hv|]. intros t1 u1 o1 N2 e1 Hop1 Ec1 Ho1 zs2 N3 H3 Hok3 E3.
  assert (Hs' : stkI N') by (eapply stk_run; [exact Hs1|exact E']).
  destruct (Hcall _ _ _ _ _ _ Hs' Hi' (proj1 Hb') Hop1 Ec1 Ho1) as (Hs2 & Hi2 & Hz2 & Et2 & Ep2 & Hoth & Eu1 & Hth).
  assert (Hb2 : below p pc0 bq_first N2 t).
  { destruct Hb' as (Ep' & (q0 & l0 & pz & F1 & F2 & F3) & Hpt). split; [exact Ep2|]. destruct (decide (t = t1)) as [<-|Hne].
    - exfalso. apply nexec_cases in Ec1 as (Hm & _). unfold may_call in Hm. rewrite F1, F2, (Hruns _ _ F3) in Hm. discriminate.
    - unfold at_Z. rewrite (Hoth t Hne). split; [|exact Hpt]. exists q0, l0, pz. split; [exact F1|]. split; [|exact F3]. rewrite Hth; [exact F2|congruence]. }
  destruct (dead_run bq_start (bq_step bp) bq_fin bq_runs (has_op bp) (bqI bp) (bqI_exec bp) p pc0 bq_first (fun c u pc k s' pc' => first_step p pc0 c u pc k s' pc' Hin) Hfin Hruns
    zs2 N2 N3 H3 t Hs2 Hi2 Hb2 Hok3 E3) as (_ & _ & Hz3). destruct (Hz3 t1 Hz2) as (_ & Est3 & Hret3). rewrite Et2 in Est3, Hret3. split; [exact Est3|]. intros v r Hv. apply Hret3, Hv.
Qed.
End bq.
