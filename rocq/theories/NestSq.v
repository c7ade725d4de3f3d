(** SimpleQueue: calls made by the destructors of elements that clear() destroys *)
From stdpp Require Import list.
From Verif Require Import Base Conc SqModel SqSpec SqProofs NestModel.
Local Open Scope nat_scope.

Section sq.
Context {V : Type}.
Notation sqcfg := (cfg (sqsh V) (sqpc V)).
Implicit Types (s : sqsh V) (pc : sqpc V) (q : list V) (c : sqcfg) (o : sqop V).
Notation ncfg := (ncfg (Sh := sqsh V) (Pc := sqpc V)).
Notation nact := (nact (Ch := unit) (Op := sqop V)).

(** The destructors clear() runs: line 100 with the elements of pullElements, line 101 with those of pushElements *)
Definition sq_runs s pc : bool := match pc with L2 => nonempty (pullE s) | L3 => nonempty (pushE s) | _ => false end.
Definition sq_inside pc : bool := match pc with L2 | L3 => true | _ => false end.
(** empty() takes no lock. *)
Definition sq_light pc : bool := match pc with E0 | Ret _ => true | _ => false end.

Definition sq_nexec : ncfg -> nat * nact -> option (ncfg * list (hev (sqop V) (sqret V))) := nexec sq_start sq_step sq_fin sq_runs.
Definition sq_nrun : ncfg -> list (nat * nact) -> option (ncfg * list (hev (sqop V) (sqret V))) := nrun sq_start sq_step sq_fin sq_runs.

(** The destructors call nothing but empty(). *)
Fixpoint sq_calm (N : ncfg) (zs : list (nat * nact)) : Prop :=
  match zs with
  | [] => True
  | x :: zs' => (forall u o, snd x = NCall u o -> stk N (fst x) <> [] -> o = QEmpty) /\ forall N1 e, sq_nexec N x = Some (N1, e) -> sq_calm N1 zs'
  end.

(** A test for it *)
Fixpoint calm_b (N : ncfg) (zs : list (nat * nact)) : bool :=
  match zs with
  | [] => true
  | x :: zs' => match snd x, stk N (fst x) with NCall _ QEmpty, _ | NInt _, _ | NRet, _ | _, [] => true | _, _ => false end &&
      match sq_nexec N x with Some (N1, _) => calm_b N1 zs' | None => true end
  end.
Lemma calm_b_ok zs : forall N, calm_b N zs = true -> sq_calm N zs.
Proof.
  induction zs as [|x zs IH]; intros N; cbn [calm_b sq_calm]; [auto|]. rewrite andb_true_iff. intros [H1 H2]. split.
  - intros u o E Hne. rewrite E in H1. destruct (stk N (fst x)); [congruence|]. destruct o; try discriminate. reflexivity.
  - intros N1 e E. rewrite E in H2. apply IH, H2.
Qed.

Definition okI c : Prop := exists q, sqR false c q.
Lemma okI_exec c x c' e : okI c -> (forall o, snd x = ACall o -> True) -> exec sq_start sq_step sq_fin c x = Some (c', e) -> okI c'.
Proof.
  intros [q Hr] _ E. destruct x as [t [o|k|]]; cbn in E; destruct (th c t) as [pc|] eqn:Et; try discriminate.
  - injection E as <- _. exists q. apply (sqR_call false c q t o Hr); [discriminate|exact Et].
  - destruct (sq_step (sh c) t pc k) as [[s' pc']|] eqn:Es; [|discriminate]. injection E as <- _. destruct (sqR_int false c q t k pc s' pc' Hr Et Es) as (q' & Hr' & _). exists q'. exact Hr'.
  - destruct (sq_fin pc) as [r|] eqn:Ef; [|discriminate]. injection E as <- _. exists q. apply (sqR_ret false c q t pc r Hr Et Ef).
Qed.
Lemma okI_run xs : forall c c' H, okI c -> run sq_start sq_step sq_fin c xs = Some (c', H) -> okI c'.
Proof.
  induction xs as [|x xs IH]; intros c c' H Hi E; cbn [run] in E; [injection E as <- <-; exact Hi|].
  destruct (exec sq_start sq_step sq_fin c x) as [[c1 e]|] eqn:Ex; [|discriminate]. destruct (run sq_start sq_step sq_fin c1 xs) as [[c2 H2]|] eqn:Er; [|discriminate]. injection E as <- <-. eapply IH; [|exact Er]. eapply okI_exec; eauto.
Qed.
Lemma okI_nrun s zs N H : rest false s -> sq_nrun (ninit s) zs = Some (N, H) -> okI (fl N).
Proof. intros Hr E. destruct (nrun_flat _ _ _ _ _ _ _ _ E) as (xs & Ex & _). eapply okI_run; [|exact Ex]. eexists. apply rest_R, Hr. Qed.

Lemma light_go s t pc : sq_light pc = true -> sq_fin pc <> None \/ exists k, True /\ sq_step s t pc k <> None.
Proof. destruct pc; try discriminate; intros _; [right; exists tt; split; [exact I|]|left]; cbn; discriminate. Qed.
Lemma light_step s t pc k s' pc' : sq_step s t pc k = Some (s', pc') -> sq_light pc = true -> sq_light pc' = true.
Proof. destruct pc; try discriminate. cbn. intros [= <- <-] _. reflexivity. Qed.
Lemma calm_tame zs : forall N, sq_calm N zs -> tame sq_start sq_step sq_fin sq_runs sq_inside sq_light N zs.
Proof.
  induction zs as [|x zs IH]; intros N; cbn [sq_calm tame]; [auto|]. intros [H1 H2]. split; [|intros N1 e E; apply IH, (H2 _ _ E)].
  unfold tame_act. destruct x as [t [u o|k|]]; cbn [fst snd] in *; auto. destruct (stk N t) as [|p l] eqn:Es; [exact I|]. intros pc _ _. rewrite (H1 u o eq_refl); [reflexivity|first [discriminate|rewrite Es; discriminate|congruence]].
Qed.

Lemma sq_can_go c t pc : th c t = Some pc -> pc <> Crash -> (fst (wants pc) = true -> pushL (sh c) = None) -> (snd (wants pc) = true -> pullL (sh c) = None) ->
  flat_goes sq_start sq_step sq_fin (fun _ => True) c t.
Proof.
  intros Et H1 H2 H3. destruct (sq_can_step c t pc Et H1 H2 H3) as (a & c' & e & Hn & E). exists a. split; [|rewrite E; discriminate].
  destruct a as [o|k|]; eauto. cbn in E. rewrite Et in E. discriminate.
Qed.

Lemma sq_nest_live s zs N H t : rest false s -> sq_calm (ninit s) zs -> sq_nrun (ninit s) zs = Some (N, H) -> stk N t <> [] -> goes sq_start sq_step sq_fin sq_runs (fun _ => True) N.
Proof.
  intros Hr Hc E Ht. destruct (okI_nrun _ _ _ _ Hr E) as [q HR].
  assert (Hs : stkI N) by (eapply stk_run; [apply stk0|exact E]).
  assert (Hcal : calI sq_inside sq_inside sq_light N).
  { eapply (cal_run sq_start sq_step sq_fin sq_runs sq_inside sq_inside sq_light); [|apply light_step|apply stk0|apply cal0|apply calm_tame, Hc|exact E]. intros s0 pc. destruct pc; cbn; auto. }
  assert (Hany : forall u pc, th (fl N) u = Some pc -> flat_goes sq_start sq_step sq_fin (fun _ => True) (fl N) u -> goes sq_start sq_step sq_fin sq_runs (fun _ => True) N).
  { intros u pc Eu Hg. eapply (any_goes sq_start sq_step sq_fin sq_runs sq_inside sq_inside sq_light); [|apply light_go|exact Hs|exact Hcal|exact Eu|auto|exact Hg]. intros pc0. destruct pc0; cbn; auto; discriminate. }
  destruct (pushL (sh (fl N))) as [u|] eqn:E1.
  { destruct (proj1 (r_push _ _ _ HR u) E1) as (pc & Eu & Hh). eapply Hany; [exact Eu|]. eapply sq_can_go; [exact Eu|eapply hinv_nocrash; eassumption|..]; intros Ew; exfalso; destruct pc; discriminate. }
  destruct (pullL (sh (fl N))) as [u|] eqn:E2.
  { destruct (proj1 (r_pull _ _ _ HR u) E2) as (pc & Eu & Hh). eapply Hany; [exact Eu|]. eapply sq_can_go; [exact Eu|eapply hinv_nocrash; eassumption|auto|]. intros Ew; exfalso; destruct pc; discriminate. }
  destruct (stk N t) as [|u l] eqn:Es; [congruence|]. destruct (th (fl N) u) as [pc|] eqn:Eu; [|exfalso; apply (proj2 (s_in _ Hs u)); [exists t; rewrite Es; left|exact Eu]].
  eapply Hany; [exact Eu|]. eapply sq_can_go; [exact Eu|eapply hinv_nocrash; eassumption|auto|auto].
Qed.

(** ** Other calls wait for ever *)
Definition sq_first pc : Prop := match pc with P0 _ | O0 | K0 | S0 | L0 | V0 _ => True | _ => False end.
Lemma first_start o : o <> QEmpty -> sq_first (sq_start o).
Proof. destruct o; cbn; auto. Qed.
Lemma first_step p pc0 c u pc k s' pc' : sq_inside pc0 = true -> okI c -> th c p = Some pc0 -> th c u = Some pc -> sq_first pc -> sq_step (sh c) u pc k = Some (s', pc') -> sq_first pc'.
Proof.
  intros Hin [q HR] Ep _ Hf Es. assert (E1 : pushL (sh c) = Some p) by (apply (r_push _ _ _ HR p); exists pc0; split; [exact Ep|destruct pc0; try discriminate; reflexivity]).
  assert (E2 : pullL (sh c) = Some p) by (apply (r_pull _ _ _ HR p); exists pc0; split; [exact Ep|destruct pc0; try discriminate; reflexivity]).
  destruct pc; try (destruct Hf); cbn [sq_step] in Es; unfold lock_push, lock_pull in Es; rewrite ?E1, ?E2 in Es; discriminate.
Qed.

Lemma sq_nest_stuck s zs N H t p pc0 l u o N1 e : rest false s -> sq_nrun (ninit s) zs = Some (N, H) ->
  stk N t = p :: l -> th (fl N) p = Some pc0 -> sq_inside pc0 = true -> sq_nexec N (t, NCall u o) = Some (N1, e) -> o <> QEmpty ->
  forall zs' N' H', sq_nrun N1 zs' = Some (N', H') ->
    stk N' t = u :: p :: l /\ (forall v r, v ∈ u :: p :: l -> ~ In (HRet v r) H') /\
    forall t1 u1 o1 N2 e1, sq_nexec N' (t1, NCall u1 o1) = Some (N2, e1) -> o1 <> QEmpty ->
      forall zs2 N3 H3, sq_nrun N2 zs2 = Some (N3, H3) -> stk N3 t1 = u1 :: stk N' t1 /\ forall v r, v ∈ u1 :: stk N' t1 -> ~ In (HRet v r) H3.
Proof.
  intros Hr E Es Ep Hin Ec Ho zs' N' H' E'. assert (Hs : stkI N) by (eapply stk_run; [apply stk0|exact E]). pose proof (okI_nrun _ _ _ _ Hr E) as Hi.
  assert (Hfin : forall pc, sq_first pc -> sq_fin pc = None) by (intros pc; destruct pc; intros []; reflexivity).
  assert (Hruns : forall s1 pc, sq_first pc -> sq_runs s1 pc = false) by (intros s1 pc; destruct pc; intros []; reflexivity).
  assert (Hcall : forall N0 t0 u0 o0 Nx ex, stkI N0 -> okI (fl N0) -> th (fl N0) p = Some pc0 -> sq_nexec N0 (t0, NCall u0 o0) = Some (Nx, ex) -> o0 <> QEmpty ->
    stkI Nx /\ okI (fl Nx) /\ at_Z sq_first Nx t0 /\ stk Nx t0 = u0 :: stk N0 t0 /\ th (fl Nx) p = Some pc0 /\ (forall t', t' <> t0 -> stk Nx t' = stk N0 t') /\ th (fl N0) u0 = None /\ forall v, v <> u0 -> th (fl Nx) v = th (fl N0) v).
  { intros N0 t0 u0 o0 Nx ex Hs0 Hi0 Ep0 Ex Ho0. pose proof Ex as Ex'. apply nexec_cases in Ex' as (_ & Eu & Ef & Est & _). split; [eapply stk_exec; eassumption|].
    split; [rewrite Ef; destruct Hi0 as [q HR]; exists q; apply (sqR_call false (fl N0) q u0 o0 HR); [discriminate|exact Eu]|].
    assert (Et0 : stk Nx t0 = u0 :: stk N0 t0) by (rewrite Est, fupd_same; reflexivity).
    split; [exists u0, (stk N0 t0), (sq_start o0); split; [exact Et0|]; split; [rewrite Ef; cbn; rewrite fupd_same; reflexivity|apply first_start, Ho0]|].
    split; [exact Et0|]. split; [rewrite Ef; cbn; rewrite fupd_other by congruence; exact Ep0|]. split; [intros t' Hne; rewrite Est, fupd_other by exact Hne; reflexivity|]. split; [exact Eu|]. intros v Hv. rewrite Ef. cbn. rewrite fupd_other by exact Hv. reflexivity. }
  destruct (Hcall _ _ _ _ _ _ Hs Hi Ep Ec Ho) as (Hs1 & Hi1 & Hz1 & Et1 & Ep1 & _). rewrite Es in Et1.
  assert (Hb1 : below p pc0 sq_first N1 t) by (split; [exact Ep1|]; split; [exact Hz1|rewrite Et1; cbn; left]).
  assert (Hall : forall zs, Forall (fun _ : sqop V => True) (ncalls (Ch := unit) zs)) by (intros; apply Forall_true; auto).
  destruct (dead_run sq_start sq_step sq_fin sq_runs (fun _ => True) okI (fun c x c' e Hc _ => okI_exec c x c' e Hc (fun _ _ => I)) p pc0 sq_first (fun c u pc k s' pc' => first_step p pc0 c u pc k s' pc' Hin) Hfin Hruns
    zs' N1 N' H' t Hs1 Hi1 Hb1 (Hall zs') E') as (Hb' & Hi' & Hz'). destruct (Hz' t Hz1) as (_ & Est & Hret). rewrite Et1 in Est, Hret.
  split; [exact Est|]. split; [intros v r Hv; apply Hret, Hv|]. intros t1 u1 o1 N2 e1 Ec1 Ho1 zs2 N3 H3 E3.
  assert (Hs' : stkI N') by (eapply stk_run; [exact Hs1|exact E']).
  destruct (Hcall _ _ _ _ _ _ Hs' Hi' (proj1 Hb') Ec1 Ho1) as (Hs2 & Hi2 & Hz2 & Et2 & Ep2 & Hoth & Eu1 & Hth).
  assert (Hb2 : below p pc0 sq_first N2 t).
  { destruct Hb' as (Ep' & (q0 & l0 & pz & F1 & F2 & F3) & Hpt). split; [exact Ep2|]. destruct (decide (t = t1)) as [<-|Hne].
    - exfalso. apply nexec_cases in Ec1 as (Hm & _). unfold may_call in Hm. rewrite F1, F2, (Hruns _ _ F3) in Hm. discriminate.
    - unfold at_Z. rewrite (Hoth t Hne). split; [|exact Hpt]. exists q0, l0, pz. split; [exact F1|]. split; [|exact F3]. rewrite Hth; [exact F2|congruence]. }
  destruct (dead_run sq_start sq_step sq_fin sq_runs (fun _ => True) okI (fun c x c' e Hc _ => okI_exec c x c' e Hc (fun _ _ => I)) p pc0 sq_first (fun c u pc k s' pc' => first_step p pc0 c u pc k s' pc' Hin) Hfin Hruns
    zs2 N2 N3 H3 t Hs2 Hi2 Hb2 (Hall zs2) E3) as (_ & _ & Hz3). destruct (Hz3 t1 Hz2) as (_ & Est3 & Hret3). rewrite Et2 in Est3, Hret3. split; [exact Est3|]. intros v r Hv. apply Hret3, Hv.
Qed.
End sq.
