(** WorkQueue: calls made by the destructors of work blocks that closeWorkerQueue throws away *)
From stdpp Require Import list.
From Verif Require Import Base Conc CondVar SqModel SqSpec SqProofs WqModel WqProofs WqLive Props_Wq NestModel NestSq.
Local Open Scope nat_scope.

Section wq.
Variable nw : nat.
Notation wqcfg := (cfg wqsh wqpc).
Implicit Types (s : wqsh) (pc : wqpc) (c : wqcfg) (o : wqop) (i j : lvl) (H : list (hev wqop wqret)).
Notation ncfg := (ncfg (Sh := wqsh) (Pc := wqpc)).
Notation nact := (nact (Ch := cvc) (Op := wqop)).

(** The queue may hold the last shared_ptr to a block.  The blocks are destroyed in the clear() of lines 321-323, where SimpleQueue destroys
    elements.  (Blocks are destroyed by workers and by getWorkBlock's callers too, but with no lock held.) *)
Definition wq_runs s pc : bool := match pc with Sub i p KClr => sq_runs (qof i s) p | _ => false end.
Definition wq_inside pc : bool := match pc with Sub _ p KClr => sq_inside p | _ => false end.
(** isEmpty(), getWorkerCount() and setPriorityRatio() take no lock. *)
Definition wq_light pc : bool :=
  match pc with Sub _ E0 (KE EUser) | Sub _ (SqModel.Ret (QBool _)) (KE EUser) | H0 | R0 _ | Ret _ => true | _ => false end.
Definition light_op o : Prop := match o with OEmpty | OCount | ORatio _ => True | _ => False end.

Definition wn_exec : ncfg -> nat * nact -> option (ncfg * list (hev wqop wqret)) := nexec (wq_start nw) (wq_step nw) wq_fin wq_runs.
Definition wn_run : ncfg -> list (nat * nact) -> option (ncfg * list (hev wqop wqret)) := nrun (wq_start nw) (wq_step nw) wq_fin wq_runs.
(** Each worker is in its own frame. *)
Definition wn_init (f : nat -> bool) : ncfg := NCfg (wq_init nw f) (fun t => if Nat.ltb t nw then [t] else []).

(** The destructors call nothing but isEmpty(), getWorkerCount() and setPriorityRatio(). *)
Fixpoint wn_calm (N : ncfg) (zs : list (nat * nact)) : Prop :=
  match zs with
  | [] => True
  | x :: zs' => (forall u o, snd x = NCall u o -> stk N (fst x) <> [] -> light_op o) /\ forall N1 e, wn_exec N x = Some (N1, e) -> wn_calm N1 zs'
  end.

(** A test for it *)
Fixpoint wcalm_b (N : ncfg) (zs : list (nat * nact)) : bool :=
  match zs with
  | [] => true
  | x :: zs' => match snd x, stk N (fst x) with NCall _ (OEmpty | OCount | ORatio _), _ | NInt _, _ | NRet, _ | _, [] => true | _, _ => false end &&
      match wn_exec N x with Some (N1, _) => wcalm_b N1 zs' | None => true end
  end.
Lemma wcalm_b_ok zs : forall N, wcalm_b N zs = true -> wn_calm N zs.
Proof.
  induction zs as [|x zs IH]; intros N; cbn [wcalm_b wn_calm]; [auto|]. rewrite andb_true_iff. intros [H1 H2]. split.
  - intros u o E Hne. rewrite E in H1. destruct (stk N (fst x)); [congruence|]. destruct o; try discriminate; exact I.
  - intros N1 e E. rewrite E in H2. apply IH, H2.
Qed.

Lemma wstk0 f : stkI (wn_init f).
Proof.
  constructor; cbn [wn_init fl stk wq_init th].
  - intros u. split.
    + destruct (Nat.ltb u nw) eqn:E; [intros _; exists u; rewrite E; left|congruence].
    + intros [t Ht]. destruct (Nat.ltb t nw) eqn:E; [|inversion Ht]. apply elem_of_list_singleton in Ht as ->. rewrite E. discriminate.
  - intros u t t'. destruct (Nat.ltb t nw), (Nat.ltb t' nw); intros H1 H2; try (inversion H1; fail); try (inversion H2; fail). apply elem_of_list_singleton in H1, H2. congruence.
  - intros t. destruct (Nat.ltb t nw); [apply NoDup_singleton|constructor].
Qed.
Lemma wcal0 f : calI wq_inside wq_inside wq_light (wn_init f).
Proof. intros a b (t & l1 & l2 & E). cbn [wn_init stk] in E. destruct (Nat.ltb t nw); destruct l1 as [|x [|y l1]]; cbn in E; discriminate. Qed.

Lemma wlight_go s t pc : wq_light pc = true -> wq_fin pc <> None \/ exists k, (k <> CSpur /\ k <> CTime) /\ wq_step nw s t pc k <> None.
Proof.
  destruct pc; try discriminate; intros Hl; try (left; discriminate); right; exists CStep; (split; [split; discriminate|]); cbn [wq_step wq_step0]; try discriminate.
  destruct p; try discriminate; cbn [sq_fin sq_step].
  destruct r; try discriminate; destruct k as [| | |[]| | | | | | |]; try discriminate; cbn [resume]; discriminate.
Qed.
Lemma wlight_step s t pc k s' pc' : wq_step nw s t pc k = Some (s', pc') -> wq_light pc = true -> wq_light pc' = true.
Proof.
  destruct pc as [i p kt| | | | | | | | | | | | | | | | | | | | | | | | | | | | | | | |r|]; try discriminate; destruct k; try discriminate; cbn [wq_step wq_step0]; try (intros [= <- <-] _; reflexivity).
  destruct p; try discriminate; cbn [sq_fin sq_step].
  - intros [= <- <-]. destruct kt as [| | |[]| | | | | | |]; try discriminate. intros _. reflexivity.
  - destruct r; try discriminate. destruct kt as [| | |[]| | | | | | |]; try discriminate. cbn [resume]. intros [= <- <-] _. destruct b; [destruct i|]; reflexivity.
Qed.
Lemma wcalm_tame zs : forall N, wn_calm N zs -> tame (wq_start nw) (wq_step nw) wq_fin wq_runs wq_inside wq_light N zs.
Proof.
  induction zs as [|x zs IH]; intros N; cbn [wn_calm tame]; [auto|]. intros [H1 H2]. split; [|intros N1 e E; apply IH, (H2 _ _ E)].
  unfold tame_act. destruct x as [t [u o|k|]]; cbn [fst snd] in *; auto. destruct (stk N t) as [|p l] eqn:Es; [exact I|]. intros pc _ _.
  assert (Ho : light_op o) by (apply (H1 u o eq_refl); first [discriminate|rewrite Es; discriminate]). destruct o; destruct Ho; reflexivity.
Qed.

Lemma wn_live f zs N H u pc : wn_calm (wn_init f) zs -> wn_run (wn_init f) zs = Some (N, H) -> no_overlap H -> halt (sh (fl N)) = true ->
  th (fl N) u = Some pc -> ~ dead pc -> goes (wq_start nw) (wq_step nw) wq_fin wq_runs (fun k => k <> CSpur /\ k <> CTime) N.
Proof.
  intros Hc E Hn Hh Eu Hd. destruct (nrun_flat _ _ _ _ _ _ _ _ E) as (xs & Ex & _). cbn [fl wn_init] in Ex.
  destruct (C57_progress_partial nw f xs (fl N) H Ex Hn Hh) as (v & a & c' & e & Hv & Ha & Ev); [eauto|].
  assert (Hs : stkI N) by (eapply stk_run; [apply wstk0|exact E]).
  assert (Hcal : calI wq_inside wq_inside wq_light N).
  { eapply (cal_run (wq_start nw) (wq_step nw) wq_fin wq_runs wq_inside wq_inside wq_light); [|apply wlight_step|apply wstk0|apply wcal0|apply wcalm_tame, Hc|exact E].
    intros s0 pc0. destruct pc0; try discriminate. destruct k; try discriminate. cbn. destruct p; cbn; auto. }
  destruct (th (fl N) v) as [pv|] eqn:Epv; [|congruence].
  eapply (any_goes (wq_start nw) (wq_step nw) wq_fin wq_runs wq_inside wq_inside wq_light); [|apply wlight_go|exact Hs|exact Hcal|exact Epv|auto|].
  - intros pc0. destruct pc0; try discriminate; try reflexivity. destruct k; cbn; try reflexivity. destruct p; cbn; intros; try reflexivity; try discriminate.
  - exists a. split; [|unfold wq_exec in Ev; rewrite Ev; discriminate]. destruct a as [o|k|]; [|left; exists k; split; [apply (Ha k eq_refl)|reflexivity]|auto]. unfold wq_exec in Ev. cbn in Ev. rewrite Epv in Ev. discriminate.
Qed.

(** ** Calls that need the queue being cleared wait for ever *)
Definition before i j : Prop := match i, j with Hi, Med | Hi, Lo | Med, Lo => True | _, _ => False end.
(** Sure to lock a mutex of queue [i] before it ends: about to lock it; adding up the sizes of the queues; adding a block of priority
    required *)
Definition needs i pc : Prop :=
  match pc with
  | Sub j p k => (j = i /\ sq_first p) \/ (before j i /\ exists n, k = KN n)
  | A0 (Some _) PReq => i = Hi /\ 0 < nw
  | _ => False
  end.

Lemma holds_both c i p pi : (forall j, qproj sq0 j c) -> th c p = Some (Sub i pi KClr) -> sq_inside pi = true -> SqModel.pushL (qof i (sh c)) = Some p /\ SqModel.pullL (qof i (sh c)) = Some p.
Proof.
  intros Hq Ep Hin. destruct (Hq i) as (xs & ci & Hh & Er & Esh & Eth).
  assert (Ho : okI ci). { eapply okI_run; [|exact Er]. eexists. apply rest_R. apply (reach_rest false sq0). constructor. }
  destruct Ho as [q HR]. assert (Et : th ci p = Some pi) by (rewrite Eth, Ep; cbn; destruct i; reflexivity). rewrite <- Esh. split.
  - apply (r_push _ _ _ HR p). exists pi. split; [exact Et|destruct pi; try discriminate; reflexivity].
  - apply (r_pull _ _ _ HR p). exists pi. split; [exact Et|destruct pi; try discriminate; reflexivity].
Qed.
Lemma needs_step i pi p c u pc k s' pc' : sq_inside pi = true -> (forall j, qproj sq0 j c) -> th c p = Some (Sub i pi KClr) -> th c u = Some pc -> needs i pc -> wq_step nw (sh c) u pc k = Some (s', pc') -> needs i pc'.
Proof.
  intros Hin Hq Ep _ Hn Es. destruct (holds_both _ _ _ _ Hq Ep Hin) as [E1 E2].
  destruct pc as [j q kt|x pr| | | | | | | | | | | | | | | | | | | | | | | | | | | | | | | |]; try (destruct Hn; fail).
  - destruct k; cbn [wq_step] in Es; try discriminate. cbn [wq_step0] in Es. destruct Hn as [[-> Hf]|[Hb [n ->]]].
    + exfalso. destruct q; try (destruct Hf; fail); cbn [sq_fin sq_step] in Es; unfold SqModel.lock_push, SqModel.lock_pull in Es; rewrite ?E1, ?E2 in Es; discriminate.
    + destruct (sq_fin q) as [r|].
      * cbn [resume] in Es. destruct r; try discriminate. injection Es as <- <-. destruct i, j; try (destruct Hb; fail); cbn; first [left; split; [reflexivity|exact I]|right; split; [exact I|eauto]].
      * destruct (sq_step (qof j (sh c)) u q tt) as [[q' p']|]; [|discriminate]. injection Es as <- <-. cbn. right. split; [exact Hb|eauto].
  - destruct x as [y|]; [|destruct Hn]. destruct pr; try (destruct Hn; fail). destruct Hn as [-> Hw]. destruct k; cbn in Es; try discriminate. destruct (Nat.eqb_spec nw 0); [lia|]. injection Es as <- <-. cbn. left. split; [reflexivity|exact I].
Qed.

Lemma wn_stuck f zs N H t u p pi i l pc : wn_run (wn_init f) zs = Some (N, H) -> stk N t = u :: p :: l ->
  th (fl N) p = Some (Sub i pi KClr) -> sq_inside pi = true -> th (fl N) u = Some pc -> needs i pc ->
  forall zs' N' H', wn_run N zs' = Some (N', H') -> stk N' t = u :: p :: l /\ forall v r, v ∈ u :: p :: l -> ~ In (HRet v r) H'.
Proof.
  intros E Es Ep Hin Eu Hn zs' N' H' E'. assert (Hs : stkI N) by (eapply stk_run; [apply wstk0|exact E]).
  destruct (nrun_flat _ _ _ _ _ _ _ _ E) as (xs & Ex & _). cbn [fl wn_init] in Ex.
  assert (Hq : forall j, qproj sq0 j (fl N)) by (eapply qproj_run; [|exact Ex]; intros j; apply qproj_init).
  assert (Hz : at_Z (needs i) N t) by (exists u, (p :: l), pc; auto).
  assert (Hb : below p (Sub i pi KClr) (needs i) N t) by (split; [exact Ep|]; split; [exact Hz|rewrite Es; cbn; left]).
  destruct (dead_run (wq_start nw) (wq_step nw) wq_fin wq_runs (fun _ => True) (fun c => forall j, qproj sq0 j c)) with (p := p) (pc0 := Sub i pi KClr) (Z := needs i) (zs := zs') (N := N) (N' := N') (H := H') (t0 := t) as (_ & _ & Hd); try assumption.
  - intros c x c' e Hc _ Ee. eapply (qproj_run nw sq0 [x] c c'); [exact Hc|]. unfold wq_run. cbn [run]. rewrite Ee. reflexivity.
  - intros c q pc1 k s' pc'. apply (needs_step i pi p c q pc1 k s' pc' Hin).
  - intros pc1. destruct pc1; try (intros []; fail); reflexivity.
  - intros s1 pc1 Hn1. destruct pc1 as [j q kt| | | | | | | | | | | | | | | | | | | | | | | | | | | | | | | | |]; try reflexivity. cbn. destruct Hn1 as [[_ Hf]|[_ [n ->]]]; [|reflexivity]. destruct kt; try reflexivity. destruct q; destruct Hf; reflexivity.
  - apply Forall_true. auto.
  - destruct (Hd t Hz) as (_ & Est & Hr). rewrite Es in Est, Hr. auto.
Qed.

(** Which calls these are *)
Definition stuck_op i o : Prop :=
  match o with OAdd (Some _) PReq => i = Hi | OAddV _ p => lvl_of p = i | ONum => True | OGet => i = Hi | _ => False end.
Lemma stuck_needs i o : 0 < nw -> stuck_op i o -> needs i (wq_start nw o).
Proof.
  intros Hw. destruct o as [x p|xs p| | | | | |]; cbn; try tauto.
  - destruct x, p; cbn; try tauto.
  - destruct (Nat.eqb_spec nw 0); [lia|]. intros ->. cbn. left. split; [reflexivity|exact I].
  - intros _. destruct i; [left; split; [reflexivity|exact I]|right|right]; (split; [exact I|eauto]).
  - intros ->. left. split; [reflexivity|exact I].
Qed.
End wq.
