(** Work blocks keep the promises of WbSpec.v. *)
From stdpp Require Import list.
From Verif Require Import Base Conc WbModel WbSpec.
Local Open Scope nat_scope.

(** ** The store *)
Definition keeps (S S' : store) (j : nat) : Prop := j < length S -> j < length S' /\ at_ S' j = at_ S j.
Lemma keeps_refl S j : keeps S S j.
Proof. intros H. auto. Qed.
Lemma keeps_trans S S1 S2 j : keeps S S1 j -> keeps S1 S2 j -> keeps S S2 j.
Proof. intros H1 H2 H. destruct (H1 H) as [Hl E]. destruct (H2 Hl) as [Hl2 E2]. split; [exact Hl2|congruence]. Qed.

Lemma at_lookup S i x : S !! i = Some x -> at_ S i = x.
Proof. intros H. unfold at_. apply nth_lookup_Some with (d := FS 0 FBroken true) in H. exact H. Qed.
Lemma at_set S i x : i < length S -> at_ (set_at S i x) i = x.
Proof. intros H. apply at_lookup. unfold set_at. apply list_lookup_insert. exact H. Qed.
Lemma len_set S i x : length (set_at S i x) = length S.
Proof. apply insert_length. Qed.
Lemma at_set_ne S i j x : j <> i -> at_ (set_at S i x) j = at_ S j.
Proof. intros H. unfold at_, set_at. rewrite !nth_lookup. rewrite list_lookup_insert_ne by congruence. reflexivity. Qed.
Lemma keeps_set S i x j : j <> i -> keeps S (set_at S i x) j.
Proof. intros H Hl. rewrite len_set, at_set_ne; auto. Qed.
Lemma keeps_app S x j : keeps S (S ++ [x]) j.
Proof. intros H. rewrite app_length. split; [lia|]. unfold at_. apply app_nth1. exact H. Qed.
Lemma at_app S x : at_ (S ++ [x]) (length S) = x.
Proof. unfold at_. rewrite app_nth2 by lia. rewrite Nat.sub_diag. reflexivity. Qed.
Lemma keeps_abandon S t j : t <> Some j -> keeps S (abandon S t) j.
Proof.
  intros H. destruct t as [i|]; [|apply keeps_refl]. cbn. destruct (fstat_ (at_ S i)); try apply keeps_refl.
  apply keeps_set. congruence.
Qed.
Lemma len_abandon S t : length (abandon S t) = length S.
Proof. destruct t as [i|]; [|reflexivity]. cbn. destruct (fstat_ (at_ S i)); try reflexivity. apply len_set. Qed.

(** ** Functions of the block *)
Lemma reset_loaded S i fu fi : i < length S -> exists S',
  wb_reset S (WB (Some i) fu fi true) = (S', WB (Some (length S)) (Some (length S)) false true, None) /\
  length S' = Datatypes.S (length S) /\ at_ S' (length S) = FS (fwork (at_ S i)) FWait true /\ (forall j, j <> i -> keeps S S' j).
Proof.
  intros Hi. unfold wb_reset. cbn [loaded tk pt_reset pt_new]. set (S1 := S ++ [FS (fwork (at_ S i)) FWait false]).
  assert (Hl : length S1 = Datatypes.S (length S)) by (unfold S1; rewrite app_length; cbn; lia).
  assert (Ha : at_ (abandon S1 (Some i)) (length S) = FS (fwork (at_ S i)) FWait false).
  { destruct (keeps_abandon S1 (Some i) (length S)) as [_ ->]; [intros [= E]; lia|lia|]. apply at_app. }
  cbn [pt_future]. rewrite Ha. cbn [taken fwork fstat_ fut].
  exists (set_at (abandon S1 (Some i)) (length S) (FS (fwork (at_ S i)) FWait true)).
  split; [reflexivity|]. split; [rewrite len_set, len_abandon; exact Hl|]. split; [apply at_set; rewrite len_abandon; lia|].
  intros j Hj Hjl. rewrite len_set, len_abandon, at_set_ne by lia. destruct (keeps_app S (FS (fwork (at_ S i)) FWait false) j Hjl) as [L1 E1]. fold S1 in L1, E1.
  destruct (keeps_abandon S1 (Some i) j ltac:(congruence) L1) as [_ ->]. auto.
Qed.

Lemma future_frame S t S' f e : pt_future S t = (S', f, e) -> length S' = length S /\ forall j, t <> Some j -> keeps S S' j.
Proof.
  destruct t as [i|]; cbn; [|intros [= <- _ _]; split; [reflexivity|intros; apply keeps_refl]].
  destruct (taken (at_ S i)); intros [= <- _ _]; (split; [try apply len_set; reflexivity|]); intros j Hj; [apply keeps_refl|apply keeps_set; congruence].
Qed.
Lemma call_frame S t S' r e : pt_call S t = (S', r, e) -> length S' = length S /\ forall j, t <> Some j -> keeps S S' j.
Proof.
  destruct t as [i|]; cbn; [|intros [= <- _ _]; split; [reflexivity|intros; apply keeps_refl]].
  destruct (fstat_ (at_ S i)); intros [= <- _ _]; (split; [try apply len_set; reflexivity|]); intros j Hj; first [apply keeps_refl|apply keeps_set; congruence].
Qed.

Lemma reset_frame S w S' w' e : wb_reset S w = (S', w', e) -> (forall i, tk w = Some i -> i < length S) ->
  (tk w' = tk w \/ tk w' = Some (length S)) /\ (forall i, tk w' = Some i -> i < length S') /\ (forall j, tk w <> Some j -> keeps S S' j).
Proof.
  intros Es Hv. destruct w as [t fu fi [|]].
  - destruct t as [i|].
    + destruct (reset_loaded S i fu fi (Hv i eq_refl)) as [S1 [E [Hl [Ha Hk]]]]. rewrite E in Es. injection Es as <- <- <-. cbn [tk].
      split; [auto|]. split; [intros k [= <-]; lia|]. intros j Hj. apply Hk. congruence.
    + cbn in Es. injection Es as <- <- <-. cbn [tk]. split; [auto|]. split; [discriminate|]. intros. apply keeps_refl.
  - unfold wb_reset in Es. cbn [loaded tk fut] in *. destruct (pt_future S t) as [[S2 f2] e2] eqn:Ef. apply future_frame in Ef as [Hl Hk].
    destruct e2; injection Es as <- <- <-; cbn [tk]; (split; [auto|]); (split; [intros i Hi; rewrite Hl; auto|]); exact Hk.
Qed.
Lemma execute_frame S w S' w' r e : wb_execute S w = (S', w', r, e) ->
  tk w' = tk w /\ length S' = length S /\ (forall j, tk w <> Some j -> keeps S S' j).
Proof.
  unfold wb_execute. destruct (finished w); [intros [= <- <- _ _]; splits; intros; apply keeps_refl|].
  destruct (loaded w); [|intros [= <- <- _ _]; splits; intros; apply keeps_refl].
  destruct (pt_call S (tk w)) as [[S1 r1] e1] eqn:Ec. apply call_frame in Ec as [Hl Hk]. destruct e1; intros [= <- <- _ _]; splits; auto.
Qed.
Lemma update_frame S w t S' w' e : wb_update S w t = (S', w', e) ->
  tk w' = t /\ length S' = length S /\ (forall j, tk w <> Some j -> t <> Some j -> keeps S S' j).
Proof.
  unfold wb_update, wb_reset. cbn [loaded tk fut]. destruct (pt_future (abandon S (tk w)) t) as [[S2 f2] e2] eqn:Ef. apply future_frame in Ef as [Hl Hk].
  rewrite len_abandon in Hl. destruct e2; intros [= <- <- _]; splits; auto; intros j Hj Hj'; (eapply keeps_trans; [apply keeps_abandon; exact Hj|auto]).
Qed.
Lemma update_fresh S w j : j < length S -> tk w <> Some j -> taken (at_ S j) = false -> exists S',
  wb_update S w (Some j) = (S', WB (Some j) (Some j) false true, None) /\ at_ S' j = FS (fwork (at_ S j)) (fstat_ (at_ S j)) true.
Proof.
  intros Hj Hw Ht. unfold wb_update, wb_reset. cbn [loaded tk fut pt_future]. destruct (keeps_abandon S (tk w) j Hw Hj) as [Hl ->]. rewrite Ht.
  cbn [tk fut finished]. eexists. split; [reflexivity|]. apply at_set. exact Hl.
Qed.

(** ** The relation *)
Definition ct (S : store) (x : option (nat * bool * bool)) (u : option nat) : Prop :=
  match x with
  | None => u = None
  | Some (f, r, k) => exists i, u = Some i /\ i < length S /\ at_ S i = FS f (if r then FDone f else FWait) k
  end.
Definition cb (S : store) (x : option iblk) (w : option wb) : Prop :=
  match x with
  | None => w = None
  | Some (Good f d) => exists i, w = Some (WB (Some i) (Some i) d true) /\ i < length S /\ at_ S i = FS f (if d then FDone f else FWait) true
  | Some Odd => exists v, w = Some v /\ forall i, tk v = Some i -> i < length S
  end.
Definition btk (w : option wb) : option nat := match w with Some v => tk v | None => None end.
Definition own (W : world) (x : nat + nat) : option nat := match x with inl p => ut W p | inr b => btk (bl W b) end.
Record R (I : iworld) (W : world) : Prop := {
  r_t : forall p, ct (st W) (it I p) (ut W p);
  r_b : forall b, cb (st W) (ib I b) (bl W b);
  r_own : forall x y i, own W x = Some i -> own W y = Some i -> x = y
}.

Lemma ct_keep S S' x u : ct S x u -> (forall j, u = Some j -> keeps S S' j) -> ct S' x u.
Proof.
  destruct x as [[[f r] k]|]; cbn; [|auto]. intros [i [-> [Hi Ha]]] Hk. destruct (Hk i eq_refl Hi) as [Hl Hk']. exists i. rewrite Hk'. auto.
Qed.
Lemma cb_keep S S' x w : cb S x w -> (forall j, btk w = Some j -> keeps S S' j) -> cb S' x w.
Proof.
  destruct x as [[f d|]|]; cbn; [| |auto].
  - intros [i [-> [Hi Ha]]] Hk. destruct (Hk i eq_refl Hi) as [Hl Hk']. exists i. rewrite Hk'. auto.
  - intros [v [-> Hv]] Hk. exists v. split; [reflexivity|]. intros i Hi. exact (proj1 (Hk i Hi (Hv i Hi))).
Qed.
Lemma ct_valid S x u i : ct S x u -> u = Some i -> i < length S.
Proof. destruct x as [[[f r] k]|]; cbn; [|congruence]. intros [j [-> [Hj _]]] [= <-]. exact Hj. Qed.
Lemma cb_valid S x w i : cb S x w -> btk w = Some i -> i < length S.
Proof.
  destruct x as [[f d|]|]; cbn; [| |intros ->; discriminate].
  - intros [j [-> [Hj _]]] [= <-]. exact Hj.
  - intros [v [-> Hv]]. apply Hv.
Qed.
Lemma own_valid I W x i : R I W -> own W x = Some i -> i < length (st W).
Proof. intros HR. destruct x as [p|b]; cbn; [apply (ct_valid _ _ _ _ (r_t _ _ HR p))|apply (cb_valid _ _ _ _ (r_b _ _ HR b))]. Qed.

(** [u'] owns nothing, what [u] owned, or something new *)
Definition mine (S : store) (u u' : option nat) : Prop := u' = None \/ u' = u \/ exists j, u' = Some j /\ length S <= j.

Ltac fu := repeat match goal with
  | |- context [fupd ?a _ _ ?b] => let H := fresh in destruct (Nat.eq_dec b a) as [H|H]; [rewrite !H, !(fupd_same a)|rewrite !(fupd_other a b) by exact H]
  end.

Lemma own_gen (o o' : nat + nat -> option nat) (S : store) (x0 : nat + nat) :
  (forall x y i, o x = Some i -> o y = Some i -> x = y) -> (forall x i, o x = Some i -> i < length S) ->
  (forall x, x <> x0 -> o' x = o x) -> mine S (o x0) (o' x0) -> forall x y i, o' x = Some i -> o' y = Some i -> x = y.
Proof.
  intros Hu Hv Ho Hm.
  assert (D : forall x : nat + nat, x = x0 \/ x <> x0) by (intros x; assert ({x = x0} + {x <> x0}) as [|] by (repeat decide equality); auto).
  assert (K : forall y i, y <> x0 -> o' x0 = Some i -> o' y = Some i -> False).
  { intros y i Hy E1 E2. rewrite (Ho y Hy) in E2. destruct Hm as [E|[E|[j [E Hj]]]]; rewrite E in E1; [discriminate| |injection E1 as <-].
    - apply Hy. exact (Hu _ _ _ E2 E1).
    - specialize (Hv _ _ E2). lia. }
  intros x y i E1 E2. destruct (D x) as [->|Hx], (D y) as [->|Hy]; [reflexivity|exfalso; exact (K y i Hy E1 E2)|exfalso; exact (K x i Hx E2 E1)|].
  rewrite Ho in E1, E2 by assumption. exact (Hu _ _ _ E1 E2).
Qed.

Lemma R_t I W p S' u' x' rn : R I W -> ct S' x' u' -> (forall j, ut W p <> Some j -> keeps (st W) S' j) -> mine (st W) (ut W p) u' ->
  R (IW (fupd p x' (it I)) (ib I)) (World S' (fupd p u' (ut W)) (bl W) rn).
Proof.
  intros HR Hc Hk Hm. constructor; cbn [st ut bl it ib].
  - intros q. fu; [exact Hc|]. apply (ct_keep (st W)); [apply (r_t _ _ HR)|]. intros j Hj. apply Hk. intros E.
    pose proof (r_own _ _ HR (inl p) (inl q) j E Hj). congruence.
  - intros b. apply (cb_keep (st W)); [apply (r_b _ _ HR)|]. intros j Hj. apply Hk. intros E.
    pose proof (r_own _ _ HR (inl p) (inr b) j E Hj). congruence.
  - apply (own_gen (own W) _ (st W) (inl p)); [apply (r_own _ _ HR)|apply (fun x i => own_valid I W x i HR)| |cbn; rewrite fupd_same; exact Hm].
    intros [q|b] Hq; cbn; [apply fupd_other; congruence|reflexivity].
Qed.
Lemma R_bk I W b S' w' x' rn : R I W -> cb S' x' w' -> (forall j, btk (bl W b) <> Some j -> keeps (st W) S' j) -> mine (st W) (btk (bl W b)) (btk w') ->
  R (IW (it I) (fupd b x' (ib I))) (World S' (ut W) (fupd b w' (bl W)) rn).
Proof.
  intros HR Hc Hk Hm. constructor; cbn [st ut bl it ib].
  - intros p. apply (ct_keep (st W)); [apply (r_t _ _ HR)|]. intros j Hj. apply Hk. intros E.
    pose proof (r_own _ _ HR (inr b) (inl p) j E Hj). congruence.
  - intros q. fu; [exact Hc|]. apply (cb_keep (st W)); [apply (r_b _ _ HR)|]. intros j Hj. apply Hk. intros E.
    pose proof (r_own _ _ HR (inr b) (inr q) j E Hj). congruence.
  - apply (own_gen (own W) _ (st W) (inr b)); [apply (r_own _ _ HR)|apply (fun x i => own_valid I W x i HR)| |cbn; rewrite fupd_same; exact Hm].
    intros [q|c] Hq; cbn; [reflexivity|rewrite fupd_other by congruence; reflexivity].
Qed.

Lemma R_ext I W I' W' : R I W -> st W' = st W -> (forall p, it I' p = it I p) -> (forall b, ib I' b = ib I b) ->
  (forall p, ut W' p = ut W p) -> (forall b, bl W' b = bl W b) -> R I' W'.
Proof.
  intros HR Es Ei Eb Eu El. constructor.
  - intros p. rewrite Es, Ei, Eu. apply (r_t _ _ HR).
  - intros b. rewrite Es, Eb, El. apply (r_b _ _ HR).
  - assert (E : forall x, own W' x = own W x) by (intros [p|b]; cbn; [apply Eu|rewrite El; reflexivity]).
    intros x y i. rewrite !E. apply (r_own _ _ HR).
Qed.

(** Ownership of a shared state passes from a user's task to a block, and from a block to another *)
Lemma R_tb I W b p w' rn : R I W -> btk (bl W b) = None -> tk w' = ut W p ->
  R (IW (fupd p None (it I)) (fupd b (Some Odd) (ib I))) (World (st W) (fupd p None (ut W)) (fupd b (Some w') (bl W)) rn).
Proof.
  intros HR Hb Ht. constructor; cbn [st ut bl it ib].
  - intros q. fu; [reflexivity|]. apply (r_t _ _ HR).
  - intros q. fu; [|apply (r_b _ _ HR)]. exists w'. split; [reflexivity|]. rewrite Ht. intros i. apply (own_valid I W (inl p) i HR).
  - assert (E : forall x i, own (World (st W) (fupd p None (ut W)) (fupd b (Some w') (bl W)) rn) x = Some i ->
      (x = inr b /\ own W (inl p) = Some i) \/ (x <> inr b /\ x <> inl p /\ own W x = Some i)).
    { intros [q|c] i; cbn [own ut bl]; fu; intros E; cbn [btk] in E; [discriminate| | |].
      - right. split; [discriminate|]. split; [congruence|exact E].
      - left. split; [congruence|]. rewrite <- Ht. exact E.
      - right. split; [congruence|]. split; [discriminate|exact E]. }
    intros x y i Hx Hy. apply E in Hx, Hy. destruct Hx as [[-> Hx]|[Nx [Mx Hx]]], Hy as [[-> Hy]|[Ny [My Hy]]]; [reflexivity| | |exact (r_own _ _ HR _ _ _ Hx Hy)].
    + exfalso. apply My. exact (r_own _ _ HR _ _ _ Hy Hx).
    + exfalso. apply Mx. exact (r_own _ _ HR _ _ _ Hx Hy).
Qed.
Lemma R_bb I W b b' w' w'' rn : R I W -> b <> b' -> btk (bl W b) = None -> bl W b' = Some w' -> tk w'' = None ->
  R (IW (it I) (fupd b (ib I b') (fupd b' (Some Odd) (ib I)))) (World (st W) (ut W) (fupd b (Some w') (fupd b' (Some w'') (bl W))) rn).
Proof.
  intros HR Hne Hb Hb' Ht. constructor; cbn [st ut bl it ib].
  - apply (r_t _ _ HR).
  - intros q. fu; [rewrite <- Hb'; apply (r_b _ _ HR)| |apply (r_b _ _ HR)]. exists w''. split; [reflexivity|]. rewrite Ht. discriminate.
  - assert (E : forall x i, own (World (st W) (ut W) (fupd b (Some w') (fupd b' (Some w'') (bl W))) rn) x = Some i ->
      (x = inr b /\ own W (inr b') = Some i) \/ (x <> inr b /\ x <> inr b' /\ own W x = Some i)).
    { intros [q|c] i; cbn [own ut bl]; fu; intros E; cbn [btk] in E.
      - right. split; [discriminate|]. split; [discriminate|exact E].
      - left. split; [congruence|]. rewrite Hb'. exact E.
      - congruence.
      - right. split; [congruence|]. split; [congruence|exact E]. }
    intros x y i Hx Hy. apply E in Hx, Hy. destruct Hx as [[-> Hx]|[Nx [Mx Hx]]], Hy as [[-> Hy]|[Ny [My Hy]]]; [reflexivity| | |exact (r_own _ _ HR _ _ _ Hx Hy)].
    + exfalso. apply My. exact (r_own _ _ HR _ _ _ Hy Hx).
    + exfalso. apply Mx. exact (r_own _ _ HR _ _ _ Hx Hy).
Qed.

Lemma R_same I W S' rn : R I W -> S' = st W -> R I (World S' (ut W) (bl W) rn).
Proof. intros HR ->. apply (R_ext I W); auto. Qed.
Lemma b_some I W b w : R I W -> bl W b = Some w -> exists x, ib I b = Some x.
Proof. intros HR E. pose proof (r_b _ _ HR b) as H. destruct (ib I b); [eauto|]. cbn in H. congruence. Qed.
Lemma fupd_id {A} a (x : A) f b : f a = x -> fupd a x f b = f b.
Proof. intros E. unfold fupd. destruct (Nat.eqb_spec b a); congruence. Qed.
Lemma fupd_fupd {A} a (x y : A) f b : fupd a x (fupd a y f) b = fupd a x f b.
Proof. unfold fupd. destruct (Nat.eqb_spec b a); congruence. Qed.

Definition good_step (mem : bool) (I : iworld) (W : world) (o : wbop) : Prop :=
  forall W' r, wb_step mem W o = Some (W', r) -> R (ideal I o) W' /\ (forall x, promise I o = Some x -> r = x).

Section Steps.
Context (mem : bool) (I : iworld) (W : world) (HR : R I W).

Lemma st_TNew p f : good_step mem I W (TNew p f).
Proof.
  intros W' r [= <- <-]. split; [|discriminate]. cbn [ideal]. set (S1 := st W ++ [FS f FWait false]).
  assert (Hl : length S1 = S (length (st W))) by (unfold S1; rewrite app_length; cbn; lia).
  assert (Hne : ut W p <> Some (length (st W))) by (intros E; pose proof (own_valid I W (inl p) _ HR E); lia).
  apply R_t; [exact HR| | |right; right; exists (length (st W)); split; [reflexivity|lia]].
  - exists (length (st W)). split; [reflexivity|]. destruct (keeps_abandon S1 (ut W p) (length (st W)) Hne ltac:(lia)) as [Hx ->]. split; [exact Hx|]. apply at_app.
  - intros j Hj. apply (keeps_trans _ S1); [apply keeps_app|apply keeps_abandon; exact Hj].
Qed.
Lemma st_TDel p : good_step mem I W (TDel p).
Proof.
  intros W' r [= <- <-]. split; [|discriminate]. cbn [ideal]. apply R_t; [exact HR|reflexivity| |left; reflexivity].
  intros j Hj. apply keeps_abandon. exact Hj.
Qed.
Lemma st_TFut p : good_step mem I W (TFut p).
Proof.
  intros W' r Es. split; [|discriminate]. cbn [wb_step] in Es. destruct (pt_future (st W) (ut W p)) as [[S1 i1] e1] eqn:Ef. injection Es as <- <-.
  pose proof (r_t _ _ HR p) as Hp. cbn [ideal]. destruct (it I p) as [[[f d] k]|]; cbn [ct] in Hp.
  - destruct Hp as [i [Hu [Hi Ha]]].
    apply (R_ext (IW (fupd p (Some (f, d, true)) (it I)) (ib I)) (World S1 (fupd p (Some i) (ut W)) (bl W) (ran W))); try reflexivity.
    + pose proof (future_frame _ _ _ _ _ Ef) as [Hl Hk]. apply R_t; [exact HR| |exact Hk|right; left; congruence].
      exists i. split; [reflexivity|]. rewrite Hl. split; [exact Hi|]. rewrite Hu in Ef. cbn in Ef. rewrite Ha in Ef. cbn in Ef. destruct k; injection Ef as <- _ _; [exact Ha|].
      apply at_set. exact Hi.
    + intros q. cbn. symmetry. apply fupd_id. exact Hu.
  - rewrite Hp in Ef. cbn in Ef. injection Ef as <- _ _. apply R_same; auto.
Qed.
Lemma st_TRun p : good_step mem I W (TRun p).
Proof.
  intros W' r Es. split; [|discriminate]. cbn [wb_step] in Es. destruct (pt_call (st W) (ut W p)) as [[S1 i1] e1] eqn:Ef. injection Es as <- <-.
  pose proof (r_t _ _ HR p) as Hp. cbn [ideal]. unfold log. cbn [st ut bl]. destruct (it I p) as [[[f d] k]|]; cbn [ct] in Hp.
  - destruct Hp as [i [Hu [Hi Ha]]].
    apply (R_ext (IW (fupd p (Some (f, true, k)) (it I)) (ib I)) (World S1 (fupd p (Some i) (ut W)) (bl W) (ran W))); try reflexivity.
    + pose proof (call_frame _ _ _ _ _ Ef) as [Hl Hk]. apply R_t; [exact HR| |exact Hk|right; left; congruence].
      exists i. split; [reflexivity|]. rewrite Hl. split; [exact Hi|]. rewrite Hu in Ef. cbn in Ef. rewrite Ha in Ef. cbn in Ef. destruct d; cbn in Ef; injection Ef as <- _ _; [exact Ha|].
      apply at_set. exact Hi.
    + intros q. cbn. symmetry. apply fupd_id. exact Hu.
  - rewrite Hp in Ef. cbn in Ef. injection Ef as <- _ _. apply R_same; auto.
Qed.
Lemma st_BNew b : good_step mem I W (BNew b).
Proof.
  intros W' r Es. cbn [wb_step] in Es. destruct (bl W b); [discriminate|]. cbn in Es. injection Es as <- <-. split; [|intros x [= <-]; reflexivity].
  apply R_same; auto.
Qed.
Lemma st_BTask b p : good_step mem I W (BTask b p).
Proof.
  intros W' r Es. cbn [wb_step] in Es. destruct (bl W b) as [|] eqn:Eb; [discriminate|]. injection Es as Es.
  pose proof (r_t _ _ HR p) as Hp. cbn [ideal promise]. unfold construct in Es. destruct (it I p) as [[[f d] k]|] eqn:Ep; cbn [ct] in Hp.
  - destruct Hp as [i [Hu [Hi Ha]]]. rewrite Hu in Es. destruct (reset_loaded (st W) i None mem Hi) as [S1 [E [Hl [Hal Hk]]]]. rewrite E in Es. injection Es as <- <-.
    split; [|intros x [= <-]; reflexivity].
    assert (R1 : R _ _) by (apply (R_tb I W b p (WB (Some i) None mem true) (ran W) HR); [rewrite Eb; reflexivity|symmetry; exact Hu]).
    apply (R_bk _ _ b S1 (Some (WB (Some (length (st W))) (Some (length (st W))) false true)) (Some (Good f false)) (ran W)) in R1.
    + apply (R_ext _ _ _ _ R1); cbn; auto; intros q; rewrite fupd_fupd; reflexivity.
    + exists (length (st W)). split; [reflexivity|]. split; [lia|]. rewrite Hal, Ha. reflexivity.
    + cbn [bl st]. rewrite fupd_same. cbn. intros j Hj. apply Hk. congruence.
    + right; right. exists (length (st W)). split; [reflexivity|cbn; lia].
  - rewrite Hp in Es. cbn in Es. injection Es as <- <-. split; [|intros x [= <-]; reflexivity].
    apply (R_ext I W); auto. intros q. cbn. apply fupd_id. exact Hp.
Qed.
Lemma st_BFunc b f : good_step mem I W (BFunc b f).
Proof.
  intros W' r Es. cbn [wb_step] in Es. destruct (bl W b) as [|] eqn:Eb; [discriminate|]. cbn [pt_new] in Es. injection Es as Es.
  set (S0 := st W ++ [FS f FWait false]) in *. assert (Hl0 : length S0 = S (length (st W))) by (unfold S0; rewrite app_length; cbn; lia).
  unfold construct in Es. destruct (reset_loaded S0 (length (st W)) None mem ltac:(lia)) as [S1 [E [Hl [Hal Hk]]]]. rewrite E in Es. injection Es as <- <-.
  split; [|intros x [= <-]; reflexivity]. cbn [ideal]. apply R_bk; [exact HR| | |].
  - exists (length S0). split; [reflexivity|]. split; [lia|]. rewrite Hal. unfold S0. rewrite at_app. reflexivity.
  - intros j _ Hj. revert Hj. intros Hj. apply (keeps_trans _ S0); [apply keeps_app|apply Hk; lia|exact Hj].
  - right; right. exists (length S0). split; [reflexivity|lia].
Qed.
Lemma st_BMoveC b b' : good_step mem I W (BMoveC b b').
Proof.
  intros W' r Es. split; [|discriminate]. cbn [wb_step] in Es. destruct (bl W b) as [|] eqn:Eb; [discriminate|]. destruct (bl W b') as [w'|] eqn:Eb'; [|discriminate].
  injection Es as <- <-. cbn [ideal]. apply R_bb; auto; [congruence|rewrite Eb; reflexivity].
Qed.
Lemma st_BMoveA b b' : good_step mem I W (BMoveA b b').
Proof.
  intros W' r Es. split; [|discriminate]. cbn [wb_step] in Es. destruct (Nat.eqb_spec b b') as [|Hne]; [discriminate|].
  destruct (bl W b) as [w|] eqn:Eb; [|discriminate]. destruct (bl W b') as [w'|] eqn:Eb'; [|discriminate]. injection Es as <- <-. cbn [ideal].
  assert (R1 : R (IW (it I) (fupd b None (ib I))) (World (abandon (st W) (tk w)) (ut W) (fupd b None (bl W)) (ran W))).
  { apply R_bk; [exact HR|reflexivity| |left; reflexivity]. rewrite Eb. intros j Hj. apply keeps_abandon. exact Hj. }
  apply (R_bb _ _ b b' w' (WB None None (finished w') (loaded w')) (ran W)) in R1; auto; cbn [bl]; [|rewrite fupd_same; reflexivity|rewrite fupd_other by auto; exact Eb'].
  apply (R_ext _ _ _ _ R1); cbn; auto; intros q; unfold fupd; destruct (Nat.eqb_spec q b); destruct (Nat.eqb_spec q b'); destruct (Nat.eqb_spec b' b); congruence.
Qed.
Lemma st_BExec b : good_step mem I W (BExec b).
Proof.
  intros W' r Es. cbn [wb_step] in Es. destruct (bl W b) as [w|] eqn:Eb; [|discriminate]. destruct (wb_execute (st W) w) as [[[S1 w1] r1] e1] eqn:Ex. injection Es as <- <-.
  pose proof (r_b _ _ HR b) as Hb. destruct (b_some _ _ _ _ HR Eb) as [x Ix]. cbn [ideal promise]. rewrite Ix in *. unfold log, put. cbn [st ut bl].
  pose proof (execute_frame _ _ _ _ _ _ Ex) as [Ft [Fl Fk]]. destruct x as [f d|]; cbn [cb] in Hb.
  - destruct Hb as [i [Hw [Hi Ha]]]. rewrite Eb in Hw. injection Hw as ->. unfold wb_execute in Ex. cbn [finished loaded tk pt_call fut] in Ex. rewrite Ha in Ex. cbn [fstat_ fwork taken] in Ex.
    destruct d; injection Ex as <- <- <- <-.
    + split; [|intros x [= <-]; reflexivity]. apply (R_ext I W); auto; intros q; cbn; apply fupd_id; assumption.
    + split; [|intros x [= <-]; reflexivity]. apply R_bk; [exact HR| |rewrite Eb; exact Fk|right; left; rewrite Eb; reflexivity].
      exists i. split; [reflexivity|]. rewrite Fl. split; [exact Hi|]. rewrite at_set by exact Hi. reflexivity.
  - destruct Hb as [v [Hv Hvi]]. rewrite Eb in Hv. injection Hv as <-. split; [|discriminate].
    apply (R_ext (IW (it I) (fupd b (Some Odd) (ib I))) (World S1 (ut W) (fupd b (Some w1) (bl W)) (ran W))); auto.
    + apply R_bk; [exact HR| |rewrite Eb; exact Fk|right; left; rewrite Eb; exact Ft]. exists w1. split; [reflexivity|]. rewrite Ft, Fl. exact Hvi.
    + intros q. cbn. symmetry. apply fupd_id. exact Ix.
Qed.
Lemma st_BReset b : good_step mem I W (BReset b).
Proof.
  intros W' r Es. cbn [wb_step] in Es. destruct (bl W b) as [w|] eqn:Eb; [|discriminate]. destruct (wb_reset (st W) w) as [[S1 w1] e1] eqn:Ex. injection Es as <- <-.
  pose proof (r_b _ _ HR b) as Hb. destruct (b_some _ _ _ _ HR Eb) as [x Ix]. cbn [ideal promise]. rewrite Ix in *. unfold put.
  destruct x as [f d|]; cbn [cb] in Hb.
  - destruct Hb as [i [Hw [Hi Ha]]]. rewrite Eb in Hw. injection Hw as ->. destruct (reset_loaded (st W) i (Some i) d Hi) as [S2 [E [Hl [Hal Hk]]]]. rewrite E in Ex. injection Ex as <- <- <-.
    split; [|intros x [= <-]; reflexivity]. apply R_bk; [exact HR| |rewrite Eb; cbn; intros j Hj; apply Hk; congruence|right; right; exists (length (st W)); split; [reflexivity|lia]].
    exists (length (st W)). split; [reflexivity|]. split; [lia|]. rewrite Hal, Ha. reflexivity.
  - destruct Hb as [v [Hv Hvi]]. rewrite Eb in Hv. injection Hv as <-. split; [|discriminate].
    pose proof (reset_frame _ _ _ _ _ Ex Hvi) as [Ft [Fv Fk]].
    apply (R_ext (IW (it I) (fupd b (Some Odd) (ib I))) (World S1 (ut W) (fupd b (Some w1) (bl W)) (ran W))); auto.
    + apply R_bk; [exact HR| |rewrite Eb; exact Fk|rewrite Eb; cbn; destruct Ft as [->| ->]; [right; left; reflexivity|right; right; eexists; split; [reflexivity|lia]]]. exists w1. split; [reflexivity|]. exact Fv.
    + intros q. cbn. symmetry. apply fupd_id. exact Ix.
Qed.
Lemma st_BUpdF b f : good_step mem I W (BUpdF b f).
Proof.
  intros W' r Es. cbn [wb_step] in Es. destruct (bl W b) as [w|] eqn:Eb; [|discriminate]. cbn [pt_new] in Es.
  set (S0 := st W ++ [FS f FWait false]) in *. assert (Hl0 : length S0 = S (length (st W))) by (unfold S0; rewrite app_length; cbn; lia).
  assert (Hne : tk w <> Some (length (st W))) by (intros E; assert (own W (inr b) = Some (length (st W))) as Ho by (cbn; rewrite Eb; exact E); pose proof (own_valid I W (inr b) _ HR Ho); lia).
  destruct (update_fresh S0 w (length (st W)) ltac:(lia) Hne) as [S1 [E Ha]]; [unfold S0; rewrite at_app; reflexivity|].
  rewrite E in Es. injection Es as <- <-. pose proof (update_frame _ _ _ _ _ _ E) as [_ [Fl Fk]].
  split; [|intros x [= <-]; reflexivity]. cbn [ideal]. unfold put. apply R_bk; [exact HR| | |right; right; exists (length (st W)); split; [reflexivity|lia]].
  - exists (length (st W)). split; [reflexivity|]. split; [lia|]. rewrite Ha. unfold S0. rewrite at_app. reflexivity.
  - rewrite Eb. cbn. intros j Hj Hjl. revert Hjl. intros Hjl. apply (keeps_trans _ S0); [apply keeps_app|apply Fk; [exact Hj|intros [= <-]; lia]|exact Hjl].
Qed.
Lemma st_BUpdT b p : good_step mem I W (BUpdT b p).
Proof.
  intros W' r Es. cbn [wb_step] in Es. destruct (bl W b) as [w|] eqn:Eb; [|discriminate]. destruct (wb_update (st W) w (ut W p)) as [[S1 w1] e1] eqn:Ex. injection Es as <- <-.
  pose proof (update_frame _ _ _ _ _ _ Ex) as [Ft [Fl Fk]]. cbn [ideal promise].
  (* the old task is given up, then ownership moves, then the rest *)
  assert (R0 : R (IW (it I) (fupd b None (ib I))) (World (abandon (st W) (tk w)) (ut W) (fupd b None (bl W)) (ran W))).
  { apply R_bk; [exact HR|reflexivity| |left; reflexivity]. rewrite Eb. intros j Hj. apply keeps_abandon. exact Hj. }
  assert (Hdis : forall j, ut W p = Some j -> tk w <> Some j).
  { intros j Hu Hw. assert (own W (inr b) = Some j) as Ho by (cbn; rewrite Eb; exact Hw). pose proof (r_own _ _ HR (inl p) (inr b) j Hu Ho). congruence. }
  apply (R_tb _ _ b p w1 (ran W)) in R0; cbn [bl ut]; [|rewrite fupd_same; reflexivity|exact Ft].
  assert (Kx : forall j, ut W p <> Some j -> keeps (abandon (st W) (tk w)) S1 j).
  { clear -Ex. unfold wb_update, wb_reset in Ex. cbn [loaded tk fut] in Ex. destruct (pt_future (abandon (st W) (tk w)) (ut W p)) as [[S2 f2] e2] eqn:Ef.
    apply future_frame in Ef as [_ Hk]. destruct e2; injection Ex as <- _ _; exact Hk. }
  assert (Rx : forall x, cb S1 (Some x) (Some w1) -> R (IW (fupd p None (it I)) (fupd b (Some x) (ib I))) (World S1 (fupd p None (ut W)) (fupd b (Some w1) (bl W)) (ran W))).
  { intros x Hx. apply (R_bk _ _ b S1 (Some w1) (Some x) (ran W)) in R0; cbn [bl st]; [|exact Hx|rewrite fupd_same; cbn [btk]; rewrite Ft; exact Kx|right; left; rewrite fupd_same; reflexivity].
    apply (R_ext _ _ _ _ R0); cbn; auto; intros q; rewrite !fupd_fupd; reflexivity. }
  assert (Ro : R (IW (fupd p None (it I)) (fupd b (Some Odd) (ib I))) (World S1 (fupd p None (ut W)) (fupd b (Some w1) (bl W)) (ran W))).
  { apply Rx. exists w1. split; [reflexivity|]. rewrite Ft, Fl. intros i. apply (own_valid I W (inl p) i HR). }
  pose proof (r_t _ _ HR p) as Hp. destruct (it I p) as [[[f d] k]|]; [|split; [exact Ro|discriminate]].
  destruct d; [split; [exact Ro|discriminate]|]. destruct k; [split; [exact Ro|discriminate]|]. cbn [ct] in Hp. destruct Hp as [i [Hu [Hi Ha]]].
  destruct (update_fresh (st W) w i Hi (Hdis i Hu)) as [S2 [E Ha2]]; [rewrite Ha; reflexivity|]. rewrite Hu, E in Ex. injection Ex as <- <- <-.
  split; [|intros x [= <-]; reflexivity]. apply Rx. exists i. split; [reflexivity|]. rewrite Fl. split; [exact Hi|]. rewrite Ha2, Ha. reflexivity.
Qed.
Lemma st_reads o : (exists b, o = BFin b \/ o = BFut b \/ o = BGet b \/ o = FGet b) -> good_step mem I W o.
Proof.
  intros [b Ho] W' r Es. assert (W' = W /\ ideal I o = I) as [-> ->].
  { destruct Ho as [->|[->|[->| ->]]]; cbn in Es; try (destruct (bl W b); [|discriminate]); injection Es as <- <-; auto. }
  split; [exact HR|]. intros x Hx. pose proof (r_b _ _ HR b) as Hb.
  destruct Ho as [->|[->|[->| ->]]]; cbn [promise wb_step] in Hx, Es; try discriminate Hx; destruct (ib I b) as [[f d|]|]; try discriminate Hx;
    destruct Hb as [i [Hw [Hi Ha]]]; rewrite Hw in Es; injection Es as <-; injection Hx as <-; [reflexivity|].
  cbn. rewrite Ha. destruct d; reflexivity.
Qed.
Lemma st_BDel b : good_step mem I W (BDel b).
Proof.
  intros W' r Es. split; [|discriminate]. cbn [wb_step] in Es. destruct (bl W b) as [w|] eqn:Eb; [|discriminate]. injection Es as <- <-. cbn [ideal].
  apply R_bk; [exact HR|reflexivity| |left; reflexivity]. rewrite Eb. intros j Hj. apply keeps_abandon. exact Hj.
Qed.
Lemma R_step o : good_step mem I W o.
Proof.
  destruct o; try solve [apply st_reads; eauto]; eauto using st_TNew, st_TFut, st_TRun, st_TDel, st_BNew, st_BTask, st_BFunc, st_BMoveC, st_BMoveA, st_BExec, st_BReset, st_BUpdF, st_BUpdT, st_BDel.
Qed.
End Steps.

Lemma R_0 : R iworld0 world0.
Proof. constructor; cbn; [reflexivity|reflexivity|]. intros [|] y i; cbn; discriminate. Qed.

Lemma run_snoc mem os o W : wb_run mem W (os ++ [o]) =
  match wb_run mem W os with
  | None => None
  | Some (W1, rs) => match wb_step mem W1 o with None => None | Some (W2, r) => Some (W2, rs ++ [r]) end
  end.
Proof.
  revert W. induction os as [|o' os IH]; intros W; cbn [wb_run app].
  - destruct (wb_step mem W o) as [[W1 r]|]; reflexivity.
  - destruct (wb_step mem W o') as [[W1 r]|]; [|reflexivity]. rewrite IH. destruct (wb_run mem W1 os) as [[W2 rs]|]; [|reflexivity].
    destruct (wb_step mem W2 o) as [[W3 r3]|]; reflexivity.
Qed.
Lemma R_run mem os : forall W rs, wb_run mem world0 os = Some (W, rs) -> R (ideals os) W.
Proof.
  induction os as [|o os IH] using rev_ind; intros W rs; [intros [= <- _]; exact R_0|]. rewrite run_snoc.
  destruct (wb_run mem world0 os) as [[W1 rs1]|]; [|discriminate]. destruct (wb_step mem W1 o) as [[W2 r]|] eqn:Es; [|discriminate]. intros [= <- _].
  unfold ideals. rewrite fold_left_app. cbn. exact (proj1 (R_step mem _ W1 (IH _ _ eq_refl) o _ _ Es)).
Qed.

(** ** Between renewals, whatever the block *)
Lemma calm_step mem W W' o r b w : wb_step mem W o = Some (W', r) -> ~ renews b o -> bl W b = Some w ->
  exists w', bl W' b = Some w' /\ tk w' = tk w /\ fut w' = fut w /\ loaded w' = loaded w /\
    (finished w = true -> w' = w /\ forall f, o = BExec b -> r <> Ran f) /\ (forall f, o = BExec b -> r = Ran f -> finished w' = true) /\
    (forall c, o = BExec c -> c <> b -> w' = w) /\ ((forall c, o <> BExec c) -> w' = w).
Proof.
  intros Es Hn Hb.
  assert (Q : bl W' b = bl W b -> (o <> BExec b) -> exists w', bl W' b = Some w' /\ tk w' = tk w /\ fut w' = fut w /\ loaded w' = loaded w /\
    (finished w = true -> w' = w /\ forall f, o = BExec b -> r <> Ran f) /\ (forall f, o = BExec b -> r = Ran f -> finished w' = true) /\
    (forall c, o = BExec c -> c <> b -> w' = w) /\ ((forall c, o <> BExec c) -> w' = w)).
  { intros E No. exists w. rewrite E. splits; auto; intros; congruence. }
  destruct o; cbn [renews] in Hn; cbn [wb_step] in Es.
  - cbn [pt_new] in Es. injection Es as <- <-. apply Q; [reflexivity|discriminate].
  - destruct (pt_future (st W) (ut W p)) as [[S1 i1] e1]. injection Es as <- <-. apply Q; [reflexivity|discriminate].
  - destruct (pt_call (st W) (ut W p)) as [[S1 i1] e1]. injection Es as <- <-. apply Q; [reflexivity|discriminate].
  - injection Es as <- <-. apply Q; [reflexivity|discriminate].
  - destruct (bl W b0); [discriminate|]. cbn in Es. injection Es as <- <-. apply Q; [reflexivity|discriminate].
  - destruct (bl W b0); [discriminate|]. injection Es as Es. unfold construct in Es. destruct (wb_reset _ _) as [[S1 w1] [e1|]]; injection Es as <- <-; (apply Q; [|discriminate]); cbn; [reflexivity|apply fupd_other; congruence].
  - destruct (bl W b0); [discriminate|]. cbn [pt_new] in Es. injection Es as Es. unfold construct in Es. destruct (wb_reset _ _) as [[S1 w1] [e1|]]; injection Es as <- <-; (apply Q; [|discriminate]); cbn; [reflexivity|apply fupd_other; congruence].
  - destruct (bl W b0); [discriminate|]. destruct (bl W b'); [|discriminate]. injection Es as <- <-. apply Q; [|discriminate]. cbn. rewrite !fupd_other by intuition congruence. reflexivity.
  - destruct (Nat.eqb b0 b'); [discriminate|]. destruct (bl W b0); [|discriminate]. destruct (bl W b'); [|discriminate]. injection Es as <- <-. apply Q; [|discriminate]. cbn. rewrite !fupd_other by intuition congruence. reflexivity.
  - destruct (Nat.eq_dec b0 b) as [->|Hne].
    + rewrite Hb in Es. unfold wb_execute in Es. destruct (finished w) eqn:Ef; [injection Es as <- <-; exists w; cbn; rewrite fupd_same; splits; auto; intros; congruence|].
      destruct (loaded w) eqn:El.
      * destruct (pt_call (st W) (tk w)) as [[S1 r1] [e1|]]; injection Es as <- <-; (eexists; cbn; rewrite fupd_same; split; [reflexivity|]); cbn; splits; auto; intros; try congruence; try discriminate.
      * injection Es as <- <-. eexists; cbn; rewrite fupd_same; split; [reflexivity|]; cbn; splits; auto; intros; try congruence; try discriminate.
    + destruct (bl W b0) as [w0|]; [|discriminate]. destruct (wb_execute (st W) w0) as [[[S1 w1] r1] e1]. injection Es as <- <-. apply Q; [|congruence]. cbn. apply fupd_other. congruence.
  - destruct (bl W b0) as [w0|]; [|discriminate]. destruct (wb_reset (st W) w0) as [[S1 w1] e1]. injection Es as <- <-. apply Q; [|congruence]. cbn. apply fupd_other. congruence.
  - destruct (bl W b0) as [w0|]; [|discriminate]. cbn [pt_new] in Es. destruct (wb_update _ _ _) as [[S1 w1] e1]. injection Es as <- <-. apply Q; [|congruence]. cbn. apply fupd_other. congruence.
  - destruct (bl W b0) as [w0|]; [|discriminate]. destruct (wb_update _ _ _) as [[S1 w1] e1]. injection Es as <- <-. apply Q; [|congruence]. cbn. apply fupd_other. congruence.
  - destruct (bl W b0) as [w0|]; [|discriminate]. injection Es as <- <-. apply Q; [reflexivity|congruence].
  - destruct (bl W b0) as [w0|]; [|discriminate]. injection Es as <- <-. apply Q; [reflexivity|congruence].
  - destruct (bl W b0) as [w0|]; [|discriminate]. injection Es as <- <-. apply Q; [reflexivity|congruence].
  - injection Es as <- <-. apply Q; [reflexivity|congruence].
  - destruct (bl W b0) as [w0|]; [|discriminate]. injection Es as <- <-. apply Q; [|congruence]. cbn. apply fupd_other. congruence.
Qed.

Lemma calm_fut mem os : forall W W' rs b w, wb_run mem W os = Some (W', rs) -> Forall (fun o => ~ renews b o) os -> bl W b = Some w ->
  exists w', bl W' b = Some w' /\ fut w' = fut w.
Proof.
  induction os as [|o os IH]; intros W W' rs b w Er Hn Hb; cbn [wb_run] in Er; [injection Er as <- _; eauto|].
  destruct (wb_step mem W o) as [[W1 r]|] eqn:Es; [|discriminate]. destruct (wb_run mem W1 os) as [[W2 rs2]|] eqn:E2; [|discriminate]. injection Er as <- _.
  apply Forall_cons in Hn as [Hn1 Hn2]. destruct (calm_step _ _ _ _ _ _ _ Es Hn1 Hb) as [w1 [Hb1 [_ [Hf _]]]].
  destruct (IH _ _ _ _ _ E2 Hn2 Hb1) as [w2 [Hb2 Hf2]]. exists w2. split; [exact Hb2|congruence].
Qed.
Lemma calm_runs mem os : forall W W' rs b w, wb_run mem W os = Some (W', rs) -> Forall (fun o => ~ renews b o) os -> bl W b = Some w ->
  runs b os rs <= (if finished w then 0 else 1).
Proof.
  induction os as [|o os IH]; intros W W' rs b w Er Hn Hb; cbn [wb_run] in Er; [injection Er as <- <-; cbn; lia|].
  destruct (wb_step mem W o) as [[W1 r]|] eqn:Es; [|discriminate]. destruct (wb_run mem W1 os) as [[W2 rs2]|] eqn:E2; [|discriminate]. injection Er as <- <-.
  apply Forall_cons in Hn as [Hn1 Hn2]. destruct (calm_step _ _ _ _ _ _ _ Es Hn1 Hb) as [w1 [Hb1 [_ [_ [_ [H1 [H2 [H3 H4]]]]]]]].
  specialize (IH _ _ _ _ _ E2 Hn2 Hb1).
  assert (Hle : runs b os rs2 <= (if finished w then 0 else 1)).
  { destruct (finished w) eqn:Ef; [|destruct (finished w1); lia]. destruct (H1 eq_refl) as [-> _]. rewrite Ef in IH. exact IH. }
  destruct o; try exact Hle. destruct r; try exact Hle. cbn [runs]. destruct (Nat.eqb_spec b0 b) as [->|]; [|exact Hle].
  rewrite (H2 _ eq_refl eq_refl) in IH. destruct (finished w) eqn:Ef; [|lia]. destruct (H1 eq_refl) as [_ Hx]. exfalso. exact (Hx _ eq_refl eq_refl).
Qed.
