(** WorkQueue: one thread running alone *)
From stdpp Require Import list.
From Verif Require Import Base Conc CondVar SqModel SqSpec SqProofs WqModel WqProofs.

(** ** SimpleQueue operations of one thread alone *)
Section sq.
Context {V : Type}.
Implicit Types (s : sqsh V).
Notation rest := (rest false).

Fixpoint siter (n : nat) s (t : nat) (p : sqpc V) : option (sqsh V * sqpc V) :=
  match n with
  | O => Some (s, p)
  | S n' => match sq_step s t p tt with Some (s', p') => siter n' s' t p' | None => None end
  end.

Lemma rest_cases s : rest s -> exists l k b, s = SqSh None None k l b /\ (l = [] -> k = []) /\ (b = true -> l = []).
Proof.
  intros (E1 & E2 & _ & E4 & E5 & _). destruct s as [x y k l b]. cbn in *. subst. exists l, k, b. split; [reflexivity|]. split; [intros E; apply E4, E|].
  intros E. specialize (E5 E). apply app_eq_nil in E5 as [E5 _]. destruct l; [reflexivity|]. apply app_eq_nil in E5 as [_ E5]. discriminate.
Qed.
Lemma rest_mk (l k : list V) b : (l = [] -> k = []) -> (b = true -> l = []) -> rest (SqSh None None k l b).
Proof.
  intros H1 H2. split; [reflexivity|]. split; [reflexivity|]. split; [reflexivity|]. cbn. split; [auto|]. split; [|discriminate].
  intros E. specialize (H2 E). subst l. rewrite H1 by reflexivity. reflexivity.
Qed.

Lemma pop_alone s t : rest s -> exists n s', rest s' /\
  match sq_content s with
  | [] => siter n s t O0 = Some (s', SqModel.Ret (QVal None)) /\ sq_content s' = []
  | v :: q => siter n s t O0 = Some (s', SqModel.Ret (QVal (Some v))) /\ sq_content s' = q
  end.
Proof.
  intros Hr. destruct (rest_cases s Hr) as (l & k & b & -> & Hk & Hb). unfold sq_content. cbn [pullE pushE].
  destruct l as [|x0 l0] using rev_ind.
  - rewrite Hk by reflexivity. cbn. exists 8%nat, (SqSh None None [] [] true). split; [apply rest_mk; auto|]. split; reflexivity.
  - clear IHl0. rewrite rev_unit. cbn [app]. assert (b = false) as ->. { destruct b; [|reflexivity]. specialize (Hb eq_refl). apply app_eq_nil in Hb as [_ [=]]. }
    assert (Hne : nonempty (l0 ++ [x0]) = true) by (destruct l0; reflexivity).
    destruct l0 as [|y l1].
    + cbn. destruct k as [|z k].
      * exists 10%nat, (SqSh None None [] [] true). split; [apply rest_mk; auto|]. split; reflexivity.
      * exists 11%nat, (SqSh None None [] (rev (z :: k)) false). split; [apply rest_mk; [reflexivity|discriminate]|]. split; [reflexivity|]. cbn [pullE pushE]. rewrite rev_involutive, app_nil_r. reflexivity.
    + exists 6%nat, (SqSh None None k (y :: l1) false). split; [apply rest_mk; discriminate|]. split; [|reflexivity].
      cbn [siter sq_step lock_pull pullL pushL pushE pullE eflag]. rewrite Hne. cbn [siter sq_step cont eflag pullE pushE pullL pushL]. rewrite rev_unit.
      cbn [siter sq_step set_pull eflag pullE pushE pullL pushL]. rewrite rev_involutive. cbn. reflexivity.
Qed.

Lemma empty_alone s t : rest s -> exists b, sq_step s t E0 tt = Some (s, SqModel.Ret (QBool b)) /\ (b = true -> sq_content s = []).
Proof. intros (_ & _ & _ & _ & E & _). exists (eflag s). split; [reflexivity|exact E]. Qed.

Lemma push_alone s t o : rest s -> is_push o -> exists n s', rest s' /\ siter n s t (sq_start o) = Some (s', SqModel.Ret QUnit) /\ sq_content s' = sq_content s ++ elems o.
Proof.
  intros Hr Ho. destruct (rest_cases s Hr) as (l & k & b & -> & Hk & Hb). assert (Es : sq_start o = P0 o) by (destruct o; try destruct Ho; reflexivity). rewrite Es. unfold sq_content. cbn [pullE pushE].
  destruct k as [|z k]; [destruct l as [|y l]|].
  - exists 8%nat, (SqSh None None [] (rev (elems o)) false). split; [apply rest_mk; [reflexivity|discriminate]|]. split; [reflexivity|]. cbn. rewrite rev_involutive, app_nil_r. reflexivity.
  - exists 9%nat, (SqSh None None (elems o) (y :: l) b). split; [apply rest_mk; [discriminate|exact Hb]|]. split; [reflexivity|]. cbn [pullE pushE]. rewrite app_nil_r. reflexivity.
  - exists 4%nat, (SqSh None None ((z :: k) ++ elems o) l b). split; [apply rest_mk; [|exact Hb]; intros E; specialize (Hk E); discriminate|]. split; [reflexivity|]. cbn [pullE pushE]. rewrite app_assoc. reflexivity.
Qed.

Lemma size_alone s t : rest s -> exists n, siter n s t S0 = Some (s, SqModel.Ret (QNum (zlen (sq_content s)))).
Proof.
  intros Hr. destruct (rest_cases s Hr) as (l & k & b & -> & Hk & Hb). exists 5%nat. cbn. unfold sq_content, zlen. cbn [pullE pushE]. rewrite app_length, rev_length. do 4 f_equal. lia.
Qed.

Lemma sq_step_alone_nofin n s t p s' r : siter n s t p = Some (s', SqModel.Ret r) -> forall m, (m < n)%nat -> exists s1 p1, siter m s t p = Some (s1, p1) /\ sq_fin p1 = None.
Proof.
  revert s p. induction n as [|n IH]; intros s p E m Hm; [lia|]. cbn in E. destruct (sq_step s t p tt) as [[s1 p1]|] eqn:Es; [|discriminate].
  destruct m as [|m]; cbn.
  - exists s, p. split; [reflexivity|]. destruct p; try reflexivity. discriminate.
  - rewrite Es. apply IH; [exact E|lia].
Qed.
End sq.

(** ** WorkQueue *)
Section wq.
Variable nw : nat.
Notation wqcfg := (cfg wqsh wqpc).
Implicit Types (s : wqsh) (c : wqcfg).
Notation rest := (rest (V := ptr) false).

Definition content (i : lvl) s : list ptr := sq_content (qof i s).
(** No queue is locked. *)
Definition unlocked s : Prop := forall i, pushL (qof i s) = None /\ pullL (qof i s) = None.
Definition rests s : Prop := forall i, rest (qof i s).

Lemma proj_rests c : (forall i, qproj sq0 i c) -> unlocked (sh c) -> rests (sh c).
Proof.
  intros Hq Hu i. destruct (Hq i) as (xs & ci & H & Er & Esh & Eth). destruct (Hu i) as [E1 E2].
  destruct (sq_sim false _ _ _ _ (reach_rest _ _ (sqr_new false)) (fun E => False_rect _ (Bool.diff_false_true E)) Er) as (q & f & _ & [_ _ _ R4]).
  rewrite Esh, E1, E2 in R4. cbn in R4. split; [exact E1|]. split; [exact E2|]. pose proof R4 as (Eq & _). rewrite Eq in R4. exact R4.
Qed.

Fixpoint witer (n : nat) s (t : nat) pc : option (wqsh * wqpc) :=
  match n with
  | O => Some (s, pc)
  | S n' => match wq_step nw s t pc CStep with Some (s', pc') => witer n' s' t pc' | None => None end
  end.
Lemma witer_app n m s t pc s' pc' : witer n s t pc = Some (s', pc') -> witer (n + m)%nat s t pc = witer m s' t pc'.
Proof.
  revert s pc. induction n as [|n IH]; intros s pc; cbn [witer Nat.add]; [intros [= <- <-]; reflexivity|].
  destruct (wq_step nw s t pc CStep) as [[s1 pc1]|]; [apply IH|discriminate].
Qed.

Definition noclr (p : sqpc ptr) : Prop := match p with L0 | L1 | L2 | L3 => False | _ => True end.
Lemma noclr_step q t p q' p' : noclr p -> sq_step q t p tt = Some (q', p') -> noclr p' /\ dropping q p = [].
Proof.
  destruct p; cbn [noclr]; try (intros []; fail); intros _; cbn [sq_step]; unfold lock_push, lock_pull;
    try (match goal with |- (match ?x with _ => _ end = _) -> _ => destruct x end); try discriminate; intros [= <- <-]; (split; [|reflexivity]); try exact I;
    try (match goal with |- noclr (if ?x then _ else _) => destruct x end); try exact I; match goal with |- noclr (cont ?k) => destruct k; exact I end.
Qed.
Lemma log_drop_nil s : log_drop [] s = s.
Proof. destruct s. unfold log_drop. cbn. rewrite app_nil_r. reflexivity. Qed.
Lemma set_set i q q' s : set_q i q' (set_q i q s) = set_q i q' s.
Proof. destruct i; reflexivity. Qed.
Lemma qof_set_same i q s : qof i (set_q i q s) = q.
Proof. destruct i; reflexivity. Qed.
Lemma set_q_same i s : set_q i (qof i s) s = s.
Proof. destruct i, s; reflexivity. Qed.

(** The steps of a queue operation are steps of the WorkQueue. *)
Lemma sub_iter n : forall s t i p k q' r, noclr p -> siter n (qof i s) t p = Some (q', SqModel.Ret r) -> witer n s t (Sub i p k) = Some (set_q i q' s, Sub i (SqModel.Ret r) k).
Proof.
  induction n as [|n IH]; intros s t i p k q' r Hp; cbn [siter witer].
  - intros [= <- ->]. rewrite set_q_same. reflexivity.
  - destruct (sq_step (qof i s) t p tt) as [[q1 p1]|] eqn:Es; [|discriminate]. intros E. destruct (noclr_step _ _ _ _ _ Hp Es) as [Hp1 Hd].
    assert (Ef : sq_fin p = None) by (destruct p; try reflexivity; discriminate).
    cbn [wq_step wq_step0]. rewrite Ef, Es, Hd, log_drop_nil. rewrite (IH (set_q i q1 s) t i p1 k q' r Hp1), set_set; [reflexivity|]. rewrite qof_set_same. exact E.
Qed.

Lemma rests_set i q s : rests s -> rest q -> rests (set_q i q s).
Proof. intros Hr Hq j. rewrite qof_set. destruct (lvl_eqb_spec j i) as [->|]; [exact Hq|apply Hr]. Qed.
Lemma content_set i j q s : content j (set_q i q s) = if lvl_eqb j i then sq_content q else content j s.
Proof. unfold content. rewrite qof_set. destruct (lvl_eqb j i); reflexivity. Qed.

(** What stays the same *)
Definition same s s' : Prop := medc s' = medc s /\ ratio s' = ratio s /\ got s' = got s /\ bfin s' = bfin s /\ halt s' = halt s.
Lemma same_refl s : same s s.
Proof. split; [|split; [|split; [|split]]]; reflexivity. Qed.
Lemma same_set i q s : same s (set_q i q s).
Proof. destruct i; (split; [|split; [|split; [|split]]]; reflexivity). Qed.
Lemma same_trans s1 s2 s3 : same s1 s2 -> same s2 s3 -> same s1 s3.
Proof. intros (A1 & A2 & A3 & A4 & A5) (B1 & B2 & B3 & B4 & B5). split; [|split; [|split; [|split]]]; congruence. Qed.

(** pop() of one queue *)
Lemma pop_sub s t i k : rests s -> exists n q', let s' := set_q i q' s in rests s' /\
  match content i s with
  | [] => witer n s t (Sub i (sq_start QPop) k) = Some (s', Sub i (SqModel.Ret (QVal None)) k) /\ (forall j, content j s' = content j s)
  | x :: l => witer n s t (Sub i (sq_start QPop) k) = Some (s', Sub i (SqModel.Ret (QVal (Some x))) k) /\ content i s' = l /\ (forall j, j <> i -> content j s' = content j s)
  end.
Proof.
  intros Hr. destruct (pop_alone (qof i s) t (Hr i)) as (n & q' & Hq & Hc). exists n, q'. cbn zeta. split; [apply rests_set; assumption|]. unfold content at 1. cbn [sq_start].
  destruct (sq_content (qof i s)) as [|x l] eqn:Ec; destruct Hc as [E1 E2].
  - split; [apply sub_iter; [exact I|exact E1]|]. intros j. rewrite content_set. destruct (lvl_eqb_spec j i) as [->|]; [|reflexivity]. unfold content. congruence.
  - split; [apply sub_iter; [exact I|exact E1]|]. split; [rewrite content_set; destruct (lvl_eqb_spec i i); congruence|].
    intros j Hj. rewrite content_set. destruct (lvl_eqb_spec j i); [contradiction|reflexivity].
Qed.

(** The result of getWorkBlock: the level, the block and the counter afterwards *)
Definition choice s : option (lvl * ptr * Z) :=
  match content Hi s with
  | x :: _ => Some (Hi, x, medc s)
  | [] =>
      match content Med s, content Lo s with
      | [], [] => None
      | x :: _, [] => Some (Med, x, wrap32 (medc s + 1))
      | [], x :: _ => Some (Lo, x, if ratio s <=? medc s then 0 else medc s)
      | x :: _, y :: _ => if ratio s <=? medc s then Some (Lo, y, 0) else Some (Med, x, wrap32 (medc s + 1))
      end
  end.
Definition picked s (x : ptr) s' : Prop :=
  rests s' /\ got s' = got s /\ ratio s' = ratio s /\ bfin s' = bfin s /\ halt s' = halt s /\
  match choice s with
  | None => x = None /\ medc s' = medc s /\ forall j, content j s' = content j s
  | Some (i, y, m) => x = y /\ medc s' = m /\ content i s = x :: content i s' /\ forall j, j <> i -> content j s' = content j s
  end.
Definition will_hand s t g x s1 s2 pc1 : Prop := got s1 = got s /\ wq_step nw s1 t pc1 CStep = Some (hand s2 t x g) /\ picked s x s2.

Lemma med_then_low s0 s t g : rests s -> same s0 s -> (forall j, content j s = content j s0) -> content Hi s0 = [] ->
  (medc s0 < ratio s0 \/ content Lo s0 = [])%Z ->
  exists n s1 pc1 x s2, witer n s t (Sub Med (sq_start QPop) (KPop3 g)) = Some (s1, pc1) /\ will_hand s0 t g x s1 s2 pc1.
Proof.
  intros Hr Hs Hc Hh Hm. destruct (pop_sub s t Med (KPop3 g) Hr) as (n1 & q1 & Hr1 & Hp). cbn zeta in *. pose proof Hs as (Z1 & Z2 & Z3 & Z4 & Z5).
  destruct (content Med s) as [|x l] eqn:Em.
  - destruct Hp as [E1 Ec1]. destruct (pop_sub (set_q Med q1 s) t Lo (KPop4 g) Hr1) as (n2 & q2 & Hr2 & Hp2). cbn zeta in *. rewrite Ec1 in Hp2.
    set (sa := set_q Med q1 s) in *. set (sb := set_q Lo q2 sa) in *. rewrite Hc in Em. rewrite Hc in Hp2.
    destruct (content Lo s0) as [|x l] eqn:El; destruct Hp2 as [E2 Ec2].
    + exists (n1 + (1 + n2))%nat, sb, (Sub Lo (SqModel.Ret (QVal None)) (KPop4 g)), None, sb. split; [rewrite (witer_app _ _ _ _ _ _ _ E1); cbn [witer Nat.add wq_step wq_step0 sq_fin resume]; exact E2|].
      split; [exact Z3|]. split; [reflexivity|]. split; [exact Hr2|]. split; [exact Z3|]. split; [exact Z2|]. split; [exact Z4|]. split; [exact Z5|]. unfold choice. rewrite Hh, Em, El.
      split; [reflexivity|]. split; [exact Z1|]. intros j. rewrite Ec2, Ec1, Hc. reflexivity.
    + destruct Ec2 as [Ec2 Ec3]. exists (n1 + (1 + n2))%nat, sb, (Sub Lo (SqModel.Ret (QVal (Some x))) (KPop4 g)), x, sb.
      split; [rewrite (witer_app _ _ _ _ _ _ _ E1); cbn [witer Nat.add wq_step wq_step0 sq_fin resume]; exact E2|].
      split; [exact Z3|]. split; [reflexivity|]. split; [exact Hr2|]. split; [exact Z3|]. split; [exact Z2|]. split; [exact Z4|]. split; [exact Z5|]. unfold choice. rewrite Hh, Em, El.
      split; [reflexivity|]. assert (medc s0 < ratio s0)%Z by (destruct Hm; [assumption|discriminate]). destruct (Z.leb_spec (ratio s0) (medc s0)); [lia|].
      split; [exact Z1|]. split; [rewrite Ec2; exact El|]. intros j Hj. rewrite Ec3 by exact Hj. rewrite Ec1, Hc. reflexivity.
  - destruct Hp as (E1 & Ec1 & Ec2). set (sa := set_q Med q1 s) in *. rewrite Hc in Em.
    exists (n1 + 1)%nat, sa, (G3 x g), x, (set_medc (wrap32 (medc sa + 1)) sa). split; [rewrite (witer_app _ _ _ _ _ _ _ E1); reflexivity|].
    split; [exact Z3|]. split; [reflexivity|]. split; [intros j; destruct j; [apply (Hr1 Hi)|apply (Hr1 Med)|apply (Hr1 Lo)]|]. split; [exact Z3|]. split; [exact Z2|]. split; [exact Z4|]. split; [exact Z5|]. unfold choice. rewrite Hh, Em.
    assert (Hch : match content Lo s0 with [] => Some (Med, x, wrap32 (medc s0 + 1)) | y :: _ => if (ratio s0 <=? medc s0)%Z then Some (Lo, y, 0%Z) else Some (Med, x, wrap32 (medc s0 + 1)) end = Some (Med, x, wrap32 (medc s0 + 1))).
    { destruct (content Lo s0) as [|y k] eqn:El; [reflexivity|]. destruct Hm as [Hm|[=]]. destruct (Z.leb_spec (ratio s0) (medc s0)); [lia|reflexivity]. }
    rewrite Hch. split; [reflexivity|]. split; [cbn; change (medc sa) with (medc s); rewrite Z1; reflexivity|]. split.
    + rewrite Em. f_equal. symmetry. exact Ec1.
    + intros j Hj. rewrite <- Hc. rewrite <- Ec2 by exact Hj. destruct j; reflexivity.
Qed.

Lemma get_alone s t g : rests s -> exists n s1 pc1 x s2, witer n s t (gstart g) = Some (s1, pc1) /\ will_hand s t g x s1 s2 pc1.
Proof.
  intros Hr. unfold gstart. destruct (pop_sub s t Hi (KPop1 g) Hr) as (n1 & q1 & Hr1 & Hp). cbn zeta in *. set (sa := set_q Hi q1 s) in *.
  destruct (content Hi s) as [|x l] eqn:Eh.
  2: { destruct Hp as (E1 & Ec1 & Ec2). exists n1, sa, (Sub Hi (SqModel.Ret (QVal (Some x))) (KPop1 g)), x, sa. split; [exact E1|].
    split; [reflexivity|]. split; [reflexivity|]. split; [exact Hr1|]. do 4 (split; [reflexivity|]). unfold choice. rewrite Eh. split; [reflexivity|]. split; [reflexivity|]. split; [rewrite Ec1; exact Eh|exact Ec2]. }
  destruct Hp as [E1 Ec1]. assert (E2 : witer (n1 + 3)%nat s t (Sub Hi (sq_start QPop) (KPop1 g)) = Some (sa, if (ratio s <=? medc s)%Z then Sub Lo (sq_start QEmpty) (KLowE g) else Sub Med (sq_start QPop) (KPop3 g))).
  { rewrite (witer_app _ _ _ _ _ _ _ E1). cbn [witer wq_step wq_step0 sq_fin resume]. reflexivity. }
  destruct (Z.leb_spec (ratio s) (medc s)) as [Hle|Hlt].
  2: { destruct (med_then_low s sa t g Hr1 (same_set _ _ _) Ec1 Eh (or_introl Hlt)) as (n & s1 & pc1 & x & s2 & E3 & Hw).
    exists ((n1 + 3) + n)%nat, s1, pc1, x, s2. split; [rewrite (witer_app _ _ _ _ _ _ _ E2); exact E3|exact Hw]. }
  destruct (empty_alone (qof Lo sa) t (Hr1 Lo)) as (b & Eb & Hb).
  assert (E3 : witer ((n1 + 3) + 2)%nat s t (Sub Hi (sq_start QPop) (KPop1 g)) = Some (sa, if b then Sub Med (sq_start QPop) (KPop3 g) else Sub Lo (sq_start QPop) (KPop2 g))).
  { rewrite (witer_app _ _ _ _ _ _ _ E2). cbn [witer wq_step wq_step0 sq_fin sq_start]. rewrite Eb. cbn [dropping]. rewrite log_drop_nil, set_q_same. cbn [wq_step wq_step0 sq_fin resume]. reflexivity. }
  destruct b.
  { assert (El : content Lo s = []) by (rewrite <- (Ec1 Lo); apply Hb; reflexivity).
    destruct (med_then_low s sa t g Hr1 (same_set _ _ _) Ec1 Eh (or_intror El)) as (n & s1 & pc1 & x & s2 & E4 & Hw).
    exists ((n1 + 3 + 2) + n)%nat, s1, pc1, x, s2. split; [rewrite (witer_app _ _ _ _ _ _ _ E3); exact E4|exact Hw]. }
  destruct (pop_sub sa t Lo (KPop2 g) Hr1) as (n2 & q2 & Hr2 & Hp2). cbn zeta in *. set (sb := set_q Lo q2 sa) in *. rewrite Ec1 in Hp2.
  destruct (content Lo s) as [|x l] eqn:El.
  - destruct Hp2 as [E4 Ec2]. assert (E5 : witer ((n1 + 3 + 2) + (n2 + 1))%nat s t (Sub Hi (sq_start QPop) (KPop1 g)) = Some (sb, Sub Med (sq_start QPop) (KPop3 g))).
    { rewrite (witer_app _ _ _ _ _ _ _ E3), (witer_app _ _ _ _ _ _ _ E4). reflexivity. }
    destruct (med_then_low s sb t g Hr2) as (n & s1 & pc1 & x & s2 & E6 & Hw); [apply (same_trans _ sa); apply same_set|intros j; rewrite Ec2; apply Ec1|exact Eh|right; exact El|].
    exists ((n1 + 3 + 2 + (n2 + 1)) + n)%nat, s1, pc1, x, s2. split; [rewrite (witer_app _ _ _ _ _ _ _ E5); exact E6|exact Hw].
  - destruct Hp2 as (E4 & Ec2 & Ec3). exists ((n1 + 3 + 2) + (n2 + 1))%nat, sb, (G2 x g), x, (set_medc 0 sb).
    split; [rewrite (witer_app _ _ _ _ _ _ _ E3), (witer_app _ _ _ _ _ _ _ E4); reflexivity|]. split; [reflexivity|]. split; [reflexivity|].
    split; [intros j; destruct j; [apply (Hr2 Hi)|apply (Hr2 Med)|apply (Hr2 Lo)]|]. do 4 (split; [reflexivity|]). unfold choice. rewrite Eh, El.
    assert (Hx : match content Med s with [] => Some (Lo, x, if (ratio s <=? medc s)%Z then 0%Z else medc s) | x0 :: _ => if (ratio s <=? medc s)%Z then Some (Lo, x, 0%Z) else Some (Med, x0, wrap32 (medc s + 1)) end = Some (Lo, x, 0%Z)).
    { destruct (Z.leb_spec (ratio s) (medc s)); [|lia]. destruct (content Med s); reflexivity. }
    rewrite Hx. split; [reflexivity|]. split; [reflexivity|]. split; [rewrite El; f_equal; symmetry; exact Ec2|].
    intros j Hj. rewrite <- Ec1, <- Ec3 by exact Hj. destruct j; reflexivity.
Qed.
End wq.
