(** Linearizability in the words of Herlihy and Wing: the operations of the history, each identified by the position of its
    call, can be put in one sequence that an atomic object allows and that keeps the order of operations not overlapping
    in time.  [linearizable] of Conc.v implies it. *)
From stdpp Require Import list.
From Verif Require Import Base Conc.

Section hw.
Context {Q Op Rt : Type}.
Variable spec : Q -> Op -> Rt -> Q -> Prop.
Notation hist := (list (hev Op Rt)).
Implicit Types (H : hist) (L : list (nat * Op * Rt)).

Definition tid (e : hev Op Rt) : nat := match e with HInv t _ | HRet t _ => t end.

(** Thread [t] calls [o] at position [i]; at position [j] that call returns [r]. *)
Definition ret_of H (i j t : nat) (o : Op) (r : Rt) : Prop :=
  (i < j)%nat /\ H !! i = Some (HInv t o) /\ H !! j = Some (HRet t r) /\ forall k e, (i < k < j)%nat -> H !! k = Some e -> tid e <> t.

Inductive legal : Q -> list (nat * Op * Rt) -> Q -> Prop :=
| lg_nil q : legal q [] q
| lg_cons q i o r q1 L q' : spec q o r q1 -> legal q1 L q' -> legal q ((i, o, r) :: L) q'.

Definition before L (i i' : nat) : Prop := exists L1 x L2 y, L = L1 ++ x :: L2 /\ x.1.1 = i /\ In y L2 /\ y.1.1 = i'.

(** [L] is a linearization of [H] that leads from content [q] to [q']. *)
Record linearization H q L q' : Prop := {
  hw_legal : legal q L q';
  hw_once : NoDup (map (fun x => x.1.1) L);
  hw_ops : forall i o r, In (i, o, r) L -> exists t, H !! i = Some (HInv t o);
  hw_ret : forall i j t o r, ret_of H i j t o r -> In (i, o, r) L;
  hw_order : forall i j t o r y, ret_of H i j t o r -> In y L -> (j < y.1.1)%nat -> before L i y.1.1;
}.

Lemma legal_app q L1 q1 L2 q2 : legal q L1 q1 -> legal q1 L2 q2 -> legal q (L1 ++ L2) q2.
Proof. induction 1; cbn; [auto|]. intros. econstructor; eauto. Qed.
Lemma legal_app_inv L1 : forall q L2 q2, legal q (L1 ++ L2) q2 -> exists q1, legal q L1 q1 /\ legal q1 L2 q2.
Proof.
  induction L1 as [|x L1 IH]; intros q L2 q2 Hl; cbn in Hl; [exists q; split; [constructor|exact Hl]|].
  inversion Hl as [|? i o r q1 ? ? Hs Hl']; subst. destruct (IH _ _ _ Hl') as (q3 & H1 & H2). exists q3. split; [econstructor; eassumption|exact H2].
Qed.

Lemma before_app L L' i i' : before L i i' -> before (L ++ L') i i'.
Proof. intros (L1 & x & L2 & y & -> & E & Hy & E'). exists L1, x, (L2 ++ L'), y. rewrite <- app_assoc. cbn. rewrite in_app_iff. auto. Qed.

Lemma before_antisym L i i' : NoDup (map (fun x => x.1.1) L) -> before L i i' -> before L i' i -> False.
Proof.
  intros Hnd (L1 & x & L2 & y & -> & E1 & Hy & E2) (M1 & x' & M2 & y' & E & E3 & Hy' & E4). subst i i'.
  revert M1 E Hnd. induction L1 as [|z L1 IH]; intros M1 E Hnd; cbn in *; apply NoDup_cons in Hnd as [Hz Hnd]; rewrite elem_of_list_In, in_map_iff in Hz.
  - destruct M1 as [|m M1]; cbn in E; injection E as -> ->; apply Hz; [eauto|]. exists y'. split; [congruence|]. apply in_app_iff. right. right. exact Hy'.
  - destruct M1 as [|m M1]; cbn in E; [|injection E as _ E; eauto]. injection E as -> <-. apply Hz. exists y. split; [congruence|]. apply in_app_iff. right. right. exact Hy.
Qed.

(** The last event of a thread *)
Definition last_ev H t (i : nat) (e : hev Op Rt) : Prop := H !! i = Some e /\ tid e = t /\ forall k e', (i < k)%nat -> H !! k = Some e' -> tid e' <> t.

Record hwI H q L q' (f : nat -> ast Op Rt) : Prop := {
  w_lin : linearization H q L q';
  w_idle : forall t, f t = AIdle -> forall i o, ~ last_ev H t i (HInv t o);
  w_pend : forall t o, f t = APend o -> exists i, last_ev H t i (HInv t o) /\ forall y, In y L -> y.1.1 <> i;
  w_done : forall t r, f t = ADone r -> exists i o, last_ev H t i (HInv t o) /\ In (i, o, r) L;
  w_back : forall i o r t, In (i, o, r) L -> H !! i = Some (HInv t o) -> (exists j, ret_of H i j t o r) \/ (f t = ADone r /\ last_ev H t i (HInv t o));
}.

Lemma lookup_snoc H e i x : (H ++ [e]) !! i = Some x -> H !! i = Some x \/ i = length H /\ x = e.
Proof.
  intros Hx. destruct (decide (i < length H)%nat) as [Hl|Hl]; [left; rewrite lookup_app_l in Hx by exact Hl; exact Hx|right].
  rewrite lookup_app_r in Hx by lia. destruct (i - length H)%nat as [|n] eqn:E; [|discriminate]. injection Hx as <-. split; [lia|reflexivity].
Qed.
Lemma lookup_old H e i x : H !! i = Some x -> (H ++ [e]) !! i = Some x.
Proof. intros Hx. apply lookup_app_l_Some, Hx. Qed.
Lemma lookup_new H e : (H ++ [e]) !! length H = Some e.
Proof. rewrite lookup_app_r by lia. rewrite Nat.sub_diag. reflexivity. Qed.
Lemma lookup_lt H i x : H !! i = Some x -> (i < length H)%nat.
Proof. apply lookup_lt_Some. Qed.

Lemma last_new H e t : tid e = t -> last_ev (H ++ [e]) t (length H) e.
Proof.
  intros E. split; [apply lookup_new|]. split; [exact E|]. intros k e' Hk Hx. apply lookup_lt in Hx. rewrite app_length in Hx. cbn in Hx. lia.
Qed.
Lemma last_old H e t i x : tid e <> t -> last_ev H t i x <-> last_ev (H ++ [e]) t i x.
Proof.
  intros Hne. split; intros (H1 & H2 & H3).
  - split; [apply lookup_old, H1|]. split; [exact H2|]. intros k e' Hk Hx. apply lookup_snoc in Hx as [Hx|[-> ->]]; eauto.
  - assert (Hi : H !! i = Some x) by (apply lookup_snoc in H1 as [H1|[-> ->]]; [exact H1|contradiction]).
    split; [exact Hi|]. split; [exact H2|]. intros k e' Hk Hx. eapply H3; [exact Hk|apply lookup_old, Hx].
Qed.
Lemma last_uniq H t i x j y : last_ev H t i x -> last_ev H t j y -> i = j /\ x = y.
Proof.
  intros (H1 & H2 & H3) (H4 & H5 & H6). destruct (lt_eq_lt_dec i j) as [[Hl| ->]|Hl].
  - destruct (H3 _ _ Hl H4 H5).
  - split; [reflexivity|congruence].
  - destruct (H6 _ _ Hl H1 H2).
Qed.
Lemma ret_old H e i j t o r : ret_of H i j t o r -> ret_of (H ++ [e]) i j t o r.
Proof.
  intros (H1 & H2 & H3 & H4). split; [exact H1|]. split; [apply lookup_old, H2|]. split; [apply lookup_old, H3|].
  intros k e' Hk Hx. apply lookup_snoc in Hx as [Hx|[-> ->]]; [eauto|]. apply lookup_lt in H3. lia.
Qed.
Lemma ret_snoc H e i j t o r : ret_of (H ++ [e]) i j t o r -> ret_of H i j t o r \/ (j = length H /\ e = HRet t r /\ last_ev H t i (HInv t o)).
Proof.
  intros (H1 & H2 & H3 & H4). apply lookup_snoc in H3 as [H3|[-> <-]].
  - left. pose proof (lookup_lt _ _ _ H3). apply lookup_snoc in H2 as [H2|[-> _]]; [|lia].
    split; [exact H1|]. split; [exact H2|]. split; [exact H3|]. intros k e' Hk Hx. eapply H4; [exact Hk|apply lookup_old, Hx].
  - right. split; [reflexivity|]. split; [reflexivity|]. apply lookup_snoc in H2 as [H2|[-> _]]; [|lia].
    split; [exact H2|]. split; [reflexivity|]. intros k e' Hk Hx. eapply H4; [|apply lookup_old, Hx]. split; [exact Hk|]. eapply lookup_lt, Hx.
Qed.

Lemma hwI_inv H q L q' f t o : hwI H q L q' f -> f t = AIdle -> hwI (H ++ [HInv t o]) q L q' (fupd t (APend o) f).
Proof.
  intros [[Hl Ho Hp Hr Hd] Wi Wp Wd Wb] Et. split.
  - split; auto.
    + intros i o' r Hi. destruct (Hp i o' r Hi) as [u E]. exists u. apply lookup_old, E.
    + intros i j u o' r Hx. apply ret_snoc in Hx as [Hx|(_ & ? & _)]; [eauto|discriminate].
    + intros i j u o' r y Hx. apply ret_snoc in Hx as [Hx|(_ & ? & _)]; [eauto|discriminate].
  - intros u. unfold fupd. destruct (Nat.eqb_spec u t) as [->|Hne]; [discriminate|]. intros Eu i o'. rewrite <- last_old by (cbn; congruence). auto.
  - intros u o'. unfold fupd. destruct (Nat.eqb_spec u t) as [->|Hne].
    + intros [= ->]. exists (length H). split; [apply last_new; reflexivity|]. intros [[i o1] r1] Hy E. cbn in E. subst i. destruct (Hp _ _ _ Hy) as [v E]. apply lookup_lt in E. lia.
    + intros Eu. destruct (Wp u o' Eu) as (i & Hi & Hn). exists i. rewrite <- last_old by (cbn; congruence). auto.
  - intros u r. unfold fupd. destruct (Nat.eqb_spec u t) as [->|Hne]; [discriminate|]. intros Eu. destruct (Wd u r Eu) as (i & o' & Hi & Hn).
    exists i, o'. rewrite <- last_old by (cbn; congruence). auto.
  - intros i o' r u Hi Hx. destruct (Hp _ _ _ Hi) as [v Hv]. rewrite (lookup_old _ _ _ _ Hv) in Hx. injection Hx as ->.
    destruct (Wb i o' r u Hi Hv) as [[j Hj]|[Hj1 Hj2]]; [left; exists j; apply ret_old, Hj|right].
    destruct (Nat.eq_dec u t) as [->|Hne]; [congruence|]. rewrite fupd_other by exact Hne. rewrite <- last_old by (cbn; congruence). auto.
Qed.

Lemma hwI_eff H q L q1 f t o r q2 : hwI H q L q1 f -> f t = APend o -> spec q1 o r q2 -> exists i, hwI H q (L ++ [(i, o, r)]) q2 (fupd t (ADone r) f).
Proof.
  intros [[Hl Ho Hp Hr Hd] Wi Wp Wd Wb] Et Hs. destruct (Wp t o Et) as (i & Hi & Hn). exists i.
  assert (Hin : forall y, In y (L ++ [(i, o, r)]) <-> In y L \/ y = (i, o, r)) by (intros y; rewrite in_app_iff; cbn; intuition congruence).
  split.
  - split.
    + eapply legal_app; [exact Hl|]. econstructor; [exact Hs|constructor].
    + rewrite map_app. cbn. apply NoDup_app. split; [exact Ho|]. split; [|apply NoDup_singleton]. intros x Hx Hx'. apply elem_of_list_singleton in Hx' as ->.
      apply elem_of_list_In, in_map_iff in Hx as (y & E & Hy). apply (Hn y Hy E).
    + intros i' o' r' Hx. apply Hin in Hx as [Hx|[= -> -> ->]]; [eauto|]. exists t. apply Hi.
    + intros i' j u o' r' Hx. apply Hin. left. eauto.
    + intros i' j u o' r' y Hx Hy Hlt. apply Hin in Hy as [Hy| ->]; [apply before_app; eauto|]. cbn.
      pose proof (Hr _ _ _ _ _ Hx) as Hx'. apply in_split in Hx' as (L1 & L2 & ->).
      exists L1, (i', o', r'), (L2 ++ [(i, o, r)]), (i, o, r). rewrite <- app_assoc. cbn. rewrite in_app_iff. cbn. auto 10.
  - intros u. unfold fupd. destruct (Nat.eqb_spec u t) as [->|Hne]; [discriminate|]. auto.
  - intros u o'. unfold fupd. destruct (Nat.eqb_spec u t) as [->|Hne]; [discriminate|]. intros Eu. destruct (Wp u o' Eu) as (i' & Hi' & Hn').
    exists i'. split; [exact Hi'|]. intros y Hy. apply Hin in Hy as [Hy| ->]; [auto|]. cbn. intros ->. destruct Hi as (X1 & X2 & X3), Hi' as (Y1 & Y2 & Y3). rewrite X1 in Y1. injection Y1 as ->. contradiction.
  - intros u r'. unfold fupd. destruct (Nat.eqb_spec u t) as [->|Hne].
    + intros [= ->]. exists i, o. split; [exact Hi|]. apply Hin. auto.
    + intros Eu. destruct (Wd u r' Eu) as (i' & o' & Hi' & Hx). exists i', o'. split; [exact Hi'|]. apply Hin. auto.
  - intros i' o' r' u Hx Hu. apply Hin in Hx as [Hx|[= -> -> ->]].
    + destruct (Wb _ _ _ _ Hx Hu) as [Hj|[Hj1 Hj2]]; [auto|right]. destruct (Nat.eq_dec u t) as [->|Hne]; [congruence|]. rewrite fupd_other by exact Hne. auto.
    + right. destruct Hi as (X1 & X2 & X3). rewrite X1 in Hu. injection Hu as <-. rewrite fupd_same. split; [reflexivity|]. split; auto.
Qed.

Lemma hwI_ret H q L q' f t r : hwI H q L q' f -> f t = ADone r -> hwI (H ++ [HRet t r]) q L q' (fupd t AIdle f).
Proof.
  intros [[Hl Ho Hp Hr Hd] Wi Wp Wd Wb] Et. destruct (Wd t r Et) as (i0 & o0 & Hi0 & Hx0). split.
  - split; auto.
    + intros i o' r' Hi. destruct (Hp i o' r' Hi) as [u E]. exists u. apply lookup_old, E.
    + intros i j u o' r' Hx. apply ret_snoc in Hx as [Hx|(-> & [= <- <-] & Hx)]; [eauto|]. destruct (last_uniq _ _ _ _ _ _ Hx Hi0) as [-> [= ->]]. exact Hx0.
    + intros i j u o' r' [[i' o1] r1] Hx Hy Hlt. apply ret_snoc in Hx as [Hx|(-> & _ & Hx)]; [eauto|]. cbn in Hlt. destruct (Hp _ _ _ Hy) as [v E]. apply lookup_lt in E. lia.
  - intros u. unfold fupd. destruct (Nat.eqb_spec u t) as [->|Hne].
    + intros _ i o' Hx. destruct (last_uniq _ _ _ _ _ _ Hx (last_new H (HRet t r) t eq_refl)). discriminate.
    + intros Eu i o'. rewrite <- last_old by (cbn; congruence). auto.
  - intros u o'. unfold fupd. destruct (Nat.eqb_spec u t) as [->|Hne]; [discriminate|]. intros Eu. destruct (Wp u o' Eu) as (i & Hi & Hn). exists i. rewrite <- last_old by (cbn; congruence). auto.
  - intros u r'. unfold fupd. destruct (Nat.eqb_spec u t) as [->|Hne]; [discriminate|]. intros Eu. destruct (Wd u r' Eu) as (i & o' & Hi & Hn).
    exists i, o'. rewrite <- last_old by (cbn; congruence). auto.
  - intros i o' r' u Hi Hx. destruct (Hp _ _ _ Hi) as [v Hv]. rewrite (lookup_old _ _ _ _ Hv) in Hx. injection Hx as ->.
    destruct (Wb i o' r' u Hi Hv) as [[j Hj]|[Hj1 Hj2]]; [left; exists j; apply ret_old, Hj|].
    destruct (Nat.eq_dec u t) as [->|Hne]; [|right; rewrite fupd_other by exact Hne; rewrite <- last_old by (cbn; congruence); auto].
    left. exists (length H). rewrite Et in Hj1. injection Hj1 as <-. destruct Hj2 as (X1 & X2 & X3). split; [eapply lookup_lt, X1|].
    split; [apply lookup_old, X1|]. split; [apply lookup_new|]. intros k e Hk Hx. apply lookup_snoc in Hx as [Hx|[-> ->]]; [|lia]. apply (X3 _ _ (proj1 Hk) Hx).
Qed.

Lemma hwI_atomic q1 f H2 q2 f2 : atomic spec q1 f H2 q2 f2 -> forall H q L, hwI H q L q1 f -> exists L', hwI (H ++ H2) q (L ++ L') q2 f2.
Proof.
  induction 1 as [q1 f|q1 f t o H2 q' f' E _ IH|q1 f t o r q3 H2 q' f' E Hs _ IH|q1 f t r H2 q' f' E _ IH]; intros H q L Hi.
  - exists []. rewrite !app_nil_r. exact Hi.
  - destruct (IH (H ++ [HInv t o]) q L) as [L' HL]; [apply hwI_inv; assumption|]. exists L'. rewrite <- app_assoc in HL. exact HL.
  - destruct (hwI_eff _ _ _ _ _ _ _ _ _ Hi E Hs) as [i Hi']. destruct (IH H q _ Hi') as [L' HL]. exists ([(i, o, r)] ++ L'). rewrite app_assoc. exact HL.
  - destruct (IH (H ++ [HRet t r]) q L) as [L' HL]; [apply hwI_ret; assumption|]. exists L'. rewrite <- app_assoc in HL. exact HL.
Qed.

Lemma hwI_nil q : hwI [] q [] q (fun _ => AIdle).
Proof.
  split; try discriminate.
  - split; [constructor|constructor|intros i o r []| |].
    + intros i j t o r (_ & E & _). rewrite lookup_nil in E. discriminate.
    + intros i j t o r y (_ & E & _). rewrite lookup_nil in E. discriminate.
  - intros t _ i o (E & _). rewrite lookup_nil in E. discriminate.
Qed.

(** [hanging]: the operation at position [i] has not returned. *)
Lemma atomic_hw q H q' f : atomic spec q (fun _ => AIdle) H q' f -> exists L, linearization H q L q' /\
  forall i o r, In (i, o, r) L -> (exists j t, ret_of H i j t o r) \/ (exists t, f t = ADone r /\ last_ev H t i (HInv t o)).
Proof.
  intros Ha. destruct (hwI_atomic _ _ _ _ _ Ha [] q [] (hwI_nil q)) as [L [Hl _ _ _ Wb]]. cbn in *. exists L. split; [exact Hl|].
  intros i o r Hi. destruct (hw_ops _ _ _ _ Hl _ _ _ Hi) as [t E]. destruct (Wb _ _ _ _ Hi E) as [[j Hj]|Hj]; eauto.
Qed.
Lemma linearizable_hw q H : linearizable spec q H -> exists L q', linearization H q L q'.
Proof. intros (q' & f & Ha). destruct (atomic_hw _ _ _ _ Ha) as (L & Hl & _). eauto. Qed.
End hw.
