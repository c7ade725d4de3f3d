(** What sequences of operations an atomic queue with a priority channel allows *)
From stdpp Require Import list.
From Verif Require Import Base Conc Herlihy BqModel BqSpec.

Section bq.
Context {V : Type}.
Notation lseq := (list (nat * bqop V * bqret V)).
Implicit Types (L : lseq) (q : list V * list V).

Definition chan (b : bool) q : list V := if b then fst q else snd q.

Lemma pushed_vals (o : bqop V) : pushed_val o = bvals o.
Proof. destruct o; reflexivity. Qed.

Lemma spec_conserved q o r q' : bq_spec q o r q' -> o <> BClear -> Permutation (fst q ++ snd q ++ bvals o) (popped_val o r ++ fst q' ++ snd q').
Proof.
  destruct 1; intros Hc; cbn; rewrite ?app_nil_r; try reflexivity; try congruence.
  - rewrite <- app_assoc. apply Permutation_app_head. rewrite Permutation_app_comm. reflexivity.
  - rewrite <- app_assoc. apply Permutation_app_head. rewrite Permutation_app_comm. reflexivity.
  - destruct H; cbn; rewrite ?app_nil_r; reflexivity.
  - destruct H; cbn; rewrite ?app_nil_r; reflexivity.
Qed.

(** [D]: what the clears threw away *)
Lemma legal_accounted q L q' : legal bq_spec q L q' ->
  exists D, Permutation (fst q ++ snd q ++ pushed L) (popped L ++ D ++ fst q' ++ snd q') /\ ((forall x, In x L -> x.1.2 <> BClear) -> D = []).
Proof.
  induction 1 as [q|q i o r q1 L q' Hs Hl (D & Hp & HD)].
  - exists []. cbn. rewrite app_nil_r. auto.
  - assert (Hc : o = BClear \/ o <> BClear) by (destruct o; auto; right; discriminate). destruct Hc as [->|Hc].
    + exists (fst q ++ snd q ++ D). split; [|intros Hx; exfalso; apply (Hx (i, BClear, r)); [left; reflexivity|reflexivity]].
      inversion Hs; subst; try (match goal with Hx : pop_op BClear |- _ => inversion Hx end). unfold pushed, popped in *. cbn in *. rewrite Hp.
      set (A := flat_map (fun x => popped_val x.1.2 x.2) L). rewrite <- !app_assoc.
      rewrite (Permutation_app_swap_app A (fst q)). rewrite (Permutation_app_swap_app A (snd q)). reflexivity.
    + exists D. split; [|intros Hx; apply HD; intros x Hi; apply Hx; right; exact Hi].
      unfold pushed, popped in *. cbn. rewrite (pushed_vals o). pose proof (spec_conserved _ _ _ _ Hs Hc) as Hq. rewrite <- (app_assoc (popped_val _ _)), <- Hp.
      rewrite !app_assoc. rewrite !app_assoc in Hq. rewrite Hq. reflexivity.
Qed.

Lemma legal_conserved q L q' : legal bq_spec q L q' -> (forall x, In x L -> x.1.2 <> BClear) ->
  Permutation (fst q ++ snd q ++ pushed L) (popped L ++ fst q' ++ snd q').
Proof. intros Hl Hc. destruct (legal_accounted _ _ _ Hl) as (D & Hp & HD). rewrite (HD Hc) in Hp. exact Hp. Qed.

(** What a queue without [b] can do to [b] *)
Lemma spec_absent q o r q' b : bq_spec q o r q' -> bval o <> Some b -> ~ In b (fst q ++ snd q) -> ~ In b (fst q' ++ snd q') /\ ~ (pop_op o /\ r = BVal (Some b)).
Proof.
  intros Hs. setoid_rewrite in_app_iff.
  destruct Hs; cbn; intros Hb Hn; split; try (intros [Hp ?]; inversion Hp; fail); try (intros [Hp [= <-]]; tauto); try tauto; try (intros [_ ?]; discriminate);
    setoid_rewrite in_app_iff; cbn; intuition congruence.
Qed.

Lemma legal_absent q L q' b : legal bq_spec q L q' -> (forall x, In x L -> bval x.1.2 <> Some b) -> ~ In b (fst q ++ snd q) ->
  ~ In b (fst q' ++ snd q') /\ forall i o, pop_op o -> ~ In (i, o, BVal (Some b)) L.
Proof.
  induction 1 as [q|q i o r q1 L q' Hs Hl IH]; intros Hb Hn.
  - split; [exact Hn|]. intros i o _ [].
  - destruct (spec_absent _ _ _ _ _ Hs (Hb (i, o, r) (or_introl eq_refl)) Hn) as [Hn1 Hp].
    destruct (IH (fun x Hx => Hb x (or_intror Hx)) Hn1) as [Hn2 Hp2]. split; [exact Hn2|].
    intros i' o' Ho [[= -> -> ->]|Hi]; [tauto|eapply Hp2; eassumption].
Qed.

(** [b] stands behind [a] in channel [ch]. *)
Definition behind (ch : bool) (a b : V) q : Prop :=
  ~ In b (chan (negb ch) q) /\ exists X Y, chan ch q = X ++ b :: Y /\ In a X /\ ~ In b X.

Lemma behind_app ch a b P N l1 l2 : behind ch a b (P, N) -> ~ In b l1 -> ~ In b l2 -> behind ch a b (P ++ l1, N ++ l2).
Proof.
  intros (Hn & X & Y & E & Ha & HX) H1 H2. destruct ch; cbn in *; (split; [cbn; rewrite in_app_iff; tauto|]); exists X; eexists; (split; [cbn; rewrite E, <- app_assoc; reflexivity|auto]).
Qed.

Lemma spec_behind ch a b q o r q' : bq_spec q o r q' -> bval o <> Some b -> behind ch a b q ->
  o = BClear \/ (pop_op o /\ r = BVal (Some a)) \/ (behind ch a b q' /\ ~ (pop_op o /\ r = BVal (Some b))).
Proof.
  intros Hs Hb Hbh. destruct Hs as [P N v|P N v|P N v|P N v|o P N v Hp|o N v Hp| | |q|q n|q r|q n|q b']; cbn in Hb.
  1-4: right; right; (split; [|intros [_ ?]; discriminate]).
  1-2: rewrite <- (app_nil_r P); apply behind_app; [exact Hbh|intros []|intros [->|[]]; congruence].
  1-2: rewrite <- (app_nil_r N); apply behind_app; [exact Hbh|intros [->|[]]; congruence|intros []].
  all: try (left; reflexivity).
  all: try (right; right; split; [exact Hbh|intros [Hx Hx']; try (inversion Hx; fail); discriminate]).
  all: destruct Hbh as (Hn & X & Y & E & Ha & HX); destruct ch; cbn in *.
  - destruct X as [|x X]; [destruct Ha|]. injection E as -> ->. destruct Ha as [->|Ha]; [right; left; auto|]. right. right. split; [|intros [_ [= ->]]; apply HX; left; reflexivity].
    split; [exact Hn|]. exists X, Y. split; [reflexivity|]. split; [exact Ha|]. intros Hx. apply HX. right. exact Hx.
  - right. right. split; [|intros [_ [= ->]]; apply Hn; left; reflexivity]. split; [intros Hx; apply Hn; right; exact Hx|]. exists X, Y. auto.
  - destruct X; discriminate.
  - destruct X as [|x X]; [destruct Ha|]. injection E as -> ->. destruct Ha as [->|Ha]; [right; left; auto|]. right. right. split; [|intros [_ [= ->]]; apply HX; left; reflexivity].
    split; [exact Hn|]. exists X, Y. split; [reflexivity|]. split; [exact Ha|]. intros Hx. apply HX. right. exact Hx.
Qed.

Definition taken_before L (a : V) (i : nat) : Prop := exists i' o', pop_op o' /\ In (i', o', BVal (Some a)) L /\ before L i' i.

Lemma taken_here i o L a i3 o3 r3 : pop_op o -> In (i3, o3, r3) L -> taken_before ((i, o, BVal (Some a)) :: L) a i3.
Proof. intros Ho Hi. exists i, o. split; [exact Ho|]. split; [left; reflexivity|]. exists [], (i, o, BVal (Some a)), L, (i3, o3, r3). auto. Qed.
Lemma taken_later L1 L a i : taken_before L a i -> taken_before (L1 ++ L) a i.
Proof.
  intros (i' & o' & Ho & Hi & L2 & y & L3 & z & -> & E1 & Hz & E2). exists i', o'. split; [exact Ho|]. split; [apply in_app_iff; right; exact Hi|].
  exists (L1 ++ L2), y, L3, z. rewrite <- app_assoc. auto.
Qed.

Lemma legal_behind ch a b q L q' : legal bq_spec q L q' -> behind ch a b q -> (forall x, In x L -> bval x.1.2 <> Some b) ->
  forall i o, pop_op o -> In (i, o, BVal (Some b)) L -> taken_before L a i.
Proof.
  induction 1 as [q|q i0 o0 r0 q1 L q' Hs Hl IH]; intros Hbh Hb i o Ho Hi; [destruct Hi|].
  destruct (spec_behind _ _ _ _ _ _ _ Hs (Hb _ (or_introl eq_refl)) Hbh) as [->|[[Ho0 ->]|[Hbh' Hn]]].
  - exfalso. inversion Hs; subst; try (match goal with Hx : pop_op BClear |- _ => inversion Hx end). destruct Hi as [Hi|Hi]; [discriminate|].
    destruct (legal_absent _ _ _ b Hl (fun x Hx => Hb x (or_intror Hx))) as [_ Hx]; [cbn; tauto|]. eapply Hx; eassumption.
  - destruct Hi as [E|Hi]; [exfalso|eapply taken_here; eassumption]. injection E as -> -> ->. destruct Hbh as (Hn & X & Y & E & Ha & HX).
    inversion Hs; subst; try (match goal with Hx : pop_op BPeek |- _ => inversion Hx end); destruct ch; cbn in *.
    + destruct X as [|x X]; [destruct Ha|]. injection E as -> ->. apply HX. left. reflexivity.
    + apply Hn. left. reflexivity.
    + destruct X; discriminate.
    + destruct X as [|x X]; [destruct Ha|]. injection E as -> ->. apply HX. left. reflexivity.
  - destruct Hi as [[= -> -> ->]|Hi]; [tauto|]. apply (taken_later [(i0, o0, r0)]). eapply IH; eauto. intros x Hx. apply Hb. right. exact Hx.
Qed.

(** [a] is there, [b] comes later. *)
Lemma spec_keeps ch a q o r q' : bq_spec q o r q' -> In a (chan ch q) -> o = BClear \/ (pop_op o /\ r = BVal (Some a)) \/ In a (chan ch q').
Proof.
  destruct 1; destruct ch; cbn; rewrite ?in_app_iff; auto; try tauto; intros [->|Hx]; auto.
Qed.
Lemma spec_pushes ch a b q o r q' : bq_spec q o r q' -> bval o = Some b -> channel o = ch -> In a (chan ch q) -> ~ In b (fst q ++ snd q) -> behind ch a b q'.
Proof.
  setoid_rewrite in_app_iff. intros Hs Hb Hch Ha Hn. destruct Hs; cbn in *; try discriminate; try (destruct H; discriminate); subst ch; injection Hb as ->; cbn in *; (split; [cbn; tauto|]); eexists _, []; (split; [reflexivity|]); tauto.
Qed.

Lemma legal_comes ch a b q L q' i2 o2 r2 : legal bq_spec q L q' -> In a (chan ch q) -> ~ In b (fst q ++ snd q) -> NoDup (map (fun x => x.1.1) L) ->
  In (i2, o2, r2) L -> bval o2 = Some b -> channel o2 = ch -> (forall x, In x L -> bval x.1.2 = Some b -> x.1.1 = i2) ->
  (exists x, In x L /\ x.1.2 = BClear /\ before L x.1.1 i2) \/ forall i o, pop_op o -> In (i, o, BVal (Some b)) L -> taken_before L a i.
Proof.
  induction 1 as [q|q i0 o0 r0 q1 L q' Hs Hl IH]; intros Ha Hn Hnd Hi Hb Hch Hu; [destruct Hi|].
  apply NoDup_cons in Hnd as [Hnd0 Hnd]. cbn in Hnd0.
  destruct Hi as [[= -> -> ->]|Hi].
  - right. intros i o Ho [[= -> -> ->]|Hi]; [destruct Ho; discriminate|]. apply (taken_later [(i2, o2, r2)]). eapply legal_behind; [exact Hl| | |exact Ho|exact Hi].
    + eapply spec_pushes; eassumption.
    + intros x Hx E. apply Hnd0, elem_of_list_In, in_map_iff. exists x. split; [apply Hu; [right; exact Hx|exact E]|exact Hx].
  - assert (Hb0 : bval o0 <> Some b).
    { intros E. apply Hnd0, elem_of_list_In, in_map_iff. exists (i2, o2, r2). split; [|exact Hi]. cbn. symmetry. apply (Hu (i0, o0, r0)); [left; reflexivity|exact E]. }
    destruct (spec_keeps ch a _ _ _ _ Hs Ha) as [->|[[Ho0 ->]|Ha1]].
    + left. exists (i0, BClear, r0). split; [left; reflexivity|]. split; [reflexivity|]. exists [], (i0, BClear, r0), L, (i2, o2, r2). auto.
    + right. intros i o Ho [[= -> -> ->]|Hi']; [|eapply taken_here; eassumption]. exfalso.
      destruct (spec_absent _ _ _ _ _ Hs Hb0 Hn) as [_ Hx]. apply Hx. auto.
    + destruct (spec_absent _ _ _ _ _ Hs Hb0 Hn) as [Hn1 Hp]. destruct IH as [(x & Hx1 & Hx2 & L1 & y & L2 & z & -> & Hb1 & Hb2 & Hb3)|IH]; auto.
      { intros x Hx. apply Hu. right. exact Hx. }
      * left. exists x. split; [right; exact Hx1|]. split; [exact Hx2|]. exists ((i0, o0, r0) :: L1), y, L2, z. auto.
      * right. intros i o Ho [[= -> -> ->]|Hi']; [tauto|]. apply (taken_later [(i0, o0, r0)]). eapply IH; eassumption.
Qed.

Lemma ids_uniq L x y : NoDup (map (fun x => x.1.1) L) -> In x L -> In y L -> x.1.1 = y.1.1 -> x = y.
Proof.
  induction L as [|z L IH]; cbn; [intros _ []|]. intros Hnd. apply NoDup_cons in Hnd as [Hz Hnd]. rewrite elem_of_list_In, in_map_iff in Hz.
  intros [->|Hx] [->|Hy] E; auto; exfalso; apply Hz; eauto.
Qed.

(** First in, first out within a channel *)
Lemma legal_fifo ch a b q L q' i1 i2 o1 o2 r1 r2 : legal bq_spec q L q' -> NoDup (map (fun x => x.1.1) L) -> ~ In b (fst q ++ snd q) -> a <> b ->
  In (i1, o1, r1) L -> In (i2, o2, r2) L -> bval o1 = Some a -> bval o2 = Some b -> channel o1 = ch -> channel o2 = ch -> before L i1 i2 ->
  (forall x, In x L -> bval x.1.2 = Some b -> x.1.1 = i2) ->
  (exists x, In x L /\ x.1.2 = BClear /\ before L i1 x.1.1 /\ before L x.1.1 i2) \/ forall i o, pop_op o -> In (i, o, BVal (Some b)) L -> taken_before L a i.
Proof.
  intros Hl Hnd Hn Hab H1 H2 E1 E2 C1 C2 (L1 & x & L2 & y & -> & F1 & Hy & F2) Hu.
  assert (x = (i1, o1, r1)) as ->. { eapply ids_uniq; [exact Hnd| |exact H1|exact F1]. apply in_app_iff. right. left. reflexivity. }
  assert (y = (i2, o2, r2)) as ->. { eapply ids_uniq; [exact Hnd| |exact H2|exact F2]. apply in_app_iff. right. right. exact Hy. }
  apply legal_app_inv in Hl as (qa & Hl1 & Hl2). inversion Hl2 as [|? ? ? ? qb ? ? Hs Hl3]; subst.
  rewrite map_app in Hnd. apply NoDup_app in Hnd as (_ & Hnd1 & Hnd). cbn in Hnd. apply NoDup_cons in Hnd as [_ Hnd].
  assert (Hb1 : forall z, In z L1 -> bval z.1.2 <> Some b).
  { intros z Hz E. pose proof (Hu z ltac:(apply in_app_iff; left; exact Hz) E) as Ez. apply (Hnd1 i2).
    - apply elem_of_list_In, in_map_iff. eauto.
    - apply elem_of_list_In. right. apply in_map_iff. exists (i2, o2, r2). auto. }
  destruct (legal_absent _ _ _ b Hl1 Hb1 Hn) as [Hna Hp1]. destruct (spec_absent _ _ _ _ b Hs ltac:(congruence) Hna) as [Hnb Hp2].
  assert (Ha : In a (chan (channel o1) qb)).
  { clear C2. destruct Hs; cbn in *; try discriminate; try (destruct H; discriminate); injection E1 as ->; apply in_app_iff; right; left; reflexivity. }
  destruct (legal_comes _ _ _ _ _ _ _ _ _ Hl3 Ha Hnb Hnd Hy E2 C2) as [(z & Hz & Ez & L3 & z1 & L4 & z2 & -> & G1 & G2 & G3)|Hx].
  { intros z Hz. apply Hu. apply in_app_iff. right. right. exact Hz. }
  - left. exists z. split; [apply in_app_iff; right; right; exact Hz|]. split; [exact Ez|]. split.
    + exists L1, (i1, o1, r1), (L3 ++ z1 :: L4), z. auto.
    + exists (L1 ++ (i1, o1, r1) :: L3), z1, L4, z2. rewrite <- app_assoc. auto.
  - right. intros i o Ho Hi. apply in_app_iff in Hi as [Hi|[[= -> -> ->]|Hi]].
    + destruct (Hp1 _ _ Ho Hi).
    + tauto.
    + replace (L1 ++ (i1, o1, r1) :: L2) with ((L1 ++ [(i1, o1, r1)]) ++ L2) by (rewrite <- app_assoc; reflexivity). apply taken_later. eapply Hx; eassumption.
Qed.
End bq.

Section once.
Context {V : Type}.
Notation lseq := (list (nat * bqop V * bqret V)).
Implicit Types (L : lseq) (q : list V * list V).

Lemma in_pushed L a : In a (pushed L) -> exists x, In x L /\ bval x.1.2 = Some a.
Proof.
  unfold pushed. intros Hi. apply in_flat_map in Hi as (x & Hx & Hi). exists x. split; [exact Hx|]. rewrite pushed_vals in Hi. unfold bvals in Hi. destruct (bval x.1.2); [|destruct Hi]. destruct Hi as [->|[]]. reflexivity.
Qed.

(** An element pushed once is popped at most once. *)
Lemma popped_once a q L q' i0 x y : legal bq_spec q L q' -> NoDup (map (fun x => x.1.1) L) -> ~ In a (fst q ++ snd q) ->
  (forall z, In z L -> bval z.1.2 = Some a -> z.1.1 = i0) ->
  In x L -> In y L -> pop_op x.1.2 -> pop_op y.1.2 -> x.2 = BVal (Some a) -> y.2 = BVal (Some a) -> x = y.
Proof.
  intros Hl Hnd Hn Hu Hx Hy Px Py Rx Ry.
  assert (Hpush : forall l1 l2, pushed L = l1 ++ a :: l2 -> ~ In a (l1 ++ l2)).
  { clear - Hu Hnd. induction L as [|z L IH]; intros l1 l2 E; [destruct l1; discriminate|]. cbn in Hnd. apply NoDup_cons in Hnd as [Hz Hnd].
    unfold pushed in *. cbn in E. rewrite pushed_vals in E. unfold bvals in E at 1. destruct (bval z.1.2) as [v|] eqn:Ez; cbn in E; [|apply IH; auto; intros w Hw; apply Hu; right; exact Hw].
    assert (Hno : v = a -> ~ In a (flat_map (fun x => pushed_val x.1.2) L)).
    { intros -> Hi. destruct (in_pushed _ _ Hi) as (w & Hw & Ew). apply Hz, elem_of_list_In, in_map_iff. exists w. split; [|exact Hw].
      rewrite (Hu w), (Hu z); auto; [left|right]; auto. }
    destruct l1 as [|w l1]; cbn in E; injection E as -> E.
    - rewrite <- E. cbn. auto.
    - cbn. intros [->|Hi].
      + apply (Hno eq_refl). rewrite E. apply in_app_iff. right. left. reflexivity.
      + apply (IH Hnd (fun w Hw => Hu w (or_intror Hw)) l1 l2 E Hi). }
  assert (Hpv : forall z : nat * bqop V * bqret V, pop_op z.1.2 -> z.2 = BVal (Some a) -> popped_val z.1.2 z.2 = [a]).
  { intros [[i o] r] Ho Hr. cbn in *. subst r. destruct Ho; reflexivity. }
  destruct (in_split _ _ Hx) as (L1 & L2 & E). pose proof Hy as Hy'. rewrite E in Hy'. apply in_app_iff in Hy' as Hy1.
  destruct (Hy1) as [Hy2|[->|Hy2]]; [|reflexivity|].
  all: exfalso.
  all: assert (Ep : popped L = popped L1 ++ a :: popped L2) by (rewrite E; unfold popped; rewrite flat_map_app; cbn [flat_map]; rewrite (Hpv _ Px Rx); reflexivity).
  all: assert (Hin : In a (popped L1 ++ popped L2)) by (apply in_app_iff; unfold popped; rewrite !in_flat_map;
         (left; exists y; rewrite (Hpv _ Py Ry); split; [exact Hy2|left; reflexivity]) || (right; exists y; rewrite (Hpv _ Py Ry); split; [exact Hy2|left; reflexivity])).
  all: destruct (legal_accounted _ _ _ Hl) as (D & Hp & _); rewrite Ep in Hp.
  all: assert (Hina : In a (fst q ++ snd q ++ pushed L)) by (rewrite Hp; rewrite !in_app_iff; cbn; tauto).
  all: rewrite app_assoc in Hina; apply in_app_iff in Hina as [Hina|Hina]; [contradiction|]; destruct (in_split _ _ Hina) as (l1 & l2 & El); rewrite El in Hp.
  all: assert (Hq : Permutation ((fst q ++ snd q ++ l1) ++ l2) (popped L1 ++ popped L2 ++ D ++ fst q' ++ snd q'))
         by (apply (Permutation_app_inv _ _ _ _ a); rewrite <- !app_assoc in *; cbn in Hp; exact Hp).
  all: assert (Hin2 : In a ((fst q ++ snd q ++ l1) ++ l2)) by (rewrite Hq; rewrite app_assoc; apply in_app_iff; left; exact Hin).
  all: rewrite <- !app_assoc in Hin2; rewrite (app_assoc (fst q)) in Hin2; apply in_app_iff in Hin2 as [Hin2|Hin2]; [contradiction|]; exact (Hpush _ _ El Hin2).
Qed.

(** Two elements pushed once each, one before the other into the same channel, are never popped the other way round. *)
Lemma legal_order ch a b q L q' i1 i2 i3 i4 o1 o2 o3 o4 r1 r2 : legal bq_spec q L q' -> NoDup (map (fun x => x.1.1) L) ->
  ~ In b (fst q ++ snd q) -> ~ In a (fst q ++ snd q) -> a <> b ->
  In (i1, o1, r1) L -> In (i2, o2, r2) L -> bval o1 = Some a -> bval o2 = Some b -> channel o1 = ch -> channel o2 = ch -> before L i1 i2 ->
  (forall x, In x L -> bval x.1.2 = Some b -> x.1.1 = i2) -> (forall x, In x L -> bval x.1.2 = Some a -> x.1.1 = i1) ->
  pop_op o3 -> In (i3, o3, BVal (Some b)) L -> pop_op o4 -> In (i4, o4, BVal (Some a)) L -> before L i4 i3.
Proof.
  intros Hl Hnd Hnb Hna Hab H1 H2 E1 E2 C1 C2 Hbf Hub Hua P3 H3 P4 H4.
  destruct (legal_fifo ch a b _ _ _ _ _ _ _ _ _ Hl Hnd Hnb Hab H1 H2 E1 E2 C1 C2 Hbf Hub) as [(x & Hx & Ex & B1 & B2)|Htk].
  - destruct x as [[ic oc] rc]. cbn in Ex, B1, B2. subst oc. destruct (in_split _ _ Hx) as (L1 & L2 & ->).
    assert (Hlate : forall z, In z (L1 ++ [(ic, BClear, rc)]) -> bval z.1.2 <> Some b).
    { intros z Hz Ez. assert (Hz' : In z (L1 ++ (ic, BClear, rc) :: L2)) by (rewrite in_app_iff in *; destruct Hz as [?|[?|[]]]; [left|right; left]; assumption).
      pose proof (Hub z Hz' Ez) as Ei. apply in_app_iff in Hz as [Hz|[<-|[]]]; [|discriminate].
      destruct (in_split _ _ Hz) as (La & Lb & ->). eapply (before_antisym _ i2 ic); [exact Hnd| |exact B2]. exists La, z, (Lb ++ (ic, BClear, rc) :: L2), (ic, BClear, rc).
      split; [rewrite <- app_assoc; reflexivity|]. split; [exact Ei|]. split; [apply in_app_iff; right; left; reflexivity|reflexivity]. }
    assert (Hearly : forall z, In z L2 -> bval z.1.2 <> Some a).
    { intros z Hz Ez. pose proof (Hua z ltac:(apply in_app_iff; right; right; exact Hz) Ez) as Ei. eapply (before_antisym _ i1 ic); [exact Hnd|exact B1|].
      exists L1, (ic, BClear, rc), L2, z. auto. }
    apply legal_app_inv in Hl as (qa & Hl1 & Hl2). inversion Hl2 as [|? ? ? ? qb ? ? Hs Hl3]; subst.
    assert (qb = ([], [])) as -> by (inversion Hs; subst; try (match goal with Hx : pop_op BClear |- _ => inversion Hx end); reflexivity).
    destruct (legal_absent _ _ _ a Hl3 Hearly ltac:(cbn; tauto)) as [_ Na].
    destruct (legal_absent _ _ _ b Hl1 (fun z Hz => Hlate z ltac:(apply in_app_iff; left; exact Hz)) Hnb) as [_ Nb].
    apply in_app_iff in H4 as [H4|[[= -> <- ?]|H4]]; [|inversion P4|destruct (Na _ _ P4 H4)].
    apply in_app_iff in H3 as [H3|[[= -> <- ?]|H3]]; [destruct (Nb _ _ P3 H3)|inversion P3|].
    destruct (in_split _ _ H4) as (La & Lb & ->). exists La, (i4, o4, BVal (Some a)), (Lb ++ (ic, BClear, rc) :: L2), (i3, o3, BVal (Some b)).
    split; [rewrite <- app_assoc; reflexivity|]. split; [reflexivity|]. split; [apply in_app_iff; right; right; exact H3|reflexivity].
  - destruct (Htk _ _ P3 H3) as (i & o & Ho & Hi & Hb).
    assert (E : (i, o, BVal (Some a)) = (i4, o4, BVal (Some a))); [|congruence].
    eapply (popped_once a _ _ _ i1); [exact Hl|exact Hnd|exact Hna|exact Hua|exact Hi|exact H4|exact Ho|exact P4|reflexivity|reflexivity].
Qed.
End once.
