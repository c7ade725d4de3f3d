(** Reasoning about block memory: which blocks and tables a computation may change, and the contents of a run of blocks. *)
From stdpp Require Import gmap.
From Verif Require Import Base BlkHeap.

Lemma bsz_pow P : 0 <= expo P -> bsz P = 2 ^ expo P.
Proof. intros H. unfold bsz. rewrite Z.shiftl_mul_pow2 by assumption. lia. Qed.
Lemma bsz_pos P : 0 <= expo P -> 0 < bsz P.
Proof. intros H. rewrite bsz_pow by assumption. apply Z.pow_pos_nonneg; lia. Qed.
Lemma shiftr_bsz P n : 0 <= expo P -> Z.shiftr n (expo P) = n / bsz P.
Proof. intros H. rewrite bsz_pow by assumption. apply Z.shiftr_div_pow2; assumption. Qed.
Lemma land_bsz P n : 0 <= expo P -> Z.land n (bsz P - 1) = n mod bsz P.
Proof.
  intros H. rewrite bsz_pow by assumption. rewrite <- Z.land_ones by assumption. f_equal.
  rewrite Z.ones_equiv. lia.
Qed.

Section heap.
Context {V : Type}.
Implicit Types (h : bheap V) (bs ts ids : list nat) (b : nat).

Definition sameb b h h' : Prop := (b ∈ bl h' <-> b ∈ bl h) /\ forall j, el h' !! (b, j) = el h !! (b, j).
Definition absb b h : Prop := b ∉ bl h /\ forall j, el h !! (b, j) = None.

(** Owned blocks [bs] and tables [ts] become [bs'] and [ts']; everything else is untouched; what is no longer owned is
    released. *)
Record upd bs ts h bs' ts' h' : Prop := {
  u_nx : (nx h <= nx h')%nat;
  u_bnew : forall b, b ∈ bs' -> (b < nx h')%nat /\ (b ∈ bs \/ (nx h <= b)%nat);
  u_tnew : forall b, b ∈ ts' -> (b < nx h')%nat /\ (b ∈ ts \/ (nx h <= b)%nat);
  u_bsame : forall b, b ∉ bs -> (b < nx h)%nat -> sameb b h h';
  u_tsame : forall b, b ∉ ts -> (b < nx h)%nat -> tb h' !! b = tb h !! b;
  u_babs : forall b, b ∈ bs \/ (nx h <= b)%nat -> b ∉ bs' -> absb b h';
  u_tabs : forall b, b ∈ ts \/ (nx h <= b)%nat -> b ∉ ts' -> tb h' !! b = None;
}.

Definition hok bs ts h : Prop :=
  (forall b, (nx h <= b)%nat -> absb b h /\ tb h !! b = None) /\
  (forall b, b ∈ bs -> (b < nx h)%nat) /\ (forall b, b ∈ ts -> (b < nx h)%nat).

Lemma upd_hok bs ts h bs' ts' h' : hok bs ts h -> upd bs ts h bs' ts' h' -> hok bs' ts' h'.
Proof.
  intros (H1 & H2 & H3) U. unfold hok; splits.
  - intros b Hb. split.
    + eapply u_babs; [exact U| |].
      * right. pose proof (u_nx _ _ _ _ _ _ U). lia.
      * intros Hin. destruct (u_bnew _ _ _ _ _ _ U b Hin). lia.
    + eapply u_tabs; [exact U| |].
      * right. pose proof (u_nx _ _ _ _ _ _ U). lia.
      * intros Hin. destruct (u_tnew _ _ _ _ _ _ U b Hin). lia.
  - intros b Hb. apply (u_bnew _ _ _ _ _ _ U b Hb).
  - intros b Hb. apply (u_tnew _ _ _ _ _ _ U b Hb).
Qed.

Lemma sameb_refl b h : sameb b h h.
Proof. split; [tauto|reflexivity]. Qed.

Lemma sameb_same b h h' : el h' = el h -> bl h' = bl h -> sameb b h h'.
Proof. intros E1 E2. split; rewrite ?E1, ?E2; [tauto|reflexivity]. Qed.

Lemma upd_refl bs ts h : hok bs ts h -> upd bs ts h bs ts h.
Proof.
  intros (H1 & H2 & H3). constructor; auto using sameb_refl.
  - intros b [Hb|Hb] Hn; [contradiction|]. apply H1. exact Hb.
  - intros b [Hb|Hb] Hn; [contradiction|]. apply H1. exact Hb.
Qed.

Lemma sameb_trans b h1 h2 h3 : sameb b h1 h2 -> sameb b h2 h3 -> sameb b h1 h3.
Proof. intros [A1 A2] [C1 C2]. split; [tauto|]. intros j. rewrite C2. apply A2. Qed.

Lemma absb_same b h h' : absb b h -> sameb b h h' -> absb b h'.
Proof. intros [A1 A2] [C1 C2]. split; [tauto|]. intros j. rewrite C2. apply A2. Qed.

Lemma upd_trans bs ts h bs1 ts1 h1 bs2 ts2 h2 :
  upd bs ts h bs1 ts1 h1 -> upd bs1 ts1 h1 bs2 ts2 h2 -> upd bs ts h bs2 ts2 h2.
Proof.
  intros U1 U2. pose proof (u_nx _ _ _ _ _ _ U1). pose proof (u_nx _ _ _ _ _ _ U2).
  assert (Nb : forall b, b ∉ bs -> (b < nx h)%nat -> b ∉ bs1).
  { intros b Hb Hl Hin. destruct (u_bnew _ _ _ _ _ _ U1 b Hin) as [_ [?|?]]; [contradiction|lia]. }
  assert (Nt : forall b, b ∉ ts -> (b < nx h)%nat -> b ∉ ts1).
  { intros b Hb Hl Hin. destruct (u_tnew _ _ _ _ _ _ U1 b Hin) as [_ [?|?]]; [contradiction|lia]. }
  constructor.
  - lia.
  - intros b Hb. destruct (u_bnew _ _ _ _ _ _ U2 b Hb) as [? [Hi|?]]; [|split; [lia|right; lia]].
    destruct (u_bnew _ _ _ _ _ _ U1 b Hi) as [? ?]. split; [lia|assumption].
  - intros b Hb. destruct (u_tnew _ _ _ _ _ _ U2 b Hb) as [? [Hi|?]]; [|split; [lia|right; lia]].
    destruct (u_tnew _ _ _ _ _ _ U1 b Hi) as [? ?]. split; [lia|assumption].
  - intros b Hb Hl. eapply sameb_trans; [eapply u_bsame; [exact U1|assumption|assumption]|].
    eapply u_bsame; [exact U2|auto|lia].
  - intros b Hb Hl. rewrite (u_tsame _ _ _ _ _ _ U2 b) by (auto; lia). eapply u_tsame; eassumption.
  - intros b Hb Hn. destruct (decide (b ∈ bs1)) as [Hi|Hi].
    + eapply u_babs; [exact U2| |exact Hn]. left; exact Hi.
    + destruct (decide (nx h1 <= b)%nat) as [Hl|Hl].
      * eapply u_babs; [exact U2| |exact Hn]. right; exact Hl.
      * eapply absb_same; [eapply u_babs; [exact U1|exact Hb|exact Hi]|]. eapply u_bsame; [exact U2|exact Hi|lia].
  - intros b Hb Hn. destruct (decide (b ∈ ts1)) as [Hi|Hi].
    + eapply u_tabs; [exact U2| |exact Hn]. left; exact Hi.
    + destruct (decide (nx h1 <= b)%nat) as [Hl|Hl].
      * eapply u_tabs; [exact U2| |exact Hn]. right; exact Hl.
      * rewrite (u_tsame _ _ _ _ _ _ U2 b) by (auto; lia). eapply u_tabs; [exact U1|exact Hb|exact Hi].
Qed.

Lemma upd_eqv bs ts h bs' ts' h' cs us cs' us' :
  upd bs ts h bs' ts' h' -> (forall b, b ∈ bs <-> b ∈ cs) -> (forall b, b ∈ ts <-> b ∈ us) ->
  (forall b, b ∈ bs' <-> b ∈ cs') -> (forall b, b ∈ ts' <-> b ∈ us') -> upd cs us h cs' us' h'.
Proof.
  intros U E1 E2 E3 E4. destruct U as [U1 U2 U3 U4 U5 U6 U7]. constructor.
  - exact U1.
  - intros b Hb. rewrite <- E1. apply U2. apply E3. exact Hb.
  - intros b Hb. rewrite <- E2. apply U3. apply E4. exact Hb.
  - intros b Hb. apply U4. rewrite E1. exact Hb.
  - intros b Hb. apply U5. rewrite E2. exact Hb.
  - intros b Hb Hn. apply U6; [rewrite E1; exact Hb|rewrite E3; exact Hn].
  - intros b Hb Hn. apply U7; [rewrite E2; exact Hb|rewrite E4; exact Hn].
Qed.

Lemma hok_eqv bs ts h cs us :
  hok bs ts h -> (forall b, b ∈ cs -> b ∈ bs) -> (forall b, b ∈ us -> b ∈ ts) -> hok cs us h.
Proof. intros (H1 & H2 & H3) E1 E2. unfold hok; splits; auto. Qed.

(** Changing only the elements of one block *)
Lemma upd_el bs ts h b e :
  hok bs ts h -> b ∈ bs -> (forall b' j, b' <> b -> e !! (b', j) = el h !! (b', j)) ->
  upd bs ts h bs ts (BHeap e (bl h) (tb h) (nx h)).
Proof.
  intros (H1 & H2 & H3) Hb He. constructor; cbn [nx el bl tb]; auto.
  - intros c Hc Hl. split; cbn; [tauto|]. intros j. apply He. intros ->. contradiction.
  - intros c [Hc|Hc] Hn; [contradiction|]. destruct (H1 c Hc) as [[A1 A2] _]. split; cbn; [assumption|].
    intros j. rewrite He; [apply A2|]. intros ->. apply Hn. exact Hb.
  - intros c [Hc|Hc] Hn; [contradiction|]. apply H1. exact Hc.
Qed.

Lemma upd_balloc bs ts h h' c :
  hok bs ts h -> balloc h = (h', c) -> c = Some (nx h) /\ upd bs ts h (nx h :: bs) ts h' /\
  nx h ∉ bs /\ nx h ∈ bl h' /\ (forall j, el h' !! (nx h, j) = None) /\ tb h' = tb h /\
  el h' = el h /\ (forall b, b ∈ bl h -> b ∈ bl h').
Proof.
  intros (H1 & H2 & H3) [= <- <-]. split; [reflexivity|].
  assert (Hn : nx h ∉ bs) by (intros Hin; specialize (H2 _ Hin); lia).
  split; [|splits; cbn; [assumption|set_solver| |set_solver]].
  - constructor; cbn.
    + lia.
    + intros b Hb. apply elem_of_cons in Hb as [->|Hb]; [split; [lia|right; lia]|]. split; [apply H2 in Hb; lia|auto].
    + intros b Hb. split; [apply H3 in Hb; lia|auto].
    + intros b Hb Hl. split; cbn; [|reflexivity]. rewrite elem_of_union, elem_of_singleton. split; [|tauto]. intros [?|?]; [lia|assumption].
    + reflexivity.
    + intros b Hb Hnb. rewrite not_elem_of_cons in Hnb. destruct Hnb as [Hnb1 Hnb2].
      assert (nx h <= b)%nat by (destruct Hb; [contradiction|assumption]).
      destruct (H1 b) as [[A1 A2] _]; [lia|]. split; cbn; [set_solver|exact A2].
    + intros b Hb Hnb. destruct Hb as [Hb|Hb]; [contradiction|]. apply H1. exact Hb.
  - intros j. destruct (H1 (nx h)) as [[_ A2] _]; [lia|]. apply A2.
Qed.

Lemma upd_talloc bs ts h n h' t :
  hok bs ts h -> talloc h n = (h', t) -> t = Some (nx h) /\ upd bs ts h bs (nx h :: ts) h' /\
  nx h ∉ ts /\ tb h' !! nx h = Some (replicate (Z.to_nat n) None) /\
  (forall b, (b < nx h)%nat -> tb h' !! b = tb h !! b) /\ (forall b, sameb b h h').
Proof.
  intros (H1 & H2 & H3) [= <- <-]. split; [reflexivity|].
  assert (Hn : nx h ∉ ts) by (intros Hin; specialize (H3 _ Hin); lia).
  split; [|splits; cbn; [assumption| | |]].
  - constructor; cbn.
    + lia.
    + intros b Hb. split; [apply H2 in Hb; lia|auto].
    + intros b Hb. apply elem_of_cons in Hb as [->|Hb]; [split; [lia|right; lia]|]. split; [apply H3 in Hb; lia|auto].
    + intros b Hb Hl. apply sameb_same; reflexivity.
    + intros b Hb Hl. rewrite lookup_insert_ne by lia. reflexivity.
    + intros b Hb Hnb. destruct Hb as [Hb|Hb]; [contradiction|]. apply H1. exact Hb.
    + intros b Hb Hnb. rewrite not_elem_of_cons in Hnb. destruct Hnb as [Hnb1 Hnb2].
      assert (nx h <= b)%nat by (destruct Hb; [contradiction|assumption]).
      rewrite lookup_insert_ne by congruence. apply H1. assumption.
  - apply lookup_insert.
  - intros b Hb. rewrite lookup_insert_ne by lia. reflexivity.
  - intros b. apply sameb_same; reflexivity.
Qed.

(** Replacing the contents of an owned table *)
Lemma upd_tb bs ts h t cs :
  hok bs ts h -> t ∈ ts -> upd bs ts h bs ts (BHeap (el h) (bl h) (<[t := cs]> (tb h)) (nx h)).
Proof.
  intros (H1 & H2 & H3) Ht. constructor; cbn; auto.
  - intros b Hb Hl. apply sameb_same; reflexivity.
  - intros b Hb Hl. rewrite lookup_insert_ne; [reflexivity|]. intros ->. contradiction.
  - intros b [Hb|Hb] Hn; [contradiction|]. apply H1. exact Hb.
  - intros b [Hb|Hb] Hn; [contradiction|]. rewrite lookup_insert_ne; [apply H1; exact Hb|]. intros ->. contradiction.
Qed.

Lemma upd_tdelete bs ts h t cs :
  hok bs (t :: ts) h -> t ∉ ts -> tb h !! t = Some cs ->
  exists h', tdelete h (Some t) = Ok h' /\ upd bs (t :: ts) h bs ts h' /\
    (forall b, b <> t -> tb h' !! b = tb h !! b) /\ (forall b, sameb b h h').
Proof.
  intros (H1 & H2 & H3) Hnt Hcs. cbn. rewrite Hcs. eexists. split; [reflexivity|]. split; [|split]; cbn.
  - constructor; cbn; auto.
    + intros b Hb. split; [apply H3; set_solver|left; set_solver].
    + intros b Hb Hl. apply sameb_same; reflexivity.
    + intros b Hb Hl. rewrite lookup_delete_ne; [reflexivity|]. set_solver.
    + intros b [Hb|Hb] Hn; [contradiction|]. apply H1. exact Hb.
    + intros b Hb Hn. destruct (decide (b = t)) as [->|Hne]; [apply lookup_delete|].
      rewrite lookup_delete_ne by congruence. destruct Hb as [Hb|Hb]; [set_solver|]. apply H1. exact Hb.
  - intros b Hb. rewrite lookup_delete_ne by congruence. reflexivity.
  - intros b. apply sameb_same; reflexivity.
Qed.

Lemma upd_bfree bs ts h b :
  hok (b :: bs) ts h -> b ∉ bs -> b ∈ bl h -> (forall j, el h !! (b, j) = None) ->
  exists h', bfree h (Some b) = Ok h' /\ upd (b :: bs) ts h bs ts h' /\
    (forall b', b' <> b -> sameb b' h h') /\ tb h' = tb h.
Proof.
  intros (H1 & H2 & H3) Hnb Hb He. cbn. rewrite bool_decide_eq_true_2 by exact Hb.
  rewrite bool_decide_eq_true_2.
  2:{ intros [b' j] v Hl Heq. cbn in Heq. subst. rewrite He in Hl. discriminate. }
  cbn. eexists. split; [reflexivity|]. split; [|split]; cbn; [| |reflexivity].
  - constructor; cbn; auto.
    + intros c Hc. split; [apply H2; set_solver|left; set_solver].
    + intros c Hc Hl. split; cbn; [set_solver|reflexivity].
    + intros c Hc Hn. split; cbn.
      * destruct (decide (c = b)) as [->|Hne]; [set_solver|].
        destruct Hc as [Hc|Hc]; [set_solver|]. destruct (H1 c Hc) as [[A1 A2] _]. set_solver.
      * intros j. destruct (decide (c = b)) as [->|Hne]; [apply He|].
        destruct Hc as [Hc|Hc]; [set_solver|]. apply H1. exact Hc.
    + intros c [Hc|Hc] Hn; [contradiction|]. apply H1. exact Hc.
  - intros b' Hne. split; cbn; [set_solver|reflexivity].
Qed.

End heap.

(** ** A run of blocks *)
Section area.
Context {V : Type}.
Variable P : params.
Hypothesis HP : 0 <= expo P.
Notation B := (bsz P).
Implicit Types (h : bheap V) (bs ts ids : list nat) (b : nat).

Lemma B_pos : 0 < B. Proof. apply bsz_pos. exact HP. Qed.
Definition zl (xs : list V) (p : Z) : option V := if p <? 0 then None else xs !! Z.to_nat p.
Definition sl (off : Z) (xs : list V) (i j : Z) : option V :=
  if (0 <=? j) && (j <? B) then zl xs (i * B + j - off) else None.

Record area h ids (off : Z) (xs : list V) : Prop := {
  ar_nodup : NoDup ids;
  ar_bl : forall i b, ids !! i = Some b -> b ∈ bl h;
  ar_el : forall i b j, ids !! i = Some b -> el h !! (b, j) = sl off xs (Z.of_nat i) j;
}.

Lemma area_frame h h' ids off xs : area h ids off xs -> (forall b, b ∈ ids -> sameb b h h') -> area h' ids off xs.
Proof.
  intros [A1 A2 A3] Hs. constructor; [assumption| |].
  - intros i b Hi. apply Hs; [eapply elem_of_list_lookup_2; eassumption|]. eauto.
  - intros i b j Hi. destruct (Hs b) as [_ ->]; [eapply elem_of_list_lookup_2; eassumption|]. eauto.
Qed.

Lemma zl_ok xs p : 0 <= p < zlen xs -> exists x, zl xs p = Some x.
Proof.
  intros Hp. unfold zl. destruct (Z.ltb_spec p 0); [lia|]. apply lookup_lt_is_Some_2. unfold zlen in Hp. lia.
Qed.
Lemma zl_none xs p : p < 0 \/ zlen xs <= p -> zl xs p = None.
Proof.
  intros Hp. unfold zl. destruct (Z.ltb_spec p 0); [reflexivity|]. apply lookup_ge_None_2. unfold zlen in Hp. lia.
Qed.
Lemma zl_app_l xs ys p : p < zlen xs -> zl (xs ++ ys) p = zl xs p.
Proof.
  intros Hp. unfold zl. destruct (Z.ltb_spec p 0); [reflexivity|]. apply lookup_app_l. unfold zlen in Hp. lia.
Qed.
Lemma zl_app_r xs ys p : zlen xs <= p -> zl (xs ++ ys) p = zl ys (p - zlen xs).
Proof.
  intros Hp. pose proof (zlen_nonneg xs). unfold zl. destruct (Z.ltb_spec p 0); [lia|].
  destruct (Z.ltb_spec (p - zlen xs) 0); [lia|]. rewrite lookup_app_r by (unfold zlen in *; lia). f_equal. unfold zlen; lia.
Qed.
Lemma zl_cons x xs p : zl (x :: xs) p = if p =? 0 then Some x else zl xs (p - 1).
Proof.
  unfold zl. destruct (Z.eqb_spec p 0) as [->|Hne]; [reflexivity|].
  destruct (Z.ltb_spec p 0); [destruct (Z.ltb_spec (p - 1) 0); [reflexivity|lia]|].
  destruct (Z.ltb_spec (p - 1) 0); [lia|]. replace (Z.to_nat p) with (S (Z.to_nat (p - 1))) by lia. reflexivity.
Qed.
Lemma zl_nil p : zl [] p = None.
Proof. unfold zl. destruct (p <? 0); reflexivity. Qed.
Lemma zl_nat xs n : zl xs (Z.of_nat n) = xs !! n.
Proof. unfold zl. destruct (Z.ltb_spec (Z.of_nat n) 0); [lia|]. f_equal. lia. Qed.

(** Position [k] of the run is slot [k mod B] of block [k / B]. *)
Lemma pos_split k : 0 <= k -> 0 <= k / B /\ 0 <= k mod B < B /\ k = k / B * B + k mod B.
Proof.
  intros Hk. pose proof B_pos. splits; try (apply Z.mod_pos_bound; lia).
  - apply Z.div_pos; lia.
  - rewrite Z.mul_comm. apply Z.div_mod. lia.
Qed.

Lemma slot_ok h b j : b ∈ bl h -> 0 <= j < B -> slot P h (Some b) j = Ok b.
Proof.
  intros Hb Hj. cbn. rewrite bool_decide_eq_true_2 by assumption.
  destruct (Z.leb_spec 0 j), (Z.ltb_spec j B); cbn; lia || reflexivity.
Qed.

Lemma sl_at off xs i j : 0 <= j < B -> sl off xs i j = zl xs (i * B + j - off).
Proof. intros Hj. unfold sl. destruct (Z.leb_spec 0 j), (Z.ltb_spec j B); cbn; lia || reflexivity. Qed.

Lemma pos_eq i j i' j' : 0 <= j < B -> 0 <= j' < B -> i * B + j = i' * B + j' -> i = i' /\ j = j'.
Proof. intros. assert (i = i') by nia. split; [assumption|]. subst. lia. Qed.

(** Make a block-local change at block [i], slot [j]. *)
Lemma area_change h ids off xs off' xs' (i : nat) b j (o : option V) :
  area h ids off xs -> ids !! i = Some b -> 0 <= j < B ->
  zl xs' (Z.of_nat i * B + j - off') = o ->
  (forall i' j', 0 <= j' < B -> (Z.of_nat i', j') <> (Z.of_nat i, j) -> (i' < length ids)%nat ->
     zl xs' (Z.of_nat i' * B + j' - off') = zl xs (Z.of_nat i' * B + j' - off)) ->
  area (BHeap (partial_alter (fun _ => o) (b, j) (el h)) (bl h) (tb h) (nx h)) ids off' xs'.
Proof.
  intros [A1 A2 A3] Hi Hj Ho Hrest. constructor; cbn; [assumption|assumption|].
  intros i' b' j' Hi'.
  destruct (decide ((b', j') = (b, j))) as [[= -> ->]|Hne].
  - rewrite lookup_partial_alter. assert (i' = i) as -> by (eapply NoDup_lookup; eauto).
    rewrite sl_at by assumption. symmetry. exact Ho.
  - rewrite lookup_partial_alter_ne by congruence. rewrite (A3 _ _ _ Hi'). unfold sl.
    destruct (Z.leb_spec 0 j'), (Z.ltb_spec j' B); cbn; try reflexivity. symmetry. apply Hrest; [lia| |].
    + intros [= E1 E2]. apply Hne. assert (i' = i) by lia. congruence.
    + eapply lookup_lt_Some; eassumption.
Qed.

Lemma area_make h ids off xs off' xs' (i : nat) b j v :
  area h ids off xs -> ids !! i = Some b -> 0 <= j < B ->
  zl xs (Z.of_nat i * B + j - off) = None -> zl xs' (Z.of_nat i * B + j - off') = Some v ->
  (forall i' j', 0 <= j' < B -> (Z.of_nat i', j') <> (Z.of_nat i, j) -> (i' < length ids)%nat ->
     zl xs' (Z.of_nat i' * B + j' - off') = zl xs (Z.of_nat i' * B + j' - off)) ->
  exists e, emake P h (Some b) j v = Ok (BHeap e (bl h) (tb h) (nx h)) /\
    area (BHeap e (bl h) (tb h) (nx h)) ids off' xs' /\ (forall b' k, b' <> b -> e !! (b', k) = el h !! (b', k)).
Proof.
  intros Ha Hi Hj Hn Hv Hr. exists (<[(b, j) := v]> (el h)). unfold emake.
  rewrite slot_ok by (try assumption; eapply ar_bl; eassumption). cbn [obind].
  rewrite (ar_el _ _ _ _ Ha _ _ _ Hi), sl_at by assumption. rewrite Hn. splits.
  - eapply area_change; eassumption.
  - intros b' k Hb'. rewrite lookup_insert_ne; [reflexivity|congruence].
Qed.

Lemma area_kill h ids off xs off' xs' (i : nat) b j v :
  area h ids off xs -> ids !! i = Some b -> 0 <= j < B ->
  zl xs (Z.of_nat i * B + j - off) = Some v -> zl xs' (Z.of_nat i * B + j - off') = None ->
  (forall i' j', 0 <= j' < B -> (Z.of_nat i', j') <> (Z.of_nat i, j) -> (i' < length ids)%nat ->
     zl xs' (Z.of_nat i' * B + j' - off') = zl xs (Z.of_nat i' * B + j' - off)) ->
  exists e, ekill P h (Some b) j = Ok (BHeap e (bl h) (tb h) (nx h)) /\
    area (BHeap e (bl h) (tb h) (nx h)) ids off' xs' /\ (forall b' k, b' <> b -> e !! (b', k) = el h !! (b', k)).
Proof.
  intros Ha Hi Hj Hn Hv Hr. exists (delete (b, j) (el h)). unfold ekill.
  rewrite slot_ok by (try assumption; eapply ar_bl; eassumption). cbn [obind].
  rewrite (ar_el _ _ _ _ Ha _ _ _ Hi), sl_at by assumption. rewrite Hn. splits.
  - eapply area_change; eassumption.
  - intros b' k Hb'. rewrite lookup_delete_ne; [reflexivity|congruence].
Qed.

Lemma area_get h ids off xs (i : nat) b j v :
  area h ids off xs -> ids !! i = Some b -> 0 <= j < B -> zl xs (Z.of_nat i * B + j - off) = Some v ->
  eget P h (Some b) j = Ok v.
Proof.
  intros Ha Hi Hj Hn. unfold eget.
  rewrite slot_ok by (try assumption; eapply ar_bl; eassumption). cbn [obind].
  rewrite (ar_el _ _ _ _ Ha _ _ _ Hi), sl_at by assumption. rewrite Hn. reflexivity.
Qed.

Lemma area_set h ids off xs (i : nat) b j (n : nat) v :
  area h ids off xs -> ids !! i = Some b -> 0 <= j < B -> Z.of_nat i * B + j - off = Z.of_nat n -> (n < length xs)%nat ->
  exists e, eset P h (Some b) j v = Ok (BHeap e (bl h) (tb h) (nx h)) /\
    area (BHeap e (bl h) (tb h) (nx h)) ids off (<[n := v]> xs) /\ (forall b' k, b' <> b -> e !! (b', k) = el h !! (b', k)).
Proof.
  intros Ha Hi Hj Hn Hlt. exists (<[(b, j) := v]> (el h)). unfold eset.
  rewrite slot_ok by (try assumption; eapply ar_bl; eassumption). cbn [obind].
  rewrite (ar_el _ _ _ _ Ha _ _ _ Hi), sl_at by assumption. rewrite Hn, zl_nat.
  destruct (lookup_lt_is_Some_2 xs n Hlt) as [x ->]. splits.
  - eapply area_change with (o := Some v); try eassumption.
    + rewrite Hn, zl_nat. apply list_lookup_insert. assumption.
    + intros i' j' Hj' Hne Hi'. unfold zl. destruct (Z.ltb_spec (Z.of_nat i' * B + j' - off) 0); [reflexivity|].
      apply list_lookup_insert_ne. intros E. apply Hne.
      destruct (pos_eq (Z.of_nat i) j (Z.of_nat i') j') as [-> ->]; [lia|lia|lia|reflexivity].
  - intros b' k Hb'. rewrite lookup_insert_ne; [reflexivity|congruence].
Qed.

(** Adding and removing elements at the ends *)
Lemma area_push h ids off xs (i : nat) b j v :
  area h ids off xs -> ids !! i = Some b -> 0 <= j < B -> Z.of_nat i * B + j = off + zlen xs ->
  exists e, emake P h (Some b) j v = Ok (BHeap e (bl h) (tb h) (nx h)) /\
    area (BHeap e (bl h) (tb h) (nx h)) ids off (xs ++ [v]) /\ (forall b' k, b' <> b -> e !! (b', k) = el h !! (b', k)).
Proof.
  intros Ha Hi Hj Hp. eapply area_make; try eassumption.
  - apply zl_none. lia.
  - rewrite zl_app_r by lia. rewrite zl_cons. replace (_ =? 0) with true by lia. reflexivity.
  - intros i' j' Hj' Hne Hi'. destruct (Z.lt_ge_cases (Z.of_nat i' * B + j' - off) (zlen xs)) as [?|?].
    + apply zl_app_l. assumption.
    + rewrite zl_app_r by assumption. rewrite zl_cons. destruct (Z.eqb_spec (Z.of_nat i' * B + j' - off - zlen xs) 0).
      * exfalso. apply Hne. destruct (pos_eq (Z.of_nat i) j (Z.of_nat i') j') as [-> ->]; [lia|lia|lia|reflexivity].
      * rewrite zl_nil. symmetry. apply zl_none. lia.
Qed.

Lemma area_pop h ids off xs v (i : nat) b j :
  area h ids off (xs ++ [v]) -> ids !! i = Some b -> 0 <= j < B -> Z.of_nat i * B + j = off + zlen xs ->
  exists e, ekill P h (Some b) j = Ok (BHeap e (bl h) (tb h) (nx h)) /\
    area (BHeap e (bl h) (tb h) (nx h)) ids off xs /\ (forall b' k, b' <> b -> e !! (b', k) = el h !! (b', k)).
Proof.
  intros Ha Hi Hj Hp. eapply area_kill with (v := v); try eassumption.
  - rewrite zl_app_r by lia. rewrite zl_cons. replace (_ =? 0) with true by lia. reflexivity.
  - apply zl_none. lia.
  - intros i' j' Hj' Hne Hi'. destruct (Z.lt_ge_cases (Z.of_nat i' * B + j' - off) (zlen xs)) as [?|?].
    + symmetry. apply zl_app_l. assumption.
    + rewrite zl_app_r by assumption. rewrite zl_cons. destruct (Z.eqb_spec (Z.of_nat i' * B + j' - off - zlen xs) 0).
      * exfalso. apply Hne. destruct (pos_eq (Z.of_nat i) j (Z.of_nat i') j') as [-> ->]; [lia|lia|lia|reflexivity].
      * rewrite zl_nil. apply zl_none. lia.
Qed.

Lemma area_push_front h ids off xs (i : nat) b j v :
  area h ids off xs -> ids !! i = Some b -> 0 <= j < B -> Z.of_nat i * B + j = off - 1 ->
  exists e, emake P h (Some b) j v = Ok (BHeap e (bl h) (tb h) (nx h)) /\
    area (BHeap e (bl h) (tb h) (nx h)) ids (off - 1) (v :: xs) /\ (forall b' k, b' <> b -> e !! (b', k) = el h !! (b', k)).
Proof.
  intros Ha Hi Hj Hp. eapply area_make; try eassumption.
  - apply zl_none. lia.
  - rewrite zl_cons. replace (_ =? 0) with true by lia. reflexivity.
  - intros i' j' Hj' Hne Hi'. rewrite zl_cons. destruct (Z.eqb_spec (Z.of_nat i' * B + j' - (off - 1)) 0).
    + exfalso. apply Hne. destruct (pos_eq (Z.of_nat i) j (Z.of_nat i') j') as [-> ->]; [lia|lia|lia|reflexivity].
    + f_equal. lia.
Qed.

Lemma area_pop_front h ids off xs v (i : nat) b j :
  area h ids off (v :: xs) -> ids !! i = Some b -> 0 <= j < B -> Z.of_nat i * B + j = off ->
  exists e, ekill P h (Some b) j = Ok (BHeap e (bl h) (tb h) (nx h)) /\
    area (BHeap e (bl h) (tb h) (nx h)) ids (off + 1) xs /\ (forall b' k, b' <> b -> e !! (b', k) = el h !! (b', k)).
Proof.
  intros Ha Hi Hj Hp. eapply area_kill with (v := v); try eassumption.
  - rewrite zl_cons. replace (_ =? 0) with true by lia. reflexivity.
  - apply zl_none. lia.
  - intros i' j' Hj' Hne Hi'. rewrite zl_cons. destruct (Z.eqb_spec (Z.of_nat i' * B + j' - off) 0).
    + exfalso. apply Hne. destruct (pos_eq (Z.of_nat i) j (Z.of_nat i') j') as [-> ->]; [lia|lia|lia|reflexivity].
    + f_equal. lia.
Qed.

(** Adding and removing blocks at the ends *)
Definition empty_block h b : Prop := b ∈ bl h /\ forall j, el h !! (b, j) = None.

Lemma area_nil_off h ids off off' : area h ids off [] -> area h ids off' [].
Proof.
  intros [A1 A2 A3]. constructor; auto. intros i b j Hi. rewrite (A3 _ _ _ Hi). unfold sl. rewrite !zl_nil. reflexivity.
Qed.

Lemma area_snoc h ids off xs b :
  area h ids off xs -> empty_block h b -> b ∉ ids -> off + zlen xs <= B * zlen ids -> area h (ids ++ [b]) off xs.
Proof.
  intros [A1 A2 A3] [E1 E2] Hn Hl. constructor.
  - apply NoDup_app. splits; [assumption|set_solver|apply NoDup_singleton].
  - intros i b' Hi. apply lookup_app_Some in Hi as [Hi|[_ Hi]]; [eauto|].
    apply list_lookup_singleton_Some in Hi as [_ <-]. assumption.
  - intros i b' j Hi. apply lookup_app_Some in Hi as [Hi|[Hge Hi]]; [eauto|].
    apply list_lookup_singleton_Some in Hi as [Hi <-]. rewrite E2. unfold sl.
    destruct (Z.leb_spec 0 j), (Z.ltb_spec j B); cbn; try reflexivity. symmetry. apply zl_none. right. unfold zlen in *. nia.
Qed.

Lemma area_unsnoc h ids off xs b :
  area h (ids ++ [b]) off xs -> off + zlen xs <= B * zlen ids -> area h ids off xs /\ empty_block h b /\ b ∉ ids.
Proof.
  intros [A1 A2 A3] Hl. apply NoDup_app in A1 as (N1 & N2 & _).
  assert (Hb : (ids ++ [b]) !! length ids = Some b) by (apply list_lookup_middle; reflexivity).
  split; [|split].
  - constructor; [assumption| |].
    + intros i b' Hi. eapply A2. apply lookup_app_l_Some. eassumption.
    + intros i b' j Hi. eapply A3. apply lookup_app_l_Some. eassumption.
  - split; [eapply A2; exact Hb|]. intros j. rewrite (A3 _ _ _ Hb). unfold sl.
    destruct (Z.leb_spec 0 j), (Z.ltb_spec j B); cbn; try reflexivity. apply zl_none. right. unfold zlen in *. nia.
  - intros Hin. apply (N2 b Hin). set_solver.
Qed.

Lemma area_cons h ids off xs b :
  area h ids off xs -> empty_block h b -> b ∉ ids -> 0 <= off -> area h (b :: ids) (off + B) xs.
Proof.
  intros [A1 A2 A3] [E1 E2] Hn Hl. constructor.
  - constructor; assumption.
  - intros [|i] b' Hi; cbn in Hi; [injection Hi as <-; assumption|eauto].
  - intros [|i] b' j Hi; cbn in Hi.
    + injection Hi as <-. rewrite E2. unfold sl. destruct (Z.leb_spec 0 j), (Z.ltb_spec j B); cbn; try reflexivity.
      symmetry. apply zl_none. left. lia.
    + rewrite (A3 _ _ _ Hi). unfold sl. destruct (Z.leb_spec 0 j), (Z.ltb_spec j B); cbn; try reflexivity. f_equal. lia.
Qed.

Lemma area_uncons h ids off xs b :
  area h (b :: ids) off xs -> B <= off -> area h ids (off - B) xs /\ empty_block h b /\ b ∉ ids.
Proof.
  intros [A1 A2 A3] Hl. apply NoDup_cons in A1 as [N1 N2]. split; [|split; [|assumption]].
  - constructor; [assumption| |].
    + intros i b' Hi. apply (A2 (S i)). exact Hi.
    + intros i b' j Hi. rewrite (A3 (S i) b' j Hi). unfold sl.
      destruct (Z.leb_spec 0 j), (Z.ltb_spec j B); cbn; try reflexivity. f_equal. lia.
  - split; [apply (A2 0%nat); reflexivity|]. intros j. rewrite (A3 0%nat b j eq_refl). unfold sl.
    destruct (Z.leb_spec 0 j), (Z.ltb_spec j B); cbn; try reflexivity. apply zl_none. left. lia.
Qed.

Lemma area_empty_block h ids b : area h ids 0 [] -> b ∈ ids -> empty_block h b.
Proof.
  intros [A1 A2 A3] Hb. apply elem_of_list_lookup in Hb as [i Hi]. split; [eauto|].
  intros j. rewrite (A3 _ _ _ Hi). unfold sl. rewrite zl_nil. destruct (_ && _); reflexivity.
Qed.

Lemma area_nil h off : area h [] off [].
Proof. constructor; [constructor| |]; intros i b; rewrite lookup_nil; discriminate. Qed.

End area.

(** ** Tables *)
Section tables.
Context {V : Type}.
Implicit Types (h : bheap V) (bs ts ids : list nat) (b : nat).

(** Entries [lo .. lo + length ids - 1] of table [t] are the blocks [ids]. *)
Definition row h (t : nat) (slots lo : Z) ids : Prop :=
  exists cs, tb h !! t = Some cs /\ zlen cs = slots /\ 0 <= lo /\ lo + zlen ids <= slots /\
    forall i b, ids !! i = Some b -> cs !! (Z.to_nat lo + i)%nat = Some (Some b).

Lemma row_frame h h' t slots lo ids : row h t slots lo ids -> tb h' !! t = tb h !! t -> row h' t slots lo ids.
Proof. intros (cs & H1 & H) E. exists cs. rewrite E. auto. Qed.

Lemma row_get h t slots lo ids (i : nat) b k :
  row h t slots lo ids -> ids !! i = Some b -> k = lo + Z.of_nat i -> tget h (Some t) k = Ok (Some b).
Proof.
  intros (cs & Hcs & Hl & Hlo & Hb & Hr) Hi ->. cbn. rewrite Hcs.
  destruct (Z.ltb_spec (lo + Z.of_nat i) 0); [lia|].
  replace (Z.to_nat (lo + Z.of_nat i)) with (Z.to_nat lo + i)%nat by lia. rewrite (Hr _ _ Hi). reflexivity.
Qed.

Lemma row_lo_nonneg h t slots lo ids : row h t slots lo ids -> 0 <= lo /\ lo + zlen ids <= slots.
Proof. intros (cs & _ & _ & H1 & H2 & _). auto. Qed.

Lemma row_prefix h t slots lo ids ids' : row h t slots lo (ids ++ ids') -> row h t slots lo ids.
Proof.
  intros (cs & Hcs & Hl & Hlo & Hb & Hr). exists cs. rewrite zlen_app in Hb. pose proof (zlen_nonneg ids').
  splits; try assumption; try lia. intros i b Hi. apply Hr. apply lookup_app_l_Some. assumption.
Qed.

Lemma row_tail h t slots lo b ids : row h t slots lo (b :: ids) -> row h t slots (lo + 1) ids.
Proof.
  intros (cs & Hcs & Hl & Hlo & Hb & Hr). exists cs. rewrite zlen_cons in Hb.
  splits; try assumption; try lia. intros i b' Hi. replace (Z.to_nat (lo + 1) + i)%nat with (Z.to_nat lo + S i)%nat by lia.
  apply Hr. exact Hi.
Qed.

Lemma row_nil h t slots lo cs : tb h !! t = Some cs -> zlen cs = slots -> 0 <= lo <= slots -> row h t slots lo [].
Proof.
  intros H1 H2 H3. exists cs. unfold zlen in *; cbn. splits; try assumption; try lia.
  intros i b Hi. rewrite lookup_nil in Hi. discriminate.
Qed.

Lemma tset_ok h t cs k c :
  tb h !! t = Some cs -> 0 <= k < zlen cs ->
  tset h (Some t) k c = Ok (BHeap (el h) (bl h) (<[t := <[Z.to_nat k := c]> cs]> (tb h)) (nx h)).
Proof.
  intros Hcs Hk. cbn. rewrite Hcs. destruct (Z.ltb_spec k 0); [lia|]. destruct (Z.leb_spec (zlen cs) k); [lia|]. reflexivity.
Qed.

(** Write the entry after / before the row. *)
Lemma row_snoc h t slots lo ids b k bs ts :
  hok bs ts h -> t ∈ ts -> row h t slots lo ids -> k = lo + zlen ids -> k < slots ->
  exists h', tset h (Some t) k (Some b) = Ok h' /\ row h' t slots lo (ids ++ [b]) /\ upd bs ts h bs ts h' /\
    (forall b', sameb b' h h') /\ (forall t', t' <> t -> tb h' !! t' = tb h !! t').
Proof.
  intros Hok Ht (cs & Hcs & Hl & Hlo & Hb & Hr) -> Hk. pose proof (zlen_nonneg ids).
  rewrite (tset_ok _ _ cs) by (try assumption; lia). eexists. split; [reflexivity|]. splits.
  - exists (<[Z.to_nat (lo + zlen ids) := Some b]> cs). cbn. rewrite lookup_insert. splits; try assumption.
    + unfold zlen in *. rewrite insert_length. assumption.
    + rewrite zlen_app, zlen_cons. unfold zlen in *; cbn. lia.
    + intros i b' Hi. apply lookup_app_Some in Hi as [Hi|[Hge Hi]].
      * pose proof (lookup_lt_Some _ _ _ Hi). rewrite list_lookup_insert_ne by (unfold zlen; lia). auto.
      * apply list_lookup_singleton_Some in Hi as [Hi <-].
        replace (Z.to_nat (lo + zlen ids)) with (Z.to_nat lo + i)%nat by (unfold zlen; lia).
        apply list_lookup_insert. unfold zlen in *. lia.
  - apply upd_tb; assumption.
  - intros b'. apply sameb_same; reflexivity.
  - intros t' Hne. cbn. apply lookup_insert_ne. congruence.
Qed.

Lemma row_cons h t slots lo ids b bs ts :
  hok bs ts h -> t ∈ ts -> row h t slots lo ids -> 0 < lo ->
  exists h', tset h (Some t) (lo - 1) (Some b) = Ok h' /\ row h' t slots (lo - 1) (b :: ids) /\ upd bs ts h bs ts h' /\
    (forall b', sameb b' h h') /\ (forall t', t' <> t -> tb h' !! t' = tb h !! t').
Proof.
  intros Hok Ht (cs & Hcs & Hl & Hlo & Hb & Hr) Hk. pose proof (zlen_nonneg ids).
  rewrite (tset_ok _ _ cs) by (try assumption; lia). eexists. split; [reflexivity|]. splits.
  - exists (<[Z.to_nat (lo - 1) := Some b]> cs). cbn. rewrite lookup_insert. splits; try assumption; try lia.
    + unfold zlen in *. rewrite insert_length. assumption.
    + rewrite zlen_cons. lia.
    + intros [|i] b' Hi; cbn in Hi.
      * injection Hi as <-. rewrite Nat.add_0_r. apply list_lookup_insert. unfold zlen in *. lia.
      * rewrite list_lookup_insert_ne by lia. replace (Z.to_nat (lo - 1) + S i)%nat with (Z.to_nat lo + i)%nat by lia. auto.
  - apply upd_tb; assumption.
  - intros b'. apply sameb_same; reflexivity.
  - intros t' Hne. cbn. apply lookup_insert_ne. congruence.
Qed.

(** Copy a row into a fresh table and delete the old one. *)
Lemma row_grow h t slots lo ids n i m k bs ts :
  hok bs (t :: ts) h -> t ∉ ts -> row h t slots lo ids ->
  0 <= i -> i <= lo -> lo + zlen ids <= i + m -> i + m <= slots -> 0 <= k -> k + m <= n ->
  exists h1 u h2 h3, talloc h n = (h1, Some u) /\ tcopy h1 (Some t) i m (Some u) k = Ok h2 /\
    tdelete h2 (Some t) = Ok h3 /\ u ∉ t :: ts /\ row h3 u n (lo - i + k) ids /\
    upd bs (t :: ts) h bs (u :: ts) h3 /\ (forall b', sameb b' h h3) /\
    (forall t', t' <> t -> (t' < nx h)%nat -> tb h3 !! t' = tb h !! t').
Proof.
  intros Hok Hnt (cs & Hcs & Hl & Hlo & Hb & Hr) Hi Hil Him Hims Hk Hkn. pose proof (zlen_nonneg ids).
  destruct (talloc h n) as [h1 u'] eqn:Ea. destruct (upd_talloc _ _ _ _ _ _ Hok Ea) as (-> & U1 & Hu & Hub & Hold & Hsame).
  set (u := nx h) in *. exists h1, u.
  assert (Htl : (t < nx h)%nat) by (apply Hok; set_solver).
  assert (Hcs1 : tb h1 !! t = Some cs) by (rewrite Hold by exact Htl; assumption).
  assert (Hlen : zlen (replicate (Z.to_nat n) (@None nat)) = n) by (unfold zlen; rewrite replicate_length; lia).
  set (ds := take (Z.to_nat k) (replicate (Z.to_nat n) (@None nat)) ++ take (Z.to_nat m) (drop (Z.to_nat i) cs) ++
             drop (Z.to_nat (k + m)) (replicate (Z.to_nat n) (@None nat))).
  set (h2 := BHeap (el h1) (bl h1) (<[u := ds]> (tb h1)) (nx h1)).
  assert (E2 : tcopy h1 (Some t) i m (Some u) k = Ok h2).
  { unfold tcopy. rewrite Hcs1, Hub, Hlen, Hl.
    destruct (Z.leb_spec 0 i), (Z.leb_spec 0 m), (Z.leb_spec (i + m) slots), (Z.leb_spec 0 k), (Z.leb_spec (k + m) n);
      cbn; try lia. reflexivity. }
  exists h2.
  pose proof (upd_hok _ _ _ _ _ _ Hok U1) as Hok1.
  assert (U2 : upd bs (u :: t :: ts) h1 bs (u :: t :: ts) h2) by (apply upd_tb; [assumption|set_solver]).
  pose proof (upd_hok _ _ _ _ _ _ Hok1 U2) as Hok2.
  assert (Hut : t <> u) by lia.
  destruct (upd_tdelete bs (u :: ts) h2 t cs) as (h3 & E3 & U3 & Hot & Hs3).
  - eapply hok_eqv; [exact Hok2|set_solver|set_solver].
  - set_solver.
  - cbn. rewrite lookup_insert_ne by congruence. exact Hcs1.
  - exists h3. splits; try assumption.
    + exists ds. split; [rewrite Hot by congruence; cbn; apply lookup_insert|].
      assert (Hll : length ds = Z.to_nat n).
      { unfold ds. rewrite !app_length, !take_length, !drop_length, replicate_length. unfold zlen in *. lia. }
      splits; [unfold zlen in *; lia|lia|lia|].
      intros p b Hp. pose proof (lookup_lt_Some _ _ _ Hp) as Hpl. unfold ds. unfold zlen in *.
      rewrite lookup_app_r by (rewrite take_length, replicate_length; lia). rewrite take_length, replicate_length.
      rewrite lookup_app_l by (rewrite take_length, drop_length; lia).
      rewrite lookup_take by lia. rewrite lookup_drop. rewrite <- (Hr _ _ Hp). f_equal. lia.
    + eapply upd_trans; [exact U1|]. eapply upd_trans; [exact U2|].
      eapply upd_eqv; [exact U3|tauto|set_solver|tauto|tauto].
    + intros b'. eapply sameb_trans; [apply Hsame|]. eapply sameb_trans; [|apply Hs3]. split; cbn; [tauto|reflexivity].
    + intros t' Hne Hlt. rewrite Hot by congruence. cbn. rewrite lookup_insert_ne by lia. apply Hold. exact Hlt.
Qed.

End tables.
