(** BlockIterator moves like a position in the sequence of slots. *)
From stdpp Require Import gmap.
From Verif Require Import Base BlkHeap BlkProofs BlkMore BlkRun BlkIter.

Section iter.
Context {V : Type}.
Variable P : params.
Hypothesis HP : 0 <= expo P.
Notation B := (bsz P).
Implicit Types (h : bheap V) (it : biter).

(** The iterator to slot [q] of the table [t], counting [B] slots for each entry. *)
Definition it_at h (t : nat) (q : Z) it : Prop := it_new h (Some t) (q / B) (q mod B) = Ok it.

Definition entry h (t : nat) (i : Z) : Prop := exists c, tget h (Some t) i = Ok c.

Lemma it_at_ex h t q : entry h t (q / B) -> exists it, it_at h t q it.
Proof. intros [c E]. unfold it_at, it_new, it_ptr. rewrite E. cbn. eauto. Qed.

Lemma it_at_inv h t q it : it_at h t q it ->
  exists c, tget h (Some t) (q / B) = Ok c /\
    it = BIter (Some t) (q / B) (match c with Some b => PSlot b (q mod B) | None => PJunk end) (q mod B).
Proof.
  unfold it_at, it_new, it_ptr. intros H. apply obind_ok in H as (p & H1 & H2). apply obind_ok in H1 as (c & H1 & H3).
  exists c. split; [assumption|]. congruence.
Qed.

Lemma it_at_fun h t q it it' : it_at h t q it -> it_at h t q it' -> it = it'.
Proof. unfold it_at. congruence. Qed.

Lemma it_at_eq h t q q' it it' : it_at h t q it -> it_at h t q' it' -> it_eq it it' = (q =? q').
Proof.
  intros H H'. apply it_at_inv in H as (c & _ & ->). apply it_at_inv in H' as (c' & _ & ->). unfold it_eq; cbn.
  rewrite bool_decide_eq_true_2 by reflexivity. cbn. pose proof (B_pos P HP) as HB.
  pose proof (Z.div_mod q B ltac:(lia)). pose proof (Z.div_mod q' B ltac:(lia)).
  destruct (Z.eqb_spec q q') as [->|Hne]; [rewrite !Z.eqb_refl; reflexivity|].
  destruct (Z.eqb_spec (q / B) (q' / B)) as [E|]; [|reflexivity]. destruct (Z.eqb_spec (q mod B) (q' mod B)) as [E'|]; [|reflexivity].
  exfalso. apply Hne. rewrite H, H0, E, E'. reflexivity.
Qed.

Lemma wrap32_id z : -2147483648 <= z <= 2147483647 -> wrap32 z = z.
Proof. intros Hz. unfold wrap32. rewrite Z.mod_small by lia. lia. Qed.

Lemma it_add_within h t q it k :
  it_at h t q it -> 0 <= k -> q mod B + k <= 2147483647 -> entry h t ((q + k) / B) ->
  exists it', it_add P h it k = Ok it' /\ it_at h t (q + k) it'.
Proof.
  intros H Hk Hk2 He. pose proof (B_pos P HP) as HB. pose proof (Z.mod_pos_bound q B HB) as Hm. pose proof (Z.div_mod q B ltac:(lia)) as Hd.
  apply it_at_inv in H as (c & E & ->). unfold it_add; cbn [i_off i_pos i_tab i_ptr].
  rewrite wrap32_id by lia. unfold int_ok, int_max.
  assert (Hio : negb ((-2147483648 <=? q mod B + k) && (q mod B + k <=? 2147483647)) = false) by lia. rewrite Hio.
  assert (Hsplit : forall a, 0 <= a -> q mod B + k = a * B + (q mod B + k - a * B) -> 0 <= q mod B + k - a * B < B ->
            (q + k) / B = q / B + a /\ (q + k) mod B = q mod B + k - a * B).
  { intros a Ha Hq Hr. split.
    - symmetry. eapply Z.div_unique_pos with (r := q mod B + k - a * B); [assumption|]. lia.
    - symmetry. eapply Z.mod_unique_pos with (q := q / B + a); [assumption|]. lia. }
  destruct (Z.leb_spec B (q mod B + k)) as [Hge|Hlt].
  - pose proof (Z.div_mod (q mod B + k - B) B ltac:(lia)) as Hd2. pose proof (Z.mod_pos_bound (q mod B + k - B) B HB) as Hm2.
    pose proof (Z.div_pos (q mod B + k - B) B ltac:(lia) HB).
    destruct (Hsplit (1 + (q mod B + k - B) / B)) as [E1 E2]; try lia.
    destruct He as [c' E']. rewrite E1 in E'. rewrite <- Z.add_assoc. unfold it_at, it_new. rewrite E1, E2.
    replace (q mod B + k - (1 + (q mod B + k - B) / B) * B) with ((q mod B + k - B) mod B) by lia.
    unfold it_ptr. rewrite E'. cbn. eauto.
  - destruct (Hsplit 0) as [E1 E2]; try lia. rewrite Z.add_0_r in E1.
    eexists. split; [reflexivity|]. unfold it_at, it_new, it_ptr. rewrite E1, E2, E. cbn.
    replace (q mod B + k - 0 * B) with (q mod B + k) by lia. destruct c; reflexivity.
Qed.
Lemma it_add_ok h t q it k :
  it_at h t q it -> 0 <= k <= 2147483648 - B -> entry h t ((q + k) / B) ->
  exists it', it_add P h it k = Ok it' /\ it_at h t (q + k) it'.
Proof. intros H Hk. pose proof (B_pos P HP) as HB. pose proof (Z.mod_pos_bound q B HB) as Hm. apply it_add_within; [exact H|lia|lia]. Qed.

Lemma it_sub_ok h t q it k :
  it_at h t q it -> 0 <= k <= 2147483647 -> entry h t ((q - k) / B) -> B <= 2147483648 ->
  exists it', it_sub P h it k = Ok it' /\ it_at h t (q - k) it'.
Proof.
  intros H Hk He HBm. pose proof (B_pos P HP) as HB. pose proof (Z.mod_pos_bound q B HB) as Hm. pose proof (Z.div_mod q B ltac:(lia)) as Hd.
  apply it_at_inv in H as (c & E & ->). unfold it_sub; cbn [i_off i_pos i_tab i_ptr].
  rewrite wrap32_id by lia. unfold int_ok, int_max.
  assert (Hio : negb ((-2147483648 <=? q mod B - k) && (q mod B - k <=? 2147483647)) = false) by lia. rewrite Hio.
  assert (Hsplit : forall a, q mod B - k = - a * B + (q mod B - k + a * B) -> 0 <= q mod B - k + a * B < B ->
            (q - k) / B = q / B - a /\ (q - k) mod B = q mod B - k + a * B).
  { intros a Hq Hr. split.
    - symmetry. eapply Z.div_unique_pos with (r := q mod B - k + a * B); [assumption|]. lia.
    - symmetry. eapply Z.mod_unique_pos with (q := q / B - a); [assumption|]. lia. }
  destruct (Z.ltb_spec (q mod B - k) 0) as [Hneg|Hpos].
  - set (d := - (q mod B - k) - 1) in *.
    pose proof (Z.div_mod d B ltac:(lia)) as Hd2. pose proof (Z.mod_pos_bound d B HB) as Hm2.
    destruct (Hsplit (1 + d / B)) as [E1 E2]; try (subst d; lia).
    destruct He as [c' E']. rewrite E1 in E'. unfold it_at, it_new. rewrite E1, E2.
    replace (q mod B - k + (1 + d / B) * B) with (B - 1 - d mod B) by (subst d; lia).
    unfold it_ptr. rewrite E'. cbn. eauto.
  - destruct (Hsplit 0) as [E1 E2]; try lia. rewrite Z.sub_0_r in E1.
    eexists. split; [reflexivity|]. unfold it_at, it_new, it_ptr. rewrite E1, E2, E. cbn.
    replace (q mod B - k + 0 * B) with (q mod B - k) by lia. destruct c; reflexivity.
Qed.

Lemma it_steps_ok h t n : forall q it,
  it_at h t q it -> B < 2147483648 -> (forall p, q < p <= q + Z.of_nat n -> entry h t (p / B)) ->
  exists it', it_steps P h it n = Ok it' /\ it_at h t (q + Z.of_nat n) it'.
Proof.
  induction n as [|n IH]; intros q it H HBm He; cbn [it_steps].
  - exists it. rewrite Z.add_0_r. auto.
  - destruct (it_add_ok h t q it 1 H) as (it1 & -> & H1); [lia|apply He; lia|]. cbn [obind].
    destruct (IH (q + 1) it1 H1 HBm) as (it2 & -> & H2); [intros p Hp; apply He; lia|].
    exists it2. split; [reflexivity|]. replace (q + Z.of_nat (S n)) with (q + 1 + Z.of_nat n) by lia. assumption.
Qed.

Lemma row_entry h t slots lo ids k : row h t slots lo ids -> 0 <= k < slots -> entry h t k.
Proof.
  intros (cs & Hcs & Hl & _) Hk. unfold entry, tget. rewrite Hcs. destruct (Z.ltb_spec k 0); [lia|].
  destruct (lookup_lt_is_Some_2 cs (Z.to_nat k)) as [c ->]; [unfold zlen in Hl; lia|]. eauto.
Qed.

(** The iterator to element [n] of a sequence reads that element. *)
Lemma it_read_ok h t slots lo ids off xs f frees n it x :
  blocks P h t slots lo ids off xs f frees -> 0 <= off -> off + zlen xs <= B * zlen ids ->
  it_at h t (lo * B + off + n) it -> zl xs n = Some x -> it_read P h it = Ok x.
Proof.
  intros Hbk Ho Hl Hat Hx. pose proof (B_pos P HP) as HB.
  assert (Hn : 0 <= n < zlen xs).
  { destruct (Z.lt_ge_cases n 0); [rewrite zl_none in Hx by lia; discriminate|].
    destruct (Z.lt_ge_cases n (zlen xs)); [lia|rewrite zl_none in Hx by lia; discriminate]. }
  destruct (bk_locate P HP h t slots lo ids off xs f frees n Hbk Ho Hl Hn) as (i & b & E1 & E2 & E3 & E4 & E5).
  apply it_at_inv in Hat as (c & E & ->).
  replace (lo * B + off + n) with ((off + n) + lo * B) in * by lia.
  rewrite Z.div_add in E by lia. rewrite Z.mod_add by lia. rewrite Z.add_comm, E5 in E. injection E as <-.
  cbn. eapply bk_read; [exact Hbk|exact E1|exact E3|exact E4|exact Hx].
Qed.

Lemma it_walk_ok h t slots lo ids off xs f frees :
  blocks P h t slots lo ids off xs f frees -> 0 <= off -> off + zlen xs <= B * zlen ids -> B < 2147483648 ->
  entry h t ((lo * B + off + zlen xs) / B) ->
  forall k n it last, (n + k = length xs)%nat ->
    it_at h t (lo * B + off + Z.of_nat n) it -> it_at h t (lo * B + off + zlen xs) last ->
    it_walk P h it last k = Ok (drop n xs).
Proof.
  intros Hbk Ho Hl HBm Hent. pose proof (B_pos P HP) as HB.
  induction k as [|k IH]; intros n it last Hk Hit Hlast; cbn [it_walk]; rewrite (it_at_eq _ _ _ _ _ _ Hit Hlast).
  - replace n with (length xs) by lia. rewrite drop_all. destruct (Z.eqb_spec (lo * B + off + Z.of_nat (length xs)) (lo * B + off + zlen xs)); [reflexivity|unfold zlen in *; lia].
  - destruct (Z.eqb_spec (lo * B + off + Z.of_nat n) (lo * B + off + zlen xs)); [unfold zlen in *; lia|].
    destruct (lookup_lt_is_Some_2 xs n) as [x Hx]; [lia|].
    rewrite (it_read_ok h t slots lo ids off xs f frees (Z.of_nat n) it x Hbk Ho Hl Hit) by (rewrite zl_nat; assumption). cbn [obind].
    destruct (it_add_ok h t _ it 1 Hit) as (it' & -> & Hit'); [lia| |].
    { destruct (decide (S n = length xs)) as [E|Hne].
      - replace (lo * B + off + Z.of_nat n + 1) with (lo * B + off + zlen xs) by (unfold zlen; lia). assumption.
      - destruct (bk_locate P HP h t slots lo ids off xs f frees (Z.of_nat n + 1) Hbk Ho Hl) as (i & b & _ & _ & _ & _ & E5); [unfold zlen; lia|].
        replace (lo * B + off + Z.of_nat n + 1) with ((off + (Z.of_nat n + 1)) + lo * B) by lia. rewrite Z.div_add by lia.
        rewrite Z.add_comm. eexists. exact E5. }
    cbn [obind]. replace (lo * B + off + Z.of_nat n + 1) with (lo * B + off + Z.of_nat (S n)) in Hit' by lia.
    rewrite (IH (S n) it' last) by (try assumption; lia). cbn [obind]. rewrite (drop_S _ _ _ Hx). reflexivity.
Qed.

End iter.
