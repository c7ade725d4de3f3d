(** Proofs about CircularBufferRaw. *)
From Verif Require Import Base CircModel CircSpec.

(** ** Layout of stored blocks *)
Fixpoint seg (m : list byte) (cap a : Z) (q : list (list byte)) (b : Z) : Prop :=
  match q with
  | [] => a = b
  | x :: q' =>
      0 < zlen x <= int_max /\ a + 8 <= cap /\
      mread m a 4 = Ok (enc32 (zlen x)) /\ mread m (a + 4) (zlen x) = Ok x /\
      seg m cap (a + 4 + zlen x) q' b
  end.

Lemma footprint_nonneg q : 0 <= footprint q.
Proof. induction q as [|x q IH]; cbn [footprint]; [lia|]. pose proof (zlen_nonneg x). lia. Qed.

Lemma footprint_app q1 q2 : footprint (q1 ++ q2) = footprint q1 + footprint q2.
Proof. induction q1 as [|x q IH]; cbn [footprint app]; lia. Qed.

Lemma seg_len m cap a q b : seg m cap a q b -> b = a + footprint q.
Proof.
  revert a; induction q as [|x q IH]; cbn [seg footprint]; intros a H; [lia|].
  destruct H as (_ & _ & _ & _ & H). apply IH in H. lia.
Qed.

Lemma seg_app m cap a q1 q2 b c :
  seg m cap a q1 b -> seg m cap b q2 c -> seg m cap a (q1 ++ q2) c.
Proof.
  revert a; induction q1 as [|x q IH]; cbn [seg app]; intros a H1 H2.
  - subst; assumption.
  - destruct H1 as (? & ? & ? & ? & ?). splits; eauto; lia.
Qed.

Lemma seg_nonempty m cap a q b : seg m cap a q b -> q <> [] -> a + 4 < b.
Proof.
  destruct q as [|x q]; cbn [seg]; [congruence|]. intros (Hx & _ & _ & _ & H) _.
  apply seg_len in H. pose proof (footprint_nonneg q). lia.
Qed.

Lemma seg_nil_iff m cap a q b : seg m cap a q b -> (a = b <-> q = []).
Proof.
  intros H. split; intros; subst.
  - destruct q; [reflexivity|]. apply seg_nonempty in H; [lia|congruence].
  - exact H.
Qed.

(** A write outside a segment leaves it alone. *)
Lemma seg_frame m off bs m' cap a q b :
  mwrite m off bs = Ok m' -> b <= off \/ off + zlen bs <= a ->
  seg m cap a q b -> seg m' cap a q b.
Proof.
  intros Hw. revert a; induction q as [|x q IH]; cbn [seg]; intros a Hd H; [assumption|].
  destruct H as (Hx & Hc & Hh & Hb & Ht).
  pose proof (seg_len _ _ _ _ _ Ht). pose proof (footprint_nonneg q).
  splits; try lia.
  - rewrite <- Hh. eapply mread_mwrite_disj; [eassumption|]. lia.
  - rewrite <- Hb. eapply mread_mwrite_disj; [eassumption|]. lia.
  - apply IH; [lia|assumption].
Qed.

Lemma seg_mono m cap cap' a q b :
  seg m cap a q b -> cap <= cap' -> seg m cap' a q b.
Proof.
  revert a; induction q as [|x q IH]; cbn [seg]; intros a H Hc; [assumption|].
  destruct H as (? & ? & ? & ? & ?). splits; eauto; lia.
Qed.

(** ** Storing one block *)
Lemma circ_put_spec m off d n :
  0 <= off -> 0 < n <= int_max -> n <= zlen d -> off + n + 4 <= zlen m ->
  exists m', circ_put m off d n = Ok m' /\ zlen m' = zlen m /\
    mread m' off 4 = Ok (enc32 n) /\ mread m' (off + 4) n = Ok (take (Z.to_nat n) d) /\
    (forall cap a q b, b <= off \/ off + n + 4 <= a -> seg m cap a q b -> seg m' cap a q b) /\
    (forall a k, a + k <= off \/ off + n + 4 <= a -> mread m' a k = mread m a k).
Proof.
  intros Ho Hn Hd Hm. unfold circ_put.
  assert (Hw1 : exists m1, mwrite m off (enc32 n) = Ok m1).
  { rewrite mwrite_ok; eauto. rewrite zlen_enc32. lia. }
  destruct Hw1 as [m1 Hw1]. rewrite Hw1. cbn [obind].
  assert (Hr : mread d 0 n = Ok (take (Z.to_nat n) d)).
  { rewrite mread_ok by lia. reflexivity. }
  rewrite Hr; cbn [obind].
  assert (Hlt : zlen (take (Z.to_nat n) d) = n).
  { unfold zlen in *. rewrite take_length. lia. }
  pose proof (mwrite_len _ _ _ _ Hw1) as Hl1.
  assert (Hw2 : exists m2, mwrite m1 (off + 4) (take (Z.to_nat n) d) = Ok m2).
  { rewrite mwrite_ok; eauto; lia. }
  destruct Hw2 as [m2 Hw2]. rewrite Hw2. exists m2.
  pose proof (mwrite_len _ _ _ _ Hw2) as Hl2.
  splits; try lia; try reflexivity.
  - rewrite (mread_mwrite_disj _ _ _ _ _ _ Hw2) by lia.
    rewrite <- (zlen_enc32 n) at 1. eapply mread_mwrite_same; eassumption.
  - rewrite <- Hlt at 1. eapply mread_mwrite_same; eassumption.
  - intros cap a q b Hab Hs.
    eapply seg_frame; [exact Hw2| |]. { rewrite Hlt; lia. }
    eapply seg_frame; [exact Hw1| |exact Hs]. rewrite zlen_enc32; lia.
  - intros a k Hak. rewrite (mread_mwrite_disj _ _ _ _ _ _ Hw2) by lia.
    apply (mread_mwrite_disj _ _ _ _ _ _ Hw1). rewrite zlen_enc32; lia.
Qed.

Lemma seg_single m cap a x :
  0 < zlen x <= int_max -> a + 8 <= cap ->
  mread m a 4 = Ok (enc32 (zlen x)) -> mread m (a + 4) (zlen x) = Ok x ->
  seg m cap a [x] (a + zlen x + 4).
Proof. intros. cbn [seg]. splits; try assumption; lia. Qed.

(** ** The representation invariant.
    [M] bounds every block pushed so far (it is only needed to know how much space may be lost at the end of
    the memory when wrapping). *)
Definition inv_flat (s : circ) (q : list (list byte)) : Prop :=
  0 <= c_r s /\ c_r s <= c_w s /\ (c_w s = 0 \/ c_w s + 8 <= c_cap s) /\
  seg (c_mem s) (c_cap s) (c_r s) q (c_w s).

Definition inv_wrap (M : Z) (s : circ) (q : list (list byte)) : Prop :=
  exists q1 q2 e, q = q1 ++ q2 /\
    0 <= c_w s /\ c_w s < c_r s /\ c_r s + 8 <= c_cap s /\
    seg (c_mem s) (c_cap s) (c_r s) q1 e /\ e <= c_cap s /\ c_cap s < e + M + 4 /\
    (c_cap s < e + 8 \/
     (e + 8 <= c_cap s /\ mread (c_mem s) e 4 = Ok (enc32 (-1)) /\ q2 <> [])) /\
    seg (c_mem s) (c_cap s) 0 q2 (c_w s).

Definition circ_inv (M : Z) (s : circ) (q : list (list byte)) : Prop :=
  0 <= c_cap s <= zlen (c_mem s) /\ c_cap s <= int_max /\ 4 <= M /\
  (inv_flat s q \/ inv_wrap M s q).

(** The guard under which an accepted push keeps the buffer a FIFO: a block stored at the end while nothing
    has been read since the last wrap must leave 8 bytes; a block must not fill the free space exactly. *)
Definition push_safe (s : circ) (n : Z) : Prop :=
  if c_r s <=? c_w s then
    if n + 4 <=? c_cap s - c_w s then c_r s = 0 -> c_w s + n + 12 <= c_cap s
    else if n + 4 <=? c_r s then n + 4 <> c_r s else True
  else n + 4 <> c_r s - c_w s.

Definition cop_legal (M : Z) (o : cop) : Prop :=
  match o with
  | CPush (Some d) n => n <= zlen d /\ n <= M /\ n <= int_max
  | _ => True
  end.

Definition cop_safe (s : circ) (o : cop) : Prop :=
  match o with CPush (Some _) n => 0 < n -> push_safe s n | _ => True end.

Lemma circ_new_inv M mem n :
  0 <= n <= zlen mem -> n <= int_max -> 4 <= M -> circ_inv M (circ_new mem n) [].
Proof.
  intros. unfold circ_inv; cbn. splits; try lia. left. unfold inv_flat; cbn. lia.
Qed.

Lemma empty_ok M s q : circ_inv M s q -> circ_empty s = match q with [] => true | _ => false end.
Proof.
  intros (Hc & Hi & HM & H). unfold circ_empty. destruct H as [H|H].
  - destruct H as (Hr & Hrw & Hw & Hs). apply seg_nil_iff in Hs.
    destruct q; destruct (Z.eqb_spec (c_w s) (c_r s)); try reflexivity.
    + destruct Hs as [_ Hs]. specialize (Hs eq_refl). lia.
    + destruct Hs as [Hs _]. symmetry in e. specialize (Hs e). discriminate.
  - destruct H as (q1 & q2 & e & -> & H0 & H1 & H2 & Hs1 & He & HeM & Hor & Hs2).
    destruct (Z.eqb_spec (c_w s) (c_r s)); [lia|].
    destruct q1 as [|x q1]; [|reflexivity]. destruct q2 as [|x q2]; [|reflexivity].
    cbn in Hs1. subst e. destruct Hor as [?|(?&?&?)]; [lia|congruence].
Qed.

(** ** push *)
Lemma push_ok M s q d n :
  circ_inv M s q -> n <= zlen d -> n <= M -> n <= int_max -> (0 < n -> push_safe s n) ->
  (circ_push s (Some d) n = Ok (s, false)) \/
  (exists s', circ_push s (Some d) n = Ok (s', true) /\ 0 < n /\
     circ_inv M s' (q ++ [take (Z.to_nat n) d]) /\ c_cap s' = c_cap s /\ zlen (c_mem s') = zlen (c_mem s)).
Proof.
  intros (Hc & Hi & HM4 & H) Hd HnM Hni Hsafe. unfold circ_push.
  destruct (Z.leb_spec n 0) as [|Hn]; [left; reflexivity|]. specialize (Hsafe Hn).
  unfold push_safe in Hsafe.
  assert (Hlt : zlen (take (Z.to_nat n) d) = n).
  { unfold zlen in *. rewrite take_length. lia. }
  destruct (Z.leb_spec (c_r s) (c_w s)) as [Hrw|Hrw].
  - destruct H as [H|H].
    2:{ exfalso. destruct H as (q1 & q2 & e & -> & H0 & H1 & _). lia. }
    destruct H as (Hr & _ & Hw & Hs).
    destruct (Z.leb_spec (n + 4) (c_cap s - c_w s)) as [Hfit|Hfit].
    + right.
      destruct (circ_put_spec (c_mem s) (c_w s) d n) as (m' & Hp & Hl & Hh & Hb & Hfr & _); try lia.
      rewrite Hp; cbn [obind]. eexists; split; [reflexivity|]. split; [assumption|].
      cbn [c_cap c_mem]. split; [|lia].
      assert (Hw8 : c_w s + 8 <= c_cap s).
      { destruct Hw as [Hw|Hw]; [|exact Hw]. assert (c_r s = 0) by lia.
        specialize (Hsafe ltac:(lia)). lia. }
      assert (Hs' : seg m' (c_cap s) (c_r s) (q ++ [take (Z.to_nat n) d]) (c_w s + n + 4)).
      { eapply seg_app; [apply Hfr; [|exact Hs]; lia|].
        replace (c_w s + n + 4) with (c_w s + zlen (take (Z.to_nat n) d) + 4) by lia.
        apply seg_single; rewrite ?Hlt; try assumption; lia. }
      unfold circ_inv; cbn [c_cap c_mem c_w c_r].
      split; [lia|]. split; [lia|]. split; [lia|].
      destruct (Z.ltb_spec (c_cap s - (c_w s + n + 4)) 8) as [Hsm|Hsm];
        destruct (Z.ltb_spec 0 (c_r s)) as [Hr0|Hr0]; cbn [andb].
      * right. exists (q ++ [take (Z.to_nat n) d]), [], (c_w s + n + 4).
        cbn [c_cap c_mem c_w c_r seg]. rewrite app_nil_r.
        splits; try lia; try assumption.
      * left. unfold inv_flat; cbn [c_cap c_mem c_w c_r]. splits; try assumption; try lia.
      * left. unfold inv_flat; cbn [c_cap c_mem c_w c_r]. splits; try assumption; try lia.
      * left. unfold inv_flat; cbn [c_cap c_mem c_w c_r]. splits; try assumption; try lia.
    + destruct (Z.leb_spec (n + 4) (c_r s)) as [Hwr|Hwr]; [|left; reflexivity].
      right.
      assert (Hw8 : c_w s + 8 <= c_cap s) by lia.
      assert (Hw1 : exists m1, mwrite (c_mem s) (c_w s) (enc32 (-1)) = Ok m1).
      { rewrite mwrite_ok; eauto; rewrite ?zlen_enc32; lia. }
      destruct Hw1 as [m1 Hw1]. rewrite Hw1; cbn [obind].
      pose proof (mwrite_len _ _ _ _ Hw1) as Hl1.
      destruct (circ_put_spec m1 0 d n) as (m' & Hp & Hl & Hh & Hb & Hfr & Hrd); try lia.
      rewrite Hp; cbn [obind]. eexists; split; [reflexivity|]. split; [assumption|].
      cbn [c_cap c_mem]. split; [|lia].
      unfold circ_inv; cbn [c_cap c_mem c_w c_r].
      split; [lia|]. split; [lia|]. split; [lia|]. right.
      exists q, [take (Z.to_nat n) d], (c_w s). cbn [c_cap c_mem c_w c_r].
      assert (Hse : mread m' (c_w s) 4 = Ok (enc32 (-1))).
      { rewrite Hrd by lia. rewrite <- (zlen_enc32 (-1)) at 1.
        eapply mread_mwrite_same; eassumption. }
      assert (Hs1 : seg m' (c_cap s) (c_r s) q (c_w s)).
      { apply Hfr; [lia|]. eapply seg_frame; [exact Hw1| |exact Hs]. lia. }
      splits; try assumption; try lia.
      * right. splits; try assumption. congruence.
      * replace (n + 4) with (0 + zlen (take (Z.to_nat n) d) + 4) by lia.
        apply seg_single; rewrite ?Hlt; try assumption; lia.
  - destruct H as [H|H].
    { exfalso. destruct H as (Hr & H & _). lia. }
    destruct H as (q1 & q2 & e & -> & H0 & _ & H2 & Hs1 & He & HeM & Hor & Hs2).
    destruct (Z.leb_spec (n + 4) (c_r s - c_w s)) as [Hfit|Hfit]; [|left; reflexivity].
    right.
    destruct (circ_put_spec (c_mem s) (c_w s) d n) as (m' & Hp & Hl & Hh & Hb & Hfr & Hrd); try lia.
    rewrite Hp; cbn [obind]. eexists; split; [reflexivity|]. split; [assumption|].
    cbn [c_cap c_mem]. split; [|lia].
    unfold circ_inv; cbn [c_cap c_mem c_w c_r].
    split; [lia|]. split; [lia|]. split; [lia|]. right.
    exists q1, (q2 ++ [take (Z.to_nat n) d]), e. cbn [c_cap c_mem c_w c_r].
    assert (Hre : c_r s <= e).
    { pose proof (footprint_nonneg q1). pose proof (seg_len _ _ _ _ _ Hs1). lia. }
    assert (Hs1' : seg m' (c_cap s) (c_r s) q1 e) by (apply Hfr; [lia|assumption]).
    splits; try assumption; try lia.
    + rewrite app_assoc. reflexivity.
    + destruct Hor as [Hor|(Ho1 & Ho2 & Ho3)]; [left; exact Hor|right].
      splits; try assumption.
      * rewrite Hrd by lia. assumption.
      * destruct q2; cbn; congruence.
    + eapply seg_app; [apply Hfr; [|exact Hs2]; lia|].
      replace (c_w s + n + 4) with (c_w s + zlen (take (Z.to_nat n) d) + 4) by lia.
      apply seg_single; rewrite ?Hlt; try assumption; lia.
Qed.

(** ** pop, nextDataSize *)
Lemma read_int_enc m off z :
  -2147483648 <= z <= int_max -> mread m off 4 = Ok (enc32 z) -> read_int m off = Ok z.
Proof. intros Hz H. unfold read_int. rewrite H; cbn [obind]. rewrite dec_enc32 by assumption. reflexivity. Qed.

(** The position of the oldest block, after following a wrap marker if there is one. *)
Lemma front_view M s b q :
  circ_inv M s (b :: q) ->
  c_w s <> c_r s /\ 0 < zlen b <= int_max /\
  exists r', ((r' = c_r s /\ read_int (c_mem s) (c_r s) = Ok (zlen b)) \/
     (r' = 0 /\ read_int (c_mem s) (c_r s) = Ok (-1) /\ read_int (c_mem s) 0 = Ok (zlen b))) /\
    mread (c_mem s) (r' + 4) (zlen b) = Ok b /\
    circ_inv M (Circ (c_mem s) (c_w s) r' (c_cap s)) (b :: q) /\
    (let r1 := r' + zlen b + 4 in
     circ_inv M (Circ (c_mem s) (c_w s) (if c_cap s - r1 <? 8 then 0 else r1) (c_cap s)) q).
Proof.
  intros Hinv. pose proof Hinv as (Hc & Hi & HM & H).
  pose proof (empty_ok _ _ _ Hinv) as Hne. unfold circ_empty in Hne.
  destruct (Z.eqb_spec (c_w s) (c_r s)) as [|Hne']; [discriminate|]. clear Hne.
  split; [assumption|].
  assert (Hflat : forall r', 0 <= r' -> r' <= c_w s -> (c_w s = 0 \/ c_w s + 8 <= c_cap s) ->
     seg (c_mem s) (c_cap s) r' (b :: q) (c_w s) ->
     circ_inv M (Circ (c_mem s) (c_w s) r' (c_cap s)) (b :: q) /\
     circ_inv M (Circ (c_mem s) (c_w s) (if c_cap s - (r' + zlen b + 4) <? 8 then 0
        else r' + zlen b + 4) (c_cap s)) q).
  { intros r' Hr Hrw Hw Hs. pose proof Hs as Hs0. cbn [seg] in Hs.
    destruct Hs as (Hb & Ha & Hh & Hd & Ht).
    pose proof (seg_len _ _ _ _ _ Ht). pose proof (footprint_nonneg q).
    destruct (Z.ltb_spec (c_cap s - (r' + zlen b + 4)) 8); [lia|].
    split; split; cbn [c_cap c_mem]; try lia; (split; [lia|]; split; [lia|]; left);
      unfold inv_flat; cbn [c_cap c_mem c_w c_r]; splits; try assumption; try lia.
    replace (r' + zlen b + 4) with (r' + 4 + zlen b) by lia. assumption. }
  destruct H as [H|H].
  - destruct H as (Hr & Hrw & Hw & Hs). destruct (Hflat (c_r s) Hr Hrw Hw Hs) as [Hi1 Hi2].
    cbn [seg] in Hs. destruct Hs as (Hb & Ha & Hh & Hd & Ht). split; [assumption|].
    exists (c_r s). split; [left; split; [reflexivity|]; apply read_int_enc; [lia|assumption]|].
    split; [assumption|]. cbn zeta. split; assumption.
  - destruct H as (q1 & q2 & e & Hq & H0 & H1 & H2 & Hs1 & He & HeM & Hor & Hs2).
    destruct q1 as [|x q1].
    + cbn [app] in Hq. subst q2. cbn [seg] in Hs1. subst e.
      destruct Hor as [Hor|(Ho1 & Ho2 & Ho3)]; [lia|].
      destruct (Hflat 0 ltac:(lia) ltac:(lia) ltac:(lia) Hs2) as [Hi1 Hi2].
      cbn [seg] in Hs2. destruct Hs2 as (Hb & Ha & Hh & Hd & Ht). split; [assumption|].
      exists 0. split; [right; split; [reflexivity|]; split; apply read_int_enc; try assumption; unfold int_max in *; lia|].
      split; [assumption|]. cbn zeta. split; assumption.
    + cbn [app] in Hq. injection Hq as <- ->. pose proof Hs1 as Hs1'. cbn [seg] in Hs1.
      destruct Hs1 as (Hb & Ha & Hh & Hd & Ht). split; [assumption|].
      exists (c_r s). split; [left; split; [reflexivity|]; apply read_int_enc; [lia|assumption]|].
      split; [assumption|]. split.
      { destruct s; exact Hinv. }
      cbn zeta. pose proof (seg_len _ _ _ _ _ Ht). pose proof (footprint_nonneg q1).
      destruct (Z.ltb_spec (c_cap s - (c_r s + zlen b + 4)) 8) as [Hsm|Hsm].
      * assert (q1 = []) as ->.
        { destruct q1 as [|y q1]; [reflexivity|]. cbn [seg] in Ht. lia. }
        split; cbn [c_cap c_mem]; [lia|]. split; [lia|]. split; [lia|]. left.
        assert (Hq2 : c_cap s < e + 8) by (cbn [footprint] in *; lia).
        unfold inv_flat; cbn [c_cap c_mem c_w c_r app]. splits; try assumption; try lia.
      * split; cbn [c_cap c_mem]; [lia|]. split; [lia|]. split; [lia|]. right.
        exists q1, q2, e. cbn [c_cap c_mem c_w c_r]. splits; try assumption; try lia.
        replace (c_r s + zlen b + 4) with (c_r s + 4 + zlen b) by lia. assumption.
Qed.

Lemma pop_empty M s k : circ_inv M s [] -> circ_pop s k = Ok (s, 0, []).
Proof.
  intros H%empty_ok. unfold circ_empty in H. unfold circ_pop. rewrite H. reflexivity.
Qed.

Lemma pop_ok M s b q k :
  circ_inv M s (b :: q) ->
  exists s', c_cap s' = c_cap s /\ c_mem s' = c_mem s /\ 
    ((zlen b <= k /\ circ_pop s k = Ok (s', zlen b, b) /\ circ_inv M s' q) \/
     (k < zlen b /\ circ_pop s k = Ok (s', - zlen b, []) /\ circ_inv M s' (b :: q))).
Proof.
  intros Hinv. destruct (front_view _ _ _ _ Hinv) as (Hne & Hb & r' & Hrd & Hd & Hi1 & Hi2).
  unfold circ_pop. destruct (Z.eqb_spec (c_w s) (c_r s)); [lia|].
  assert (Hread : (sz0 <-! read_int (c_mem s) (c_r s) ;;
      (if sz0 <? 0 then sz1 <-! read_int (c_mem s) 0 ;; Ok (0, sz1) else Ok (c_r s, sz0)))
      = Ok (r', zlen b)).
  { destruct Hrd as [(-> & ->)|(-> & -> & H0)]; cbn [obind].
    - destruct (Z.ltb_spec (zlen b) 0); [lia|reflexivity].
    - cbn [Z.ltb Z.compare]. rewrite H0. reflexivity. }
  destruct (read_int (c_mem s) (c_r s)) as [sz0| |]; cbn [obind] in Hread |- *; try discriminate.
  rewrite Hread; cbn [obind].
  destruct (Z.leb_spec (zlen b) k) as [Hk|Hk].
  - rewrite Hd; cbn [obind]. eexists; split; [|split; [|left; split; [exact Hk|split; [reflexivity|]]]];
      [reflexivity|reflexivity|]. exact Hi2.
  - eexists; split; [|split; [|right; split; [exact Hk|split; [reflexivity|]]]]; [reflexivity|reflexivity|].
    exact Hi1.
Qed.

Lemma next_size_ok M s q :
  circ_inv M s q ->
  circ_next_size s = Ok (match q with [] => 0 | b :: _ => zlen b end).
Proof.
  intros Hinv. unfold circ_next_size. destruct q as [|b q].
  - pose proof (empty_ok _ _ _ Hinv) as H. unfold circ_empty in H. rewrite H. reflexivity.
  - destruct (front_view _ _ _ _ Hinv) as (Hne & Hb & r' & Hrd & _).
    destruct (Z.eqb_spec (c_w s) (c_r s)); [lia|].
    destruct Hrd as [(-> & ->)|(-> & -> & H0)]; cbn [obind].
    + destruct (Z.ltb_spec (zlen b) 0); [lia|reflexivity].
    + exact H0.
Qed.

Lemma clear_ok M s q : circ_inv M s q -> circ_inv M (circ_clear s) [].
Proof.
  intros (Hc & Hi & HM & _). unfold circ_inv, circ_clear; cbn [c_cap c_mem].
  splits; try lia. left. unfold inv_flat; cbn. lia.
Qed.

(** ** One call *)
Lemma step_ok M s q o :
  circ_inv M s q -> cop_legal M o -> cop_safe s o ->
  exists s' x q', circ_step s o = Ok (s', x) /\ fifo_step (c_cap s) q o x q' /\ circ_inv M s' q' /\
    c_cap s' = c_cap s /\ zlen (c_mem s') = zlen (c_mem s).
Proof.
  intros Hinv Hl Hs. destruct o as [data n|k| | |n| |]; cbn [circ_step].
  - destruct data as [d|].
    + cbn in Hl, Hs. destruct Hl as (Hd & HnM & Hni).
      destruct (push_ok M s q d n Hinv Hd HnM Hni Hs) as [->|(s' & -> & Hn & Hi & Hc & Hm)]; cbn [obind].
      * exists s, (RBool false), q. splits; try assumption. constructor.
      * exists s', (RBool true), (q ++ [take (Z.to_nat n) d]). splits; try assumption.
        constructor; assumption.
    + cbn [circ_push obind]. exists s, (RBool false), q. splits; try assumption. constructor.
  - destruct q as [|b q].
    + rewrite (pop_empty _ _ _ Hinv); cbn [obind]. exists s, (RPop 0 []), []. splits; try assumption.
      constructor; reflexivity.
    + destruct (pop_ok M s b q k Hinv) as (s' & Hc & Hm & [(Hk & -> & Hi)|(Hk & -> & Hi)]); cbn [obind].
      * exists s', (RPop (zlen b) b), q. splits; try assumption; [|congruence].
        econstructor; [reflexivity|assumption].
      * exists s', (RPop (- zlen b) []), (b :: q). splits; try assumption; [|congruence].
        econstructor; [reflexivity|assumption].
  - rewrite (next_size_ok _ _ _ Hinv); cbn [obind]. exists s. eexists; exists q.
    split; [reflexivity|]. split; [|split; [assumption|split; reflexivity]].
    destruct q as [|b q]; [constructor; reflexivity|]. econstructor; reflexivity.
  - exists s, (RBool (circ_empty s)), q. rewrite (empty_ok _ _ _ Hinv).
    split; [reflexivity|]. split; [constructor|]. split; [assumption|split; reflexivity].
  - exists s, (RBool (circ_space s n)), q. splits; try assumption; try constructor; apply Hinv.
  - exists s, (RInt (c_cap s)), q. splits; try assumption; try constructor; apply Hinv.
  - exists (circ_clear s), RUnit, []. split; [reflexivity|]. split; [constructor|].
    split; [eapply clear_ok; eassumption|]. split; reflexivity.
Qed.

(** Every push in the run meets the guard in the state it is issued in. *)
Fixpoint safe_run (s : circ) (ops : list cop) : Prop :=
  match ops with
  | [] => True
  | o :: os => cop_safe s o /\ (forall s' x, circ_step s o = Ok (s', x) -> safe_run s' os)
  end.

Lemma run_ok M s q ops :
  circ_inv M s q -> Forall (cop_legal M) ops -> safe_run s ops ->
  exists s' tr q', circ_run s ops = Ok (s', tr) /\ fifo_trace (c_cap s) q tr q' /\ circ_inv M s' q' /\
    c_cap s' = c_cap s /\ map fst tr = ops.
Proof.
  revert s q; induction ops as [|o ops IH]; intros s q Hinv Hl Hs; cbn [circ_run].
  - exists s, [], q. splits; try assumption; try constructor; apply Hinv.
  - inversion Hl as [|? ? Ho Hl']; subst. destruct Hs as [Hso Hs].
    destruct (step_ok M s q o Hinv Ho Hso) as (s1 & x & q1 & Hst & Hf & Hi1 & Hc1 & Hm1).
    rewrite Hst; cbn [obind].
    destruct (IH s1 q1 Hi1 Hl' (Hs _ _ Hst)) as (s2 & tr & q2 & -> & Hft & Hi2 & Hc2 & Hops); cbn [obind].
    exists s2, ((o, x) :: tr), q2. split; [reflexivity|]. split.
    + econstructor; [eassumption|]. rewrite <- Hc1. assumption.
    + split; [assumption|]. split; [congruence|]. cbn [map fst]. rewrite Hops. reflexivity.
Qed.
