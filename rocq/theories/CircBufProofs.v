(** Proofs about class CircularBuffer. *)
From stdpp Require Import gmap.
From Verif Require Import Base Heap CircModel CircSpec CircProofs CircMore CircBufModel CircBufSpec.

(** ** Moving a segment *)
Lemma seg_shift m m' cap cap' a q b d :
  seg m cap a q b ->
  (forall x k, a <= x -> 0 <= k -> x + k <= b -> mread m' (x + d) k = mread m x k) ->
  (forall p, a <= p -> p + 5 <= b -> p + 8 <= cap -> p + d + 8 <= cap') ->
  seg m' cap' (a + d) q (b + d).
Proof.
  revert a; induction q as [|x q IH]; cbn [seg]; intros a H Hr Hc; [lia|].
  destruct H as (Hx & Ha & Hh & Hb & Ht).
  pose proof (seg_len _ _ _ _ _ Ht). pose proof (footprint_nonneg q).
  splits; try lia; try (apply Hc; lia).
  - rewrite Hr by lia. assumption.
  - replace (a + d + 4) with (a + 4 + d) by lia. rewrite Hr by lia. assumption.
  - replace (a + d + 4 + zlen x) with (a + 4 + zlen x + d) by lia. apply IH; [assumption| |].
    + intros; apply Hr; lia.
    + intros; apply Hc; lia.
Qed.

Lemma seg_same m m' cap cap' a q b :
  seg m cap a q b ->
  (forall x k, a <= x -> 0 <= k -> x + k <= b -> mread m' x k = mread m x k) ->
  (forall p, a <= p -> p + 5 <= b -> p + 8 <= cap -> p + 8 <= cap') ->
  seg m' cap' a q b.
Proof.
  intros H Hr Hc. rewrite <- (Z.add_0_r a), <- (Z.add_0_r b). eapply seg_shift; [eassumption| |].
  - intros. rewrite Z.add_0_r. apply Hr; lia.
  - intros. rewrite Z.add_0_r. apply Hc; lia.
Qed.

(** ** Resizing at the level of the raw buffer *)
Definition mem_agree (m m' : list byte) (n : Z) : Prop :=
  forall a k, 0 <= a -> 0 <= k -> a + k <= n -> mread m' a k = mread m a k.

Lemma inv_agree M m m' w r cap q :
  circ_inv M (Circ m w r cap) q -> mem_agree m m' cap -> cap <= zlen m' ->
  circ_inv M (Circ m' w r cap) q.
Proof.
  intros (Hc & Hi & HM & H) Ha Hl. unfold circ_inv in *; cbn [c_cap c_mem] in *.
  split; [lia|]. split; [lia|]. split; [lia|].
  destruct H as [(Hr & Hrw & Hw & Hs)|(q1 & q2 & e & -> & H0 & H1 & H2 & Hs1 & He & HeM & Hor & Hs2)];
    cbn [c_cap c_mem c_w c_r] in *; [left|right].
  - unfold inv_flat; cbn [c_cap c_mem c_w c_r]. splits; try assumption.
    eapply seg_same; [eassumption| |].
    + intros. apply Ha; lia.
    + intros; lia.
  - exists q1, q2, e. cbn [c_cap c_mem c_w c_r]. splits; try assumption.
    + eapply seg_same; [eassumption| |]; intros; [apply Ha; lia|lia].
    + destruct Hor as [?|(? & ? & ?)]; [left; assumption|right]. splits; try assumption.
      pose proof (seg_len _ _ _ _ _ Hs1). pose proof (footprint_nonneg q1).
      rewrite Ha by lia. assumption.
    + eapply seg_same; [eassumption| |]; intros; [apply Ha; lia|lia].
Qed.

(** Growing in place, not wrapped. *)
Lemma inv_grow_flat M m w r cap q n :
  circ_inv M (Circ m w r cap) q -> r < w -> cap <= n -> n <= zlen m -> n <= int_max ->
  circ_inv M (Circ m w r n) q.
Proof.
  intros (Hc & Hi & HM & H) Hrw Hn Hl Hnm. unfold circ_inv in *; cbn [c_cap c_mem] in *.
  split; [lia|]. split; [lia|]. split; [lia|]. left.
  destruct H as [(Hr & _ & Hw & Hs)|(q1 & q2 & e & -> & H0 & H1 & _)]; cbn [c_cap c_mem c_w c_r] in *; [|lia].
  unfold inv_flat; cbn [c_cap c_mem c_w c_r]. splits; try assumption; try lia.
  eapply seg_mono; eassumption || lia.
Qed.

(** Moving the tail of a wrapped buffer so that it ends at the new capacity [n] (grow or shrink). *)
Lemma inv_move_tail M m w r cap q n :
  circ_inv M (Circ m w r cap) q -> w < r -> cap - r + w < n -> n <= zlen m -> n <= int_max ->
  exists m', mmove m (n - (cap - r)) r (cap - r) = Ok m' /\ zlen m' = zlen m /\
    circ_inv M (Circ m' w (n - (cap - r)) n) q.
Proof.
  intros (Hc & Hi & HM & H) Hrw Hn Hl Hnm. unfold circ_inv in *; cbn [c_cap c_mem] in *.
  destruct H as [(Hr & ? & _)|(q1 & q2 & e & -> & H0 & H1 & H2 & Hs1 & He & HeM & Hor & Hs2)];
    cbn [c_cap c_mem c_w c_r] in *; [lia|].
  destruct (mmove_spec m (n - (cap - r)) r (cap - r)) as (m' & Hm & Hml & Hin & Hout); try lia.
  exists m'. split; [exact Hm|]. split; [exact Hml|].
  split; [lia|]. split; [lia|]. split; [lia|]. right.
  pose proof (seg_len _ _ _ _ _ Hs1) as He1. pose proof (footprint_nonneg q1).
  exists q1, q2, (e + (n - cap)). cbn [c_cap c_mem c_w c_r]. splits; try lia.
  - replace (n - (cap - r)) with (r + (n - cap)) by lia.
    eapply seg_shift; [eassumption| |].
    + intros x k Hx Hk Hxk. specialize (Hin (x - r) k ltac:(lia) Hk ltac:(lia)).
      replace (n - (cap - r) + (x - r)) with (x + (n - cap)) in Hin by lia.
      replace (r + (x - r)) with x in Hin by lia. exact Hin.
    + intros; lia.
  - destruct Hor as [?|(Ho1 & Ho2 & Ho3)]; [left; lia|right]. splits; try assumption; try lia.
    specialize (Hin (e - r) 4 ltac:(lia) ltac:(lia) ltac:(lia)).
    replace (n - (cap - r) + (e - r)) with (e + (n - cap)) in Hin by lia.
    replace (r + (e - r)) with e in Hin by lia. rewrite Hin. assumption.
  - eapply seg_same; [eassumption| |].
    + intros. apply Hout; lia.
    + intros; lia.
Qed.

(** Shrinking a buffer that is not wrapped. *)
Lemma inv_shrink_flat M m w r cap q n :
  circ_inv M (Circ m w r cap) q -> r < w -> w + 8 <= n -> n <= cap ->
  circ_inv M (Circ m w r n) q.
Proof.
  intros (Hc & Hi & HM & H) Hrw Hn Hnc. unfold circ_inv in *; cbn [c_cap c_mem] in *.
  destruct H as [(Hr & _ & Hw & Hs)|(q1 & q2 & e & -> & H0 & H1 & _)]; cbn [c_cap c_mem c_w c_r] in *; [|lia].
  split; [lia|]. split; [lia|]. split; [lia|]. left.
  unfold inv_flat; cbn [c_cap c_mem c_w c_r]. splits; try assumption; try lia.
  eapply seg_same; [eassumption| |]; intros; [reflexivity|lia].
Qed.

Lemma inv_move_front M m w r cap q n :
  circ_inv M (Circ m w r cap) q -> r < w -> w - r + 8 <= n -> n <= cap ->
  exists m', mmove m 0 r (w - r) = Ok m' /\ zlen m' = zlen m /\
    circ_inv M (Circ m' (w - r) 0 n) q.
Proof.
  intros (Hc & Hi & HM & H) Hrw Hn Hnc. unfold circ_inv in *; cbn [c_cap c_mem] in *.
  destruct H as [(Hr & _ & Hw & Hs)|(q1 & q2 & e & -> & H0 & H1 & _)]; cbn [c_cap c_mem c_w c_r] in *; [|lia].
  destruct (mmove_spec m 0 r (w - r)) as (m' & Hm & Hml & Hin & Hout); try lia.
  exists m'. split; [exact Hm|]. split; [exact Hml|].
  split; [lia|]. split; [lia|]. split; [lia|]. left.
  unfold inv_flat; cbn [c_cap c_mem c_w c_r]. splits; try lia.
  replace 0 with (r + - r) by lia. replace (w - r) with (w + - r) by lia.
  eapply seg_shift; [eassumption| |].
  - intros x k Hx Hk Hxk. specialize (Hin (x - r) k ltac:(lia) Hk ltac:(lia)).
    replace (0 + (x - r)) with (x + - r) in Hin by lia. replace (r + (x - r)) with x in Hin by lia. exact Hin.
  - intros; lia.
Qed.

Lemma inv_cap0 M m w r q : circ_inv M (Circ m w r 0) q -> w = 0 /\ r = 0 /\ q = [].
Proof.
  intros (Hc & Hi & HM & H). cbn in *.
  destruct H as [(Hr & Hrw & Hw & Hs)|(q1 & q2 & e & -> & H0 & H1 & H2 & _)]; cbn [c_cap c_mem c_w c_r] in *; [|lia].
  assert (w = 0) by lia. assert (r = 0) by lia. splits; try assumption.
  subst. apply seg_nil_iff in Hs. apply Hs. reflexivity.
Qed.

(** ** Objects *)
Definition owned (M : Z) (h : heap) (b : cbuf) (v : abuf) : Prop :=
  exists id m, b_data b = Some id /\ b_org b = Some id /\ h_live h !! id = Some m /\
    zlen m = b_acap b /\ b_asize b = b_cap b /\ v.1 = b_cap b /\
    circ_inv M (Circ m (b_w b) (b_r b) (b_cap b)) v.2.

Section dangling.
(** Whether buffers whose [data] dangles may exist. *)
Variable D : Prop.

(** Default-constructed, moved-from, or copied from such a buffer (then [data] dangles). *)
Definition idle (h : heap) (b : cbuf) (v : abuf) : Prop :=
  b_asize b = 0 /\ b_acap b = 0 /\ b_cap b = 0 /\ b_w b = 0 /\ b_r b = 0 /\ v = (0, []) /\
  (b_org b = None \/ b_org b = b_data b) /\
  (forall id, b_data b = Some id -> D /\ h_live h !! id = None /\ (id < h_next h)%nat).

Definition obj_inv (M : Z) (h : heap) (b : cbuf) (v : abuf) : Prop := owned M h b v \/ idle h b v.

Definition heap_ok (h : heap) : Prop := forall id m, h_live h !! id = Some m -> (id < h_next h)%nat.

Record world_inv (M : Z) (w : world) (A : gmap nat abuf) : Prop := {
  wi_heap : heap_ok (w_heap w);
  wi_none : forall o, w_objs w !! o = None <-> A !! o = None;
  wi_obj : forall o b v, w_objs w !! o = Some b -> A !! o = Some v -> obj_inv M (w_heap w) b v;
  wi_uniq : forall o o' b b' id, w_objs w !! o = Some b -> w_objs w !! o' = Some b' ->
     b_data b = Some id -> b_data b' = Some id -> o = o';
}.

Lemma obj_data_old M h b v id :
  heap_ok h -> obj_inv M h b v -> b_data b = Some id -> (id < h_next h)%nat.
Proof.
  intros Hh [(id' & m & Hd & Ho & Hl & _)|(_ & _ & _ & _ & _ & _ & _ & Hd)] Hid.
  - eapply Hh. rewrite Hid in Hd. injection Hd as <-. eassumption.
  - apply Hd; assumption.
Qed.

(** A step that only touches the memory of one object. *)
Definition local (h h' : heap) (d d' : ptr) : Prop :=
  (h_next h <= h_next h')%nat /\
  (forall id, (id < h_next h)%nat -> d <> Some id -> h_live h' !! id = h_live h !! id) /\
  heap_ok h' /\
  (d' = d \/ (exists id, d' = Some id /\ (h_next h <= id)%nat) \/ d' = None).

Lemma obj_frame M h h' b v d d' :
  heap_ok h -> local h h' d d' -> obj_inv M h b v -> (forall id, b_data b = Some id -> d <> Some id) ->
  obj_inv M h' b v.
Proof.
  intros Hh (Hn & Hf & Hok & _) Ho Hne.
  destruct Ho as [(id & m & Hd & Horg & Hl & Hrest)|(H1 & H2 & H3 & H4 & H5 & H6 & H7 & Hd)]; [left|right].
  - exists id, m. splits; try assumption; try apply Hrest.
    rewrite Hf; [assumption| |auto]. eapply Hh; eassumption.
  - unfold idle. splits; try assumption. intros id Hid. destruct (Hd id Hid) as (HD & Hl & Hlt). splits; try assumption; [|lia].
    rewrite Hf; auto.
Qed.

Lemma world_update M w A o h' b' v' d :
  world_inv M w A ->
  (forall b, w_objs w !! o = Some b -> b_data b = d) -> (w_objs w !! o = None -> d = None) ->
  local (w_heap w) h' d (b_data b') -> obj_inv M h' b' v' ->
  world_inv M (World h' (<[o := b']> (w_objs w))) (<[o := v']> A).
Proof.
  intros [Hh Hn Ho Hu] Hd Hdn Hloc Hnew. constructor; cbn [w_heap w_objs].
  - apply Hloc.
  - intros o2. destruct (decide (o = o2)) as [<-|Hne].
    + rewrite !lookup_insert. split; discriminate.
    + rewrite !lookup_insert_ne by assumption. apply Hn.
  - intros o2 b2 v2. destruct (decide (o = o2)) as [<-|Hne].
    + rewrite !lookup_insert. intros [= <-] [= <-]. assumption.
    + rewrite !lookup_insert_ne by assumption. intros Hb Hv.
      eapply obj_frame; [exact Hh|exact Hloc|eapply Ho; eassumption|].
      intros id Hid Habs. destruct (w_objs w !! o) as [b|] eqn:Eo.
      * specialize (Hd b eq_refl). apply Hne. apply (Hu o o2 b b2 id Eo Hb); congruence.
      * specialize (Hdn eq_refl). congruence.
  - assert (Hkey : forall o2 b2 id, o <> o2 -> w_objs w !! o2 = Some b2 -> b_data b' = Some id ->
              b_data b2 = Some id -> False).
    { intros o2 b2 id Hne Hb2 Hid Hid2. destruct Hloc as (_ & _ & _ & [E|[(i & E & Hge)|E]]).
      - destruct (w_objs w !! o) as [b|] eqn:Eo.
        + specialize (Hd b eq_refl). apply Hne. apply (Hu o o2 b b2 id Eo Hb2); congruence.
        + specialize (Hdn eq_refl). congruence.
      - destruct (A !! o2) as [v2|] eqn:Ev.
        + pose proof (obj_data_old _ _ _ _ _ Hh (Ho _ _ _ Hb2 Ev) Hid2).
          rewrite E in Hid. injection Hid as <-. lia.
        + apply Hn in Ev. congruence.
      - congruence. }
    intros o1 o2 b1 b2 id. destruct (decide (o = o1)) as [<-|Hne1], (decide (o = o2)) as [<-|Hne2];
      rewrite ?lookup_insert, ?lookup_insert_ne by assumption; intros H1 H2 Hd1 Hd2.
    + reflexivity.
    + injection H1 as <-. exfalso. eauto.
    + injection H2 as <-. exfalso. eauto.
    + eapply Hu; eassumption.
Qed.

Lemma local_refl h d : heap_ok h -> local h h d d.
Proof. intros. unfold local. splits; auto. Qed.

Lemma local_alloc h m d :
  heap_ok h -> local h (Heap (<[h_next h := m]> (h_live h)) (S (h_next h)) (h_junk h)) d (Some (h_next h)).
Proof.
  intros Hh. unfold local; cbn. splits.
  - lia.
  - intros id Hid _. rewrite lookup_insert_ne by lia. reflexivity.
  - intros id m'. cbn. destruct (decide (h_next h = id)) as [<-|Hne]; [lia|].
    rewrite lookup_insert_ne by assumption. intros H%Hh. lia.
  - right. left. exists (h_next h). split; [reflexivity|lia].
Qed.

Lemma local_put h id m m0 :
  heap_ok h -> h_live h !! id = Some m0 -> local h (hput h (Some id) m) (Some id) (Some id).
Proof.
  intros Hh Hl. unfold local, hput. rewrite Hl. cbn. splits; auto.
  - intros id' _ Hne. rewrite lookup_insert_ne by congruence. reflexivity.
  - intros id' m'. cbn. destruct (decide (id = id')) as [<-|Hne].
    + intros _. eapply Hh; eassumption.
    + rewrite lookup_insert_ne by assumption. apply Hh.
Qed.

Lemma local_put_trans h h' d id m m0 :
  local h h' d (Some id) -> h_live h' !! id = Some m0 -> local h (hput h' (Some id) m) d (Some id).
Proof.
  intros (L1 & L2 & L3 & L4) Hl. destruct (local_put h' id m m0 L3 Hl) as (P1 & P2 & P3 & _).
  unfold local. splits; try assumption.
  - lia.
  - intros i Hi Hne. destruct L4 as [E|[(i' & E & Hge)|E]]; [| |discriminate].
    + subst d. rewrite P2; [apply L2; assumption|lia|assumption].
    + injection E as <-. rewrite P2; [apply L2; assumption|lia|]. intros [= ->]. lia.
Qed.

(** ** resizeMemory *)
Lemma resize_memory_owned M h b v n :
  heap_ok h -> owned M h b v -> b_asize b <= n -> n <= int_max ->
  exists h' b' id' m', cb_resize_memory h b n true = Ok (h', b') /\
    local h h' (b_data b) (b_data b') /\ b_data b' = Some id' /\ h_live h' !! id' = Some m' /\
    zlen m' = b_acap b' /\ b_asize b' = n /\ n <= b_acap b' /\
    b_w b' = b_w b /\ b_r b' = b_r b /\ b_cap b' = b_cap b /\
    circ_inv M (Circ m' (b_w b) (b_r b) (b_cap b)) v.2.
Proof.
  intros Hh (id & m & Hd & Horg & Hl & Hm & Has & Hv & Hinv) Hn Hnm.
  pose proof Hinv as (Hcap & Hi & HM & _); cbn [c_cap c_mem] in Hcap, Hi.
  unfold cb_resize_memory. destruct (Z.ltb_spec (b_acap b) n) as [Hgt|Hle].
  - destruct (halloc_ok h n ltac:(lia)) as (mj & Hmj & Ha). rewrite Ha; cbn [obind].
    set (h1 := Heap (<[h_next h := mj]> (h_live h)) (S (h_next h)) (h_junk h)) in *.
    assert (Hlt : (id < h_next h)%nat) by (eapply Hh; eassumption).
    assert (Hl1 : h_live h1 !! id = Some m) by (subst h1; cbn; rewrite lookup_insert_ne by lia; assumption).
    destruct (Z.ltb_spec 0 (b_acap b)) as [Hpos|Hz].
    + rewrite Hd.
      destruct (hcopy_spec h1 (h_next h) id mj m (b_asize b)) as (m' & Hc & Hml & Hag & Hlive);
        [subst h1; cbn; apply lookup_insert|assumption|lia|lia|lia|lia|].
      rewrite Hc; cbn [obind].
      assert (Hl2 : h_live (hput h1 (Some (h_next h)) m') !! id = Some m).
      { rewrite Hlive, lookup_insert_ne by lia. assumption. }
      unfold hfree at 1. rewrite Hl2. cbn [obind].
      eexists _, _, (h_next h), m'. split; [reflexivity|]. cbn [b_data b_asize b_acap b_w b_r b_cap].
      assert (Hn2 : h_next (hput h1 (Some (h_next h)) m') = S (h_next h)).
      { cbn [hput]. destruct (h_live h1 !! h_next h); reflexivity. }
      splits; try lia.
      * unfold local; cbn [h_live h_next]. rewrite Hn2, Hlive. splits.
        -- lia.
        -- intros id' Hid' Hne. rewrite lookup_delete_ne by congruence.
           rewrite lookup_insert_ne by lia. subst h1; cbn. rewrite lookup_insert_ne by lia. reflexivity.
        -- intros id' m2; cbn [h_live h_next]. rewrite lookup_delete_Some. intros [_ H].
           destruct (decide (h_next h = id')) as [<-|Hne]; [lia|].
           rewrite lookup_insert_ne in H by assumption. subst h1; cbn in H.
           rewrite lookup_insert_ne in H by assumption. apply Hh in H. lia.
        -- right. left. exists (h_next h). split; [reflexivity|lia].
      * cbn [h_live]. rewrite Hlive, lookup_delete_ne by lia. apply lookup_insert.
      * eapply inv_agree; [exact Hinv| |lia]. intros a k H1 H2 H3. apply Hag; lia.
    + cbn [obind]. eexists _, _, (h_next h), mj. split; [reflexivity|].
      cbn [b_data b_asize b_acap b_w b_r b_cap]. splits; try lia.
      * rewrite Hd. apply local_alloc. assumption.
      * subst h1; cbn. apply lookup_insert.
      * eapply inv_agree; [exact Hinv| |lia]. intros a k H1 H2 H3.
        assert (a = 0 /\ k = 0) as [-> ->] by lia. rewrite !mread_ok by (unfold zlen; lia). reflexivity.
  - eexists _, _, id, m. split; [reflexivity|]. cbn [b_data b_asize b_acap b_w b_r b_cap]. splits; try assumption; try lia.
    apply local_refl. assumption.
Qed.

(** Guard for resize: a shrink of a buffer that is not wrapped must leave 8 free bytes behind the data (or not
    fit at all); sizes are not negative on an empty buffer. *)
Definition resize_safe (b : cbuf) (n : Z) : Prop :=
  n <= int_max /\
  (b_w b = b_r b -> 0 <= n) /\
  (b_r b < b_w b -> n < b_cap b ->
     (b_w b <= n -> b_w b + 8 <= n) /\
     (n < b_w b -> b_w b - b_r b < n -> b_w b - b_r b + 8 <= n)).

Lemma resize_ok M h b v n :
  heap_ok h -> obj_inv M h b v -> 4 <= M -> resize_safe b n ->
  (cb_resize h b n = Ok (h, b, true) /\ n < v.1 /\ v.2 <> [] /\ n < footprint v.2 + M + 4) \/
  (exists h' b', cb_resize h b n = Ok (h', b', false) /\ local h h' (b_data b) (b_data b') /\
     obj_inv M h' b' (n, v.2)).
Proof.
  intros Hh Ho HM (Hnm & Hn0 & Hsh). unfold cb_resize.
  destruct Ho as [Ho|Hidle].
  - (* owns memory *)
    pose proof Ho as (id & m & Hd & Horg & Hl & Hm & Has & Hv & Hinv).
    pose proof Hinv as (Hcap & Hi & _ & _); cbn [c_cap c_mem] in Hcap, Hi.
    pose proof (empty_ok _ _ _ Hinv) as Hemp. unfold circ_empty in Hemp; cbn [c_w c_r] in Hemp.
    destruct (Z.eqb_spec n (b_cap b)) as [->|Hne].
    { right. exists h, b. split; [reflexivity|]. split; [apply local_refl; assumption|]. left.
      exists id, m. splits; try assumption. }
    destruct (Z.eqb_spec (b_w b) (b_r b)) as [Hwr|Hwr].
    + assert (Hq : v.2 = []) by (destruct v.2; [reflexivity|discriminate]). specialize (Hn0 Hwr).
      right. rewrite Hq. destruct (Z_le_gt_dec (b_asize b) n) as [Hge|Hlt].
      * destruct (resize_memory_owned M h b v n Hh Ho Hge Hnm)
          as (h' & b' & id' & m' & -> & Hloc & Hd' & Hl' & Hm' & Has' & Hna & _); cbn [obind].
        eexists _, _. split; [reflexivity|]. cbn [b_data]. split; [exact Hloc|]. left.
        exists id', m'. cbn [b_data b_org b_asize b_acap b_w b_r b_cap fst snd]. splits; try assumption.
        apply (circ_new_inv M m' n); lia.
      * unfold cb_resize_memory. destruct (Z.ltb_spec (b_acap b) n); [lia|]. cbn [obind].
        eexists _, _. split; [reflexivity|]. cbn [b_data]. split; [apply local_refl; assumption|]. left.
        exists id, m. cbn [b_data b_org b_asize b_acap b_w b_r b_cap fst snd]. splits; try assumption.
        apply (circ_new_inv M m n); lia.
    + assert (Hq : v.2 <> []) by (intros E; rewrite E in Hemp; discriminate).
      destruct (Z.ltb_spec (b_asize b) n) as [Hgrow|Hshrink].
      * right. destruct (resize_memory_owned M h b v n Hh Ho ltac:(lia) Hnm)
          as (h' & b' & id' & m' & -> & Hloc & Hd' & Hl' & Hm' & Has' & Hna & _ & _ & _ & Hinv'); cbn [obind].
        destruct (Z.ltb_spec (b_r b) (b_w b)) as [Hrw|Hrw].
        -- eexists _, _. split; [reflexivity|]. cbn [b_data]. split; [exact Hloc|]. left.
           exists id', m'. cbn [b_data b_org b_asize b_acap b_w b_r b_cap fst snd]. splits; try assumption.
           eapply inv_grow_flat; [exact Hinv'|lia|lia|lia|lia].
        -- assert (Hfit : b_cap b - b_r b + b_w b < n) by lia.
           destruct (inv_move_tail _ _ _ _ _ _ n Hinv' ltac:(lia) Hfit ltac:(lia) Hnm)
             as (m2 & Hmv & Hl2 & Hinv2).
           rewrite Hd', (hget_live _ _ _ Hl'), Hmv; cbn [obind].
           eexists _, _. split; [reflexivity|]. cbn [b_data].
           rewrite Hd' in Hloc. split; [eapply local_put_trans; eassumption|].
           left. exists id', m2. cbn [b_data b_org b_asize b_acap b_w b_r b_cap fst snd].
              rewrite (hput_live _ _ _ _ Hl'). splits; try assumption; try lia. apply lookup_insert.
      * destruct (Z.ltb_spec (b_r b) (b_w b)) as [Hrw|Hrw].
        -- destruct (Hsh Hrw ltac:(lia)) as [Hs1 Hs2].
           destruct (Z.leb_spec (b_w b) n) as [Hwn|Hwn].
           ++ right. eexists _, _. split; [reflexivity|]. cbn [b_data]. split; [apply local_refl; assumption|].
              left. exists id, m. cbn [b_data b_org b_asize b_acap b_w b_r b_cap fst snd]. splits; try assumption.
              eapply inv_shrink_flat; [exact Hinv|lia|lia|lia].
           ++ destruct (Z.ltb_spec (b_w b - b_r b) n) as [Hfit|Hnofit].
              ** right. destruct (inv_move_front _ _ _ _ _ _ n Hinv Hrw ltac:(lia) ltac:(lia))
                   as (m2 & Hmv & Hl2 & Hinv2).
                 rewrite Horg, (hget_live _ _ _ Hl), Hmv; cbn [obind].
                 eexists _, _. split; [reflexivity|]. cbn [b_data]. split.
                 { rewrite Hd. eapply local_put; eassumption. }
                 left. exists id, m2. cbn [b_data b_org b_asize b_acap b_w b_r b_cap fst snd].
                 rewrite (hput_live _ _ _ _ Hl). splits; try assumption; try lia. apply lookup_insert.
              ** left. splits; try assumption; try lia.
                 destruct Hinv as (_ & _ & _ & [(_ & _ & _ & Hs)|(q1 & q2 & e & _ & _ & Hx & _)]);
                   cbn [c_cap c_mem c_w c_r] in *; [|lia].
                 apply seg_len in Hs. lia.
        -- destruct (Z.ltb_spec (b_cap b - b_r b + b_w b) n) as [Hfit|Hnofit].
           ++ right. destruct (inv_move_tail _ _ _ _ _ _ n Hinv ltac:(lia) Hfit ltac:(lia) Hnm)
                as (m2 & Hmv & Hl2 & Hinv2).
              rewrite Hd, (hget_live _ _ _ Hl), Hmv; cbn [obind].
              eexists _, _. split; [reflexivity|]. cbn [b_data]. split.
              { eapply local_put; eassumption. }
              left. exists id, m2. cbn [b_data b_org b_asize b_acap b_w b_r b_cap fst snd].
              rewrite (hput_live _ _ _ _ Hl). splits; try assumption; try lia. apply lookup_insert.
           ++ left. splits; try assumption; try lia.
              destruct Hinv as (_ & _ & _ & [(_ & ? & _ & Hs)|(q1 & q2 & e & -> & _ & Hx & _ & Hs1 & He & HeM & _ & Hs2)]);
                cbn [c_cap c_mem c_w c_r] in *; [lia|].
              apply seg_len in Hs1. apply seg_len in Hs2. rewrite footprint_app. lia.
  - (* owns nothing *)
    destruct Hidle as (H1 & H2 & H3 & H4 & H5 & -> & H7 & Hd). rewrite H3, H4, H5. right. cbn [snd].
    destruct (Z.eqb_spec n 0) as [->|Hne].
    { exists h, b. split; [reflexivity|]. split; [apply local_refl; assumption|]. right. unfold idle. splits; assumption. }
    rewrite Z.eqb_refl. unfold cb_resize_memory. rewrite H2. rewrite H4, H5 in Hn0. specialize (Hn0 eq_refl).
    destruct (Z.ltb_spec 0 n); [|lia]. rewrite Z.ltb_irrefl.
    destruct (halloc_ok h n ltac:(lia)) as (mj & Hmj & Ha). rewrite Ha; cbn [obind].
    eexists _, _. split; [reflexivity|]. cbn [b_data]. split; [apply local_alloc; assumption|]. left.
    exists (h_next h), mj. cbn [b_data b_org b_asize b_acap b_w b_r b_cap fst snd h_live]. splits; try lia.
    + apply lookup_insert.
    + apply (circ_new_inv M mj n); lia.
Qed.
End dangling.
