(** Programs over any number of StackBuffers refine the memory-free specification. *)
From stdpp Require Import gmap.
From Verif Require Import Base Heap Own StackModel StackSpec StackProofs.

(** Reads below [lim] agree. *)
Definition agree (m m' : list byte) (lim : Z) : Prop :=
  forall a k, 0 <= a -> 0 <= k -> a + k <= lim -> mread m' a k = mread m a k.

Lemma inv_agree s m' a :
  stk_inv s a -> agree (k_mem s) m' (k_size s) -> k_size s <= zlen m' ->
  stk_inv (Stk m' (k_next s) (k_idx s) (k_size s) (k_count s)) a.
Proof.
  intros [es H] Hag Hl. destruct H as [Hsz Hint Hcnt Hidx Hnx Hix Hbl Hdj Hhe Hne Hti Hem Hfl].
  pose proof (zlen_nonneg es). pose proof (held_nonneg a.1). pose proof (need_count _ _ _ _ Hbl).
  exists es. constructor; cbn; try assumption; try lia.
  - rewrite Hag by lia. assumption.
  - eapply Forall2_impl; [exact Hbl|]. intros f b Hf. pose proof Hf as (F1 & F2 & F3 & F4).
    eapply blk_frame; [exact Hf| |lia]. apply Hag; lia.
Qed.

(** Relocating the index to the end of a block of [n] bytes (StackBuffer.hpp:230-242, 245-263). *)
Lemma inv_move_index m next idx size count q e n :
  stk_inv (Stk m next idx size count) (q, e) -> q <> [] -> n <= zlen m -> n <= int_max ->
  (size <= n \/ next + 8 * count <= n) ->
  exists m', mmove m (n - 8 * count) (size - 8 * count) (8 * count) = Ok m' /\ zlen m' = zlen m /\
    stk_inv (Stk m' n (n - 8 - 8 * count) n count) (q, false).
Proof.
  intros [es H] Hq Hn Hni Hfit; cbn in H. destruct H as [Hsz Hint Hcnt Hidx Hnx Hix Hbl Hdj Hhe Hne Hti Hem Hfl]; cbn in *.
  pose proof (zlen_nonneg es). pose proof (held_nonneg q). pose proof (need_count _ _ _ _ Hbl).
  destruct (mmove_spec m (n - 8 * count) (size - 8 * count) (8 * count)) as (m' & Hm & Hl & Hin & Hout); try lia.
  exists m'. splits; try assumption. exists es. constructor; cbn; try assumption; try lia.
  - replace (n - 8 - 8 * count + 8) with (n - 8 * count + 0) by lia. rewrite Hin by lia.
    rewrite <- Hix. f_equal; lia.
  - eapply Forall2_impl; [exact Hbl|]. intros f b Hf. pose proof Hf as (F1 & F2 & F3 & F4).
    eapply blk_frame; [exact Hf| |lia]. apply Hout. lia.
  - intros ->. inversion Hbl; congruence.
  - congruence.
Qed.

Definition sowned (h : heap) (b : sbuf) (v : sval) : Prop :=
  exists id m, b_data b = Some id /\ b_org b = Some id /\ h_live h !! id = Some m /\
    zlen m = b_acap b /\ b_stated b = b_size b /\ v.1 = b_size b /\
    stk_inv (Stk m (b_next b) (b_idx b) (b_size b) (b_count b)) v.2.

Section stale.
(** Whether objects may exist whose actualCapacity is stale (moved from by assignment). *)
Variable D : Prop.

Definition sidle (b : sbuf) (v : sval) : Prop :=
  b_data b = None /\ b_stated b = 0 /\ b_size b = 0 /\ b_next b = 0 /\ b_count b = 0 /\ v = nostk /\
  (b_acap b = 0 \/ (D /\ 0 <= b_acap b)).

Definition sobj (h : heap) (b : sbuf) (v : sval) : Prop := sowned h b v \/ sidle b v.
Definition swi (w : sworld) (A : gmap nat sval) : Prop := own_inv b_data sobj (s_heap w) (s_objs w) A.

Lemma sobj_frame h h' b v d d' :
  heap_ok h -> local h h' d d' -> sobj h b v -> (forall id, b_data b = Some id -> d <> Some id) -> sobj h' b v.
Proof.
  intros Hh (Hn & Hf & Hok & _) Ho Hne. destruct Ho as [(id & m & Hd & Horg & Hl & Hrest)|Hi]; [left|right; exact Hi].
  exists id, m. splits; try assumption; try apply Hrest. rewrite Hf; [assumption| |auto]. eapply Hh; eassumption.
Qed.

Lemma sobj_old h b v id : heap_ok h -> sobj h b v -> b_data b = Some id -> (id < h_next h)%nat.
Proof.
  intros Hh [(id' & m & Hd & Ho & Hl & _)|(Hd & _)] Hid; [|congruence].
  eapply Hh. rewrite Hid in Hd. injection Hd as <-. eassumption.
Qed.

Lemma sobj_live h b v id : sobj h b v -> b_data b = Some id -> is_Some (h_live h !! id).
Proof.
  intros [(id' & m & Hd & Ho & Hl & _)|(Hd & _)] Hid; [|congruence].
  rewrite Hid in Hd. injection Hd as <-. eauto.
Qed.

Lemma sidle_null h acap : acap = 0 \/ (D /\ 0 <= acap) -> sobj h (SBuf None 0 acap None 0 0 0 0) nostk.
Proof. intros H. right. unfold sidle; cbn. splits; assumption. Qed.

Lemma snew_inv m n : 0 <= n <= zlen m -> n <= int_max -> stk_inv (Stk m 0 (n - diSize) n 0) ([], true).
Proof. intros. apply (stk_new_inv m n); assumption. Qed.

(** resizeMemory on an object of any kind, provided a stale capacity is not relied upon. *)
Lemma srm_ok h b0 b v n copyData :
  heap_ok h -> sobj h b v -> b_data b0 = b_data b -> b_stated b0 = b_stated b -> b_acap b0 = b_acap b ->
  0 <= n ->
  (b_data b = None -> n = 0 \/ b_acap b < n) ->
  exists h' b', sb_resize_memory h b0 n copyData = Ok (h', b') /\ local h h' (b_data b) (b_data b') /\
    b_stated b' = n /\ b_org b' = b_org b0 /\ b_next b' = b_next b0 /\ b_idx b' = b_idx b0 /\
    b_size b' = b_size b0 /\ b_count b' = b_count b0 /\
    ((exists id' m', b_data b' = Some id' /\ h_live h' !! id' = Some m' /\ zlen m' = b_acap b' /\ n <= b_acap b' /\
       (forall id m, b_data b = Some id -> h_live h !! id = Some m -> copyData = true -> b_stated b <= n ->
          agree m m' (b_stated b))) \/
     (n = 0 /\ h' = h /\ b_data b' = None /\ b_data b = None /\ b_acap b' = b_acap b)).
Proof.
  intros Hh Ho Ed Es Ea Hn Hst. unfold sb_resize_memory. rewrite Es, Ea.
  destruct (Z.eqb_spec n (b_stated b)) as [->|Hne].
  { exists h, b0. splits; auto.
    - rewrite Ed. apply local_refl; assumption.
    - destruct Ho as [(id & m & Hd & Horg & Hl & Hm & Hs & Hv & Hi)|(Hd & H1 & _)].
      + left. exists id, m. rewrite Ed, Ea. destruct Hi as [es Hi]. pose proof (ok_size _ _ _ _ Hi). cbn in *. splits; try congruence; try lia.
      + right. rewrite Ed. splits; auto. }
  destruct (Z.ltb_spec (b_acap b) n) as [Hgt|Hle].
  - destruct (halloc_ok h n Hn) as (mj & Hmj & Ha). rewrite Ha; cbn [obind].
    set (h1 := Heap (<[h_next h := mj]> (h_live h)) (S (h_next h)) (h_junk h)) in *.
    assert (Hl0 : h_live h1 !! h_next h = Some mj) by (subst h1; cbn; apply lookup_insert).
    destruct (Z.ltb_spec 0 (b_acap b)) as [Hpos|Hz].
    + destruct Ho as [(id & m & Hd & Horg & Hl & Hm & Hs & Hv & Hi)|(Hd & H1 & H2 & H3 & H4 & H5 & H6)].
      * assert (Hlt : (id < h_next h)%nat) by (eapply Hh; eassumption).
        assert (Hl1 : h_live h1 !! id = Some m) by (subst h1; cbn; rewrite lookup_insert_ne by lia; assumption).
        destruct Hi as [es Hi]. pose proof (ok_size _ _ _ _ Hi) as Hsz. cbn in Hsz.
        assert (Hc : exists m', (if copyData then hcopy h1 (Some (h_next h)) (b_data b0) (b_stated b) else Ok h1)
                       = Ok (hput h1 (Some (h_next h)) m') /\ zlen m' = n /\
                       (copyData = true -> agree m m' (b_stated b)) /\
                       h_live (hput h1 (Some (h_next h)) m') = <[h_next h := m']> (h_live h1)).
        { destruct copyData.
          - rewrite Ed, Hd. destruct (hcopy_spec h1 (h_next h) id mj m (b_stated b)) as (m' & Hc & Hml & Hag & Hlive);
              [assumption|assumption|lia|lia|lia|lia|]. exists m'. splits; try assumption; try lia.
            intros _ a k ? ? ?. apply Hag; lia.
          - exists mj. splits; try lia; try discriminate.
            + f_equal. unfold hput. rewrite Hl0. unfold h1. cbn. rewrite insert_insert. reflexivity.
            + apply hput_live with (m0 := mj). assumption. }
        destruct Hc as (m' & -> & Hml & Hag & Hlive); cbn [obind].
        assert (Hl2 : h_live (hput h1 (Some (h_next h)) m') !! id = Some m).
        { rewrite Hlive, lookup_insert_ne by lia. assumption. }
        rewrite Ed, Hd. unfold hfree at 1. rewrite Hl2. cbn [obind].
        assert (Hn2 : h_next (hput h1 (Some (h_next h)) m') = S (h_next h)).
        { cbn [hput]. rewrite Hl0. reflexivity. }
        eexists _, _. split; [reflexivity|]. cbn [b_data b_stated b_acap b_org b_next b_idx b_size b_count]. splits.
        -- unfold local; cbn [h_live h_next]. rewrite Hn2, Hlive. splits.
           ++ lia.
           ++ intros id' Hid' Hne'. rewrite lookup_delete_ne by congruence.
              rewrite lookup_insert_ne by lia. subst h1; cbn. rewrite lookup_insert_ne by lia. reflexivity.
           ++ intros id' m2; cbn [h_live h_next]. rewrite lookup_delete_Some. intros [_ H].
              destruct (decide (h_next h = id')) as [<-|Hne']; [lia|].
              rewrite lookup_insert_ne in H by assumption. subst h1; cbn in H.
              rewrite lookup_insert_ne in H by assumption. apply Hh in H. lia.
           ++ right. left. exists (h_next h). split; [reflexivity|lia].
        -- left. exists (h_next h), m'. cbn [h_live]. rewrite Hlive, lookup_delete_ne by lia. splits; try lia.
           ++ apply lookup_insert.
           ++ intros id2 m2 [= <-] Hm2 Hcd _. assert (m2 = m) by congruence. subst. auto.
      * (* a stale capacity: data is null *)
        assert (Hc : (if copyData then hcopy h1 (Some (h_next h)) (b_data b0) (b_stated b) else Ok h1) = Ok h1).
        { destruct copyData; [|reflexivity]. rewrite H1. reflexivity. }
        rewrite Hc, Ed, Hd; cbn [obind hfree].
        eexists _, _. split; [reflexivity|]. cbn [b_data b_stated b_acap b_org b_next b_idx b_size b_count]. splits.
        -- apply local_alloc; assumption.
        -- left. exists (h_next h), mj. splits; try lia; try assumption. discriminate.
    + cbn [obind]. eexists _, _. split; [reflexivity|]. cbn [b_data b_stated b_acap b_org b_next b_idx b_size b_count]. splits.
      * apply local_alloc; assumption.
      * left. exists (h_next h), mj. splits; try lia; try assumption.
        intros id m Hid Hm _ Hle. destruct Ho as [(i & mi & Hd & Horg & Hl & Hml & Hs & Hv & Hi)|(Hd & _)]; [|congruence].
        destruct Hi as [es Hi]. pose proof (ok_size _ _ _ _ Hi) as Hsz. cbn in Hsz.
        assert (m = mi) by congruence. subst mi.
        intros a k ? ? ?. assert (a = 0 /\ k = 0) as [-> ->] by lia. rewrite !mread_ok by lia. reflexivity.
  - eexists _, _. split; [reflexivity|]. cbn [b_data b_stated b_acap b_org b_next b_idx b_size b_count]. splits; auto.
    + rewrite Ed. apply local_refl; assumption.
    + destruct Ho as [(id & m & Hd & Horg & Hl & Hm & Hs & Hv & Hi)|(Hd & H1 & H2 & H3 & H4 & H5 & H6)].
      * left. exists id, m. rewrite Ed. splits; try assumption.
        intros id2 m2 Hid2 Hm2 _ _. assert (m2 = m) by congruence. subst. intros a k _ _ _. reflexivity.
      * destruct (Hst Hd) as [->|]; [|lia]. congruence.
Qed.

(** ** resize *)
Definition sresize_safe (b : sbuf) (n : Z) : Prop :=
  n <= int_max /\ (b_data b = None -> n <= 0 \/ b_acap b < n).

Lemma sresize_ok h b c q e n :
  heap_ok h -> sobj h b (c, (q, e)) -> sresize_safe b n ->
  (n < 0 /\ sb_resize h b n = Ok (h, b, RRet false)) \/
  (n = c /\ sb_resize h b n = Ok (h, b, RRet true)) \/
  (sb_resize h b n = Ok (h, b, RThrew) /\ 0 <= n < c /\ q <> [] /\ (e = false \/ n < need q)) \/
  (0 <= n /\ need q <= n /\ exists h' b', sb_resize h b n = Ok (h', b', RRet true) /\
     local h h' (b_data b) (b_data b') /\ sobj h' b' (n, (q, exact_if_empty q false))).
Proof.
  intros Hh Ho [Hni Hst]. unfold sb_resize.
  destruct (Z.ltb_spec n 0) as [Hneg|Hpos]; [left; auto|]. right.
  destruct (Z.eqb_spec n (b_size b)) as [->|Hne].
  { left. split; [|reflexivity]. destruct Ho as [(id & m & Hd & Horg & Hl & Hm & Hs & Hv & Hi)|(_ & _ & -> & _ & _ & [= -> -> ->] & _)]; [symmetry; exact Hv|reflexivity]. }
  right.
  destruct (Z.eqb_spec (b_count b) 0) as [Hc0|Hc0].
  - right. assert (Hq : q = []).
    { destruct Ho as [(id & m & Hd & Horg & Hl & Hm & Hs & Hv & [es Hi])|(_ & _ & _ & _ & _ & [= -> -> ->] & _)]; [|reflexivity].
      pose proof (ok_count _ _ _ _ Hi) as Hcnt. pose proof (ok_blocks _ _ _ _ Hi) as Hbl. cbn in Hcnt, Hbl.
      assert (es = []) by (apply zlen_0; lia). subst es. inversion Hbl; reflexivity. }
    subst q. split; [lia|]. split; [unfold need; cbn; unfold zlen; cbn; lia|].
    destruct (srm_ok h b b _ n true Hh Ho eq_refl eq_refl eq_refl Hpos) as (h' & b' & -> & Hloc & Hs' & _ & _ & _ & _ & _ & Hcase).
    { intros Hd. destruct (Hst Hd); [left; lia|right; assumption]. }
    cbn [obind]. eexists _, _. rewrite Hs', Z.eqb_refl. split; [reflexivity|]. cbn [b_data]. split; [exact Hloc|].
    destruct Hcase as [(id' & m' & Hd' & Hl' & Hm' & Hle & _)|(-> & -> & Hd' & Hd & Ha')].
    + left. exists id', m'. cbn [b_data b_stated b_acap b_org b_next b_idx b_size b_count fst snd exact_if_empty].
      splits; try assumption; try lia. apply snew_inv; lia.
    + right. destruct Ho as [(id & m & Hd2 & _)|(_ & H1 & H2 & H3 & H4 & H5 & H6)]; [congruence|].
      unfold sidle; cbn [b_data b_stated b_acap b_org b_next b_idx b_size b_count]. splits; try congruence; try lia.
  - destruct Ho as [Ho|(_ & _ & _ & _ & H4 & _)]; [|congruence].
    pose proof Ho as (id & m & Hd & Horg & Hl & Hm & Hs & Hv & Hi). cbn [fst snd] in Hv, Hi.
    assert (Hq : q <> []).
    { intros ->. destruct Hi as [es Hi]. pose proof (ok_count _ _ _ _ Hi) as Hcnt. pose proof (ok_blocks _ _ _ _ Hi) as Hbl.
      cbn in Hcnt, Hbl. inversion Hbl; subst. cbn [length] in Hcnt. rewrite zlen_nil in Hcnt. congruence. }
    assert (Hex : exact_if_empty q false = false) by (destruct q; [congruence|reflexivity]). rewrite Hex.
    pose proof Hi as [es Hok]. pose proof (ok_size _ _ _ _ Hok) as Hsz. pose proof (ok_need _ _ _ _ Hok) as Hneed.
    pose proof (ok_held _ _ _ _ Hok) as Hheld. pose proof (need_count _ _ _ _ (ok_blocks _ _ _ _ Hok)) as Hnc.
    pose proof (ok_count _ _ _ _ Hok) as Hcnt. cbn in Hsz, Hneed, Hheld, Hcnt, Hnc.
    destruct (Z.ltb_spec (b_stated b) n) as [Hgrow|Hshrink].
    + right. split; [lia|]. split; [lia|].
      destruct (srm_ok h b b _ n true Hh (or_introl Ho) eq_refl eq_refl eq_refl Hpos) as (h' & b' & -> & Hloc & Hs' & _ & _ & _ & _ & _ & Hcase);
        [congruence|]. cbn [obind].
      destruct Hcase as [(id' & m' & Hd' & Hl' & Hm' & Hle & Hag)|(_ & _ & _ & Hx & _)]; [|congruence].
      specialize (Hag _ _ Hd Hl eq_refl ltac:(lia)).
      pose proof (inv_agree _ m' _ Hi) as Hi'. cbn [k_mem k_next k_idx k_size k_count] in Hi'.
      rewrite <- Hs in Hi' at 1. specialize (Hi' Hag ltac:(lia)).
      destruct (inv_move_index _ _ _ _ _ _ _ n Hi' Hq ltac:(lia) Hni ltac:(lia)) as (m2 & Hmv & Hml & Hi2).
      rewrite Hd', (hget_live _ _ _ Hl'). unfold diSize. rewrite Hmv; cbn [obind]. rewrite Hs', Z.eqb_refl.
      eexists _, _. split; [reflexivity|]. cbn [b_data]. rewrite Hd' in Hloc.
      split; [eapply local_put_trans; eassumption|]. left. exists id', m2.
      cbn [b_data b_stated b_acap b_org b_next b_idx b_size b_count fst snd].
      rewrite (hput_live _ _ _ _ Hl'). splits; try assumption; try lia. apply lookup_insert.
    + unfold diSize. destruct (Z.ltb_spec n (b_next b + 8 * b_count b)) as [Hthrow|Hfit].
      * left. splits; try assumption; try lia. destruct e; [right|left; reflexivity].
        pose proof (tight_held _ _ _ _ _ (ok_blocks _ _ _ _ Hok) (ok_tight _ _ _ _ Hok eq_refl)) as Ht. cbn in Ht. lia.
      * right. split; [lia|]. split; [lia|].
        destruct (inv_move_index _ _ _ _ _ _ _ n Hi Hq ltac:(lia) Hni ltac:(lia)) as (m2 & Hmv & Hml & Hi2).
        rewrite Hd, (hget_live _ _ _ Hl), Hmv; cbn [obind].
        eexists _, _. split; [reflexivity|]. cbn [b_data].
        split; [eapply local_put; eassumption|]. left. exists id, m2.
        cbn [b_data b_stated b_acap b_org b_next b_idx b_size b_count fst snd].
        rewrite (hput_live _ _ _ _ Hl). splits; try assumption; try lia. apply lookup_insert.
Qed.

(** ** Copy construction *)
Lemma scopy_ok h b v :
  heap_ok h -> sobj h b v ->
  exists h' b', sb_copy h b = Ok (h', b') /\ local h h' None (b_data b') /\ sobj h' b' v.
Proof.
  intros Hh Ho. unfold sb_copy.
  assert (Hfreed : forall mj, exists h2, hfree (Heap (<[h_next h := mj]> (h_live h)) (S (h_next h)) (h_junk h)) (Some (h_next h)) = Ok h2 /\
            local h h2 None None).
  { intros mj. unfold hfree. cbn [h_live]. rewrite lookup_insert. eexists. split; [reflexivity|].
    unfold local; cbn [h_live h_next]. splits; auto.
    - intros i Hi _. rewrite lookup_delete_ne, lookup_insert_ne by lia. reflexivity.
    - intros i mi. cbn [h_live h_next]. rewrite lookup_delete_Some. intros [Hne Hi].
      rewrite lookup_insert_ne in Hi by assumption. apply Hh in Hi. lia. }
  destruct Ho as [(id & m & Hd & Horg & Hl & Hm & Hs & Hv & Hi)|(Hd & H1 & H2 & H3 & H4 & H5 & H6)].
  - pose proof Hi as [es Hok]. pose proof (ok_size _ _ _ _ Hok) as Hsz. pose proof (ok_int _ _ _ _ Hok) as Hint.
    pose proof (ok_idx _ _ _ _ Hok) as Hidx. cbn in Hsz, Hint, Hidx.
    destruct (halloc_ok h (b_stated b) ltac:(lia)) as (mj & Hmj & Ha). rewrite Ha; cbn [obind]. rewrite Hd; cbn [andb].
    destruct (Z.ltb_spec 0 (b_stated b)) as [Hpos|Hz].
    + set (h1 := Heap (<[h_next h := mj]> (h_live h)) (S (h_next h)) (h_junk h)) in *.
      assert (Hlt : (id < h_next h)%nat) by (eapply Hh; eassumption).
      assert (Hl1 : h_live h1 !! h_next h = Some mj) by (subst h1; cbn; apply lookup_insert).
      destruct (hcopy_spec h1 (h_next h) id mj m (b_stated b)) as (m' & Hcp & Hml & Hag & Hlive);
        [assumption|subst h1; cbn; rewrite lookup_insert_ne by lia; assumption|lia|lia|lia|lia|].
      rewrite Hcp; cbn [obind]. eexists _, _. split; [reflexivity|]. cbn [b_data]. split.
      * eapply local_put_trans; [|exact Hl1]. apply local_alloc. assumption.
      * left. exists (h_next h), m'. cbn [b_data b_stated b_acap b_org b_next b_idx b_size b_count].
        rewrite Hlive. unfold diSize. rewrite <- Hidx. splits; try assumption; try lia; [apply lookup_insert|].
        apply (inv_agree _ m' _ Hi); cbn; [|lia]. intros a k ? ? ?. apply Hag; lia.
    + cbn [obind]. destruct (Hfreed mj) as (h2 & -> & Hloc); cbn [obind].
      eexists _, _. split; [reflexivity|]. cbn [b_data]. split; [exact Hloc|]. right.
      unfold sidle; cbn [b_data b_stated b_acap b_org b_next b_idx b_size b_count].
      assert (Hs0 : b_size b = 0) by lia.
      pose proof (ok_next _ _ _ _ Hok) as Hnx. pose proof (ok_count _ _ _ _ Hok) as Hcnt.
      pose proof (ok_need _ _ _ _ Hok) as Hne. pose proof (need_count _ _ _ _ (ok_blocks _ _ _ _ Hok)) as Hnc.
      pose proof (held_nonneg v.2.1). pose proof (zlen_nonneg es). cbn in Hnx, Hcnt, Hne.
      assert (es = []) by (apply zlen_0; lia). subst es. cbn in Hcnt.
      pose proof (ok_blocks _ _ _ _ Hok) as Hbl. apply Forall2_nil_inv_l in Hbl as Hq.
      pose proof (ok_flag _ _ _ _ Hok Hq) as Hfl.
      splits; try lia; auto. destruct v as [c [q e]]; cbn in *. unfold nostk. repeat f_equal; [lia|assumption|assumption].
  - rewrite H1. destruct (halloc_ok h 0 ltac:(lia)) as (mj & Hmj & Ha). rewrite Ha; cbn [obind]. rewrite Hd; cbn [andb].
    destruct (Hfreed mj) as (h2 & -> & Hloc); cbn [obind].
    eexists _, _. split; [reflexivity|]. cbn [b_data]. split; [exact Hloc|]. right.
    unfold sidle; cbn [b_data b_stated b_acap b_org b_next b_idx b_size b_count]. splits; auto.
Qed.

(** ** Copy assignment between different objects *)
Lemma scopy_assign_ok h bd vd bs vs :
  heap_ok h -> sobj h bd vd -> sobj h bs vs ->
  (forall id, b_data bd = Some id -> b_data bs = Some id -> False) ->
  (b_data bd = None -> b_stated bs = 0 \/ b_acap bd < b_stated bs) ->
  exists h' b', sb_copy_assign h bd bs = Ok (h', b') /\ local h h' (b_data bd) (b_data b') /\ sobj h' b' vs.
Proof.
  intros Hh Hod Hos Hdis Hst. unfold sb_copy_assign.
  assert (Hn0 : 0 <= b_stated bs).
  { destruct Hos as [(id & m & Hd & Horg & Hl & Hm & Hs & Hv & [es Hok])|(_ & H1 & _)]; [|lia].
    pose proof (ok_size _ _ _ _ Hok) as Hsz. cbn in Hsz. lia. }
  destruct (srm_ok h (SBuf (b_data bd) (b_stated bd) (b_acap bd) (b_org bs) (b_next bs) (b_idx bs) (b_size bs) (b_count bs))
              bd vd (b_stated bs) false Hh Hod eq_refl eq_refl eq_refl Hn0 Hst)
    as (h1 & b1 & -> & Hloc & Hs1 & _ & Hn1 & _ & Hz1 & Hc1 & Hcase); cbn [obind].
  cbn [b_next b_size b_count] in *. pose proof Hloc as (L1 & L2 & L3 & L4).
  destruct Hos as [(id & m & Hd & Horg & Hl & Hm & Hs & Hv & Hi)|(Hd & H1 & H2 & H3 & H4 & -> & H6)].
  - pose proof Hi as [es Hok]. pose proof (ok_size _ _ _ _ Hok) as Hsz. pose proof (ok_idx _ _ _ _ Hok) as Hidx.
    pose proof (ok_int _ _ _ _ Hok) as Hint. cbn in Hsz, Hidx, Hint.
    assert (Hidlt : (id < h_next h)%nat) by (eapply Hh; eassumption).
    assert (Hl1 : h_live h1 !! id = Some m).
    { rewrite L2; [assumption|assumption|]. intros E. eapply Hdis; eassumption. }
    destruct Hcase as [(id1 & m1 & Hd1 & Hlv1 & Hm1 & Hge & _)|(Hz & -> & Hd1 & Hdd & Ha1)].
    + assert (Hne1 : id1 <> id).
      { intros ->. destruct L4 as [E|[(i & E & Hgi)|E]]; rewrite Hd1 in E.
        - eapply Hdis; [symmetry; exact E|exact Hd].
        - injection E as <-. lia.
        - discriminate. }
      rewrite Hd1, Hd.
      destruct (hcopy_spec h1 id1 id m1 m (b_stated bs)) as (m' & Hcp & Hml & Hag & Hlive); try assumption; try lia.
      rewrite Hcp; cbn [obind]. eexists _, _. split; [reflexivity|]. cbn [b_data]. split.
      * eapply local_put_trans; [|exact Hlv1]. rewrite <- Hd1. assumption.
      * left. exists id1, m'. cbn [b_data b_stated b_acap b_org b_next b_idx b_size b_count].
        rewrite Hlive, Hn1, Hz1, Hc1. unfold diSize. rewrite <- Hidx.
        splits; try assumption; try lia; [apply lookup_insert|].
        apply (inv_agree _ m' _ Hi); cbn; [|lia]. intros a k ? ? ?. apply Hag; lia.
    + unfold hcopy. rewrite Hz. cbn [Z.eqb obind]. eexists _, _. split; [reflexivity|]. cbn [b_data].
      split; [exact Hloc|]. right.
      unfold sidle; cbn [b_data b_stated b_acap b_org b_next b_idx b_size b_count].
      pose proof (ok_next _ _ _ _ Hok) as Hnx. pose proof (ok_count _ _ _ _ Hok) as Hcnt.
      pose proof (ok_need _ _ _ _ Hok) as Hne. pose proof (need_count _ _ _ _ (ok_blocks _ _ _ _ Hok)) as Hnc.
      pose proof (held_nonneg vs.2.1). pose proof (zlen_nonneg es). cbn in Hnx, Hcnt, Hne.
      assert (es = []) by (apply zlen_0; lia). subst es. rewrite zlen_nil in Hcnt.
      pose proof (ok_blocks _ _ _ _ Hok) as Hbl. apply Forall2_nil_inv_l in Hbl as Hq.
      pose proof (ok_flag _ _ _ _ Hok Hq) as Hfl.
      splits; try lia; auto.
      * destruct vs as [c [q e]]; cbn in *. unfold nostk. f_equal; [lia|congruence].
      * rewrite Ha1. destruct Hod as [(i & mm & Hx & _)|(_ & _ & _ & _ & _ & _ & H6)]; [congruence|exact H6].
  - rewrite H1. unfold hcopy. cbn [Z.eqb obind]. eexists _, _. split; [reflexivity|]. cbn [b_data].
    split; [assumption|]. rewrite Hn1, Hz1, Hc1, H2, H3, H4, Hs1, H1.
    destruct Hcase as [(id1 & m1 & Hd1 & Hlv1 & Hm1 & Hge & _)|(Hz & -> & Hd1 & Hdd & Ha1)].
    + left. exists id1, m1. cbn [b_data b_stated b_acap b_org b_next b_idx b_size b_count]. splits; try assumption.
      apply (snew_inv m1 0); unfold int_max; lia.
    + right. unfold sidle; cbn [b_data b_stated b_acap b_org b_next b_idx b_size b_count]. splits; try assumption.
      rewrite Ha1. destruct Hod as [(i & mm & Hx & _)|(_ & _ & _ & _ & _ & _ & H7)]; [congruence|exact H7].
Qed.

(** ** Forwarded calls *)
Lemma hput_hget h p : hput h p (hget h p) = h.
Proof.
  destruct p as [id|]; [|reflexivity]. cbn. destruct (h_live h !! id) as [m|] eqn:E; [|reflexivity].
  cbn. rewrite insert_id by assumption. destruct h; reflexivity.
Qed.

Lemma scall_ok h b c a o :
  heap_ok h -> sobj h b (c, a) -> kop_legal o ->
  exists h' b' x a', sb_op h b o = Ok (h', b', x) /\ lifo_step c a o x a' /\
    local h h' (b_data b) (b_data b') /\ sobj h' b' (c, a').
Proof.
  intros Hh Ho Hl. unfold sb_op, sraw_of.
  destruct Ho as [(id & m & Hd & Horg & Hlv & Hm & Hs & Hv & Hi)|(Hd & H1 & H2 & H3 & H4 & [= -> ->] & H6)].
  - rewrite Horg, (hget_live _ _ _ Hlv). cbn [fst snd] in *.
    destruct (kstep_ok _ _ o Hi Hl) as (s' & x & a' & -> & Hf & Hi' & Hsz & Hml); cbn [obind].
    cbn [k_size k_mem] in *. eexists _, _, x, a'. split; [reflexivity|]. rewrite Hv. split; [exact Hf|].
    cbn [b_data]. split; [rewrite Hd; eapply local_put; eassumption|].
    left. exists id, (k_mem s'). cbn [b_data b_stated b_acap b_org b_next b_idx b_size b_count fst snd].
    rewrite (hput_live _ _ _ _ Hlv). splits; try assumption; try lia; [apply lookup_insert|].
    destruct s'; exact Hi'.
  - rewrite H2, H3, H4. set (m := hget h (b_org b)).
    assert (Hstep : forall s, k_mem s = m -> k_next s = 0 -> k_size s = 0 -> k_count s = 0 ->
              exists s' x a', stk_step s o = Ok (s', x) /\ lifo_step 0 ([], true) o x a' /\ a' = ([], true) /\
                k_mem s' = m /\ k_next s' = 0 /\ k_size s' = 0 /\ k_count s' = 0).
    { intros s S1 S2 S3 S4.
      assert (Hsp : forall n, 0 < n -> stk_space s n = false).
      { intros n Hn. unfold stk_space, diSize. rewrite S2, S3, S4. lia. }
      destruct o as [[d|] n|k| | |n| | | |]; cbn [stk_step].
      - assert (E : stk_push s (Some d) n = Ok (s, false)).
        { unfold stk_push. destruct (Z.leb_spec n 0); [reflexivity|]. rewrite Hsp by lia. reflexivity. }
        rewrite E; cbn [obind]. eexists s, _, _. split; [reflexivity|]. splits; try assumption. apply ls_push_no.
        destruct (Z.leb_spec n 0); [left; lia|]. right. right. unfold fits, need; cbn. unfold zlen; cbn. lia.
      - cbn. eexists s, _, _. split; [reflexivity|]. splits; try assumption. apply ls_push_null.
      - unfold stk_pop. rewrite S4. cbn. eexists s, _, _. split; [reflexivity|]. splits; try assumption. apply ls_pop_empty.
      - unfold stk_next_size. rewrite S4. cbn. eexists s, _, _. split; [reflexivity|]. splits; try assumption.
        apply (ls_next _ [] true).
      - unfold stk_empty. rewrite S4. cbn. eexists s, _, _. split; [reflexivity|]. splits; try assumption.
        apply (ls_empty _ [] true).
      - eexists s, _, _. split; [reflexivity|]. splits; try assumption.
        replace (stk_space s n) with (fits 0 [] n); [apply ls_space_exact|].
        unfold fits, need, stk_space, diSize; cbn. unfold zlen; cbn. rewrite S2, S3, S4. lia.
      - unfold stk_capacity. rewrite S3. eexists s, _, _. split; [reflexivity|]. splits; try assumption. apply ls_cap.
      - unfold stk_current. rewrite S4. eexists s, _, _. split; [reflexivity|]. splits; try assumption. apply (ls_count _ [] true).
      - unfold stk_reverse. rewrite S4. cbn. eexists s, _, _. split; [reflexivity|]. splits; try assumption. apply (ls_reverse _ [] true).
      - eexists _, _, _. split; [reflexivity|]. cbn. splits; try assumption. apply ls_clear. }
    destruct (Hstep (Stk m 0 (b_idx b) 0 0) eq_refl eq_refl eq_refl eq_refl) as (s' & x & a' & -> & Hf & -> & E1 & E2 & E3 & E4).
    cbn [obind]. rewrite E1. unfold m. rewrite hput_hget. eexists _, _, x, _. split; [reflexivity|].
    split; [exact Hf|]. cbn [b_data]. split; [apply local_refl; assumption|]. right.
    unfold sidle; cbn [b_data b_stated b_acap b_org b_next b_idx b_size b_count]. splits; assumption.
Qed.

(** ** Programs *)
(** C++ preconditions: object lifetimes, int ranges, no self copy-assignment (memcpy on identical ranges). *)
Definition swop_legal {W} (A : gmap nat W) (p : swop) : Prop :=
  match p with
  | SDefault o => A !! o = None
  | SNew o n => A !! o = None /\ n <= int_max
  | SCopy o src | SMove o src => A !! o = None /\ is_Some (A !! src)
  | SCopyAssign o src => o <> src /\ is_Some (A !! o) /\ is_Some (A !! src)
  | SMoveAssign o src | SSwap o src => is_Some (A !! o) /\ is_Some (A !! src)
  | SResize o n => is_Some (A !! o) /\ n <= int_max
  | SDestroy o => is_Some (A !! o)
  | SCall o c => is_Some (A !! o) /\ kop_legal c
  end.

(** The guard forced by the code: an object that was moved from by assignment is not resized to (or copy-assigned)
    a size within its stale capacity. *)
Definition swop_safe (w : sworld) (p : swop) : Prop :=
  match p with
  | SMoveAssign _ _ => D
  | SResize o n => forall b, s_objs w !! o = Some b -> b_data b = None -> n <= 0 \/ b_acap b < n \/ ~ D
  | SCopyAssign o src => forall b bs, s_objs w !! o = Some b -> s_objs w !! src = Some bs ->
      b_data b = None -> b_stated bs = 0 \/ b_acap b < b_stated bs \/ ~ D
  | _ => True
  end.

Lemma acap_nonneg h b v : sobj h b v -> b_data b = None -> 0 <= b_acap b /\ (~ D -> b_acap b = 0).
Proof.
  intros [(id & m & Hd & _)|(_ & _ & _ & _ & _ & _ & H)] E; [congruence|]. destruct H as [->|[HD H]].
  - split; [lia|auto].
  - split; [lia|contradiction].
Qed.

Lemma stated_nonneg h b v : sobj h b v -> 0 <= b_stated b.
Proof.
  intros [(id & m & Hd & Horg & Hl & Hm & Hs & Hv & [es Hok])|(_ & H1 & _)]; [|lia].
  pose proof (ok_size _ _ _ _ Hok) as Hsz. cbn in Hsz. lia.
Qed.

Lemma swstep_ok w A p :
  swi w A -> swop_legal A p -> swop_safe w p ->
  exists w' x A', swstep w p = Ok (w', x) /\ sws_step A p x A' /\ swi w' A'.
Proof.
  intros Hw Hl Hs.
  assert (Hh : heap_ok (s_heap w)) by apply Hw.
  assert (Hnone : forall o, A !! o = None -> s_objs w !! o = None) by (intros o Ho; apply (oi_none _ _ _ _ _ Hw); exact Ho).
  assert (Hupd : forall o b b' h' v', s_objs w !! o = Some b -> local (s_heap w) h' (b_data b) (b_data b') -> sobj h' b' v' ->
            swi (SWorld h' (<[o := b']> (s_objs w))) (<[o := v']> A)).
  { intros o b b' h' v' Hb Hloc Hobj. unfold swi; cbn.
    eapply own_update with (d := b_data b); [exact sobj_frame|exact sobj_old|exact Hw| | |exact Hloc|exact Hobj].
    - intros b2 Hb2. congruence.
    - congruence. }
  assert (Hcre : forall o b' h' v', A !! o = None -> local (s_heap w) h' None (b_data b') -> sobj h' b' v' ->
            swi (SWorld h' (<[o := b']> (s_objs w))) (<[o := v']> A)).
  { intros o b' h' v' Ho Hloc Hobj. unfold swi; cbn.
    eapply own_update with (d := None); [exact sobj_frame|exact sobj_old|exact Hw| |reflexivity|exact Hloc|exact Hobj].
    intros b2 Hb2. rewrite Hnone in Hb2 by assumption. discriminate. }
  destruct p as [o|o n|o src|o src|o src|o src|o o'|o n|o c|o]; cbn [swop_legal swop_safe swstep] in *.
  - eexists _, _, _. split; [reflexivity|]. split; [constructor|].
    apply Hcre; [assumption|apply local_refl; assumption|apply sidle_null; auto].
  - destruct Hl as [Ho Hn]. unfold sb_new. destruct (Z_lt_le_dec n 0) as [Hneg|Hpos].
    + unfold halloc. destruct (Z.ltb_spec n 0); [|lia]. cbn [obind].
      eexists _, _, _. split; [reflexivity|]. split; [apply sws_new_throw; assumption|assumption].
    + destruct (halloc_ok (s_heap w) n Hpos) as (mj & Hmj & ->); cbn [obind].
      eexists _, _, _. split; [reflexivity|]. split; [apply sws_new; assumption|].
      apply Hcre; [assumption|apply local_alloc; assumption|].
      left. eexists _, mj. cbn [b_data b_stated b_acap b_org b_next b_idx b_size b_count fst snd h_live]. splits; try assumption.
      * apply lookup_insert.
      * apply snew_inv; lia.
  - destruct Hl as [Ho [v Hv]]. destruct (own_lookup _ _ _ _ _ _ _ Hw Hv) as (b & Hb & Hobj).
    unfold sget. rewrite Hb; cbn [obind].
    destruct (scopy_ok _ b v Hh Hobj) as (h' & b' & -> & Hloc & Hobj').
    eexists _, _, _. split; [reflexivity|]. split; [apply sws_copy; eassumption|]. apply Hcre; assumption.
  - destruct Hl as [Ho [v Hv]]. destruct (own_lookup _ _ _ _ _ _ _ Hw Hv) as (b & Hb & Hobj).
    unfold sget. rewrite Hb; cbn [obind sb_move].
    eexists _, _, _. split; [reflexivity|]. split; [apply sws_move; eassumption|].
    eapply own_move; try eassumption; try reflexivity.
    + intros ->. congruence.
    + auto.
    + apply sidle_null; auto.
  - destruct Hl as (Hne & [vd Hvd] & [v Hv]).
    destruct (own_lookup _ _ _ _ _ _ _ Hw Hvd) as (bd & Hbd & Hobjd).
    destruct (own_lookup _ _ _ _ _ _ _ Hw Hv) as (bs & Hbs & Hobjs).
    unfold sget. rewrite Hbd, Hbs; cbn [obind].
    destruct (scopy_assign_ok (s_heap w) bd vd bs v Hh Hobjd Hobjs) as (h' & b' & -> & Hloc & Hobj').
    { intros id H1 H2. apply Hne. eapply (oi_uniq _ _ _ _ _ Hw); eassumption. }
    { intros Hd. destruct (acap_nonneg _ _ _ Hobjd Hd) as [H1 H2]. pose proof (stated_nonneg _ _ _ Hobjs).
      destruct (Hs bd bs Hbd Hbs Hd) as [?|[?|HD]]; [auto|auto|]. specialize (H2 HD). lia. }
    cbn [obind]. eexists _, _, _. split; [reflexivity|]. split; [apply sws_copy_assign; eassumption|].
    eapply Hupd; eassumption.
  - destruct Hl as ([vd Hvd] & [v Hv]).
    destruct (own_lookup _ _ _ _ _ _ _ Hw Hvd) as (bd & Hbd & Hobjd).
    destruct (own_lookup _ _ _ _ _ _ _ Hw Hv) as (bs & Hbs & Hobjs).
    unfold sget. rewrite Hbd, Hbs; cbn [obind]. unfold sb_move_assign.
    assert (Hlive : forall id, b_data bd = Some id -> is_Some (h_live (s_heap w) !! id)) by (intros id; exact (sobj_live _ _ _ id Hobjd)).
    assert (Hac : b_acap bs = 0 \/ (D /\ 0 <= b_acap bs)).
    { right. split; [assumption|]. destruct Hobjs as [(id & m & _ & _ & _ & Hm & _)|(_ & _ & _ & _ & _ & _ & H)].
      - rewrite <- Hm. apply zlen_nonneg.
      - lia. }
    destruct (decide (o = src)) as [<-|Hne].
    + assert (bs = bd) by congruence. subst bs.
      destruct (local_free _ _ Hh Hlive) as (h' & -> & Hloc); cbn [obind].
      eexists _, _, _. split; [reflexivity|]. split; [apply sws_move_assign; eassumption|].
      rewrite !insert_insert. eapply Hupd; [exact Hbd|exact Hloc|apply sidle_null; exact Hac].
    + destruct (own_move_assign b_data sobj sobj_frame _ _ _ o src bs bd v
                  (SBuf None 0 (b_acap bs) None 0 0 0 0) nostk Hw Hne Hbd Hbs Hv Hlive eq_refl
                  (fun h' => sidle_null h' _ Hac)) as (h' & -> & Hw').
      cbn [obind]. eexists _, _, _. split; [reflexivity|]. split; [apply sws_move_assign; eassumption|exact Hw'].
  - destruct Hl as ([v Hv] & [v' Hv']).
    destruct (own_lookup _ _ _ _ _ _ _ Hw Hv) as (b & Hb & Hobj).
    destruct (own_lookup _ _ _ _ _ _ _ Hw Hv') as (b' & Hb' & Hobj').
    unfold sget. rewrite Hb, Hb'; cbn [obind].
    eexists _, _, _. split; [reflexivity|]. split; [apply sws_swap; eassumption|].
    unfold swi; cbn. eapply own_swap; eassumption.
  - destruct Hl as [[[c [q e]] Hv] Hn]. destruct (own_lookup _ _ _ _ _ _ _ Hw Hv) as (b & Hb & Hobj).
    unfold sget. rewrite Hb; cbn [obind].
    destruct (sresize_ok (s_heap w) b c q e n Hh Hobj) as [(H1 & ->)|[(H1 & ->)|[(-> & H2 & H3 & H4)|(H1 & H2 & h' & b' & -> & Hloc & Hobj')]]].
    { split; [assumption|]. intros Hd. destruct (acap_nonneg _ _ _ Hobj Hd) as [A1 A2].
      destruct (Hs b Hb Hd) as [?|[?|HD]]; [lia|auto|]. specialize (A2 HD). lia. }
    all: cbn [obind]; eexists _, _, _; (split; [reflexivity|]).
    + split; [apply sws_resize_neg; eauto|]. rewrite insert_id by assumption. destruct w; exact Hw.
    + split; [subst n; eapply sws_resize_same; eassumption|]. rewrite insert_id by assumption. destruct w; exact Hw.
    + split; [eapply sws_resize_throw; eassumption|]. rewrite insert_id by assumption. destruct w; exact Hw.
    + split; [eapply sws_resize; eassumption|]. eapply Hupd; eassumption.
  - destruct Hl as [[[cp a] Hv] Hlc]. destruct (own_lookup _ _ _ _ _ _ _ Hw Hv) as (b & Hb & Hobj).
    unfold sget. rewrite Hb; cbn [obind].
    destruct (scall_ok (s_heap w) b cp a c Hh Hobj Hlc) as (h' & b' & x & a' & -> & Hf & Hloc & Hobj'); cbn [obind].
    eexists _, _, _. split; [reflexivity|]. split; [eapply sws_call; eassumption|]. eapply Hupd; eassumption.
  - destruct Hl as [v Hv]. destruct (own_lookup _ _ _ _ _ _ _ Hw Hv) as (b & Hb & Hobj).
    unfold sget. rewrite Hb; cbn [obind]. unfold sb_destroy.
    destruct (local_free (s_heap w) (b_data b) Hh) as (h' & -> & Hloc); [intros; eapply sobj_live; eassumption|].
    cbn [obind]. eexists _, _, _. split; [reflexivity|]. split; [apply sws_destroy; eauto|].
    unfold swi; cbn. eapply own_drop; [exact sobj_frame|exact Hw|exact Hb|exact Hloc].
Qed.

Fixpoint swprog_ok (w : sworld) (ps : list swop) : Prop :=
  match ps with
  | [] => True
  | p :: ps' => swop_legal (s_objs w) p /\ swop_safe w p /\
      (forall w' x, swstep w p = Ok (w', x) -> swprog_ok w' ps')
  end.

Lemma slegal_transfer w A p : swi w A -> swop_legal (s_objs w) p -> swop_legal A p.
Proof.
  intros Hw.
  assert (Hs : forall o, is_Some (s_objs w !! o) -> is_Some (A !! o)).
  { intros o [b Hb]. destruct (A !! o) as [v|] eqn:E; [eauto|]. apply (oi_none _ _ _ _ _ Hw) in E. congruence. }
  assert (Hn : forall o, s_objs w !! o = None -> A !! o = None) by (intros o; apply (oi_none _ _ _ _ _ Hw)).
  destruct p; cbn [swop_legal]; intuition auto.
Qed.

Lemma swrun_ok ps : forall w A,
  swi w A -> swprog_ok w ps ->
  exists w' tr A', swrun w ps = Ok (w', tr) /\ sws_trace A tr A' /\ swi w' A' /\ map fst tr = ps.
Proof.
  induction ps as [|p ps IH]; intros w A Hw Hok; cbn [swrun].
  - exists w, [], A. splits; try assumption. constructor.
  - destruct Hok as (Hl & Hs & Hrest). apply (slegal_transfer _ _ _ Hw) in Hl.
    destruct (swstep_ok w A p Hw Hl Hs) as (w1 & x & A1 & Hst & Hsp & Hw1). rewrite Hst; cbn [obind].
    destruct (IH w1 A1 Hw1 (Hrest _ _ Hst)) as (w2 & tr & A2 & -> & Ht & Hw2 & Hm); cbn [obind].
    exists w2, ((p, x) :: tr), A2. splits; try assumption.
    + econstructor; eassumption.
    + cbn. congruence.
Qed.

Lemma sworld0_inv junk : swi (sworld0 junk) ∅.
Proof. apply own_init. intros id m. cbn. rewrite lookup_empty. discriminate. Qed.
End stale.
