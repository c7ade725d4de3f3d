(** StableBlockVector refines a list. *)
From stdpp Require Import gmap.
From Verif Require Import Base BlkHeap BlkProofs BlkMore BlkRun BlkIter VecModel VecSpec.

Section vec.
Context {V : Type}.
Variable P : params.
Hypothesis HP : 0 <= expo P.
Notation B := (bsz P).
Implicit Types (h : bheap V) (v : vec) (ids frees : list nat) (xs : list V).

Definition vts v : list nat := otl (f_tab (v_fl v)) ++ otl (v_data v).

Definition vlive h v t xs ids frees : Prop :=
  v_data v = Some t /\ blocks P h t (v_slots v) 0 ids 0 xs (v_fl v) frees /\ v_size v = zlen xs /\
  v_idx v = zlen ids - 1 /\ 0 <= v_bsize v <= B /\ zlen xs = v_idx v * B + v_bsize v /\ 0 < v_slots v.

Definition vinv h v xs ids frees : Prop :=
  (v = vec_default P /\ xs = [] /\ ids = [] /\ frees = [] /\ hok [] [] h) \/ (exists t, vlive h v t xs ids frees).

(** No block at all although a table exists: only a copy of an empty vector is in this state. *)
Definition phantom v : Prop := v_data v <> None /\ v_idx v < 0.

Lemma vts_live v t : v_data v = Some t -> vts v = rts (v_fl v) t.
Proof. intros E. unfold vts, rts. rewrite E. reflexivity. Qed.

Lemma vinv_hok h v xs ids frees : vinv h v xs ids frees -> hok (frees ++ ids) (vts v) h.
Proof.
  intros [(-> & -> & -> & -> & H)|(t & E & Hb & _)]; [exact H|]. rewrite (vts_live _ _ E). apply Hb.
Qed.

Lemma vinv_size h v xs ids frees : vinv h v xs ids frees -> v_size v = zlen xs.
Proof. intros [(-> & -> & _)|(t & _ & _ & H & _)]; [reflexivity|exact H]. Qed.

Lemma ids_last ids : 0 < zlen ids -> exists ids' b, ids = ids' ++ [b].
Proof.
  intros H. destruct ids as [|b ids' _] using rev_ind; [unfold zlen in H; cbn in H; lia|]. eauto.
Qed.

Definition mono ids ids' : Prop := exists k, ids' = ids ++ k.
Lemma mono_refl ids : mono ids ids.
Proof. exists []. rewrite app_nil_r. reflexivity. Qed.
Lemma mono_snoc ids b : mono ids (ids ++ [b]).
Proof. exists [b]. reflexivity. Qed.
Lemma mono_trans ids ids1 ids2 : mono ids ids1 -> mono ids1 ids2 -> mono ids ids2.
Proof. intros [k ->] [k' ->]. exists (k ++ k'). rewrite app_assoc. reflexivity. Qed.

(** ** push_back *)

(** A table, with [k] unused slots between the elements and the next slot to fill ([k = 0] but for a constructor that
    has thrown). *)
Definition vroom h v t xs ids frees k : Prop :=
  v_data v = Some t /\ blocks P h t (v_slots v) 0 ids 0 xs (v_fl v) frees /\ v_idx v = zlen ids - 1 /\
  0 <= v_bsize v <= B /\ zlen xs + k = v_idx v * B + v_bsize v /\ 0 < v_slots v.

Lemma vlive_room h v t xs ids frees : vlive h v t xs ids frees <-> vroom h v t xs ids frees 0 /\ v_size v = zlen xs.
Proof. unfold vlive, vroom. rewrite Z.add_0_r. tauto. Qed.

(** After blockCheck there is a table with room for one element. *)
Lemma vcheck_ok h v xs ids frees k :
  0 <= k -> (v = vec_default P /\ xs = [] /\ ids = [] /\ frees = [] /\ hok [] [] h /\ k = 0) \/ (exists t, vroom h v t xs ids frees k) ->
  exists h1 v1 t ids1 frees1, vec_block_check P h v = Ok (h1, v1) /\ vroom h1 v1 t xs ids1 frees1 k /\
    v_size v1 = v_size v /\ v_bsize v1 < B /\ 0 <= v_idx v1 /\
    upd (frees ++ ids) (vts v) h (frees1 ++ ids1) (vts v1) h1 /\ mono ids ids1.
Proof.
  intros Hk Hv. pose proof (B_pos P HP) as HB. unfold vec_block_check.
  destruct (Z.leb_spec B (v_bsize v)) as [Hfull|Hroom].
  2:{ destruct Hv as [(-> & _)|(t & Hl)]; [cbn in Hroom; lia|].
      exists h, v, t, ids, frees. splits; try apply mono_refl; try assumption.
      - destruct Hl as (_ & _ & Hi & Hb & Hz & _). pose proof (zlen_nonneg xs). nia.
      - apply upd_refl. destruct Hl as (E & Hbk & _). rewrite (vts_live _ _ E). apply Hbk. }
  (* a table with a free entry *)
  assert (exists h1 v1 t, (if v_slots v =? 0
      then let '(h', t) := talloc h 64 in Ok (h', Vec (v_size v) t 64 (-1) (v_bsize v) (v_fl v))
      else if v_slots v - 1 <=? v_idx v
      then let '(h', t) := talloc h (v_slots v * 2) in
           h2 <-! tcopy h' (v_data v) 0 (v_slots v) t 0;;
           h3 <-! tdelete h2 (v_data v);;
           Ok (h3, Vec (v_size v) t (v_slots v * 2) (v_idx v) (v_bsize v) (v_fl v))
      else Ok (h, v)) = Ok (h1, v1) /\ vroom h1 v1 t xs ids frees k /\ v_size v1 = v_size v /\ v_bsize v1 = B /\
      v_idx v1 + 1 < v_slots v1 /\ upd (frees ++ ids) (vts v) h (frees ++ ids) (vts v1) h1)
    as (h1 & v1 & t & -> & Hl & Hsz & Hbs & Hsl & U).
  { destruct Hv as [(-> & -> & -> & -> & Hok & ->)|(t & Hl)].
    - cbn [vec_default v_slots Z.eqb v_size v_bsize v_fl]. destruct (talloc h 64) as [h1 u] eqn:Ea.
      destruct (bk_fresh P h 64 0 h1 u Hok) as (t & -> & Hbk & U); [lia|assumption|].
      eexists h1, _, t. split; [reflexivity|]. splits; cbn; try assumption; try lia.
      unfold vroom; cbn. unfold zlen; cbn. splits; try assumption; lia.
    - destruct Hl as (E & Hbk & Hi & Hb & Hz & Hs). destruct (Z.eqb_spec (v_slots v) 0); [lia|].
      destruct (Z.leb_spec (v_slots v - 1) (v_idx v)).
      + rewrite E. pose proof (row_lo_nonneg _ _ _ _ _ (bk_row _ _ _ _ _ _ _ _ _ _ Hbk)).
        destruct (bk_grow P HP h t (v_slots v) 0 ids 0 xs (v_fl v) frees (v_slots v * 2) 0 (v_slots v) 0 Hbk) as
          (h1 & u & h2 & h3 & -> & -> & E3 & Hbk' & U); try lia.
        cbn [obind]. rewrite E3. cbn [obind]. eexists h3, _, u. split; [reflexivity|]. splits; cbn; try lia.
        * unfold vroom; cbn. splits; try assumption; try lia.
        * unfold vts; cbn. rewrite E. exact U.
      + exists h, v, t. splits; try assumption; try lia.
        * unfold vroom. splits; try assumption; try lia.
        * apply upd_refl. rewrite (vts_live _ _ E). apply Hbk. }
  cbn [obind]. destruct Hl as (E & Hbk & Hi & Hb & Hz & Hs).
  destruct (bk_add_back P HP h1 t (v_slots v1) 0 ids 0 xs (v_fl v1) frees (v_idx v1 + 1) Hbk) as
    (h2 & f' & b & h3 & frees' & -> & E3 & Hbk3 & Et & U3); try lia.
  cbn [obind]. rewrite E. rewrite E3. cbn [obind].
  eexists h3, _, t, (ids ++ [b]), frees'. split; [reflexivity|]. splits; cbn; try apply mono_snoc; try assumption; try lia.
  - unfold vroom; cbn. rewrite zlen_app. unfold zlen in *; cbn. splits; try assumption; try lia.
  - pose proof (zlen_nonneg ids). lia.
  - eapply upd_trans; [exact U|]. rewrite (vts_live _ _ E). exact U3.
Qed.

Lemma vinv_room h v xs ids frees : vinv h v xs ids frees ->
  (v = vec_default P /\ xs = [] /\ ids = [] /\ frees = [] /\ hok [] [] h /\ 0 = 0) \/ (exists t, vroom h v t xs ids frees 0).
Proof.
  intros [(H1 & H2 & H3 & H4 & H5)|(t & Hl)]; [left; splits; assumption|right].
  exists t. apply vlive_room in Hl. apply Hl.
Qed.

Lemma vpush_ok h v xs ids frees x :
  vinv h v xs ids frees ->
  exists h' v' ids' frees', vec_push P h v x = Ok (h', v') /\ vinv h' v' (xs ++ [x]) ids' frees' /\ ~ phantom v' /\
    upd (frees ++ ids) (vts v) h (frees' ++ ids') (vts v') h' /\ mono ids ids'.
Proof.
  intros Hv. pose proof (B_pos P HP) as HB.
  destruct (vcheck_ok h v xs ids frees 0 ltac:(lia) (vinv_room _ _ _ _ _ Hv)) as
    (h1 & v1 & t & ids1 & frees1 & E & (Ed & Hbk & Hi & Hb & Hz & Hs) & Hsz & Hlt & Hge & U & Hm).
  rewrite (vinv_size _ _ _ _ _ Hv) in Hsz.
  unfold vec_push. rewrite E; cbn [obind]. rewrite Ed.
  destruct (ids_last ids1) as (ids' & b & Eids); [lia|].
  assert (Hlk : ids1 !! length ids' = Some b) by (rewrite Eids; apply list_lookup_middle; reflexivity).
  assert (Hli : v_idx v1 = Z.of_nat (length ids')).
  { rewrite Hi, Eids, zlen_app. unfold zlen; cbn. lia. }
  rewrite (bk_get P h1 t (v_slots v1) 0 ids1 0 xs (v_fl v1) frees1 (length ids') b) by (try assumption; lia). cbn [obind].
  destruct (bk_push P HP h1 t (v_slots v1) 0 ids1 0 xs (v_fl v1) frees1 (length ids') b (v_bsize v1) x Hbk Hlk) as (h2 & -> & Hbk2 & U2); [lia|nia|].
  cbn [obind]. eexists h2, _, ids1, frees1. split; [reflexivity|]. splits.
  - right. exists t. unfold vlive; cbn. rewrite zlen_app. unfold zlen in *; cbn. splits; try assumption; try lia.
  - intros [_ Hp]. cbn in Hp. lia.
  - eapply upd_trans; [exact U|]. unfold vts; cbn. unfold vts. rewrite Ed. exact U2.
  - exact Hm.
Qed.

(** ** pop_back *)
Lemma vpop_ok h v xs x ids frees :
  vinv h v (xs ++ [x]) ids frees ->
  exists h' v' ids' frees', vec_pop P h v = Ok (h', v') /\ vinv h' v' xs ids' frees' /\ ~ phantom v' /\
    upd (frees ++ ids) (vts v) h (frees' ++ ids') (vts v') h' /\ mono ids' ids.
Proof.
  intros [(_ & E & _)|(t & Ed & Hbk & Hsz & Hi & Hb & Hz & Hs)]; [destruct xs; discriminate|]. pose proof (B_pos P HP) as HB.
  assert (Hl : zlen (xs ++ [x]) = zlen xs + 1) by (rewrite zlen_app; unfold zlen; cbn; lia). pose proof (zlen_nonneg xs).
  unfold vec_pop. destruct (Z.eqb_spec (v_size v) 0); [lia|].
  assert (Hidx : 0 <= v_idx v) by nia.
  destruct (ids_last ids) as (ids' & b & Eids); [lia|].
  assert (Hli : v_idx v = Z.of_nat (length ids')).
  { rewrite Hi, Eids, zlen_app. unfold zlen; cbn. lia. }
  destruct (Z.ltb_spec 0 (v_bsize v)) as [Hpos|Hzero]; cbn [obind].
  - cbn [v_data v_idx v_bsize]. rewrite Ed.
    assert (Hlk : ids !! length ids' = Some b) by (rewrite Eids; apply list_lookup_middle; reflexivity).
    rewrite (bk_get P h t (v_slots v) 0 ids 0 _ (v_fl v) frees (length ids') b _ Hbk Hlk) by lia. cbn [obind].
    destruct (bk_pop P HP h t (v_slots v) 0 ids 0 xs x (v_fl v) frees (length ids') b (v_bsize v - 1) Hbk Hlk) as (h2 & -> & Hbk2 & U2); [lia|nia|].
    cbn [obind]. eexists h2, _, ids, frees. split; [reflexivity|]. splits; try apply mono_refl; try apply mono_snoc.
    + right. exists t. unfold vlive; cbn. splits; try apply mono_refl; try apply mono_snoc; try assumption; try lia.
    + intros [_ Hp]. cbn in Hp. lia.
    + unfold vts; cbn. rewrite Ed. exact U2.
  - rewrite Ed. subst ids.
    rewrite (bk_get P h t (v_slots v) 0 _ 0 _ (v_fl v) frees (length ids') b _ Hbk) by (try lia; apply list_lookup_middle; reflexivity).
    cbn [obind].
    destruct (bk_drop_back P HP h t (v_slots v) 0 ids' 0 (xs ++ [x]) (v_fl v) frees b Hbk) as (h1 & f1 & -> & Hbk1 & U1); [unfold zlen in *; nia|].
    cbn [obind v_data v_idx v_bsize].
    assert (Hlt : 0 < v_idx v) by nia.
    destruct (ids_last ids') as (ids2 & b2 & Eids2); [unfold zlen; lia|].
    assert (Hlk : ids' !! length ids2 = Some b2) by (rewrite Eids2; apply list_lookup_middle; reflexivity).
    assert (Hli2 : v_idx v - 1 = Z.of_nat (length ids2)).
    { rewrite Hli, Eids2, app_length. cbn. lia. }
    rewrite (bk_get P h1 t (v_slots v) 0 ids' 0 _ f1 (frees ++ [b]) (length ids2) b2 _ Hbk1 Hlk) by lia. cbn [obind].
    destruct (bk_pop P HP h1 t (v_slots v) 0 ids' 0 xs x f1 (frees ++ [b]) (length ids2) b2 (B - 1) Hbk1 Hlk) as (h2 & -> & Hbk2 & U2); [lia|nia|].
    cbn [obind]. eexists h2, _, ids', (frees ++ [b]). split; [reflexivity|]. splits; try apply mono_refl; try apply mono_snoc.
    + right. exists t. unfold vlive; cbn. rewrite zlen_app in Hi. unfold zlen in *; cbn in *. splits; try apply mono_refl; try apply mono_snoc; try assumption; try lia.
    + intros [_ Hp]. cbn in Hp. lia.
    + unfold vts; cbn. rewrite Ed. eapply upd_trans; [exact U1|exact U2].
Qed.

Lemma vpop_empty h v ids frees : vinv h v [] ids frees -> vec_pop P h v = Ok (h, v).
Proof. intros Hv. unfold vec_pop. rewrite (vinv_size _ _ _ _ _ Hv). reflexivity. Qed.

(** ** Element access *)
Lemma vat_ok h v xs ids frees n :
  vinv h v xs ids frees -> 0 <= n < zlen xs ->
  exists (i : nat) b, vec_at P h v n = Ok (Some b, n mod B) /\ ids !! i = Some b /\ Z.of_nat i = n / B /\ 0 <= n mod B < B /\
    Z.of_nat i * B + n mod B = n.
Proof.
  intros [(_ & -> & _)|(t & Ed & Hbk & Hsz & Hi & Hb & Hz & Hs)] Hn; [unfold zlen in Hn; cbn in Hn; lia|].
  destruct (bk_locate P HP h t (v_slots v) 0 ids 0 xs (v_fl v) frees n Hbk) as (i & b & E1 & E2 & E3 & E4 & E5); try lia.
  exists i, b. rewrite Z.add_0_l in *. unfold vec_at. rewrite Ed, shiftr_bsz, land_bsz by assumption. rewrite Z.add_0_l in E5. rewrite E5.
  splits; try apply mono_refl; try apply mono_snoc; try assumption; lia.
Qed.

Lemma vget_ok h v xs ids frees (n : nat) x :
  vinv h v xs ids frees -> xs !! n = Some x -> vec_get P h v (Z.of_nat n) = Ok x.
Proof.
  intros Hv Hx. pose proof (lookup_lt_Some _ _ _ Hx).
  destruct (vat_ok _ _ _ _ _ (Z.of_nat n) Hv) as (i & b & E & Hi & _ & Hj & Hp); [unfold zlen; lia|].
  unfold vec_get. rewrite E; cbn [obind].
  destruct Hv as [(_ & -> & _)|(t & Ed & Hbk & _)]; [rewrite lookup_nil in Hx; discriminate|].
  eapply bk_read with (n := Z.of_nat n); [exact Hbk|exact Hi|exact Hj|lia|]. rewrite zl_nat. exact Hx.
Qed.

Lemma vset_ok h v xs ids frees (n : nat) x :
  vinv h v xs ids frees -> (n < length xs)%nat ->
  exists h', vec_set P h v (Z.of_nat n) x = Ok h' /\ vinv h' v (<[n := x]> xs) ids frees /\
    upd (frees ++ ids) (vts v) h (frees ++ ids) (vts v) h'.
Proof.
  intros Hv Hn. destruct (vat_ok _ _ _ _ _ (Z.of_nat n) Hv) as (i & b & E & Hi & _ & Hj & Hp); [unfold zlen; lia|].
  unfold vec_set. rewrite E; cbn [obind].
  destruct Hv as [(_ & -> & _)|(t & Ed & Hbk & Hsz & Hi' & Hb & Hz & Hs)]; [cbn in Hn; lia|].
  destruct (bk_set P HP h t (v_slots v) 0 ids 0 xs (v_fl v) frees i b (Z.of_nat n mod B) (Z.of_nat n) x Hbk Hi Hj) as (h' & E' & Hbk' & U);
    [lia|unfold zlen; lia|].
  exists h'. rewrite Nat2Z.id in Hbk'. splits; try apply mono_refl; try apply mono_snoc; try assumption.
  - right. exists t. unfold vlive. splits; try apply mono_refl; try apply mono_snoc; try assumption; unfold zlen in *; rewrite ?insert_length; lia.
  - rewrite (vts_live _ _ Ed). exact U.
Qed.

Lemma vback_ok h v xs x ids frees : vinv h v (xs ++ [x]) ids frees -> vec_back P h v = Ok x.
Proof.
  intros [(_ & E & _)|(t & Ed & Hbk & Hsz & Hi & Hb & Hz & Hs)]; [destruct xs; discriminate|]. pose proof (B_pos P HP) as HB.
  assert (Hl : zlen (xs ++ [x]) = zlen xs + 1) by (rewrite zlen_app; unfold zlen; cbn; lia). pose proof (zlen_nonneg xs).
  assert (Hx : zl (xs ++ [x]) (zlen xs) = Some x) by (rewrite zl_app_r by lia; rewrite zl_cons, Z.sub_diag; reflexivity).
  unfold vec_back. rewrite Ed. destruct (Z.eqb_spec (v_bsize v) 0) as [E0|E0].
  - rewrite shiftr_bsz by assumption. rewrite Hsz, Hz, E0, Z.add_0_r, Z.div_mul by lia.
    assert (Hp : 0 < v_idx v) by nia.
    destruct (lookup_lt_is_Some_2 ids (Z.to_nat (v_idx v - 1))) as [b Hbl]; [unfold zlen in Hi; lia|].
    rewrite (bk_get P h t (v_slots v) 0 ids 0 _ (v_fl v) frees _ b _ Hbk Hbl) by lia. cbn [obind].
    eapply bk_read; [exact Hbk|exact Hbl|lia| |exact Hx]. nia.
  - assert (Hp : 0 <= v_idx v) by nia.
    destruct (lookup_lt_is_Some_2 ids (Z.to_nat (v_idx v))) as [b Hbl]; [unfold zlen in Hi; lia|].
    rewrite (bk_get P h t (v_slots v) 0 ids 0 _ (v_fl v) frees _ b _ Hbk Hbl) by lia. cbn [obind].
    eapply bk_read; [exact Hbk|exact Hbl|lia| |exact Hx]. nia.
Qed.

Lemma vfront_ok h v x xs ids frees : vinv h v (x :: xs) ids frees -> vec_front P h v = Ok x.
Proof.
  intros Hv. unfold vec_front. pose proof (B_pos P HP). pose proof (zlen_nonneg xs).
  destruct Hv as [(_ & E & _)|(t & Ed & Hbk & Hsz & Hi & Hb & Hz & Hs)]; [discriminate|].
  rewrite zlen_cons in Hz. assert (0 <= v_idx v) by nia.
  destruct ids as [|b ids]; [unfold zlen in Hi; cbn in Hi; lia|]. rewrite Ed.
  rewrite (bk_get P h t (v_slots v) 0 _ 0 _ (v_fl v) frees 0 b _ Hbk) by (reflexivity || lia). cbn [obind].
  eapply bk_read with (n := 0) (i := 0%nat); [exact Hbk|reflexivity|lia|lia|reflexivity].
Qed.

(** ** assign *)
Lemma vpops_ok k : forall h v xs ys ids frees,
  vinv h v (xs ++ ys) ids frees -> length ys = k -> (ys = [] -> True) ->
  exists h' v' ids' frees', vec_pops P h v k = Ok (h', v') /\ vinv h' v' xs ids' frees' /\ (phantom v' -> phantom v) /\
    upd (frees ++ ids) (vts v) h (frees' ++ ids') (vts v') h' /\ mono ids' ids.
Proof.
  induction k as [|k IH]; intros h v xs ys ids frees Hv Hl _; cbn [vec_pops].
  - destruct ys; [|discriminate]. rewrite app_nil_r in Hv. exists h, v, ids, frees. splits; try apply mono_refl; try apply mono_snoc; try assumption; try tauto.
    + apply upd_refl. eapply vinv_hok; eassumption.
  - destruct (split_last xs ys k) as (ys' & y & -> & Hl'); [unfold zlen; lia|]. rewrite app_assoc in Hv.
    destruct (vpop_ok h v (xs ++ ys') y ids frees Hv) as (h1 & v1 & ids1 & frees1 & -> & Hv1 & Hp1 & U1 & M1). cbn [obind].
    destruct (IH h1 v1 xs ys' ids1 frees1 Hv1) as (h2 & v2 & ids2 & frees2 & -> & Hv2 & Hp2 & U2 & M2); [unfold zlen in Hl'; lia|auto|].
    exists h2, v2, ids2, frees2. splits; try apply mono_refl; try apply mono_snoc; try assumption; [tauto|eapply upd_trans; eassumption|].
    eapply mono_trans; eassumption.
Qed.

Lemma vpushes_ok ys : forall h v xs ids frees,
  vinv h v xs ids frees ->
  exists h' v' ids' frees', vec_pushes P h v ys = Ok (h', v') /\ vinv h' v' (xs ++ ys) ids' frees' /\
    (phantom v' -> phantom v /\ ys = []) /\
    upd (frees ++ ids) (vts v) h (frees' ++ ids') (vts v') h' /\ mono ids ids'.
Proof.
  induction ys as [|y ys IH]; intros h v xs ids frees Hv; cbn [vec_pushes].
  - exists h, v, ids, frees. rewrite app_nil_r. splits; try apply mono_refl; try apply mono_snoc; try assumption; try tauto.
    + apply upd_refl. eapply vinv_hok; eassumption.
  - destruct (vpush_ok h v xs ids frees y Hv) as (h1 & v1 & ids1 & frees1 & -> & Hv1 & Hp1 & U1 & M1). cbn [obind].
    destruct (IH h1 v1 (xs ++ [y]) ids1 frees1 Hv1) as (h2 & v2 & ids2 & frees2 & -> & Hv2 & Hp2 & U2 & M2).
    rewrite <- app_assoc in Hv2. exists h2, v2, ids2, frees2. splits; try apply mono_refl; try apply mono_snoc; try assumption; [tauto|eapply upd_trans; eassumption|].
    eapply mono_trans; eassumption.
Qed.

Lemma vassign_ok ys : forall h v done rest ids frees,
  vinv h v (done ++ rest) ids frees ->
  exists h' v' ids' frees', vec_assign P h v (zlen done) ys = Ok (h', v') /\ vinv h' v' (done ++ ys) ids' frees' /\
    (phantom v' -> phantom v /\ ys = []) /\
    upd (frees ++ ids) (vts v) h (frees' ++ ids') (vts v') h' /\ (mono ids ids' \/ mono ids' ids).
Proof.
  induction ys as [|y ys IH]; intros h v done rest ids frees Hv; cbn [vec_assign].
  - rewrite app_nil_r. rewrite (vinv_size _ _ _ _ _ Hv), zlen_app.
    destruct (vpops_ok (Z.to_nat (zlen done + zlen rest - zlen done)) h v done rest ids frees Hv) as
      (h1 & v1 & ids1 & frees1 & -> & Hv1 & Hp & U1 & M1); [unfold zlen; lia|auto|].
    exists h1, v1, ids1, frees1. splits; try apply mono_refl; try apply mono_snoc; try assumption; tauto.
  - rewrite (vinv_size _ _ _ _ _ Hv), zlen_app. pose proof (zlen_nonneg rest).
    destruct (Z.ltb_spec (zlen done) (zlen done + zlen rest)) as [Hlt|Hge].
    + destruct rest as [|r rest]; [unfold zlen in Hlt; cbn in Hlt; lia|].
      destruct (vset_ok h v (done ++ r :: rest) ids frees (length done) y Hv) as (h1 & E1 & Hv1 & U1); [rewrite app_length; cbn; lia|].
      unfold zlen at 1. rewrite E1; cbn [obind].
      rewrite insert_app_r_alt in Hv1 by lia. rewrite Nat.sub_diag in Hv1. cbn in Hv1.
      replace (zlen done + 1) with (zlen (done ++ [y])) by (rewrite zlen_app; unfold zlen; cbn; lia).
      destruct (IH h1 v (done ++ [y]) rest ids frees) as (h2 & v2 & ids2 & frees2 & -> & Hv2 & Hp & U2 & M2).
      { rewrite <- app_assoc. exact Hv1. }
      rewrite <- app_assoc in Hv2. exists h2, v2, ids2, frees2. splits; try apply mono_refl; try apply mono_snoc; try assumption; [|eapply upd_trans; eassumption].
      intros Hph. destruct (Hp Hph) as [Hph' ->]. exfalso.
      destruct Hv as [(-> & _)|(t & Ed & Hbk & Hsz & Hi & Hb & Hz & Hs)]; [destruct Hph' as [A _]; apply A; reflexivity|].
      destruct Hph' as [_ Hneg]. rewrite zlen_app, zlen_cons in Hz. pose proof (zlen_nonneg done). pose proof (zlen_nonneg rest).
      pose proof (B_pos P HP). nia.
    + assert (rest = []) as -> by (apply zlen_0; lia). rewrite app_nil_r in Hv.
      destruct (vpushes_ok (y :: ys) h v done ids frees Hv) as (h1 & v1 & ids1 & frees1 & E & Hv1 & Hp & U1 & M1).
      rewrite E. exists h1, v1, ids1, frees1. splits; try apply mono_refl; try apply mono_snoc; try assumption; tauto.
Qed.

(** ** clear and destruction *)
Lemma take_split (xs : list V) k : 0 <= k <= zlen xs -> exists ys zs, xs = ys ++ zs /\ zlen ys = k /\ zlen zs = zlen xs - k.
Proof.
  intros Hk. exists (take (Z.to_nat k) xs), (drop (Z.to_nat k) xs). rewrite take_drop. unfold zlen in *.
  rewrite take_length, drop_length. splits; lia.
Qed.

Lemma vclear_mid_ok k : forall h v t ids b0 xs frees,
  v_data v = Some t -> blocks P h t (v_slots v) 0 (b0 :: ids) 0 xs (v_fl v) frees -> length ids = k -> zlen xs = B * (Z.of_nat k + 1) ->
  exists h' f' xs' frees', vec_clear_mid P h v k = Ok (h', f') /\ blocks P h' t (v_slots v) 0 [b0] 0 xs' f' frees' /\
    zlen xs' = B /\ upd (frees ++ b0 :: ids) (rts (v_fl v) t) h (frees' ++ [b0]) (rts f' t) h'.
Proof.
  induction k as [|k IH]; intros h v t ids b0 xs frees Ed Hbk Hl Hz; cbn [vec_clear_mid]; pose proof (B_pos P HP).
  - destruct ids; [|discriminate]. exists h, (v_fl v), xs, frees. splits; try apply mono_refl; try apply mono_snoc; try assumption; try lia.
    apply upd_refl. apply Hbk.
  - destruct (ids_last ids) as (ids' & b & ->); [unfold zlen; lia|]. rewrite app_length in Hl; cbn in Hl.
    destruct (take_split xs (B * (Z.of_nat k + 1))) as (ys & zs & -> & Hys & Hzs); [nia|].
    assert (Hlk : (b0 :: ids' ++ [b]) !! S k = Some b).
    { cbn. apply list_lookup_middle. lia. }
    rewrite Ed.
    destruct (bk_kill_down P HP h t (v_slots v) 0 (b0 :: ids' ++ [b]) 0 ys zs (v_fl v) frees (S k) b 0 (Z.to_nat B) Hbk Hlk) as (h1 & E1 & Hbk1 & U1); try nia.
    rewrite Z.add_0_l in E1. rewrite E1; cbn [obind].
    rewrite (bk_get P h1 t (v_slots v) 0 _ 0 _ (v_fl v) frees (S k) b _ Hbk1 Hlk) by lia. cbn [obind].
    change (b0 :: ids' ++ [b]) with ((b0 :: ids') ++ [b]) in *.
    destruct (bk_drop_back P HP h1 t (v_slots v) 0 (b0 :: ids') 0 ys (v_fl v) frees b Hbk1) as (h2 & f2 & -> & Hbk2 & U2); [rewrite zlen_cons; unfold zlen in *; nia|].
    cbn [obind].
    destruct (IH h2 (Vec (v_size v) (Some t) (v_slots v) (v_idx v) (v_bsize v) f2) t ids' b0 ys (frees ++ [b])) as
      (h' & f' & xs' & frees' & E & Hbk' & Hz' & U'); try assumption; try reflexivity; try lia.
    rewrite E. exists h', f', xs', frees'. splits; try apply mono_refl; try apply mono_snoc; try assumption.
    eapply upd_trans; [exact U1|]. eapply upd_trans; [exact U2|exact U'].
Qed.

Lemma vclear_ok h v xs ids frees :
  vinv h v xs ids frees -> ~ phantom v ->
  exists h' v' ids' frees', vec_clear P h v = Ok (h', v') /\ vinv h' v' [] ids' frees' /\ ~ phantom v' /\
    upd (frees ++ ids) (vts v) h (frees' ++ ids') (vts v') h'.
Proof.
  intros Hv Hph. pose proof (B_pos P HP). unfold vec_clear.
  destruct Hv as [(-> & -> & -> & -> & Hok)|(t & Ed & Hbk & Hsz & Hi & Hb & Hz & Hs)].
  - cbn. exists h, (vec_default P), [], []. splits; try apply mono_refl; try apply mono_snoc; try assumption.
    + left. auto.
    + apply upd_refl. exact Hok.
  - assert (Hidx : 0 <= v_idx v).
    { destruct (Z.lt_ge_cases (v_idx v) 0); [|assumption]. exfalso. apply Hph. split; [congruence|assumption]. }
    destruct (Z.leb_spec (v_slots v) 0); [lia|]. rewrite Ed.
    destruct (ids_last ids) as (ids' & b & ->); [lia|].
    assert (Hli : v_idx v = Z.of_nat (length ids')) by (rewrite Hi, zlen_app; unfold zlen; cbn; lia).
    assert (Hlk : (ids' ++ [b]) !! length ids' = Some b) by (apply list_lookup_middle; reflexivity).
    destruct (take_split xs (v_idx v * B)) as (ys & zs & -> & Hys & Hzs); [nia|].
    destruct (bk_kill_down P HP h t (v_slots v) 0 (ids' ++ [b]) 0 ys zs (v_fl v) frees (length ids') b 0 (Z.to_nat (v_bsize v)) Hbk Hlk) as (h1 & E1 & Hbk1 & U1); try nia.
    rewrite Z.add_0_l, <- Hli in E1. rewrite E1; cbn [obind].
    destruct (Z.ltb_spec 0 (v_idx v)) as [Hpos|Hzero].
    + rewrite (bk_get P h1 t (v_slots v) 0 _ 0 _ (v_fl v) frees (length ids') b _ Hbk1 Hlk) by lia. cbn [obind].
      destruct (bk_drop_back P HP h1 t (v_slots v) 0 ids' 0 ys (v_fl v) frees b Hbk1) as (h2 & f2 & -> & Hbk2 & U2); [unfold zlen in *; nia|].
      cbn [obind]. destruct ids' as [|b0 ids']; [cbn in Hli; lia|].
      destruct (vclear_mid_ok (Z.to_nat (v_idx v - 1)) h2 (Vec (v_size v) (Some t) (v_slots v) (v_idx v) (v_bsize v) f2) t ids' b0 ys (frees ++ [b])) as
        (h3 & f3 & xs3 & frees3 & E3 & Hbk3 & Hz3 & U3); try assumption; try reflexivity.
      { cbn in Hli. lia. } { rewrite Z2Nat.id by lia. rewrite Hys. lia. }
      rewrite E3. cbn [obind]. cbn [v_slots v_fl] in *.
      destruct (bk_kill_down P HP h3 t (v_slots v) 0 [b0] 0 [] xs3 f3 frees3 0 b0 0 (Z.to_nat B) Hbk3 eq_refl) as (h4 & E4 & Hbk4 & U4);
        try (unfold zlen in *; cbn; lia).
      rewrite Z.add_0_l in E4. change (Z.of_nat 0) with 0 in E4. rewrite E4. cbn [obind].
      eexists h4, _, [b0], frees3. split; [reflexivity|]. splits; try apply mono_refl; try apply mono_snoc.
      * right. exists t. unfold vlive; cbn. unfold zlen; cbn. splits; try apply mono_refl; try apply mono_snoc; try assumption; lia.
      * intros [_ Hp]. cbn in Hp. lia.
      * unfold vts; cbn. rewrite Ed. eapply upd_trans; [exact U1|]. eapply upd_trans; [exact U2|]. eapply upd_trans; [exact U3|exact U4].
    + assert (ys = []) as -> by (apply zlen_0; nia). cbn [app] in *.
      eexists h1, _, (ids' ++ [b]), frees. split; [reflexivity|]. splits; try apply mono_refl; try apply mono_snoc.
      * right. exists t. unfold vlive; cbn. splits; try apply mono_refl; try apply mono_snoc; try assumption; try (unfold zlen in *; cbn; lia).
      * intros [_ Hp]. cbn in Hp. lia.
      * unfold vts; cbn. rewrite Ed. exact U1.
Qed.

Lemma vfree_mid_ok k : forall h v t ids xs frees,
  v_data v = Some t -> blocks P h t (v_slots v) 0 ids 0 xs (v_fl v) frees -> length ids = k -> zlen xs = B * Z.of_nat k ->
  exists h', vec_free_mid P h v k = Ok h' /\ blocks P h' t (v_slots v) 0 [] 0 [] (v_fl v) frees /\
    upd (frees ++ ids) (rts (v_fl v) t) h (frees ++ []) (rts (v_fl v) t) h'.
Proof.
  induction k as [|k IH]; intros h v t ids xs frees Ed Hbk Hl Hz; cbn [vec_free_mid]; pose proof (B_pos P HP).
  - destruct ids; [|discriminate]. assert (xs = []) as -> by (apply zlen_0; lia). exists h. splits; try apply mono_refl; try apply mono_snoc; try assumption.
    apply upd_refl. apply Hbk.
  - destruct (ids_last ids) as (ids' & b & ->); [unfold zlen; lia|]. rewrite app_length in Hl; cbn in Hl.
    destruct (take_split xs (B * Z.of_nat k)) as (ys & zs & -> & Hys & Hzs); [nia|].
    assert (Hlk : (ids' ++ [b]) !! k = Some b) by (apply list_lookup_middle; lia).
    rewrite Ed.
    destruct (bk_kill_down P HP h t (v_slots v) 0 (ids' ++ [b]) 0 ys zs (v_fl v) frees k b 0 (Z.to_nat B) Hbk Hlk) as (h1 & E1 & Hbk1 & U1); try nia.
    rewrite Z.add_0_l in E1. rewrite E1; cbn [obind].
    rewrite (bk_get P h1 t (v_slots v) 0 _ 0 _ (v_fl v) frees k b _ Hbk1 Hlk) by lia. cbn [obind].
    destruct (bk_free_back P HP h1 t (v_slots v) 0 ids' 0 ys (v_fl v) frees b Hbk1) as (h2 & -> & Hbk2 & U2); [unfold zlen in *; nia|].
    cbn [obind].
    destruct (IH h2 v t ids' ys frees) as (h' & E & Hbk' & U'); try assumption; try lia.
    rewrite E. exists h'. splits; try apply mono_refl; try apply mono_snoc; try assumption.
    eapply upd_trans; [exact U1|]. eapply upd_trans; [exact U2|exact U'].
Qed.

Lemma vfree_ok h v xs ids frees :
  vinv h v xs ids frees -> ~ phantom v ->
  exists h', vec_free_all P h v = Ok h' /\ upd (frees ++ ids) (vts v) h [] [] h'.
Proof.
  intros Hv Hph. pose proof (B_pos P HP). unfold vec_free_all.
  destruct Hv as [(-> & -> & -> & -> & Hok)|(t & Ed & Hbk & Hsz & Hi & Hb & Hz & Hs)].
  - cbn. exists h. splits. apply upd_refl. exact Hok.
  - assert (Hidx : 0 <= v_idx v).
    { destruct (Z.lt_ge_cases (v_idx v) 0); [|assumption]. exfalso. apply Hph. split; [congruence|assumption]. }
    rewrite Ed. destruct (ids_last ids) as (ids' & b & ->); [lia|].
    assert (Hli : v_idx v = Z.of_nat (length ids')) by (rewrite Hi, zlen_app; unfold zlen; cbn; lia).
    assert (Hlk : (ids' ++ [b]) !! length ids' = Some b) by (apply list_lookup_middle; reflexivity).
    destruct (take_split xs (v_idx v * B)) as (ys & zs & -> & Hys & Hzs); [nia|].
    destruct (bk_kill_down P HP h t (v_slots v) 0 (ids' ++ [b]) 0 ys zs (v_fl v) frees (length ids') b 0 (Z.to_nat (v_bsize v)) Hbk Hlk) as (h1 & E1 & Hbk1 & U1); try nia.
    rewrite Z.add_0_l, <- Hli in E1. rewrite E1; cbn [obind].
    assert (exists h4, (h2 <-! (if 0 <? v_idx v then c <-! tget h1 (Some t) (v_idx v);; bfree h1 c else Ok h1);;
              h3 <-! vec_free_mid P h2 v (Z.to_nat (v_idx v));;
              (if v_idx v =? 0 then c <-! tget h3 (Some t) 0;; bfree h3 c else Ok h3)) = Ok h4 /\
              blocks P h4 t (v_slots v) 0 [] 0 [] (v_fl v) frees /\
              upd (frees ++ ids' ++ [b]) (rts (v_fl v) t) h1 (frees ++ []) (rts (v_fl v) t) h4) as (h4 & E4 & Hbk4 & U4).
    { destruct (Z.ltb_spec 0 (v_idx v)) as [Hpos|Hzero].
      - rewrite (bk_get P h1 t (v_slots v) 0 _ 0 _ (v_fl v) frees (length ids') b _ Hbk1 Hlk) by lia. cbn [obind].
        destruct (bk_free_back P HP h1 t (v_slots v) 0 ids' 0 ys (v_fl v) frees b Hbk1) as (h2 & -> & Hbk2 & U2); [unfold zlen in *; nia|].
        cbn [obind].
        destruct (vfree_mid_ok (Z.to_nat (v_idx v)) h2 v t ids' ys frees) as (h3 & -> & Hbk3 & U3); try assumption; try lia.
        cbn [obind]. destruct (Z.eqb_spec (v_idx v) 0); [lia|]. exists h3. splits; try apply mono_refl; try apply mono_snoc; try assumption.
        eapply upd_trans; eassumption.
      - assert (Hz0 : v_idx v = 0) by lia. rewrite Hz0 in *. change (Z.to_nat 0) with O. cbn [obind Z.eqb vec_free_mid].
        assert (ys = []) as -> by (apply zlen_0; lia). destruct ids'; [|cbn in Hli; lia]. cbn [app] in *.
        rewrite (bk_get P h1 t (v_slots v) 0 [b] 0 [] (v_fl v) frees 0 b _ Hbk1) by (reflexivity || lia). cbn [obind].
        destruct (bk_free_back P HP h1 t (v_slots v) 0 [] 0 [] (v_fl v) frees b Hbk1) as (h2 & -> & Hbk2 & U2); [unfold zlen; cbn; lia|].
        exists h2. splits; assumption. }
    destruct (bk_release P HP h4 t (v_slots v) 0 0 (v_fl v) frees Hbk4) as (h5 & h6 & h7 & E5 & E6 & E7 & U7).
    exists h7. split.
    + apply obind_ok in E4 as (h2 & E2 & E4). rewrite E2. cbn [obind].
      apply obind_ok in E4 as (h3 & E3 & E4). rewrite E3. cbn [obind]. rewrite E4. cbn [obind]. rewrite E5. cbn [obind]. rewrite E6. exact E7.
    + rewrite (vts_live _ _ Ed). eapply upd_trans; [exact U1|]. eapply upd_trans; [exact U4|exact U7].
Qed.

End vec.
