(** StableBlockDeque refines a list. *)
From stdpp Require Import gmap.
From Verif Require Import Base BlkHeap BlkProofs BlkMore BlkRun BlkIter BlkIterProofs VecModel VecSpec VecProofs DeqModel DeqSpec.

Section deq.
Context {V : Type}.
Variable P : params.
Hypothesis HP : 0 <= expo P.
Notation B := (bsz P).
Implicit Types (h : bheap V) (d : deq) (ids frees : list nat) (xs : list V).

Definition dts d : list nat := otl (f_tab (d_fl d)) ++ otl (d_data d).

Definition dlive h d t xs ids frees : Prop :=
  d_data d = Some t /\ blocks P h t (d_slots d) (d_front d) ids (d_fsize d + 1) xs (d_fl d) frees /\ d_size d = zlen xs /\
  d_back d = d_front d + zlen ids - 1 /\ 1 <= zlen ids /\ -1 <= d_fsize d < B /\ 0 <= d_bsize d <= B /\
  zlen xs = (zlen ids - 1) * B + d_bsize d - (d_fsize d + 1) /\ 64 <= d_slots d.

Definition dinv h d xs ids frees : Prop :=
  (d = deq_default P /\ xs = [] /\ ids = [] /\ frees = [] /\ hok [] [] h) \/ (exists t, dlive h d t xs ids frees).

Lemma dts_live d t : d_data d = Some t -> dts d = rts (d_fl d) t.
Proof. intros E. unfold dts, rts. rewrite E. reflexivity. Qed.
Lemma dinv_hok h d xs ids frees : dinv h d xs ids frees -> hok (frees ++ ids) (dts d) h.
Proof.
  intros [(-> & -> & -> & -> & H)|(t & E & Hb & _)]; [exact H|]. rewrite (dts_live _ _ E). apply Hb.
Qed.
Lemma dinv_size h d xs ids frees : dinv h d xs ids frees -> d_size d = zlen xs.
Proof. intros [(-> & -> & _)|(t & _ & _ & H & _)]; [reflexivity|exact H]. Qed.

Lemma dlive_row h d t xs ids frees : dlive h d t xs ids frees -> 0 <= d_front d /\ d_front d + zlen ids <= d_slots d.
Proof. intros (_ & Hbk & _). exact (row_lo_nonneg _ _ _ _ _ (bk_row _ _ _ _ _ _ _ _ _ _ Hbk)). Qed.

(** ** The library copy inside the table *)
Lemma bk_shift h t slots lo ids off xs f frees k n :
  blocks P h t slots lo ids off xs f frees -> n = zlen ids -> 0 <= k -> k + zlen ids <= slots ->
  (overlap_ok P = true \/ k < lo \/ lo + zlen ids <= k) ->
  exists h', tshift P h (Some t) lo n k = Ok h' /\ blocks P h' t slots k ids off xs f frees /\
    upd (frees ++ ids) (rts f t) h (frees ++ ids) (rts f t) h'.
Proof.
  intros Hbk -> Hk Hks Hov. destruct (bk_row _ _ _ _ _ _ _ _ _ _ Hbk) as (cs & Hcs & Hl & Hlo & Hb & Hr). pose proof (zlen_nonneg ids).
  unfold tshift. rewrite Hcs.
  assert (Hc : (0 <=? lo) && (0 <=? zlen ids) && (lo + zlen ids <=? zlen cs) && (0 <=? k) && (k + zlen ids <=? zlen cs) &&
     (overlap_ok P || (k <? lo) || (lo + zlen ids <=? k)) = true).
  { destruct Hov as [Hov|Hov]; [rewrite Hov|destruct (overlap_ok P)]; lia. }
  rewrite Hc. eexists. split; [reflexivity|].
  set (cs' := take (Z.to_nat k) cs ++ take (Z.to_nat (zlen ids)) (drop (Z.to_nat lo) cs) ++ drop (Z.to_nat (k + zlen ids)) cs).
  assert (Hll : zlen cs' = slots).
  { unfold cs', zlen in *. rewrite !app_length, !take_length, !drop_length. lia. }
  assert (U : upd (frees ++ ids) (rts f t) h (frees ++ ids) (rts f t) (BHeap (el h) (bl h) (<[t := cs']> (tb h)) (nx h))).
  { apply upd_tb; [apply Hbk|]. unfold rts. set_solver. }
  split; [|exact U]. destruct Hbk as [H1 H2 H3 H4 H5 H6]. constructor; try assumption.
  - exists cs'. cbn. rewrite lookup_insert. splits; try assumption.
    intros i b Hi. pose proof (lookup_lt_Some _ _ _ Hi). unfold cs', zlen in *.
    rewrite lookup_app_r by (rewrite take_length; lia). rewrite take_length.
    rewrite lookup_app_l by (rewrite take_length, drop_length; lia).
    rewrite lookup_take by lia. rewrite lookup_drop. rewrite <- (Hr _ _ Hi). f_equal. lia.
  - eapply area_frame; [exact H2|]. intros. apply sameb_same; reflexivity.
  - eapply finv_frame; [exact H3|intros; apply sameb_same; reflexivity|]. intros t' Et. cbn. rewrite lookup_insert_ne; [reflexivity|].
    assert (t' <> t) by (eapply tab_sep; eassumption). congruence.
  - eapply upd_hok; eassumption.
Qed.

(** The first block *)
Lemma dfirst_ok h :
  hok [] [] h ->
  exists h' d' t b, deq_first_block P h (deq_default P) = Ok (h', d') /\ dlive h' d' t [] [b] [] /\
    d_fsize d' = B / 2 - 1 /\ d_bsize d' = B / 2 /\ upd [] [] h [b] (dts d') h'.
Proof.
  intros Hok. pose proof (B_pos P HP) as HB. unfold deq_first_block. destruct (talloc h 64) as [h1 u] eqn:Ea.
  destruct (bk_fresh P h 64 30 h1 u Hok) as (t & -> & Hbk & U); [lia|assumption|].
  destruct (bk_add_back P HP h1 t 64 30 [] 0 [] flist0 [] 30 Hbk) as (h2 & f' & b & h3 & frees' & E1 & E2 & Hbk3 & Et & U3); try (unfold zlen; cbn; lia).
  cbn [deq_default d_fl]. rewrite E1. cbn [obind]. rewrite E2. cbn [obind d_size].
  assert (f' = flist0 /\ frees' = []) as [-> ->].
  { unfold fl_get in E1; cbn [flist0 f_idx Z.eqb] in E1. destruct (balloc h1) as [h1' c]. injection E1 as _ <- _. split; [reflexivity|].
    pose proof (bk_free _ _ _ _ _ _ _ _ _ _ Hbk3) as F. unfold finv in F. destruct F as (F & _). cbn in F. apply zlen_0. unfold zlen in *; lia. }
  cbn [app] in *. pose proof (Z.div_mod B 2 ltac:(lia)). pose proof (Z.mod_pos_bound B 2 ltac:(lia)).
  eexists h3, _, t, b. split; [reflexivity|]. splits; cbn; try lia.
  - unfold dlive; cbn. splits; try (unfold zlen; cbn; lia). eapply bk_nil_off. exact Hbk3.
  - unfold dts; cbn. eapply upd_trans; [exact U|]. exact U3.
Qed.

(** ** push_back *)
Lemma dcheck_ok h d xs ids frees :
  dinv h d xs ids frees ->
  exists h1 d1 t ids1 frees1, deq_check P h d = Ok (h1, d1) /\ dlive h1 d1 t xs ids1 frees1 /\ d_bsize d1 < B /\
    upd (frees ++ ids) (dts d) h (frees1 ++ ids1) (dts d1) h1 /\ mono ids ids1 /\ (ids <> [] -> d_fsize d1 = d_fsize d).
Proof.
  intros Hd. pose proof (B_pos P HP) as HB. unfold deq_check.
  destruct Hd as [(-> & -> & -> & -> & Hok)|(t & Hl)].
  - cbn [deq_default d_bsize d_slots]. rewrite Z.leb_refl. cbn [Z.eqb].
    destruct (dfirst_ok h Hok) as (h' & d' & t & b & E & Hl & Hf & Hb & U). exists h', d', t, [b], [].
    splits; try assumption; [|exists [b]; reflexivity|congruence]. rewrite Hb. apply Z.div_lt; lia.
  - pose proof (dlive_row _ _ _ _ _ _ Hl) as [Hlo Hhi].
    destruct (Z.leb_spec B (d_bsize d)) as [Hfull|Hroom].
    2:{ exists h, d, t, ids, frees. splits; try assumption; try apply mono_refl. apply upd_refl. eapply dinv_hok. right; eauto. }
    destruct Hl as (Ed & Hbk & Hsz & Hi & Hn & Hfs & Hbs & Hz & Hs). destruct (Z.eqb_spec (d_slots d) 0); [lia|].
    match goal with |- context[obind ?e _] => assert (exists h1 d1 t1, e = Ok (h1, d1) /\ dlive h1 d1 t1 xs ids frees /\ d_bsize d1 = B /\
      d_back d1 + 1 < d_slots d1 /\ upd (frees ++ ids) (dts d) h (frees ++ ids) (dts d1) h1 /\ d_fsize d1 = d_fsize d) as (h1 & d1 & t1 & -> & Hl & Hbs1 & Hr & U & Efs) end.
    { destruct (Z.leb_spec (d_slots d - 1) (d_back d)) as [Hend|Hin].
      - destruct (Z.ltb_spec 5 (d_front d)) as [Hfr|Hfr].
        + assert (Hdiv : 0 <= d_front d / 2 < d_front d) by (split; [apply Z.div_pos; lia|apply Z.div_lt; lia]).
          rewrite Ed. destruct (bk_shift h t (d_slots d) (d_front d) ids (d_fsize d + 1) xs (d_fl d) frees (d_front d / 2) (d_back d + 1 - d_front d) Hbk) as
            (h1 & -> & Hbk1 & U1); try lia.
          cbn [obind]. eexists h1, _, t. split; [reflexivity|]. splits; cbn; try lia.
          * unfold dlive; cbn. splits; try assumption; lia.
          * unfold dts; cbn. rewrite Ed. exact U1.
        + rewrite Ed.
          destruct (bk_grow P HP h t (d_slots d) (d_front d) ids (d_fsize d + 1) xs (d_fl d) frees (d_slots d * 2) 0 (d_slots d) 0 Hbk) as
            (h1 & u & h2 & h3 & -> & -> & E3 & Hbk' & U'); try lia.
          cbn [obind]. rewrite E3. cbn [obind]. eexists h3, _, u. split; [reflexivity|]. splits; cbn; try lia.
          * unfold dlive; cbn. replace (d_front d - 0 + 0) with (d_front d) in Hbk' by lia. splits; try assumption; lia.
          * unfold dts; cbn. rewrite Ed. exact U'.
      - exists h, d, t. splits; try lia.
        + unfold dlive. splits; try assumption; lia.
        + apply upd_refl. rewrite (dts_live _ _ Ed). apply Hbk. }
    clear Ed Hbk Hsz Hi Hn Hfs Hbs Hz Hs.
    cbn [obind]. destruct Hl as (Ed & Hbk & Hsz & Hi & Hn & Hfs & Hbs & Hz & Hs).
    destruct (bk_add_back P HP h1 t1 (d_slots d1) (d_front d1) ids (d_fsize d1 + 1) xs (d_fl d1) frees (d_back d1 + 1) Hbk) as
      (h2 & f' & b & h3 & frees' & -> & E3 & Hbk3 & Et & U3); try lia.
    cbn [obind]. rewrite Ed. rewrite E3. cbn [obind].
    eexists h3, _, t1, (ids ++ [b]), frees'. split; [reflexivity|]. splits; cbn; try apply mono_snoc; try assumption; try lia.
    + unfold dlive; cbn. rewrite zlen_app. change (zlen [b]) with 1. splits; try assumption; lia.
    + eapply upd_trans; [exact U|]. rewrite (dts_live _ _ Ed). exact U3.
Qed.

Lemma dpush_ok h d xs ids frees x :
  dinv h d xs ids frees ->
  exists h' d' ids' frees', deq_push P h d x = Ok (h', d') /\ dinv h' d' (xs ++ [x]) ids' frees' /\
    upd (frees ++ ids) (dts d) h (frees' ++ ids') (dts d') h' /\ mono ids ids' /\ (ids <> [] -> d_fsize d' = d_fsize d).
Proof.
  intros Hd. pose proof (B_pos P HP) as HB.
  destruct (dcheck_ok h d xs ids frees Hd) as (h1 & d1 & t & ids1 & frees1 & E & (Ed & Hbk & Hsz & Hi & Hn & Hfs & Hbs & Hz & Hs) & Hlt & U & Hm & Hf).
  unfold deq_push. rewrite E; cbn [obind]. rewrite Ed.
  destruct (ids_last ids1) as (ids' & b & Eids); [lia|].
  assert (Hlk : ids1 !! length ids' = Some b) by (rewrite Eids; apply list_lookup_middle; reflexivity).
  assert (Hli : zlen ids1 - 1 = Z.of_nat (length ids')) by (rewrite Eids, zlen_app; unfold zlen; cbn; lia).
  rewrite (bk_get P h1 t _ _ ids1 _ xs _ frees1 (length ids') b _ Hbk Hlk) by lia. cbn [obind].
  destruct (bk_push P HP h1 t _ _ ids1 _ xs _ frees1 (length ids') b (d_bsize d1) x Hbk Hlk) as (h2 & -> & Hbk2 & U2); [lia|lia|].
  cbn [obind]. eexists h2, _, ids1, frees1. split; [reflexivity|]. splits; try assumption.
  - right. exists t. unfold dlive; cbn. rewrite zlen_app. change (zlen [x]) with 1. splits; try assumption; lia.
  - eapply upd_trans; [exact U|]. unfold dts; cbn. unfold dts. rewrite Ed. exact U2.
Qed.

(** ** push_front *)
(** The two defects: block size 1 on a deque without table, and (if overlapping copies are not allowed) shifting a
    table that is more than about a third full. *)
Definition front_guard d : Prop :=
  (d_slots d = 0 -> 1 <= expo P) /\
  (overlap_ok P = true \/
   ~ (d_fsize d < 0 /\ d_front d = 0 /\ d_back d < d_slots d - 5 /\ (d_slots d - d_back d) / 2 <= d_back d)).

(** How the blocks of the row and the offset of the first element change *)
Definition grown ids (off : Z) ids' (off' : Z) : Prop := (ids' = ids /\ off' = off) \/ (exists b, ids' = b :: ids /\ off' = off + B).

Lemma dcheck_front_ok h d xs ids frees :
  dinv h d xs ids frees -> front_guard d ->
  exists h1 d1 t ids1 frees1, deq_check_front P h d = Ok (h1, d1) /\ dlive h1 d1 t xs ids1 frees1 /\ 0 <= d_fsize d1 /\
    upd (frees ++ ids) (dts d) h (frees1 ++ ids1) (dts d1) h1 /\
    (ids <> [] -> grown ids (d_fsize d + 1) ids1 (d_fsize d1 + 1)).
Proof.
  intros Hd (Hg1 & Hg2). pose proof (B_pos P HP) as HB. unfold deq_check_front.
  destruct Hd as [(-> & -> & -> & -> & Hok)|(t & Hl)].
  - cbn [deq_default d_fsize d_slots Z.eqb] in *. change (-1 <? 0) with true. cbn iota.
    destruct (dfirst_ok h Hok) as (h' & d' & t & b & E & Hl & Hf & Hb & U). exists h', d', t, [b], [].
    splits; try assumption; [|congruence]. rewrite Hf.
    assert (2 <= B) by (unfold bsz; rewrite Z.shiftl_mul_pow2 by assumption; pose proof (Z.pow_le_mono_r 2 1 (expo P) ltac:(lia) (Hg1 eq_refl)); lia).
    pose proof (Z.div_le_mono 2 B 2 ltac:(lia) ltac:(lia)). change (2 / 2) with 1 in *. lia.
  - pose proof (dlive_row _ _ _ _ _ _ Hl) as [Hlo Hhi].
    destruct (Z.ltb_spec (d_fsize d) 0) as [Hfull|Hroom].
    2:{ exists h, d, t, ids, frees. splits; try assumption; [apply upd_refl; eapply dinv_hok; right; eauto|left; auto]. }
    destruct Hl as (Ed & Hbk & Hsz & Hi & Hn & Hfs & Hbs & Hz & Hs). destruct (Z.eqb_spec (d_slots d) 0); [lia|].
    match goal with |- context[obind ?e _] => assert (exists h1 d1 t1, e = Ok (h1, d1) /\ dlive h1 d1 t1 xs ids frees /\
      0 < d_front d1 /\ upd (frees ++ ids) (dts d) h (frees ++ ids) (dts d1) h1 /\ d_fsize d1 = d_fsize d) as (h1 & d1 & t1 & -> & Hl & Hr & U & Efs) end.
    { destruct (Z.eqb_spec (d_front d) 0) as [Hz0|Hnz].
      - destruct (Z.ltb_spec (d_back d) (d_slots d - 5)) as [Hfr|Hfr].
        + assert (Hdiv : 1 <= (d_slots d - d_back d) / 2 /\ (d_slots d - d_back d) / 2 * 2 <= d_slots d - d_back d).
          { pose proof (Z.div_mod (d_slots d - d_back d) 2 ltac:(lia)). pose proof (Z.mod_pos_bound (d_slots d - d_back d) 2 ltac:(lia)). lia. }
          set (k := (d_slots d - d_back d) / 2) in *.
          rewrite Ed. rewrite Hz0 in Hbk.
          destruct (bk_shift h t (d_slots d) 0 ids (d_fsize d + 1) xs (d_fl d) frees k (d_back d + 1) Hbk) as (h1 & -> & Hbk1 & U1); try lia.
          cbn [obind]. eexists h1, _, t. split; [reflexivity|]. splits; cbn; try lia.
          * unfold dlive; cbn. splits; try assumption; lia.
          * unfold dts; cbn. rewrite Ed. exact U1.
        + rewrite Ed.
          destruct (bk_grow P HP h t (d_slots d) (d_front d) ids (d_fsize d + 1) xs (d_fl d) frees (d_slots d * 2) 0 (d_back d + 1) (d_slots d) Hbk) as
            (h1 & u & h2 & h3 & -> & -> & E3 & Hbk' & U'); try lia.
          cbn [obind]. rewrite E3. cbn [obind]. eexists h3, _, u. split; [reflexivity|]. splits; cbn; try lia.
          * unfold dlive; cbn. replace (d_front d - 0 + d_slots d) with (d_slots d) in Hbk' by lia. splits; try assumption; lia.
          * unfold dts; cbn. rewrite Ed. exact U'.
      - exists h, d, t. splits; try lia.
        + unfold dlive. splits; try assumption; lia.
        + apply upd_refl. rewrite (dts_live _ _ Ed). apply Hbk. }
    clear Ed Hbk Hsz Hi Hn Hfs Hbs Hz Hs.
    cbn [obind]. destruct Hl as (Ed & Hbk & Hsz & Hi & Hn & Hfs & Hbs & Hz & Hs).
    destruct (bk_add_front P HP h1 t1 (d_slots d1) (d_front d1) ids (d_fsize d1 + 1) xs (d_fl d1) frees Hbk) as
      (h2 & f' & b & h3 & frees' & -> & E3 & Hbk3 & Et & U3); try lia.
    cbn [obind]. rewrite Ed. rewrite E3. cbn [obind].
    eexists h3, _, t1, (b :: ids), frees'. split; [reflexivity|]. splits; cbn; try assumption; try lia.
    + unfold dlive; cbn. rewrite zlen_cons. replace (B - 1 + 1) with (d_fsize d1 + 1 + B) by lia. splits; try assumption; lia.
    + eapply upd_trans; [exact U|]. rewrite (dts_live _ _ Ed). exact U3.
    + intros _. right. exists b. split; [reflexivity|lia].
Qed.

Lemma dpush_front_ok h d xs ids frees x :
  dinv h d xs ids frees -> front_guard d ->
  exists h' d' ids' frees', deq_push_front P h d x = Ok (h', d') /\ dinv h' d' (x :: xs) ids' frees' /\
    upd (frees ++ ids) (dts d) h (frees' ++ ids') (dts d') h' /\ (ids <> [] -> grown ids (d_fsize d + 1) ids' (d_fsize d' + 1 + 1)).
Proof.
  intros Hd Hg. pose proof (B_pos P HP) as HB.
  destruct (dcheck_front_ok h d xs ids frees Hd Hg) as (h1 & d1 & t & ids1 & frees1 & E & (Ed & Hbk & Hsz & Hi & Hn & Hfs & Hbs & Hz & Hs) & Hlt & U & Hm).
  unfold deq_push_front. rewrite E; cbn [obind]. rewrite Ed.
  destruct ids1 as [|b ids']; [unfold zlen in Hn; cbn in Hn; lia|].
  rewrite (bk_get P h1 t _ _ _ _ xs _ frees1 0 b _ Hbk) by (reflexivity || lia). cbn [obind].
  destruct (bk_push_front P HP h1 t _ _ _ _ xs _ frees1 0 b (d_fsize d1) x Hbk eq_refl) as (h2 & -> & Hbk2 & U2); [lia|lia|].
  cbn [obind]. eexists h2, _, (b :: ids'), frees1. split; [reflexivity|]. splits; cbn [d_fsize].
  - right. exists t. unfold dlive; cbn. replace (d_fsize d1 - 1 + 1) with (d_fsize d1 + 1 - 1) by lia.
    rewrite !zlen_cons. rewrite zlen_cons in Hi, Hn, Hz. splits; try assumption; lia.
  - eapply upd_trans; [exact U|]. unfold dts; cbn. unfold dts. rewrite Ed. exact U2.
  - intros Hne. replace (d_fsize d1 - 1 + 1 + 1) with (d_fsize d1 + 1) by lia. auto.
Qed.

(** ** pop_back *)
Lemma dpop_ok h d xs x ids frees :
  dinv h d (xs ++ [x]) ids frees ->
  exists h' d' ids' frees', deq_pop P h d = Ok (h', d') /\ dinv h' d' xs ids' frees' /\
    upd (frees ++ ids) (dts d) h (frees' ++ ids') (dts d') h' /\ mono ids' ids /\ d_fsize d' = d_fsize d.
Proof.
  intros [(_ & E & _)|(t & Ed & Hbk & Hsz & Hi & Hn & Hfs & Hb & Hz & Hs)]; [destruct xs; discriminate|]. pose proof (B_pos P HP) as HB.
  assert (Hl : zlen (xs ++ [x]) = zlen xs + 1) by (rewrite zlen_app; unfold zlen; cbn; lia). pose proof (zlen_nonneg xs).
  unfold deq_pop. destruct (Z.eqb_spec (d_size d) 0); [lia|].
  destruct (ids_last ids) as (ids' & b & Eids); [lia|].
  assert (Hli : zlen ids - 1 = Z.of_nat (length ids')) by (rewrite Eids, zlen_app; unfold zlen; cbn; lia).
  destruct (Z.ltb_spec 0 (d_bsize d)) as [Hpos|Hzero]; cbn [obind].
  - cbn [d_data d_back d_bsize]. rewrite Ed.
    assert (Hlk : ids !! length ids' = Some b) by (rewrite Eids; apply list_lookup_middle; reflexivity).
    rewrite (bk_get P h t _ _ ids _ _ _ frees (length ids') b _ Hbk Hlk) by lia. cbn [obind].
    destruct (bk_pop P HP h t _ _ ids _ xs x _ frees (length ids') b (d_bsize d - 1) Hbk Hlk) as (h2 & -> & Hbk2 & U2); [lia|lia|].
    cbn [obind]. eexists h2, _, ids, frees. split; [reflexivity|]. splits; try apply mono_refl.
    + right. exists t. unfold dlive; cbn. splits; try assumption; try lia.
    + unfold dts; cbn. rewrite Ed. exact U2.
  - rewrite Ed. subst ids.
    rewrite (bk_get P h t _ _ _ _ _ _ frees (length ids') b _ Hbk) by (try lia; apply list_lookup_middle; reflexivity).
    cbn [obind].
    destruct (bk_drop_back P HP h t _ _ ids' _ (xs ++ [x]) _ frees b Hbk) as (h1 & f1 & -> & Hbk1 & U1); [unfold zlen in *; nia|].
    cbn [obind d_data d_back d_bsize].
    assert (Hlt : 0 < zlen ids') by (unfold zlen; nia).
    destruct (ids_last ids') as (ids2 & b2 & Eids2); [lia|].
    assert (Hlk : ids' !! length ids2 = Some b2) by (rewrite Eids2; apply list_lookup_middle; reflexivity).
    assert (Hli2 : zlen ids' - 1 = Z.of_nat (length ids2)) by (rewrite Eids2, zlen_app; unfold zlen; cbn; lia).
    rewrite zlen_app in *. change (zlen [b]) with 1 in *.
    rewrite (bk_get P h1 t _ _ ids' _ _ _ _ (length ids2) b2 _ Hbk1 Hlk) by lia. cbn [obind].
    destruct (bk_pop P HP h1 t _ _ ids' _ xs x f1 (frees ++ [b]) (length ids2) b2 (B - 1) Hbk1 Hlk) as (h2 & -> & Hbk2 & U2); [lia|nia|].
    cbn [obind]. eexists h2, _, ids', (frees ++ [b]). split; [reflexivity|]. splits; try apply mono_snoc.
    + right. exists t. unfold dlive; cbn. splits; try assumption; try lia.
    + unfold dts; cbn. rewrite Ed. eapply upd_trans; [exact U1|exact U2].
Qed.

Lemma dpop_empty h d ids frees : dinv h d [] ids frees -> deq_pop P h d = Ok (h, d) /\ deq_pop_front P h d = Ok (h, d).
Proof. intros Hd. unfold deq_pop, deq_pop_front. rewrite (dinv_size _ _ _ _ _ Hd). auto. Qed.

(** ** pop_front *)
Lemma dpop_front_ok h d xs x ids frees :
  dinv h d (x :: xs) ids frees ->
  exists h' d' ids' frees', deq_pop_front P h d = Ok (h', d') /\ dinv h' d' xs ids' frees' /\
    upd (frees ++ ids) (dts d) h (frees' ++ ids') (dts d') h' /\ grown ids' (d_fsize d' + 1) ids (d_fsize d + 1 + 1).
Proof.
  intros [(_ & E & _)|(t & Ed & Hbk & Hsz & Hi & Hn & Hfs & Hb & Hz & Hs)]; [discriminate|]. pose proof (B_pos P HP) as HB.
  pose proof (zlen_nonneg xs). rewrite zlen_cons in Hsz, Hz.
  unfold deq_pop_front. destruct (Z.eqb_spec (d_size d) 0); [lia|].
  destruct ids as [|b ids]; [unfold zlen in Hn; cbn in Hn; lia|]. rewrite zlen_cons in Hi, Hn, Hz.
  destruct (Z.eqb_spec (d_fsize d) (B - 1)) as [Hlast|Hmore]; cbn [negb].
  - rewrite Ed. rewrite (bk_get P h t _ _ _ _ _ _ frees 0 b _ Hbk) by (reflexivity || lia). cbn [obind].
    destruct (bk_drop_front P HP h t _ _ ids _ (x :: xs) _ frees b Hbk) as (h1 & f1 & -> & Hbk1 & U1); [lia|].
    cbn [obind d_data d_front d_fsize].
    destruct ids as [|b2 ids]; [unfold zlen in Hz; cbn in Hz; lia|]. rewrite zlen_cons in Hi, Hn, Hz. pose proof (zlen_nonneg ids).
    rewrite (bk_get P h1 t _ _ _ _ _ _ _ 0 b2 _ Hbk1) by (reflexivity || lia). cbn [obind].
    destruct (bk_pop_front P HP h1 t _ _ (b2 :: ids) _ xs x f1 (frees ++ [b]) 0 b2 0 Hbk1 eq_refl) as (h2 & -> & Hbk2 & U2); [lia|lia|].
    cbn [obind]. eexists h2, _, (b2 :: ids), (frees ++ [b]). split; [reflexivity|]. splits; cbn [d_fsize].
    + right. exists t. unfold dlive; cbn. replace (d_fsize d + 1 - B + 1) with (0 + 1) in Hbk2 by lia. rewrite zlen_cons. splits; try assumption; try lia.
    + unfold dts; cbn. rewrite Ed. eapply upd_trans; [exact U1|exact U2].
    + right. exists b. split; [reflexivity|lia].
  - cbn [obind d_data d_front d_fsize]. rewrite Ed. rewrite (bk_get P h t _ _ _ _ _ _ frees 0 b _ Hbk) by (reflexivity || lia). cbn [obind].
    destruct (bk_pop_front P HP h t _ _ (b :: ids) _ xs x _ frees 0 b (d_fsize d + 1) Hbk eq_refl) as (h2 & -> & Hbk2 & U2); [lia|lia|].
    cbn [obind]. eexists h2, _, (b :: ids), frees. split; [reflexivity|]. splits; cbn [d_fsize].
    + right. exists t. unfold dlive; cbn. rewrite zlen_cons. splits; try assumption; try lia.
    + unfold dts; cbn. rewrite Ed. exact U2.
    + left. auto.
Qed.

(** ** Element access *)
Lemma dlen_ids h d t xs ids frees : dlive h d t xs ids frees -> 0 <= d_fsize d + 1 /\ d_fsize d + 1 + zlen xs <= B * zlen ids.
Proof. intros (Ed & Hbk & Hsz & Hi & Hn & Hfs & Hb & Hz & Hs). lia. Qed.

Lemma dat_ok h d xs ids frees n :
  dinv h d xs ids frees -> 0 <= n < zlen xs ->
  exists (i : nat) b, deq_at P h d n = Ok (Some b, (d_fsize d + 1 + n) mod B) /\ ids !! i = Some b /\ Z.of_nat i = (d_fsize d + 1 + n) / B /\
    0 <= (d_fsize d + 1 + n) mod B < B /\ Z.of_nat i * B + (d_fsize d + 1 + n) mod B = d_fsize d + 1 + n.
Proof.
  intros [(_ & -> & _)|(t & Hl)] Hn; [unfold zlen in Hn; cbn in Hn; lia|]. pose proof (dlen_ids _ _ _ _ _ _ Hl) as [L1 L2].
  destruct Hl as (Ed & Hbk & Hsz & Hi & Hn' & Hfs & Hb & Hz & Hs).
  destruct (bk_locate P HP h t _ _ ids _ xs _ frees n Hbk) as (i & b & E1 & E2 & E3 & E4 & E5); try lia.
  exists i, b. unfold deq_at. rewrite Ed, shiftr_bsz, land_bsz by assumption. replace (d_fsize d + n + 1) with (d_fsize d + 1 + n) by lia.
  rewrite E5. splits; try assumption; lia.
Qed.

Lemma dget_ok h d xs ids frees (n : nat) x :
  dinv h d xs ids frees -> xs !! n = Some x -> deq_get P h d (Z.of_nat n) = Ok x.
Proof.
  intros Hd Hx. pose proof (lookup_lt_Some _ _ _ Hx).
  destruct (dat_ok _ _ _ _ _ (Z.of_nat n) Hd) as (i & b & E & Hi & _ & Hj & Hp); [unfold zlen; lia|].
  unfold deq_get. rewrite E; cbn [obind].
  destruct Hd as [(_ & -> & _)|(t & Ed & Hbk & _)]; [rewrite lookup_nil in Hx; discriminate|].
  eapply bk_read with (n := Z.of_nat n); [exact Hbk|exact Hi|exact Hj|lia|]. rewrite zl_nat. exact Hx.
Qed.

Lemma dset_ok h d xs ids frees (n : nat) x :
  dinv h d xs ids frees -> (n < length xs)%nat ->
  exists h', deq_set P h d (Z.of_nat n) x = Ok h' /\ dinv h' d (<[n := x]> xs) ids frees /\
    upd (frees ++ ids) (dts d) h (frees ++ ids) (dts d) h'.
Proof.
  intros Hd Hn. destruct (dat_ok _ _ _ _ _ (Z.of_nat n) Hd) as (i & b & E & Hi & _ & Hj & Hp); [unfold zlen; lia|].
  unfold deq_set. rewrite E; cbn [obind].
  destruct Hd as [(_ & -> & _)|(t & Ed & Hbk & Hsz & Hi' & Hn' & Hfs & Hb & Hz & Hs)]; [cbn in Hn; lia|].
  destruct (bk_set P HP h t _ _ ids _ xs _ frees i b _ (Z.of_nat n) x Hbk Hi Hj) as (h' & E' & Hbk' & U);
    [lia|unfold zlen; lia|].
  exists h'. rewrite Nat2Z.id in Hbk'. splits; try assumption.
  - right. exists t. unfold dlive. splits; try assumption; unfold zlen in *; rewrite ?insert_length; lia.
  - rewrite (dts_live _ _ Ed). exact U.
Qed.

Lemma dback_ok h d xs x ids frees : dinv h d (xs ++ [x]) ids frees -> deq_back P h d = Ok x.
Proof.
  intros [(_ & E & _)|(t & Ed & Hbk & Hsz & Hi & Hn & Hfs & Hb & Hz & Hs)]; [destruct xs; discriminate|]. pose proof (B_pos P HP) as HB.
  assert (Hl : zlen (xs ++ [x]) = zlen xs + 1) by (rewrite zlen_app; unfold zlen; cbn; lia). pose proof (zlen_nonneg xs).
  assert (Hx : zl (xs ++ [x]) (zlen xs) = Some x) by (rewrite zl_app_r by lia; rewrite zl_cons, Z.sub_diag; reflexivity).
  unfold deq_back. rewrite Ed. destruct (Z.eqb_spec (d_bsize d) 0) as [E0|E0].
  - assert (Hp : 2 <= zlen ids) by nia.
    destruct (lookup_lt_is_Some_2 ids (Z.to_nat (zlen ids - 2))) as [b Hbl]; [unfold zlen in *; lia|].
    rewrite (bk_get P h t _ _ ids _ _ _ frees _ b _ Hbk Hbl) by lia. cbn [obind].
    eapply bk_read; [exact Hbk|exact Hbl|lia| |exact Hx]. nia.
  - destruct (lookup_lt_is_Some_2 ids (Z.to_nat (zlen ids - 1))) as [b Hbl]; [unfold zlen in *; lia|].
    rewrite (bk_get P h t _ _ ids _ _ _ frees _ b _ Hbk Hbl) by lia. cbn [obind].
    eapply bk_read; [exact Hbk|exact Hbl|lia| |exact Hx]. nia.
Qed.

Lemma dfront_ok h d x xs ids frees : dinv h d (x :: xs) ids frees -> deq_front P h d = Ok x.
Proof.
  intros [(_ & E & _)|(t & Ed & Hbk & Hsz & Hi & Hn & Hfs & Hb & Hz & Hs)]; [discriminate|].
  unfold deq_front. pose proof (B_pos P HP). pose proof (zlen_nonneg xs). rewrite zlen_cons in Hz. rewrite Ed.
  destruct (Z.eqb_spec (d_fsize d) (B - 1)) as [E0|E0].
  - assert (Hp : 2 <= zlen ids) by nia.
    destruct ids as [|b [|b2 ids]]; try (unfold zlen in Hp; cbn in Hp; lia).
    rewrite (bk_get P h t _ _ _ _ _ _ frees 1 b2 _ Hbk) by (reflexivity || lia). cbn [obind].
    eapply bk_read with (n := 0) (i := 1%nat); [exact Hbk|reflexivity|lia|lia|reflexivity].
  - destruct ids as [|b ids]; [unfold zlen in Hn; cbn in Hn; lia|].
    rewrite (bk_get P h t _ _ _ _ _ _ frees 0 b _ Hbk) by (reflexivity || lia). cbn [obind].
    eapply bk_read with (n := 0) (i := 0%nat); [exact Hbk|reflexivity|lia|lia|reflexivity].
Qed.

End deq.
