(** StableBlockDeque: iteration, assign, clear, destruction, construction. *)
From stdpp Require Import gmap.
From Verif Require Import Base BlkHeap BlkProofs BlkMore BlkRun BlkIter BlkIterProofs VecModel VecSpec VecProofs DeqModel DeqSpec DeqProofs.

Section deq.
Context {V : Type}.
Variable P : params.
Hypothesis HP : 0 <= expo P.
Notation B := (bsz P).
Implicit Types (h : bheap V) (d : deq) (ids frees : list nat) (xs : list V).
Notation dinv := (dinv P).
Notation dlive := (dlive P).

(** ** Iterators *)

(** The last block is full and is the last entry of the table: end() then reads past the table. *)
Definition dfull d : Prop := d_data d <> None /\ d_bsize d = B /\ d_back d + 1 = d_slots d.

Definition dq0 d : Z := d_front d * B + (d_fsize d + 1).

Lemma dend_eq h d t xs ids frees : dlive h d t xs ids frees -> dq0 d + zlen xs = d_back d * B + d_bsize d.
Proof. intros (Ed & Hbk & Hsz & Hi & Hn & Hfs & Hb & Hz & Hs). unfold dq0. nia. Qed.

Lemma dend_pos h d t xs ids frees : dlive h d t xs ids frees ->
  deq_end P h d = it_new h (Some t) ((dq0 d + zlen xs) / B) ((dq0 d + zlen xs) mod B).
Proof.
  intros Hl. pose proof (B_pos P HP) as HB. rewrite (dend_eq _ _ _ _ _ _ Hl).
  destruct Hl as (Ed & Hbk & Hsz & Hi & Hn & Hfs & Hb & Hz & Hs). unfold deq_end. rewrite Ed.
  destruct (Z.eqb_spec (d_bsize d) B) as [E|Hne].
  - rewrite E. replace (d_back d * B + B) with ((d_back d + 1) * B) by lia. rewrite Z.div_mul, Z.mod_mul by lia. reflexivity.
  - rewrite Z.add_comm, Z.div_add, Z.mod_add, Z.div_small, Z.mod_small by lia. reflexivity.
Qed.

Lemma dend_entry h d t xs ids frees : dlive h d t xs ids frees -> ~ dfull d -> entry h t ((dq0 d + zlen xs) / B).
Proof.
  intros Hl Hf. pose proof (B_pos P HP) as HB. rewrite (dend_eq _ _ _ _ _ _ Hl). pose proof (dlive_row P _ _ _ _ _ _ Hl) as [R1 R2].
  destruct Hl as (Ed & Hbk & Hsz & Hi & Hn & Hfs & Hb & Hz & Hs).
  eapply row_entry; [apply Hbk|]. 
  destruct (Z.eq_dec (d_bsize d) B) as [E|Hne].
  - rewrite E. replace (d_back d * B + B) with ((d_back d + 1) * B) by lia. rewrite Z.div_mul by lia.
    destruct (Z.eq_dec (d_back d + 1) (d_slots d)) as [E'|]; [|lia]. exfalso. apply Hf. unfold dfull. splits; [congruence|assumption|assumption].
  - rewrite Z.add_comm, Z.div_add, Z.div_small by lia. lia.
Qed.

Lemma dend_ok h d t xs ids frees : dlive h d t xs ids frees -> ~ dfull d ->
  exists it, deq_end P h d = Ok it /\ it_at P h t (dq0 d + zlen xs) it.
Proof.
  intros Hl Hf. rewrite (dend_pos _ _ _ _ _ _ Hl). destruct (it_at_ex P h t (dq0 d + zlen xs)) as [it Hit]; [eapply dend_entry; eassumption|].
  exists it. auto.
Qed.

Lemma dbegin_some h d t xs ids frees : dlive h d t xs ids frees -> xs <> [] ->
  exists it, deq_begin P h d = Ok it /\ it_at P h t (dq0 d) it.
Proof.
  intros Hl Hne. pose proof (B_pos P HP) as HB. unfold deq_begin. assert (Hsz : d_size d = zlen xs) by apply Hl.
  assert (0 < zlen xs) by (destruct xs; [congruence|rewrite zlen_cons; pose proof (zlen_nonneg xs); lia]).
  rewrite Hsz. destruct (Z.eqb_spec (zlen xs) 0) as [E|_]; [lia|]. pose proof (dlive_row P _ _ _ _ _ _ Hl) as [R1 R2].
  destruct Hl as (Ed & Hbk & _ & Hi & Hn & Hfs & Hb & Hz & Hs). rewrite Ed.
  destruct (it_at_ex P h t (dq0 d)) as [it Hit].
  { eapply row_entry; [apply Hbk|]. unfold dq0. destruct (Z.eq_dec (d_fsize d) (B - 1)) as [E|E].
    - rewrite E. replace (d_front d * B + (B - 1 + 1)) with ((d_front d + 1) * B) by lia. rewrite Z.div_mul by lia. nia.
    - rewrite Z.add_comm, Z.div_add, Z.div_small by lia. lia. }
  exists it. split; [|exact Hit]. unfold it_at, dq0 in Hit. rewrite <- Hit. destruct (Z.eqb_spec (d_fsize d) (B - 1)) as [E|E].
  - rewrite E. replace (d_front d * B + (B - 1 + 1)) with ((d_front d + 1) * B) by lia. rewrite Z.div_mul, Z.mod_mul by lia. reflexivity.
  - rewrite (Z.add_comm (d_front d * B)), Z.div_add, Z.mod_add, Z.div_small, Z.mod_small by lia. reflexivity.
Qed.

Lemma dbegin_ok h d t xs ids frees : dlive h d t xs ids frees -> ~ dfull d ->
  exists it, deq_begin P h d = Ok it /\ it_at P h t (dq0 d) it.
Proof.
  intros Hl Hf. destruct (decide (xs = [])) as [->|Hne]; [|eapply dbegin_some; eassumption].
  unfold deq_begin. assert (d_size d = zlen []) as -> by apply Hl. change (zlen [] =? 0) with true. cbn iota.
  destruct (dend_ok _ _ _ _ _ _ Hl Hf) as (it & E1 & E2). change (zlen []) with 0 in E2. rewrite Z.add_0_r in E2. eauto.
Qed.

Lemma small_B : expo P <= 30 -> B < 2147483648.
Proof.
  intros HN. unfold bsz. rewrite Z.shiftl_mul_pow2 by assumption. pose proof (Z.pow_le_mono_r 2 (expo P) 30 ltac:(lia) HN) as Hp.
  change (2 ^ 30) with 1073741824 in Hp. lia.
Qed.

Lemma dwalk_ok h d xs ids frees : expo P <= 30 -> dinv h d xs ids frees -> ~ dfull d -> deq_walk P h d = Ok xs.
Proof.
  intros HN [(-> & -> & _)|(t & Hl)] Hf.
  - unfold deq_walk, deq_begin, deq_end; cbn. rewrite Z.eqb_refl. cbn. reflexivity.
  - unfold deq_walk. destruct (dbegin_ok _ _ _ _ _ _ Hl Hf) as (it & -> & Hit). destruct (dend_ok _ _ _ _ _ _ Hl Hf) as (last & -> & Hlast).
    cbn [obind]. pose proof (dend_entry _ _ _ _ _ _ Hl Hf) as He. pose proof (dlen_ids P _ _ _ _ _ _ Hl) as [Ho Hz].
    destruct Hl as (Ed & Hbk & Hsz & _). rewrite Hsz. unfold zlen at 1. rewrite Nat2Z.id. unfold dq0 in *.
    rewrite (it_walk_ok P HP h t (d_slots d) (d_front d) ids (d_fsize d + 1) xs (d_fl d) frees Hbk Ho Hz (small_B HN) He (length xs) 0 it last); try assumption; try reflexivity.
    change (Z.of_nat 0) with 0. rewrite Z.add_0_r. exact Hit.
Qed.

(** ** assign *)
Lemma dpops_ok k : forall h d xs ys ids frees,
  dinv h d (xs ++ ys) ids frees -> length ys = k ->
  exists h' d' ids' frees', deq_pops P h d k = Ok (h', d') /\ dinv h' d' xs ids' frees' /\
    upd (frees ++ ids) (dts d) h (frees' ++ ids') (dts d') h' /\ mono ids' ids /\ d_fsize d' = d_fsize d.
Proof.
  induction k as [|k IH]; intros h d xs ys ids frees Hd Hl; cbn [deq_pops].
  - destruct ys; [|discriminate]. rewrite app_nil_r in Hd. exists h, d, ids, frees. splits; try apply mono_refl; try assumption.
    apply upd_refl. eapply dinv_hok; eassumption.
  - destruct (split_last xs ys k) as (ys' & y & -> & Hl'); [unfold zlen; lia|]. rewrite app_assoc in Hd.
    destruct (dpop_ok P HP h d (xs ++ ys') y ids frees Hd) as (h1 & d1 & ids1 & frees1 & -> & Hd1 & U1 & M1 & F1). cbn [obind].
    destruct (IH h1 d1 xs ys' ids1 frees1 Hd1) as (h2 & d2 & ids2 & frees2 & -> & Hd2 & U2 & M2 & F2); [unfold zlen in Hl'; lia|].
    exists h2, d2, ids2, frees2. splits; try assumption; [eapply upd_trans; eassumption|eapply mono_trans; eassumption|congruence].
Qed.

Lemma mono_nonnil ids ids' : mono ids ids' -> ids <> [] -> ids' <> [].
Proof. intros [k ->] H E. destruct ids; [congruence|discriminate]. Qed.

Lemma dpushes_ok ys : forall h d xs ids frees,
  dinv h d xs ids frees ->
  exists h' d' ids' frees', deq_pushes P h d ys = Ok (h', d') /\ dinv h' d' (xs ++ ys) ids' frees' /\
    upd (frees ++ ids) (dts d) h (frees' ++ ids') (dts d') h' /\ mono ids ids' /\ (ids <> [] -> d_fsize d' = d_fsize d).
Proof.
  induction ys as [|y ys IH]; intros h d xs ids frees Hd; cbn [deq_pushes].
  - exists h, d, ids, frees. rewrite app_nil_r. splits; try apply mono_refl; try assumption. apply upd_refl. eapply dinv_hok; eassumption.
  - destruct (dpush_ok P HP h d xs ids frees y Hd) as (h1 & d1 & ids1 & frees1 & -> & Hd1 & U1 & M1 & F1). cbn [obind].
    destruct (IH h1 d1 (xs ++ [y]) ids1 frees1 Hd1) as (h2 & d2 & ids2 & frees2 & -> & Hd2 & U2 & M2 & F2).
    rewrite <- app_assoc in Hd2. exists h2, d2, ids2, frees2. splits; try assumption; [eapply upd_trans; eassumption|eapply mono_trans; eassumption|].
    intros Hne. rewrite F2; [auto|]. eapply mono_nonnil; eassumption.
Qed.

Lemma it_at_tb h h' t q it : tb h' = tb h -> it_at P h t q it -> it_at P h' t q it.
Proof. intros E. unfold it_at, it_new, it_ptr, tget. rewrite E. auto. Qed.
Lemma entry_tb h h' t i : tb h' = tb h -> entry h t i -> entry h' t i.
Proof. intros E. unfold entry, tget. rewrite E. auto. Qed.

Lemma it_write_ok h t slots lo ids off xs f frees (n : nat) it x :
  blocks P h t slots lo ids off xs f frees -> 0 <= off -> off + zlen xs <= B * zlen ids -> (n < length xs)%nat ->
  it_at P h t (lo * B + off + Z.of_nat n) it ->
  exists h', it_write P h it x = Ok h' /\ blocks P h' t slots lo ids off (<[n := x]> xs) f frees /\
    upd (frees ++ ids) (rts f t) h (frees ++ ids) (rts f t) h' /\ tb h' = tb h.
Proof.
  intros Hbk Ho Hl Hn Hat. pose proof (B_pos P HP) as HB.
  destruct (bk_locate P HP h t slots lo ids off xs f frees (Z.of_nat n) Hbk Ho Hl) as (i & b & E1 & E2 & E3 & E4 & E5); [unfold zlen; lia|].
  apply it_at_inv in Hat as (c & E & ->).
  replace (lo * B + off + Z.of_nat n) with ((off + Z.of_nat n) + lo * B) in * by lia.
  rewrite Z.div_add in E by lia. rewrite Z.mod_add by lia. rewrite Z.add_comm, E5 in E. injection E as <-.
  destruct (bk_set P HP h t slots lo ids off xs f frees i b _ (Z.of_nat n) x Hbk E1 E3 E4) as (h' & E' & Hbk' & U); [unfold zlen; lia|].
  exists h'. rewrite Nat2Z.id in Hbk'. cbn. splits; try assumption.
  unfold eset in E'. apply obind_ok in E' as (b' & _ & E'). destruct (el h !! (b', _)); [|discriminate]. injection E' as <-. reflexivity.
Qed.

Lemma bk_entries h t slots lo ids off xs f frees :
  blocks P h t slots lo ids off xs f frees -> 0 <= off -> off + zlen xs <= B * zlen ids -> entry h t ((lo * B + off + zlen xs) / B) ->
  forall i, 0 <= i <= zlen xs -> entry h t ((lo * B + off + i) / B).
Proof.
  intros Hbk Ho Hl He i Hi. pose proof (B_pos P HP). destruct (Z.eq_dec i (zlen xs)) as [->|Hne]; [exact He|].
  destruct (bk_locate P HP h t slots lo ids off xs f frees i Hbk Ho Hl) as (j & b & _ & _ & _ & _ & E5); [lia|].
  replace (lo * B + off + i) with ((off + i) + lo * B) by lia. rewrite Z.div_add by lia. rewrite Z.add_comm. eexists; exact E5.
Qed.

Lemma assign_over_ok t slots lo ids off f frees last : B < 2147483648 -> 0 <= off -> forall ys h done rest it,
  blocks P h t slots lo ids off (done ++ rest) f frees -> off + zlen (done ++ rest) <= B * zlen ids ->
  entry h t ((lo * B + off + zlen (done ++ rest)) / B) ->
  it_at P h t (lo * B + off + zlen done) it -> it_at P h t (lo * B + off + zlen (done ++ rest)) last ->
  exists h' it', assign_over P h it last ys = Ok (h', it', drop (length rest) ys) /\
    blocks P h' t slots lo ids off (done ++ take (length rest) ys ++ drop (length ys) rest) f frees /\
    upd (frees ++ ids) (rts f t) h (frees ++ ids) (rts f t) h' /\ tb h' = tb h /\
    ((length ys <= length rest)%nat -> it_at P h' t (lo * B + off + zlen done + Z.of_nat (length ys)) it').
Proof.
  intros HBm Ho. pose proof (B_pos P HP) as HB. induction ys as [|y ys IH]; intros h done rest it Hbk Hl He Hit Hlast; cbn [assign_over].
  - exists h, it. rewrite drop_nil, take_nil. cbn [length drop app]. splits; try assumption.
    + apply upd_refl. apply Hbk.
    + intros _. rewrite Z.add_0_r. exact Hit.
  - rewrite (it_at_eq P HP _ _ _ _ _ _ Hit Hlast). rewrite zlen_app. pose proof (zlen_nonneg rest).
    destruct rest as [|r rest].
    + change (zlen []) with 0. rewrite Z.add_0_r, Z.eqb_refl. cbn [length drop take app]. exists h, it. splits; try assumption.
      * apply upd_refl. apply Hbk.
      * intros F. cbn in F. lia.
    + rewrite zlen_cons in *. pose proof (zlen_nonneg rest). destruct (Z.eqb_spec (lo * B + off + zlen done) (lo * B + off + (zlen done + (1 + zlen rest)))); [lia|].
      destruct (it_write_ok h t slots lo ids off (done ++ r :: rest) f frees (length done) it y Hbk Ho Hl) as (h1 & -> & Hbk1 & U1 & T1);
        [rewrite app_length; cbn; lia|exact Hit|]. cbn [obind].
      rewrite insert_app_r_alt in Hbk1 by lia. rewrite Nat.sub_diag in Hbk1. cbn in Hbk1.
      replace (done ++ y :: rest) with ((done ++ [y]) ++ rest) in Hbk1 by (rewrite <- app_assoc; reflexivity).
      assert (Hz1 : zlen ((done ++ [y]) ++ rest) = zlen (done ++ r :: rest)) by (rewrite !zlen_app, !zlen_cons; change (zlen []) with 0; lia).
      assert (He1 : entry h1 t ((lo * B + off + zlen ((done ++ [y]) ++ rest)) / B)) by (rewrite Hz1; eapply entry_tb; eassumption).
      assert (Hl1 : off + zlen ((done ++ [y]) ++ rest) <= B * zlen ids) by lia.
      assert (Hd1 : zlen (done ++ [y]) = zlen done + 1) by (rewrite zlen_app; reflexivity).
      pose proof (zlen_nonneg done).
      destruct (it_add_ok P HP h1 t _ it 1 (it_at_tb _ _ _ _ _ T1 Hit)) as (it1 & -> & Hit1); [lia| |].
      { replace (lo * B + off + zlen done + 1) with (lo * B + off + (zlen done + 1)) by lia.
        eapply bk_entries; try eassumption. rewrite Hz1, zlen_app, zlen_cons. lia. }
      cbn [obind]. replace (lo * B + off + zlen done + 1) with (lo * B + off + zlen (done ++ [y])) in Hit1 by lia.
      destruct (IH h1 (done ++ [y]) rest it1 Hbk1 Hl1 He1 Hit1) as (h2 & it2 & -> & Hbk2 & U2 & T2 & Hit2).
      { rewrite Hz1. eapply it_at_tb; eassumption. }
      exists h2, it2. cbn [length drop take]. rewrite <- app_assoc in Hbk2. splits; try assumption.
      * eapply upd_trans; eassumption.
      * congruence.
      * intros Hlen. replace (lo * B + off + zlen done + Z.of_nat (S (length ys))) with (lo * B + off + zlen (done ++ [y]) + Z.of_nat (length ys)) by lia.
        apply Hit2. lia.
Qed.

Lemma it_count_ok h t q0 len last : B < 2147483648 -> (forall i, 0 <= i <= len -> entry h t ((q0 + i) / B)) ->
  it_at P h t (q0 + len) last -> forall k fuel it, 0 <= len - Z.of_nat k -> (k <= fuel)%nat -> it_at P h t (q0 + (len - Z.of_nat k)) it ->
  it_count P h it last fuel = Ok k.
Proof.
  intros HBm He Hlast. induction k as [|k IH]; intros fuel it H0 Hf Hit.
  - replace (it_count P h it last fuel) with (if it_eq it last then Ok O else
      match fuel with O => UB | S k => it' <-! it_add P h it 1 ;; n <-! it_count P h it' last k ;; Ok (S n) end) by (destruct fuel; reflexivity).
    rewrite (it_at_eq P HP _ _ _ _ _ _ Hit Hlast). destruct (Z.eqb_spec (q0 + (len - Z.of_nat 0)) (q0 + len)); [reflexivity|lia].
  - destruct fuel as [|fuel]; [lia|]. cbn [it_count]. rewrite (it_at_eq P HP _ _ _ _ _ _ Hit Hlast).
    destruct (Z.eqb_spec (q0 + (len - Z.of_nat (S k))) (q0 + len)); [lia|].
    destruct (it_add_ok P HP h t _ it 1 Hit) as (it1 & -> & Hit1); [pose proof (B_pos P HP); lia| |].
    { replace (q0 + (len - Z.of_nat (S k)) + 1) with (q0 + (len - Z.of_nat k)) by lia. apply He. lia. }
    cbn [obind]. rewrite (IH fuel it1); [reflexivity|lia|lia|].
    replace (q0 + (len - Z.of_nat k)) with (q0 + (len - Z.of_nat (S k)) + 1) by lia. exact Hit1.
Qed.

Lemma dassign_ok h d xs ys ids frees :
  expo P <= 30 -> dinv h d xs ids frees -> (xs <> [] -> ~ dfull d) ->
  exists h' d' ids' frees', deq_assign P h d ys = Ok (h', d') /\ dinv h' d' ys ids' frees' /\
    upd (frees ++ ids) (dts d) h (frees' ++ ids') (dts d') h' /\ (mono ids ids' \/ mono ids' ids) /\ (ids <> [] -> d_fsize d' = d_fsize d).
Proof.
  intros HN Hd Hf. unfold deq_assign. rewrite (dinv_size _ _ _ _ _ _ Hd).
  destruct xs as [|x0 xs0].
  - cbn [Z.eqb zlen length Z.of_nat]. change (zlen [] =? 0) with true. cbn [obind].
    destruct (dpushes_ok ys h d [] ids frees Hd) as (h' & d' & ids' & frees' & -> & Hd' & U & M & F). exists h', d', ids', frees'. splits; try assumption. tauto.
  - set (xs := x0 :: xs0) in *. assert (Hpos : 0 < zlen xs) by (unfold xs; rewrite zlen_cons; pose proof (zlen_nonneg xs0); lia).
    destruct (Z.eqb_spec (zlen xs) 0); [lia|]. specialize (Hf ltac:(discriminate)).
    destruct Hd as [(_ & E & _)|(t & Hl)]; [discriminate|].
    destruct (dbegin_ok _ _ _ _ _ _ Hl Hf) as (it & -> & Hit). destruct (dend_ok _ _ _ _ _ _ Hl Hf) as (last & -> & Hlast). cbn [obind].
    pose proof (dend_entry _ _ _ _ _ _ Hl Hf) as He. pose proof (dlen_ids P _ _ _ _ _ _ Hl) as [Ho Hz].
    destruct Hl as (Ed & Hbk & Hsz & Hi & Hn & Hfs & Hb & Hzz & Hs). unfold dq0 in *.
    destruct (assign_over_ok t (d_slots d) (d_front d) ids (d_fsize d + 1) (d_fl d) frees last (small_B HN) Ho ys h [] xs it Hbk Hz He) as
      (h1 & it1 & -> & Hbk1 & U1 & T1 & Hit1); [change (zlen []) with 0; rewrite Z.add_0_r; exact Hit|exact Hlast|].
    cbn [obind app] in *. change (zlen []) with 0 in *. rewrite Z.add_0_r in Hit1.
    assert (Hlen : zlen (take (length xs) ys ++ drop (length ys) xs) = zlen xs).
    { unfold zlen. rewrite app_length, take_length, drop_length. lia. }
    assert (Hd1 : dinv h1 d (take (length xs) ys ++ drop (length ys) xs) ids frees).
    { right. exists t. unfold DeqProofs.dlive. splits; try assumption; lia. }
    assert (U1' : upd (frees ++ ids) (dts d) h (frees ++ ids) (dts d) h1) by (rewrite (dts_live _ _ Ed); exact U1).
    destruct (Nat.le_gt_cases (length ys) (length xs)) as [Hle|Hgt].
    + rewrite drop_ge by lia. rewrite take_ge in Hd1, Hbk1, Hlen by lia.
      rewrite (it_count_ok h1 t (d_front d * B + (d_fsize d + 1)) (zlen xs) last (small_B HN)) with (k := (length xs - length ys)%nat);
        try (unfold zlen; lia).
      * cbn [obind]. destruct (dpops_ok (length xs - length ys) h1 d ys (drop (length ys) xs) ids frees Hd1) as (h2 & d2 & ids2 & frees2 & -> & Hd2 & U2 & M2 & F2).
        { rewrite drop_length. reflexivity. }
        cbn [obind deq_pushes]. exists h2, d2, ids2, frees2. splits; try assumption; [eapply upd_trans; eassumption|tauto|tauto].
      * intros i Hi'. eapply bk_entries; try eassumption; rewrite Hlen; try lia. eapply entry_tb; [exact T1|]. exact He.
      * eapply it_at_tb; [exact T1|exact Hlast].
      * replace (d_front d * B + (d_fsize d + 1) + (zlen xs - Z.of_nat (length xs - length ys))) with
          (d_front d * B + (d_fsize d + 1) + Z.of_nat (length ys)) by (unfold zlen; lia). apply Hit1. exact Hle.
    + destruct (drop (length xs) ys) as [|r rs] eqn:Er; [apply (f_equal length) in Er; rewrite drop_length in Er; change (length (@nil V)) with O in Er; lia|].
      cbn [obind]. rewrite (drop_ge xs) in Hd1 by lia. rewrite app_nil_r in Hd1.
      destruct (dpushes_ok (r :: rs) h1 d _ ids frees Hd1) as (h2 & d2 & ids2 & frees2 & -> & Hd2 & U2 & M2 & F2).
      rewrite <- Er, take_drop in Hd2. exists h2, d2, ids2, frees2. splits; try assumption; [eapply upd_trans; eassumption|tauto].
Qed.

(** ** shrink_to_fit *)
Lemma dshrink_ok h d xs ids frees :
  dinv h d xs ids frees ->
  exists h' f, fl_shrink h (d_fl d) = Ok (h', f) /\
    dinv h' (Deq (d_size d) (d_data d) (d_slots d) (d_back d) (d_front d) (d_bsize d) (d_fsize d) f) xs ids [] /\
    upd (frees ++ ids) (dts d) h ([] ++ ids) (dts (Deq (d_size d) (d_data d) (d_slots d) (d_back d) (d_front d) (d_bsize d) (d_fsize d) f)) h'.
Proof.
  intros [(-> & -> & -> & -> & H)|(t & Ed & Hbk & Hr)].
  - exists h, flist0. splits; [left; auto|]. apply upd_refl. exact H.
  - destruct (bk_shrink P HP h t _ _ ids _ xs (d_fl d) frees Hbk) as (h' & f & E & Hbk' & U). exists h', f. splits; try assumption.
    + right. exists t. unfold DeqProofs.dlive. cbn [d_data d_slots d_fl d_size d_back d_front d_bsize d_fsize]. tauto.
    + unfold dts; cbn. rewrite Ed. exact U.
Qed.

(** ** clear *)
Lemma upd_more bs ts h bs' ts' h' b :
  upd bs ts h bs' ts' h' -> b ∉ bs -> (b < nx h)%nat -> upd (bs ++ [b]) ts h (bs' ++ [b]) ts' h'.
Proof.
  intros [U1 U2 U3 U4 U5 U6 U7] Hb Hn. constructor; try assumption.
  - intros b' Hb'. apply elem_of_app in Hb' as [Hb'|Hb'].
    + destruct (U2 b' Hb'). set_solver.
    + apply elem_of_list_singleton in Hb' as ->. split; [lia|set_solver].
  - intros b' Hb' Hn'. apply U4; [set_solver|assumption].
  - intros b' Hb' Hn'. apply U6; set_solver.
Qed.

Lemma fl_put_tb h f c h' f' t : fl_put h f c = Ok (h', f') -> f_tab f <> Some t -> (t < nx h)%nat -> tb h' !! t = tb h !! t.
Proof.
  unfold fl_put. intros E Hf Hn. apply obind_ok in E as ([h1 f1] & E1 & E).
  assert (tb h1 !! t = tb h !! t /\ f_tab f1 <> Some t) as [<- Hf1].
  { destruct (f_slots f <=? f_idx f); [|injection E1 as <- <-; auto]. destruct (f_slots f =? 0).
    - cbn in E1. injection E1 as <- <-. cbn. rewrite lookup_insert_ne by lia. split; [reflexivity|]. intros [= ?]; lia.
    - cbn in E1. apply obind_ok in E1 as (h2 & E2 & E1). apply obind_ok in E1 as (h3 & E3 & E1). injection E1 as <- <-. cbn. split; [|intros [= ?]; lia].
      assert (tb h2 !! t = tb h !! t) as <-.
      { unfold tcopy in E2. destruct (f_tab f) as [u|]; [|discriminate]. cbn in E2. destruct (<[nx h := _]> (tb h) !! u); [|discriminate].
        rewrite lookup_insert in E2. destruct (_ && _); [|discriminate]. injection E2 as <-. cbn. rewrite !lookup_insert_ne by lia. reflexivity. }
      unfold tdelete in E3. destruct (f_tab f) as [u|]; [|congruence]. destruct (tb h2 !! u); [|discriminate]. injection E3 as <-. cbn.
      rewrite lookup_delete_ne by congruence. reflexivity. }
  apply obind_ok in E as (h2 & E2 & E). injection E as <- _. unfold tset in E2. destruct (f_tab f1) as [u|]; [|discriminate].
  destruct (tb h1 !! u); [|discriminate]. destruct (_ || _); [discriminate|]. injection E2 as <-. cbn. rewrite lookup_insert_ne by congruence. reflexivity.
Qed.

Lemma ekill_tb h c j h' : ekill P h c j = Ok h' -> tb h' = tb h.
Proof.
  unfold ekill. intros E. apply obind_ok in E as (b & _ & E). destruct (el h !! _); [injection E as <-; reflexivity|].
  destruct (triv P); [injection E as <-; reflexivity|discriminate].
Qed.
Lemma kill_down_tb p i lo k : forall h h', kill_down P h p i lo k = Ok h' -> tb h' = tb h.
Proof.
  induction k as [|k IH]; intros h h' E; cbn in E; [injection E as <-; reflexivity|].
  apply obind_ok in E as (c & _ & E). apply obind_ok in E as (h1 & E1 & E). rewrite (IH _ _ E). eapply ekill_tb; exact E1.
Qed.
Lemma kill_down_split p i lo k1 k2 : forall h h1, kill_down P h p i (lo + Z.of_nat k1) k2 = Ok h1 ->
  kill_down P h p i lo (k2 + k1) = kill_down P h1 p i lo k1.
Proof.
  induction k2 as [|k2 IH]; intros h h1 E; cbn [kill_down Nat.add] in *; [injection E as <-; reflexivity|].
  apply obind_ok in E as (c & E0 & E). apply obind_ok in E as (h' & E1 & E). rewrite E0. cbn [obind].
  replace (lo + Z.of_nat (k2 + k1)) with (lo + Z.of_nat k1 + Z.of_nat k2) by lia. rewrite E1. cbn [obind]. apply IH. exact E.
Qed.
(** Destroying slots without elements goes unnoticed for trivially destructible types. *)
Lemma kill_down_dead h t i b lo k :
  triv P = true -> tget h (Some t) i = Ok (Some b) -> b ∈ bl h -> 0 <= lo -> lo + Z.of_nat k <= B ->
  (forall j, lo <= j < lo + Z.of_nat k -> el h !! (b, j) = None) -> kill_down P h (Some t) i lo k = Ok h.
Proof.
  intros Ht Hg Hb Hlo Hk Hd. induction k as [|k IH]; cbn [kill_down]; [reflexivity|]. rewrite Hg. cbn [obind].
  unfold ekill. rewrite slot_ok by (assumption || lia). cbn [obind]. rewrite Hd by lia. rewrite Ht. cbn [obind].
  apply IH; [lia|]. intros j Hj. apply Hd. lia.
Qed.

(** Set an emptied last block aside; it stays where the table says. *)
Lemma bk_aside h t slots lo ids off xs f frees b :
  blocks P h t slots lo (ids ++ [b]) off xs f frees -> off + zlen xs <= B * zlen ids ->
  blocks P h t slots lo ids off xs f frees /\ empty_block h b /\ b ∉ frees ++ ids /\ (b < nx h)%nat /\
  tget h (Some t) (lo + zlen ids) = Ok (Some b).
Proof.
  intros Hbk Hl. pose proof (bk_get P h t slots lo (ids ++ [b]) off xs f frees (length ids) b (lo + zlen ids) Hbk) as Hg.
  destruct Hbk as [H1 H2 H3 H4 H5 H6]. destruct (area_unsnoc P HP h ids off xs b H2 Hl) as (Ha & He & Hb).
  assert (Hnd : NoDup ((frees ++ ids) ++ [b])) by (rewrite <- app_assoc; exact H4). apply NoDup_app in Hnd as (N1 & N2 & _).
  splits; try assumption.
  - constructor; try assumption; [eapply row_prefix; exact H1|]. eapply hok_eqv; [exact H6|set_solver|tauto].
  - intros Hin. apply (N2 b Hin). set_solver.
  - destruct H6 as (_ & K & _). apply K. set_solver.
  - apply Hg; [apply list_lookup_middle; reflexivity|unfold zlen; lia].
Qed.

Lemma bk_put h t slots lo ids off xs f frees b :
  blocks P h t slots lo ids off xs f frees -> empty_block h b -> b ∉ frees ++ ids -> (b < nx h)%nat ->
  exists h' f', fl_put h f (Some b) = Ok (h', f') /\ blocks P h' t slots lo ids off xs f' (frees ++ [b]) /\
    upd ((frees ++ ids) ++ [b]) (rts f t) h ((frees ++ [b]) ++ ids) (rts f' t) h'.
Proof.
  intros [H1 H2 H3 H4 H5 H6] He Hb Hn.
  assert (H6' : hok ((frees ++ ids) ++ [b]) (rts f t) h).
  { destruct H6 as (A1 & A2 & A3). unfold hok; splits; try assumption. intros b' Hb'. apply elem_of_app in Hb' as [Hb'|Hb']; [auto|].
    apply elem_of_list_singleton in Hb' as ->. assumption. }
  destruct (fl_put_ok P HP ((frees ++ ids) ++ [b]) [t] h f frees b) as (h' & f' & E & Hf & U & Hnd & Hs & Ht); try assumption; [set_solver|].
  assert (U' : upd ((frees ++ ids) ++ [b]) (rts f t) h ((frees ++ [b]) ++ ids) (rts f' t) h').
  { eapply upd_eqv; [exact U|tauto|tauto|set_solver|tauto]. }
  exists h', f'. splits; try assumption. constructor; try assumption.
  - eapply row_frame; [exact H1|]. apply Ht. set_solver.
  - eapply area_frame; [exact H2|]. intros; apply Hs.
  - rewrite <- app_assoc, (Permutation_app_comm [b] ids), app_assoc. apply NoDup_app. splits; [assumption| |apply NoDup_singleton].
    intros b' Hb' Hb2. apply elem_of_list_singleton in Hb2 as ->. contradiction.
  - eapply upd_hok; eassumption.
Qed.

(** Put the only block, which is empty, at another entry of the table. *)
Lemma bk_seat h t slots lo b off off' f frees k :
  blocks P h t slots lo [b] off [] f frees -> 0 <= k < slots ->
  exists h', tset h (Some t) k (Some b) = Ok h' /\ blocks P h' t slots k [b] off' [] f frees /\
    upd (frees ++ [b]) (rts f t) h (frees ++ [b]) (rts f t) h'.
Proof.
  intros Hbk Hk. destruct Hbk as [(cs & Hcs & Hl & _) H2 H3 H4 H5 H6].
  assert (Hr : row h t slots k []) by (eapply row_nil; [exact Hcs|exact Hl|lia]).
  destruct (row_snoc h t slots k [] b k (frees ++ [b]) (rts f t)) as (h' & E & Hr' & U & Hs & Ht); try assumption; try (unfold zlen; cbn; lia).
  { unfold rts. set_solver. }
  exists h'. splits; try assumption. constructor; try assumption.
  - eapply area_nil_off. eapply area_frame; [exact H2|auto].
  - eapply finv_frame; [exact H3|auto|]. intros t' Et. apply Ht. eapply tab_sep; eassumption.
  - eapply upd_hok; eassumption.
Qed.

Lemma clear_mid_ok k : forall h t slots front b0 mids bk back off xs f frees,
  blocks P h t slots front (b0 :: mids) off xs f frees -> length mids = k -> 0 <= off <= B -> off + zlen xs = B * (Z.of_nat k + 1) ->
  bk ∉ frees ++ b0 :: mids -> tget h (Some t) back = Ok (Some bk) ->
  exists h' f' xs' frees', deq_clear_mid P h (Some t) front f k = Ok (h', f') /\ blocks P h' t slots front [b0] off xs' f' frees' /\
    off + zlen xs' = B /\ upd (frees ++ b0 :: mids) (rts f t) h (frees' ++ [b0]) (rts f' t) h' /\ tget h' (Some t) back = Ok (Some bk) /\
    bk ∉ frees' ++ [b0].
Proof.
  pose proof (B_pos P HP) as HB.
  induction k as [|k IH]; intros h t slots front b0 mids bk back off xs f frees Hbk Hl Ho Hz Hnin Hg; cbn [deq_clear_mid].
  - destruct mids; [|discriminate]. exists h, f, xs, frees. splits; try assumption; try lia. apply upd_refl. apply Hbk.
  - destruct (ids_last mids) as (mids' & b & ->); [unfold zlen; lia|]. rewrite app_length in Hl; cbn in Hl.
    destruct (take_split xs (zlen xs - B)) as (ys & zs & -> & Hys & Hzs); [nia|].
    assert (Hlk : (b0 :: mids' ++ [b]) !! S k = Some b) by (cbn; apply list_lookup_middle; lia).
    destruct (bk_kill_down P HP h t slots front (b0 :: mids' ++ [b]) off ys zs f frees (S k) b 0 (Z.to_nat B) Hbk Hlk) as (h1 & E1 & Hbk1 & U1); try nia.
    rewrite E1; cbn [obind].
    rewrite (bk_get P h1 t slots front _ off _ f frees (S k) b _ Hbk1 Hlk) by lia. cbn [obind].
    change (b0 :: mids' ++ [b]) with ((b0 :: mids') ++ [b]) in *.
    destruct (bk_drop_back P HP h1 t slots front (b0 :: mids') off ys f frees b Hbk1) as (h2 & f2 & E2 & Hbk2 & U2); [rewrite zlen_cons; unfold zlen in *; nia|].
    rewrite E2. cbn [obind].
    assert (Hg2 : tget h2 (Some t) back = Ok (Some bk)).
    { unfold tget in *. rewrite (fl_put_tb _ _ _ _ _ t E2); [rewrite (kill_down_tb _ _ _ _ _ _ E1); exact Hg| |].
      - intros Et. pose proof (bk_nt _ _ _ _ _ _ _ _ _ _ Hbk1) as Hnt. assert (t <> t) by (eapply tab_sep; eassumption). congruence.
      - destruct (bk_ok _ _ _ _ _ _ _ _ _ _ Hbk1) as (_ & _ & K). apply K. unfold rts. set_solver. }
    destruct (IH h2 t slots front b0 mids' bk back off ys f2 (frees ++ [b]) Hbk2) as (h' & f' & xs' & frees' & E & Hbk' & Hz' & U' & Hg' & Hn'); try assumption; try nia.
    { clear -Hnin. set_solver. }
    rewrite E. exists h', f', xs', frees'. splits; try assumption.
    eapply upd_trans; [exact U1|]. eapply upd_trans; [exact U2|exact U'].
Qed.

(** Only one block and slots before the first element: these are destroyed too. *)
Definition clear_guard d : Prop := d_size d = 0 \/ triv P = true \/ d_front d <> d_back d \/ d_fsize d = -1.

Lemma dclear_ok h d xs ids frees :
  dinv h d xs ids frees -> clear_guard d ->
  exists h' d' ids' frees', deq_clear P h d = Ok (h', d') /\ dinv h' d' [] ids' frees' /\
    upd (frees ++ ids) (dts d) h (frees' ++ ids') (dts d') h'.
Proof.
  intros Hd Hg. pose proof (B_pos P HP) as HB. unfold deq_clear. rewrite (dinv_size _ _ _ _ _ _ Hd). pose proof (dinv_hok P _ _ _ _ _ Hd) as Hok.
  destruct (Z.eqb_spec (zlen xs) 0) as [E0|Hne].
  { rewrite orb_true_r. apply zlen_0 in E0 as ->. exists h, d, ids, frees. splits; [assumption|apply upd_refl; assumption]. }
  destruct Hd as [(_ & -> & _)|(t & Hl)]; [unfold zlen in Hne; cbn in Hne; lia|]. pose proof (dlive_row P _ _ _ _ _ _ Hl) as [R1 R2].
  destruct Hl as (Ed & Hbk & Hsz & Hi & Hn & Hfs & Hb & Hz & Hs). pose proof (zlen_nonneg xs). clear Hok.
  destruct (Z.eqb_spec (d_slots d) 0); [lia|]. cbn [orb]. rewrite Ed.
  assert (Hn2 : 0 <= d_slots d / 2 < d_slots d) by (split; [apply Z.div_pos; lia|apply Z.div_lt; lia]).
  pose proof (Z.div_mod B 2 ltac:(lia)) as Hdm. pose proof (Z.mod_pos_bound B 2 ltac:(lia)) as Hmb.
  match goal with |- context[obind ?e _] => set (e1 := e) end.
  match goal with |- exists _ _ _ _, obind _ ?k = _ /\ _ => set (k1 := k) end.
  (* everything destroyed, only the first block left *)
  assert (exists h1 h2 f2 h3 f3 b0 frees3, e1 = Ok h1 /\
     deq_clear_mid P h1 (Some t) (d_front d) (d_fl d) (Z.to_nat (d_back d - 1 - d_front d)) = Ok (h2, f2) /\
     (if d_front d <? d_back d then
         c <-! tget h2 (Some t) (d_back d) ;;
         '(h', f') <-! fl_put h2 f2 c ;;
         h'' <-! kill_down P h' (Some t) (d_front d) (d_fsize d + 1) (Z.to_nat (B - (d_fsize d + 1))) ;;
         Ok (h'', f')
       else Ok (h2, f2)) = Ok (h3, f3) /\
     blocks P h3 t (d_slots d) (d_front d) [b0] (d_fsize d + 1) [] f3 frees3 /\
     upd (frees ++ ids) (rts (d_fl d) t) h (frees3 ++ [b0]) (rts f3 t) h3) as (h1 & h2 & f2 & h3 & f3 & b0 & frees3 & E1 & E2 & E3 & Hbk3 & U3).
  { destruct (Z.ltb_spec (d_front d) (d_back d)) as [Hlt|Hge].
    - destruct (ids_last ids) as (ids' & bk & ->); [lia|]. rewrite zlen_app in *. change (zlen [bk]) with 1 in *.
      destruct ids' as [|b0 mids]; [change (zlen []) with 0 in *; lia|]. rewrite zlen_cons in *. pose proof (zlen_nonneg mids).
      destruct (take_split xs (zlen xs - d_bsize d)) as (ys & zs & -> & Hys & Hzs); [nia|].
      assert (Hlk : ((b0 :: mids) ++ [bk]) !! S (length mids) = Some bk) by (apply list_lookup_middle; reflexivity).
      destruct (bk_kill_down P HP h t _ _ _ _ ys zs (d_fl d) frees (S (length mids)) bk 0 (Z.to_nat (d_bsize d)) Hbk Hlk) as (h1 & E1 & Hbk1 & U1); try (unfold zlen in *; nia).
      replace (d_front d + Z.of_nat (S (length mids))) with (d_back d) in E1 by (unfold zlen in *; lia).
      destruct (bk_aside h1 t _ _ (b0 :: mids) _ ys _ frees bk Hbk1) as (Hbk1' & He1 & Hn1 & Hlt1 & Hg1); [rewrite zlen_cons; nia|].
      rewrite zlen_cons in Hg1. replace (d_front d + (1 + zlen mids)) with (d_back d) in Hg1 by lia.
      destruct (clear_mid_ok (length mids) h1 t _ _ b0 mids bk (d_back d) (d_fsize d + 1) ys _ frees Hbk1') as
        (h2 & f2 & xs2 & frees2 & E2 & Hbk2 & Hz2 & U2 & Hg2 & Hn2'); try assumption; try lia; try (unfold zlen in *; nia).
      replace (length mids) with (Z.to_nat (d_back d - 1 - d_front d)) in E2 by (unfold zlen in *; lia).
      assert (Hb2 : empty_block h2 bk).
      { destruct He1 as [A1 A2]. destruct (u_bsame _ _ _ _ _ _ U2 bk Hn1 Hlt1) as [S1 S2]. split; [tauto|]. intros j. rewrite S2. apply A2. }
      assert (Hx2 : (bk < nx h2)%nat) by (pose proof (u_nx _ _ _ _ _ _ U2); lia).
      destruct (bk_put h2 t _ _ [b0] _ xs2 f2 frees2 bk Hbk2 Hb2 Hn2' Hx2) as (h3 & f3 & E3 & Hbk3 & U3).
      destruct (bk_kill_down P HP h3 t _ _ [b0] _ [] xs2 f3 (frees2 ++ [bk]) 0 b0 (d_fsize d + 1) (Z.to_nat (B - (d_fsize d + 1))) Hbk3 eq_refl) as (h4 & E4 & Hbk4 & U4);
        try lia; try (change (zlen []) with 0; lia).
      rewrite Z.add_0_r in E4.
      exists h1, h2, f2, h4, f3, b0, (frees2 ++ [bk]). split; [exact E1|]. split; [exact E2|]. split; [|split].
      + rewrite Hg2. cbn [obind]. rewrite E3. cbn [obind]. rewrite E4. reflexivity.
      + exact Hbk4.
      + eapply upd_trans; [exact U1|]. eapply upd_trans; [|eapply upd_trans; [exact U3|exact U4]].
        pose proof (upd_more _ _ _ _ _ _ bk U2 Hn1 Hlt1) as U2'. rewrite <- app_assoc in U2'. exact U2'.
    - assert (Hf : d_back d = d_front d) by lia. destruct ids as [|b0 [|b1 ids]]; [change (zlen []) with 0 in *; lia| |rewrite !zlen_cons in *; pose proof (zlen_nonneg ids); lia].
      change (zlen [b0]) with 1 in *.
      destruct (bk_kill_down P HP h t _ _ [b0] _ [] xs (d_fl d) frees 0 b0 (d_fsize d + 1) (Z.to_nat (zlen xs)) Hbk eq_refl) as (h1 & E1 & Hbk1 & U1);
        try lia; try (change (zlen []) with 0; lia).
      rewrite Z.add_0_r in E1. replace (Z.to_nat (d_back d - 1 - d_front d)) with O by lia. cbn [deq_clear_mid].
      exists h1, h1, (d_fl d), h1, (d_fl d), b0, frees. splits; try assumption. unfold e1. rewrite Hf.
      replace (Z.to_nat (d_bsize d)) with (Z.to_nat (zlen xs) + Z.to_nat (d_fsize d + 1))%nat by lia.
      rewrite (kill_down_split _ _ 0 (Z.to_nat (d_fsize d + 1)) (Z.to_nat (zlen xs)) h h1) by (replace (0 + Z.of_nat (Z.to_nat (d_fsize d + 1))) with (d_fsize d + 1) by lia; exact E1).
      destruct Hg as [Hg|[Hg|[Hg|Hg]]]; [lia| |lia|rewrite Hg; reflexivity].
      apply kill_down_dead with b0; [exact Hg|eapply bk_get with (i := 0%nat); [exact Hbk1|reflexivity|lia]| |lia|lia|].
      + eapply (ar_bl _ _ _ _ _ (bk_area _ _ _ _ _ _ _ _ _ _ Hbk1) 0%nat). reflexivity.
      + intros j Hj. rewrite (ar_el _ _ _ _ _ (bk_area _ _ _ _ _ _ _ _ _ _ Hbk1) 0%nat b0 j eq_refl). unfold sl. rewrite zl_nil. destruct (_ && _); reflexivity. }
  rewrite E1. unfold k1. cbn [obind]. rewrite E2. cbn [obind]. rewrite E3. cbn [obind].
  rewrite (bk_get P h3 t _ _ [b0] _ [] f3 frees3 0 b0 _ Hbk3) by (reflexivity || lia). cbn [obind].
  destruct (bk_seat h3 t _ _ b0 _ (B / 2 + 1) f3 frees3 (d_slots d / 2) Hbk3 Hn2) as (h4 & -> & Hbk4 & U4). cbn [obind].
  eexists h4, _, [b0], frees3. split; [reflexivity|]. splits.
  - right. exists t. unfold DeqProofs.dlive; cbn. change (zlen [b0]) with 1. change (zlen []) with 0. splits; try assumption; try lia; try nia.
  - unfold dts; cbn. rewrite Ed. eapply upd_trans; [exact U3|exact U4].
Qed.

(** ** Destruction *)
Lemma free_mid_ok k : forall h t slots front b0 mids off xs f frees,
  blocks P h t slots front (b0 :: mids) off xs f frees -> length mids = k -> 0 <= off <= B -> off + zlen xs = B * (Z.of_nat k + 1) ->
  exists h' xs', deq_free_mid P h (Some t) front k = Ok h' /\ blocks P h' t slots front [b0] off xs' f frees /\
    off + zlen xs' = B /\ upd (frees ++ b0 :: mids) (rts f t) h (frees ++ [b0]) (rts f t) h'.
Proof.
  pose proof (B_pos P HP) as HB.
  induction k as [|k IH]; intros h t slots front b0 mids off xs f frees Hbk Hl Ho Hz; cbn [deq_free_mid].
  - destruct mids; [|discriminate]. exists h, xs. splits; try assumption; try lia. apply upd_refl. apply Hbk.
  - destruct (ids_last mids) as (mids' & b & ->); [unfold zlen; lia|]. rewrite app_length in Hl; cbn in Hl.
    destruct (take_split xs (zlen xs - B)) as (ys & zs & -> & Hys & Hzs); [nia|].
    assert (Hlk : (b0 :: mids' ++ [b]) !! S k = Some b) by (cbn; apply list_lookup_middle; lia).
    destruct (bk_kill_down P HP h t slots front (b0 :: mids' ++ [b]) off ys zs f frees (S k) b 0 (Z.to_nat B) Hbk Hlk) as (h1 & E1 & Hbk1 & U1); try nia.
    rewrite E1; cbn [obind].
    rewrite (bk_get P h1 t slots front _ off _ f frees (S k) b _ Hbk1 Hlk) by lia. cbn [obind].
    change (b0 :: mids' ++ [b]) with ((b0 :: mids') ++ [b]) in *.
    destruct (bk_free_back P HP h1 t slots front (b0 :: mids') off ys f frees b Hbk1) as (h2 & -> & Hbk2 & U2); [rewrite zlen_cons; unfold zlen in *; nia|].
    cbn [obind].
    destruct (IH h2 t slots front b0 mids' off ys f frees Hbk2) as (h' & xs' & E & Hbk' & Hz' & U'); try assumption; try nia.
    rewrite E. exists h', xs'. splits; try assumption.
    eapply upd_trans; [exact U1|]. eapply upd_trans; [exact U2|exact U'].
Qed.

Lemma dfree_ok h d xs ids frees :
  dinv h d xs ids frees -> exists h', deq_free_all P h d = Ok h' /\ upd (frees ++ ids) (dts d) h [] [] h'.
Proof.
  intros Hd. pose proof (B_pos P HP) as HB. unfold deq_free_all.
  destruct Hd as [(-> & -> & -> & -> & Hok)|(t & Hl)].
  { cbn. exists h. splits. apply upd_refl. exact Hok. }
  pose proof (dlive_row P _ _ _ _ _ _ Hl) as [R1 R2]. destruct Hl as (Ed & Hbk & Hsz & Hi & Hn & Hfs & Hb & Hz & Hs). pose proof (zlen_nonneg xs).
  rewrite Ed. match goal with |- context[obind ?e _] => set (e1 := e) end.
  assert (exists h4, e1 = Ok h4 /\ blocks P h4 t (d_slots d) (d_front d) [] (d_fsize d + 1) [] (d_fl d) frees /\
            upd (frees ++ ids) (rts (d_fl d) t) h (frees ++ []) (rts (d_fl d) t) h4) as (h4 & -> & Hbk4 & U4).
  { unfold e1. destruct (Z.eqb_spec (d_back d) (d_front d)) as [Heq|Hneq].
    - destruct ids as [|b0 [|b1 ids]]; [change (zlen []) with 0 in *; lia| |rewrite !zlen_cons in *; pose proof (zlen_nonneg ids); lia].
      change (zlen [b0]) with 1 in *.
      destruct (bk_kill_down P HP h t _ _ [b0] _ [] xs (d_fl d) frees 0 b0 (d_fsize d + 1) (Z.to_nat (d_bsize d - (d_fsize d + 1))) Hbk eq_refl) as (h1 & E1 & Hbk1 & U1);
        try lia; try (change (zlen []) with 0; lia).
      rewrite Z.add_0_r in E1. rewrite Heq, E1. cbn [obind].
      rewrite (bk_get P h1 t _ _ [b0] _ [] _ frees 0 b0 _ Hbk1) by (reflexivity || lia). cbn [obind].
      destruct (bk_free_back P HP h1 t (d_slots d) (d_front d) [] 0 [] (d_fl d) frees b0) as (h2 & -> & Hbk2 & U2); [eapply bk_nil_off; exact Hbk1|unfold zlen; cbn; lia|].
      exists h2. splits; [eapply bk_nil_off; exact Hbk2|]. eapply upd_trans; [exact U1|exact U2].
    - destruct (ids_last ids) as (ids' & bk & ->); [lia|]. rewrite zlen_app in *. change (zlen [bk]) with 1 in *.
      destruct ids' as [|b0 mids]; [change (zlen []) with 0 in *; lia|]. rewrite zlen_cons in *. pose proof (zlen_nonneg mids).
      destruct (take_split xs (zlen xs - d_bsize d)) as (ys & zs & -> & Hys & Hzs); [nia|].
      assert (Hlk : ((b0 :: mids) ++ [bk]) !! S (length mids) = Some bk) by (apply list_lookup_middle; reflexivity).
      destruct (bk_kill_down P HP h t _ _ _ _ ys zs (d_fl d) frees (S (length mids)) bk 0 (Z.to_nat (d_bsize d)) Hbk Hlk) as (h1 & E1 & Hbk1 & U1); try (unfold zlen in *; nia).
      replace (d_front d + Z.of_nat (S (length mids))) with (d_back d) in E1 by (unfold zlen in *; lia). rewrite E1. cbn [obind].
      rewrite (bk_get P h1 t _ _ _ _ ys _ frees (S (length mids)) bk _ Hbk1 Hlk) by (unfold zlen in *; lia). cbn [obind].
      destruct (bk_free_back P HP h1 t _ _ (b0 :: mids) _ ys (d_fl d) frees bk Hbk1) as (h2 & -> & Hbk2 & U2); [rewrite zlen_cons; nia|]. cbn [obind].
      destruct (free_mid_ok (Z.to_nat (d_back d - 1 - d_front d)) h2 t _ _ b0 mids _ ys _ frees Hbk2) as (h3 & xs3 & -> & Hbk3 & Hz3 & U3); try (unfold zlen in *; nia).
      cbn [obind].
      destruct (bk_kill_down P HP h3 t _ _ [b0] _ [] xs3 (d_fl d) frees 0 b0 (d_fsize d + 1) (Z.to_nat (B - (d_fsize d + 1))) Hbk3 eq_refl) as (h4 & E4 & Hbk4 & U4);
        try lia; try (change (zlen []) with 0; lia).
      rewrite Z.add_0_r in E4. rewrite E4. cbn [obind].
      rewrite (bk_get P h4 t _ _ [b0] _ [] _ frees 0 b0 _ Hbk4) by (reflexivity || lia). cbn [obind].
      destruct (bk_free_back P HP h4 t (d_slots d) (d_front d) [] 0 [] (d_fl d) frees b0) as (h5 & -> & Hbk5 & U5); [eapply bk_nil_off; exact Hbk4|unfold zlen; cbn; lia|].
      exists h5. splits; [eapply bk_nil_off; exact Hbk5|]. eapply upd_trans; [exact U1|]. eapply upd_trans; [exact U2|]. eapply upd_trans; [exact U3|].
      eapply upd_trans; [exact U4|exact U5]. }
  cbn [obind]. destruct (bk_release P HP h4 t _ _ _ (d_fl d) frees Hbk4) as (h5 & h6 & h7 & -> & E6 & E7 & U7). cbn [obind]. rewrite E6. cbn [obind].
  exists h7. split; [exact E7|]. rewrite (dts_live _ _ Ed). eapply upd_trans; [exact U4|exact U7].
Qed.

(** ** Construction *)
Lemma bk_alloc_back h t slots lo ids off xs k :
  blocks P h t slots lo ids off xs flist0 [] -> off + zlen xs <= B * zlen ids -> k = lo + zlen ids -> k < slots ->
  exists h1 b h2, balloc h = (h1, Some b) /\ tset h1 (Some t) k (Some b) = Ok h2 /\ blocks P h2 t slots lo (ids ++ [b]) off xs flist0 [] /\
    upd ids [t] h (ids ++ [b]) [t] h2.
Proof.
  intros Hbk Hl Hk Hs.
  destruct (bk_add_back P HP h t slots lo ids off xs flist0 [] k Hbk Hl Hk Hs) as (h1 & f' & b & h2 & frees' & E1 & E2 & Hbk2 & Et & U2).
  unfold fl_get in E1; cbn [flist0 f_idx Z.eqb] in E1. destruct (balloc h) as [h1' c] eqn:Eb. injection E1 as -> <- ->.
  assert (frees' = []) as ->.
  { pose proof (bk_free _ _ _ _ _ _ _ _ _ _ Hbk2) as F. destruct F as (F & _). cbn in F. apply zlen_0. unfold zlen in *; lia. }
  exists h1, b, h2. splits; assumption.
Qed.

Lemma full_blocks_ok k : forall h t slots lo ids off xs i x,
  blocks P h t slots lo ids off xs flist0 [] -> off + zlen xs = B * zlen ids -> i = lo + zlen ids -> lo + zlen ids + Z.of_nat k <= slots ->
  exists h' ids', full_blocks P h (Some t) i k x = Ok h' /\ blocks P h' t slots lo ids' off (xs ++ replicate (k * Z.to_nat B) x) flist0 [] /\
    zlen ids' = zlen ids + Z.of_nat k /\ upd ids [t] h ids' [t] h'.
Proof.
  pose proof (B_pos P HP) as HB.
  induction k as [|k IH]; intros h t slots lo ids off xs i x Hbk Hz Hi Hs; cbn [full_blocks].
  - exists h, ids. cbn. rewrite app_nil_r. splits; try assumption; try lia. apply upd_refl. apply (bk_ok _ _ _ _ _ _ _ _ _ _ Hbk).
  - destruct (bk_alloc_back h t slots lo ids off xs i Hbk) as (h1 & b & h2 & -> & E2 & Hbk2 & U2); try lia. rewrite E2. cbn [obind].
    assert (Hlk : (ids ++ [b]) !! length ids = Some b) by (apply list_lookup_middle; reflexivity).
    destruct (bk_make_up P HP h2 t slots lo (ids ++ [b]) off xs flist0 [] (length ids) b 0 (Z.to_nat B) x Hbk2 Hlk) as (h3 & E3 & Hbk3 & U3);
      try (unfold zlen in *; lia).
    replace (lo + Z.of_nat (length ids)) with i in E3 by (unfold zlen in *; lia). rewrite E3. cbn [obind].
    destruct (IH h3 t slots lo (ids ++ [b]) off (xs ++ replicate (Z.to_nat B) x) (i + 1) x Hbk3) as (h4 & ids' & -> & Hbk4 & Hi4 & U4);
      try (rewrite ?zlen_app; change (zlen [b]) with 1; unfold zlen in *; rewrite ?replicate_length; lia).
    exists h4, ids'. splits.
    + rewrite <- app_assoc, <- replicate_add in Hbk4. exact Hbk4.
    + rewrite Hi4, zlen_app. change (zlen [b]) with 1. lia.
    + eapply upd_trans; [exact U2|]. eapply upd_trans; [exact U3|exact U4].
Qed.

Lemma dlayout_ok n :
  0 < n -> let slots := Z.max (Z.shiftr n (expo P) + 2) 64 in
  let '(front, back, fs, bs) := deq_layout P n slots in
  0 <= front <= back /\ back < slots /\ -1 <= fs < B /\ 0 <= bs <= B /\ n = (back - front) * B + bs - (fs + 1).
Proof.
  intros Hn slots. pose proof (B_pos P HP) as HB. unfold deq_layout, half_limit, slots. rewrite shiftr_bsz by assumption.
  pose proof (Z.div_pos n B ltac:(lia) HB). pose proof (Z.mod_pos_bound n B HB). pose proof (Z.div_mod n B ltac:(lia)).
  pose proof (Z.div_mod n 2 ltac:(lia)). pose proof (Z.mod_pos_bound n 2 ltac:(lia)).
  pose proof (Z.div_mod B 2 ltac:(lia)). pose proof (Z.mod_pos_bound B 2 ltac:(lia)).
  assert (Hpow : B = 1 \/ B mod 2 = 0).
  { rewrite (bsz_pow P HP). destruct (Z.eq_dec (expo P) 0) as [->|Hne]; [left; reflexivity|right].
    replace (expo P) with (Z.succ (expo P - 1)) by lia. rewrite Z.pow_succ_r by lia. rewrite Z.mul_comm. apply Z.mod_mul. lia. }
  destruct (Z.ltb_spec 0 (n / B)) as [Hb|Hb].
  - destruct (Z.eqb_spec (n / B + 1) 0); [lia|]. destruct (Z.eqb_spec (n / B + 1) 1); [lia|].
    replace (n - n / B * B) with (n mod B) by lia.
    pose proof (Z.div_mod (n mod B) 2 ltac:(lia)). pose proof (Z.mod_pos_bound (n mod B) 2 ltac:(lia)).
    set (q := n / B) in *. set (s := Z.max (q + 2) 64) in *.
    pose proof (Z.div_mod (s - (q + 1)) 2 ltac:(lia)). pose proof (Z.mod_pos_bound (s - (q + 1)) 2 ltac:(lia)).
    set (m := n mod B) in *. splits; try lia.
  - assert (Hq : n / B = 0) by lia. rewrite Hq in *. destruct (Z.ltb_spec ((B / 2 - 2) mod 4294967296) n) as [Hh|Hh].
    + change (1 =? 0) with false. change (1 =? 1) with true. cbn iota. splits; try lia.
    + change (0 =? 0) with true. cbn iota.
      assert (n <= B / 2 - 2 \/ (B = 2 /\ n = 1)).
      { destruct Hpow as [Hp|Hp]; [exfalso; rewrite Hp in *; lia|].
        destruct (Z.lt_ge_cases (B / 2 - 2) 0); [right; lia|left]. rewrite <- (Z.mod_le (B / 2 - 2) 4294967296); lia. }
      splits; try lia.
Qed.

Lemma dsized_ok h n x :
  hok [] [] h -> 0 < n ->
  exists h' d ids, deq_sized P h n x = Ok (h', d) /\ dinv h' d (replicate (Z.to_nat n) x) ids [] /\ upd [] [] h ids (dts d) h'.
Proof.
  intros Hok Hn. pose proof (B_pos P HP) as HB. unfold deq_sized. pose proof (dlayout_ok n Hn) as HL. cbv zeta in HL.
  set (slots := Z.max (Z.shiftr n (expo P) + 2) 64) in *. assert (Hslots : 64 <= slots) by lia. clearbody slots.
  destruct (talloc h slots) as [h1 t0] eqn:Ea. destruct (Z.eqb_spec n 0); [lia|].
  destruct (deq_layout P n slots) as [[[front back] fs] bs]. destruct HL as (L1 & L2 & L3 & L4 & L5).
  destruct (bk_fresh P h slots front h1 t0 Hok ltac:(lia) Ea) as (t & -> & Hbk & U).
  destruct (bk_alloc_back h1 t slots front [] 0 [] front Hbk) as (h2 & b0 & h3 & -> & E3 & Hbk3 & U3); try (change (zlen []) with 0; lia).
  rewrite E3. cbn [obind app] in *. apply (bk_nil_off P _ _ _ _ _ _ (fs + 1)) in Hbk3.
  set (k0 := Z.to_nat ((if front <? back then B else bs) - (fs + 1))).
  assert (Hk0 : Z.of_nat k0 = (if front <? back then B else bs) - (fs + 1)).
  { unfold k0. destruct (Z.ltb_spec front back); [lia|]. assert (back = front) by lia. subst back. lia. }
  destruct (bk_make_up P HP h3 t slots front [b0] (fs + 1) [] flist0 [] 0 b0 (fs + 1) k0 x Hbk3 eq_refl) as (h4 & E4 & Hbk4 & U4);
    [lia|rewrite Hk0; destruct (front <? back); lia|change (zlen []) with 0; lia|].
  rewrite Z.add_0_r in E4. rewrite E4. cbn [obind app] in *.
  destruct (Z.ltb_spec front back) as [Hlt|Hge].
  - destruct (full_blocks_ok (Z.to_nat (back - 1 - front)) h4 t slots front [b0] (fs + 1) (replicate k0 x) (front + 1) x Hbk4) as (h5 & ids & -> & Hbk5 & Hi5 & U5);
      try (change (zlen [b0]) with 1; unfold zlen; rewrite ?replicate_length; lia).
    cbn [obind]. change (zlen [b0]) with 1 in Hi5.
    assert (Hz5 : fs + 1 + zlen (replicate k0 x ++ replicate (Z.to_nat (back - 1 - front) * Z.to_nat B) x) = B * zlen ids).
    { unfold zlen in *. rewrite app_length, !replicate_length, Nat2Z.inj_add, Nat2Z.inj_mul. lia. }
    destruct (bk_alloc_back h5 t slots front ids (fs + 1) _ back Hbk5) as (h6 & b & h7 & -> & E7 & Hbk7 & U7); try lia.
    rewrite E7. cbn [obind].
    assert (Hlk : (ids ++ [b]) !! length ids = Some b) by (apply list_lookup_middle; reflexivity).
    destruct (bk_make_up P HP h7 t slots front (ids ++ [b]) (fs + 1) _ flist0 [] (length ids) b 0 (Z.to_nat bs) x Hbk7 Hlk) as (h8 & E8 & Hbk8 & U8);
      try (unfold zlen in *; lia).
    replace (front + Z.of_nat (length ids)) with back in E8 by (unfold zlen in *; lia). rewrite E8. cbn [obind].
    rewrite <- !replicate_add in Hbk8.
    assert (Hcnt : (k0 + Z.to_nat (back - 1 - front) * Z.to_nat B + Z.to_nat bs)%nat = Z.to_nat n).
    { apply Nat2Z.inj. rewrite !Nat2Z.inj_add, Nat2Z.inj_mul, Hk0. rewrite !Z2Nat.id by lia. lia. }
    rewrite Hcnt in Hbk8. eexists h8, _, (ids ++ [b]). split; [reflexivity|]. splits.
    + right. exists t. unfold DeqProofs.dlive; cbn. rewrite zlen_app. change (zlen [b]) with 1.
      assert (zlen (replicate (Z.to_nat n) x) = n) as -> by (unfold zlen; rewrite replicate_length; lia). rewrite Hi5. splits; try assumption; try lia.
    + unfold dts; cbn. eapply upd_trans; [exact U|]. eapply upd_trans; [exact U3|]. eapply upd_trans; [exact U4|]. eapply upd_trans; [exact U5|].
      eapply upd_trans; [exact U7|exact U8].
  - assert (back = front) by lia. subst back. replace (Z.to_nat (front - 1 - front)) with O by lia. cbn [full_blocks obind].
    assert (Hcnt : k0 = Z.to_nat n) by lia. rewrite Hcnt in Hbk4. eexists h4, _, [b0]. split; [reflexivity|]. splits.
    + right. exists t. unfold DeqProofs.dlive; cbn. change (zlen [b0]) with 1.
      assert (zlen (replicate (Z.to_nat n) x) = n) as -> by (unfold zlen; rewrite replicate_length; lia). splits; try assumption; try lia.
    + unfold dts; cbn. eapply upd_trans; [exact U|]. eapply upd_trans; [exact U3|exact U4].
Qed.

Lemma dinv_frame h h' d xs ids frees :
  dinv h d xs ids frees -> (forall b, b ∈ frees ++ ids -> sameb b h h') -> (forall u, u ∈ dts d -> tb h' !! u = tb h !! u) ->
  hok (frees ++ ids) (dts d) h' -> dinv h' d xs ids frees.
Proof.
  intros [(-> & -> & -> & -> & H)|(t & E & Hb & Hr)] Hs Ht Hok; [left; auto|]. right. exists t. split; [exact E|]. split; [|exact Hr].
  rewrite (dts_live _ _ E) in *. eapply bk_frame; eassumption.
Qed.

Lemma dcopy_ok h d xs ids frees :
  expo P <= 30 -> dinv h d xs ids frees -> d_data d <> None -> ~ dfull d ->
  exists h' d' ids' frees', deq_copy P h d = Ok (h', d') /\ dinv h' d' xs ids' frees' /\ upd [] [] h (frees' ++ ids') (dts d') h'.
Proof.
  intros HN Hd Hnn Hf. pose proof (B_pos P HP) as HB. pose proof (dinv_hok _ _ _ _ _ _ Hd) as Hok0.
  assert (Hok : hok [] [] h) by (eapply hok_eqv; [exact Hok0|intros b Hb; inversion Hb|intros b Hb; inversion Hb]).
  unfold deq_copy. pose proof Hd as Hd0. destruct Hd as [(-> & _)|(t & Hl)]; [cbn in Hnn; congruence|].
  pose proof (dlive_row P _ _ _ _ _ _ Hl) as [R1 R2]. destruct Hl as (Ed & Hbk & Hsz & Hi & Hn & Hfs & Hb & Hz & Hs).
  replace (Z.max (d_slots d) 64) with (d_slots d) by lia. destruct (talloc h (d_slots d)) as [h1 t0] eqn:Ea. rewrite Ed.
  destruct (bk_fresh P h (d_slots d) (d_front d) h1 t0 Hok ltac:(lia) Ea) as (u & -> & Hbk1 & U1).
  destruct (bk_alloc_back h1 u (d_slots d) (d_front d) [] 0 [] (d_front d) Hbk1) as (h2 & b & h3 & E2 & E3 & Hbk3 & U3); try (change (zlen []) with 0; lia).
  change (fl_get h1 flist0) with (let '(h', c) := balloc h1 in Ok (h', flist0, c)). rewrite E2. cbn [obind]. rewrite E3. cbn [obind].
  assert (U : upd [] [] h [b] [u] h3) by (eapply upd_trans; [exact U1|exact U3]).
  assert (Hd3 : dinv h3 d xs ids frees).
  { destruct Hok0 as (K1 & K2 & K3). eapply dinv_frame; [exact Hd0| | |].
    - intros b' Hb'. eapply u_bsame; [exact U|apply not_elem_of_nil|auto].
    - intros b' Hb'. eapply u_tsame; [exact U|apply not_elem_of_nil|auto].
    - pose proof (u_nx _ _ _ _ _ _ U). unfold hok; splits.
      + apply (bk_ok _ _ _ _ _ _ _ _ _ _ Hbk3).
      + intros b' Hb'. specialize (K2 b' Hb'). lia.
      + intros b' Hb'. specialize (K3 b' Hb'). lia. }
  rewrite (dwalk_ok h3 d xs ids frees HN Hd3 Hf). cbn [obind].
  assert (Hd4 : dinv h3 (Deq 0 (Some u) (d_slots d) (d_front d) (d_front d) (d_fsize d + 1) (d_fsize d) flist0) [] [b] []).
  { right. exists u. unfold DeqProofs.dlive; cbn. change (zlen [b]) with 1. change (zlen []) with 0. splits; try lia. eapply bk_nil_off. exact Hbk3. }
  destruct (dassign_ok h3 _ [] xs [b] [] HN Hd4) as (h' & d' & ids' & frees' & E & Hd' & U' & _); [congruence|].
  rewrite E. exists h', d', ids', frees'. splits; try assumption. eapply upd_trans; [exact U|exact U'].
Qed.

End deq.
