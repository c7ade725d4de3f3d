(** StableBlockVector: construction, iteration, copying, and programs over several vectors. *)
From stdpp Require Import gmap.
From Verif Require Import Base BlkHeap BlkProofs BlkMore BlkRun BlkIter BlkIterProofs BlkWorld VecModel VecSpec VecProofs.

Section vec.
Context {V : Type}.
Variable P : params.
Hypothesis HP : 0 <= expo P.
Notation B := (bsz P).
Implicit Types (h : bheap V) (v : vec) (ids frees : list nat) (xs : list V).
Notation vinv := (vinv P).

Lemma vinv_frame h h' v xs ids frees :
  vinv h v xs ids frees -> (forall b, b ∈ frees ++ ids -> sameb b h h') -> (forall u, u ∈ vts v -> tb h' !! u = tb h !! u) ->
  hok (frees ++ ids) (vts v) h' -> vinv h' v xs ids frees.
Proof.
  intros [(-> & -> & -> & -> & H)|(t & E & Hb & Hr)] Hs Ht Hok; [left; auto|]. right. exists t. split; [exact E|]. split; [|exact Hr].
  rewrite (vts_live _ _ E) in *. eapply bk_frame; eassumption.
Qed.

(** ** Construction *)
Lemma fill_ok k : forall h t slots ids xs last r x,
  blocks P h t slots 0 ids 0 xs flist0 [] -> zlen xs = zlen ids * B -> last = zlen ids + Z.of_nat k - 1 -> zlen ids + Z.of_nat k <= slots ->
  0 <= r < B -> (0 < k)%nat ->
  exists h' ids', fill_blocks P h (Some t) (zlen ids) k last r x = Ok h' /\
    blocks P h' t slots 0 ids' 0 (xs ++ replicate (Z.to_nat ((last - zlen ids) * B + r)) x) flist0 [] /\ zlen ids' = last + 1 /\
    upd ids [t] h ids' [t] h'.
Proof.
  pose proof (B_pos P HP) as HB.
  induction k as [|k IH]; intros h t slots ids xs last r x Hbk Hz Hlast Hs Hr Hk; [lia|]. cbn [fill_blocks].
  destruct (bk_add_back P HP h t slots 0 ids 0 xs flist0 [] (zlen ids) Hbk) as (h1 & f' & b & h2 & frees' & E1 & E2 & Hbk2 & Et & U2); try lia.
  unfold fl_get in E1; cbn [flist0 f_idx Z.eqb] in E1. destruct (balloc h) as [h1' c] eqn:Eb. injection E1 as -> <- ->.
  assert (frees' = []) as ->.
  { pose proof (bk_free _ _ _ _ _ _ _ _ _ _ Hbk2) as F. unfold finv in F. destruct F as (F & _). cbn in F. apply zlen_0. unfold zlen in *; lia. }
  rewrite E2. cbn [obind]. cbn [app] in *. unfold rts in U2; cbn [flist0 f_tab otl app] in U2.
  assert (Hlk : (ids ++ [b]) !! length ids = Some b) by (apply list_lookup_middle; reflexivity).
  destruct (Z.ltb_spec (zlen ids) last) as [Hlt|Hge].
  - destruct (bk_make_up P HP h2 t slots 0 (ids ++ [b]) 0 xs flist0 [] (length ids) b 0 (Z.to_nat B) x Hbk2 Hlk) as (h3 & E3 & Hbk3 & U3);
      try (unfold zlen in *; lia).
    rewrite Z.add_0_l in E3. fold (zlen ids) in E3. rewrite E3. cbn [obind].
    replace (zlen ids + 1) with (zlen (ids ++ [b])) by (rewrite zlen_app; reflexivity).
    destruct (IH h3 t slots (ids ++ [b]) (xs ++ replicate (Z.to_nat B) x) last r x Hbk3) as (h4 & ids' & E4 & Hbk4 & Hi4 & U4);
      try (rewrite ?zlen_app; unfold zlen in *; cbn; rewrite ?replicate_length; lia).
    exists h4, ids'. splits; try assumption.
    + rewrite <- app_assoc, <- replicate_add in Hbk4.
      replace (Z.to_nat B + Z.to_nat ((last - zlen (ids ++ [b])) * B + r))%nat with (Z.to_nat ((last - zlen ids) * B + r)) in Hbk4; [exact Hbk4|].
      rewrite zlen_app. change (zlen [b]) with 1. nia.
    + eapply upd_trans; [exact U2|]. eapply upd_trans; [exact U3|exact U4].
  - assert (k = O) as -> by lia. cbn [fill_blocks].
    destruct (bk_make_up P HP h2 t slots 0 (ids ++ [b]) 0 xs flist0 [] (length ids) b 0 (Z.to_nat r) x Hbk2 Hlk) as (h3 & E3 & Hbk3 & U3);
      try (unfold zlen in *; lia).
    rewrite Z.add_0_l in E3. fold (zlen ids) in E3. rewrite E3. cbn [obind].
    exists h3, (ids ++ [b]). splits.
    + replace (Z.to_nat ((last - zlen ids) * B + r)) with (Z.to_nat r) by nia. exact Hbk3.
    + rewrite zlen_app. change (zlen [b]) with 1. lia.
    + eapply upd_trans; [exact U2|exact U3].
Qed.

Lemma vsized_ok h n x :
  hok [] [] h -> 0 <= n ->
  exists h' v ids, vec_sized P h n x = Ok (h', v) /\ vinv h' v (replicate (Z.to_nat n) x) ids [] /\ ~ phantom v /\
    upd [] [] h ids (vts v) h'.
Proof.
  intros Hok Hn. pose proof (B_pos P HP) as HB. unfold vec_sized. rewrite shiftr_bsz, land_bsz by assumption.
  pose proof (Z.div_pos n B Hn HB). pose proof (Z.mod_pos_bound n B HB). pose proof (Z.div_mod n B ltac:(lia)).
  destruct (talloc h (Z.max (n / B + 1) 64)) as [h1 t0] eqn:Ea.
  destruct (bk_fresh P h (Z.max (n / B + 1) 64) 0 h1 t0 Hok ltac:(lia) Ea) as (t & -> & Hbk & U).
  assert (exists h2 ids, (if n =? 0 then let '(h', c) := balloc h1 in tset h' (Some t) 0 c
            else fill_blocks P h1 (Some t) 0 (Z.to_nat (n / B + 1)) (n / B) (n mod B) x) = Ok h2 /\
            blocks P h2 t (Z.max (n / B + 1) 64) 0 ids 0 (replicate (Z.to_nat n) x) flist0 [] /\ zlen ids = n / B + 1 /\
            upd [] [t] h1 ids [t] h2) as (h2 & ids & -> & Hbk2 & Hi & U2).
  { destruct (Z.eqb_spec n 0) as [->|Hne].
    - destruct (bk_add_back P HP h1 t (Z.max (0 / B + 1) 64) 0 [] 0 [] flist0 [] 0 Hbk) as (h2 & f' & b & h3 & frees' & E1 & E2 & Hbk2 & Et & U2);
        try (unfold zlen; cbn; lia).
      unfold fl_get in E1; cbn [flist0 f_idx Z.eqb] in E1. destruct (balloc h1) as [h2' c] eqn:Eb. injection E1 as -> <- ->.
      assert (frees' = []) as ->.
      { pose proof (bk_free _ _ _ _ _ _ _ _ _ _ Hbk2) as F. destruct F as (F & _). cbn in F. apply zlen_0. unfold zlen in *; lia. }
      exists h3, [b]. splits; try assumption.
    - destruct (fill_ok (Z.to_nat (n / B + 1)) h1 t (Z.max (n / B + 1) 64) [] [] (n / B) (n mod B) x Hbk) as (h2 & ids & E & Hbk2 & Hi & U2);
        try (unfold zlen; cbn; lia).
      exists h2, ids. splits; try assumption. cbn [app] in Hbk2.
      replace (Z.to_nat ((n / B - zlen []) * B + n mod B)) with (Z.to_nat n) in Hbk2; [exact Hbk2|]. unfold zlen; cbn. nia. }
  cbn [obind]. eexists h2, _, ids. split; [reflexivity|]. splits.
  - right. exists t. unfold vlive; cbn. unfold zlen in *. rewrite replicate_length. splits; try assumption; try nia.
  - intros [_ Hp]. cbn in Hp. lia.
  - eapply upd_trans; [exact U|exact U2].
Qed.

(** ** Iterators *)

(** The table of pointers has no entry left and its last block is full: end() then reads past the table. *)
Definition vfull v : Prop := v_data v <> None /\ v_bsize v = B /\ v_idx v + 1 = v_slots v.

Lemma vlive_idx h v t xs ids frees : vlive P h v t xs ids frees -> -1 <= v_idx v < v_slots v.
Proof.
  intros (Ed & Hbk & Hsz & Hi & Hb & Hz & Hs). pose proof (row_lo_nonneg _ _ _ _ _ (bk_row _ _ _ _ _ _ _ _ _ _ Hbk)).
  pose proof (zlen_nonneg ids). lia.
Qed.

Lemma vend_pos h v t xs ids frees : vlive P h v t xs ids frees -> 
  vec_end P h v = it_new h (Some t) (zlen xs / B) (zlen xs mod B).
Proof.
  intros Hl. pose proof (B_pos P HP) as HB. destruct Hl as (Ed & Hbk & Hsz & Hi & Hb & Hz & Hs). unfold vec_end. rewrite Ed.
  destruct (Z.eqb_spec (v_bsize v) B) as [E|Hne].
  - rewrite Hz, E. replace (v_idx v * B + B) with ((v_idx v + 1) * B) by lia. rewrite Z.div_mul, Z.mod_mul by lia. reflexivity.
  - rewrite Hz. rewrite Z.add_comm, Z.div_add, Z.mod_add, Z.div_small, Z.mod_small by lia. reflexivity.
Qed.

Lemma vend_entry h v t xs ids frees : vlive P h v t xs ids frees -> ~ vfull v -> entry h t (zlen xs / B).
Proof.
  intros Hl Hf. pose proof (B_pos P HP) as HB. pose proof (vlive_idx _ _ _ _ _ _ Hl) as Hx.
  destruct Hl as (Ed & Hbk & Hsz & Hi & Hb & Hz & Hs).
  eapply row_entry; [apply Hbk|]. pose proof (zlen_nonneg xs). split; [apply Z.div_pos; lia|].
  destruct (Z.eq_dec (v_bsize v) B) as [E|Hne].
  - rewrite Hz, E. replace (v_idx v * B + B) with ((v_idx v + 1) * B) by lia. rewrite Z.div_mul by lia.
    destruct (Z.eq_dec (v_idx v + 1) (v_slots v)) as [E'|]; [|lia]. exfalso. apply Hf. unfold vfull. splits; [congruence|assumption|assumption].
  - rewrite Hz, Z.add_comm, Z.div_add, Z.div_small by lia. lia.
Qed.

Lemma vend_ok h v t xs ids frees : vlive P h v t xs ids frees -> ~ vfull v ->
  exists it, vec_end P h v = Ok it /\ it_at P h t (zlen xs) it.
Proof.
  intros Hl Hf. rewrite (vend_pos _ _ _ _ _ _ Hl). destruct (it_at_ex P h t (zlen xs)) as [it Hit]; [eapply vend_entry; eassumption|].
  exists it. auto.
Qed.

Lemma vbegin_ok h v t xs ids frees : vlive P h v t xs ids frees -> ~ vfull v ->
  exists it, vec_begin P h v = Ok it /\ it_at P h t 0 it.
Proof.
  intros Hl Hf. pose proof (B_pos P HP) as HB. unfold vec_begin. assert (Hsz : v_size v = zlen xs) by apply Hl.
  rewrite Hsz. destruct (Z.eqb_spec (zlen xs) 0) as [E|Hne].
  - destruct (vend_ok _ _ _ _ _ _ Hl Hf) as (it & E1 & E2). rewrite E in E2. eauto.
  - destruct Hl as (Ed & Hbk & _ & Hi & Hb & Hz & Hs). rewrite Ed.
    destruct (it_at_ex P h t 0) as [it Hit].
    { eapply row_entry; [apply Hbk|]. rewrite Z.div_0_l by lia. lia. }
    exists it. split; [|exact Hit]. unfold it_at in Hit. rewrite Z.div_0_l, Z.mod_0_l in Hit by lia. exact Hit.
Qed.

Lemma vlen_ids h v t xs ids frees : vlive P h v t xs ids frees -> 0 + zlen xs <= B * zlen ids.
Proof. intros (Ed & Hbk & Hsz & Hi & Hb & Hz & Hs). pose proof (B_pos P HP). nia. Qed.

Lemma vwalk_ok h v xs ids frees : expo P <= 30 -> vinv h v xs ids frees -> ~ vfull v -> vec_walk P h v = Ok xs.
Proof.
  intros HN [(-> & -> & _)|(t & Hl)] Hf.
  - unfold vec_walk, vec_begin, vec_end; cbn. rewrite Z.eqb_refl. cbn. reflexivity.
  - unfold vec_walk. destruct (vbegin_ok _ _ _ _ _ _ Hl Hf) as (it & -> & Hit). destruct (vend_ok _ _ _ _ _ _ Hl Hf) as (last & -> & Hlast).
    cbn [obind]. pose proof (vend_entry _ _ _ _ _ _ Hl Hf) as He. pose proof (vlen_ids _ _ _ _ _ _ Hl) as Hz.
    destruct Hl as (Ed & Hbk & Hsz & _). rewrite Hsz. unfold zlen at 1. rewrite Nat2Z.id.
    assert (HBm : B < 2147483648).
    { unfold bsz. rewrite Z.shiftl_mul_pow2 by assumption. pose proof (Z.pow_le_mono_r 2 (expo P) 30 ltac:(lia) HN) as Hp.
      change (2 ^ 30) with 1073741824 in Hp. lia. }
    rewrite (it_walk_ok P HP h t (v_slots v) 0 ids 0 xs (v_fl v) frees Hbk ltac:(lia) Hz HBm He (length xs) 0 it last); try assumption; try reflexivity.
Qed.

(** ** One call *)
Definition vguard v (o : vop V) : Prop :=
  match o with VClear => ~ phantom v | VWalk => ~ vfull v | _ => True end.

Lemma vshrink_ok h v xs ids frees :
  vinv h v xs ids frees ->
  exists h' f, fl_shrink h (v_fl v) = Ok (h', f) /\
    vinv h' (Vec (v_size v) (v_data v) (v_slots v) (v_idx v) (v_bsize v) f) xs ids [] /\
    upd (frees ++ ids) (vts v) h ([] ++ ids) (vts (Vec (v_size v) (v_data v) (v_slots v) (v_idx v) (v_bsize v) f)) h'.
Proof.
  intros [(-> & -> & -> & -> & H)|(t & Ed & Hbk & Hr)].
  - exists h, flist0. splits; [left; auto|]. apply upd_refl. exact H.
  - destruct (bk_shrink P HP h t (v_slots v) 0 ids 0 xs (v_fl v) frees Hbk) as (h' & f & E & Hbk' & U). exists h', f. splits; try assumption.
    + right. exists t. unfold vlive. cbn [v_data v_slots v_fl v_size v_idx v_bsize]. tauto.
    + unfold vts; cbn. rewrite Ed. exact U.
Qed.

Lemma vstep_ok h v xs ids frees o :
  expo P <= 30 -> vinv h v xs ids frees -> seq_legal xs o -> vguard v o ->
  exists h' v' r xs' ids' frees', vec_step P h v o = Ok (h', v', r) /\ seq_step xs o r xs' /\ vinv h' v' xs' ids' frees' /\
    upd (frees ++ ids) (vts v) h (frees' ++ ids') (vts v') h' /\ (phantom v' -> phantom v) /\
    (mono ids ids' \/ mono ids' ids \/ xs' = []).
Proof.
  intros HN Hv Hl Hg. assert (Hsame : upd (frees ++ ids) (vts v) h (frees ++ ids) (vts v) h).
  { apply upd_refl. eapply vinv_hok; eassumption. }
  pose proof (vinv_size _ _ _ _ _ _ Hv) as Hsz. pose proof (mono_refl ids) as Hrefl.
  destruct o as [x| | | |ys|n x|n|n| | | | |]; cbn [vec_step seq_legal vguard] in *.
  - destruct (vpush_ok P HP h v xs ids frees x Hv) as (h' & v' & ids' & frees' & -> & Hv' & Hp & U & M). cbn [obind].
    eexists h', v', _, _, ids', frees'. split; [reflexivity|]; split; [constructor|]; splits; try eassumption; try tauto.
  - destruct xs as [|x xs' _] using rev_ind.
    + rewrite (vpop_empty P h v ids frees Hv). cbn [obind]. eexists h, v, _, _, ids, frees. split; [reflexivity|]; split; [constructor|]; splits; try eassumption; try tauto.
    + destruct (vpop_ok P HP h v xs' x ids frees Hv) as (h' & v' & ids' & frees' & -> & Hv' & Hp & U & M). cbn [obind].
      eexists h', v', _, _, ids', frees'. split; [reflexivity|]; split; [constructor|]; splits; try eassumption; try tauto.
  - destruct (vclear_ok P HP h v xs ids frees Hv Hg) as (h' & v' & ids' & frees' & -> & Hv' & Hp & U). cbn [obind].
    eexists h', v', _, _, ids', frees'. split; [reflexivity|]; split; [constructor|]; splits; try eassumption; try tauto.
  - destruct (vshrink_ok h v xs ids frees Hv) as (h' & f & -> & Hv' & U). cbn [obind].
    eexists h', _, _, _, ids, []. split; [reflexivity|]; split; [constructor|]; splits; try eassumption; try tauto.
  - destruct (vassign_ok P HP ys h v [] xs ids frees Hv) as (h' & v' & ids' & frees' & E & Hv' & Hp & U & M).
    change (zlen []) with 0 in E. rewrite E. cbn [obind app] in *.
    eexists h', v', _, _, ids', frees'. split; [reflexivity|]; split; [constructor|]; splits; try eassumption; try tauto.
  - destruct (vset_ok P HP h v xs ids frees (Z.to_nat n) x Hv) as (h' & E & Hv' & U); [unfold zlen in Hl; lia|].
    rewrite Z2Nat.id in E by lia. rewrite E. cbn [obind].
    eexists h', v, _, _, ids, frees. split; [reflexivity|]. split; [|splits; try eassumption; try tauto].
    replace n with (Z.of_nat (Z.to_nat n)) at 1 by lia. constructor. unfold zlen in Hl; lia.
  - destruct (lookup_lt_is_Some_2 xs (Z.to_nat n)) as [x Hx]; [unfold zlen in Hl; lia|].
    pose proof (vget_ok P HP h v xs ids frees (Z.to_nat n) x Hv Hx) as E. rewrite Z2Nat.id in E by lia. rewrite E. cbn [obind].
    eexists h, v, _, _, ids, frees. split; [reflexivity|]. split; [|splits; try eassumption; try tauto].
    replace n with (Z.of_nat (Z.to_nat n)) at 1 by lia. constructor. exact Hx.
  - rewrite Hsz. destruct (Z.leb_spec (zlen xs) n).
    + eexists h, v, _, _, ids, frees. split; [reflexivity|]. split; [|splits; try eassumption; try tauto]. constructor. lia.
    + destruct (lookup_lt_is_Some_2 xs (Z.to_nat n)) as [x Hx]; [unfold zlen in *; lia|].
      pose proof (vget_ok P HP h v xs ids frees (Z.to_nat n) x Hv Hx) as E. rewrite Z2Nat.id in E by lia. rewrite E. cbn [obind].
      eexists h, v, _, _, ids, frees. split; [reflexivity|]. split; [|splits; try eassumption; try tauto].
      replace n with (Z.of_nat (Z.to_nat n)) at 1 by lia. constructor. exact Hx.
  - destruct xs as [|x xs' _] using rev_ind; [congruence|]. rewrite (vback_ok P HP h v xs' x ids frees Hv). cbn [obind].
    eexists h, v, _, _, ids, frees. split; [reflexivity|]; split; [constructor|]; splits; try eassumption; try tauto.
  - destruct xs as [|x xs']; [congruence|]. rewrite (vfront_ok P HP h v x xs' ids frees Hv). cbn [obind].
    eexists h, v, _, _, ids, frees. split; [reflexivity|]; split; [constructor|]; splits; try eassumption; try tauto.
  - rewrite Hsz. eexists h, v, _, _, ids, frees. split; [reflexivity|]; split; [constructor|]; splits; try eassumption; try tauto.
  - rewrite Hsz. eexists h, v, _, _, ids, frees. split; [reflexivity|]. split; [|splits; try eassumption; try tauto].
    replace (zlen xs =? 0) with (match xs with [] => true | _ => false end); [constructor|].
    destruct xs; [reflexivity|]. rewrite zlen_cons. pose proof (zlen_nonneg xs). destruct (Z.eqb_spec (1 + zlen xs) 0); [lia|reflexivity].
  - rewrite (vwalk_ok h v xs ids frees HN Hv Hg). cbn [obind].
    eexists h, v, _, _, ids, frees. split; [reflexivity|]; split; [constructor|]; splits; try eassumption; try tauto.
Qed.

(** ** Copying *)
Lemma vcopy_ok h v xs ids frees :
  expo P <= 30 -> vinv h v xs ids frees -> ~ vfull v ->
  exists h' v' ids' frees', vec_copy P h v = Ok (h', v') /\ vinv h' v' xs ids' frees' /\
    upd [] [] h (frees' ++ ids') (vts v') h' /\ (phantom v' -> xs = [] /\ v_data v <> None).
Proof.
  intros HN Hv Hf. pose proof (vinv_hok _ _ _ _ _ _ Hv) as Hok0.
  assert (Hok : hok [] [] h) by (eapply hok_eqv; [exact Hok0|intros b Hb; inversion Hb|intros b Hb; inversion Hb]).
  unfold vec_copy. destruct Hv as [(-> & -> & -> & -> & _)|(t & Hl)].
  - cbn. exists h, (vec_default P), [], []. splits; [left; auto|apply upd_refl; assumption|].
    intros [A _]. cbn in A. congruence.
  - assert (Ed : v_data v = Some t) by apply Hl. assert (Hs : 0 < v_slots v) by apply Hl. rewrite Ed.
    destruct (talloc h (v_slots v)) as [h1 t0] eqn:Ea.
    destruct (bk_fresh P h (v_slots v) 0 h1 t0 Hok ltac:(lia) Ea) as (u & -> & Hbk & U).
    assert (Hv1 : vinv h1 v xs ids frees).
    { destruct Hok0 as (K1 & K2 & K3). eapply vinv_frame; [right; eauto| | |].
      - intros b Hb. eapply u_bsame; [exact U|apply not_elem_of_nil|auto].
      - intros b Hb. eapply u_tsame; [exact U|apply not_elem_of_nil|auto].
      - pose proof (u_nx _ _ _ _ _ _ U). unfold hok; splits.
        + apply (bk_ok _ _ _ _ _ _ _ _ _ _ Hbk).
        + intros b Hb. specialize (K2 b Hb). lia.
        + intros b Hb. specialize (K3 b Hb). lia. }
    rewrite (vwalk_ok h1 v xs ids frees HN Hv1 Hf). cbn [obind].
    assert (Hv2 : vinv h1 (Vec 0 (Some u) (v_slots v) (-1) B flist0) ([] ++ []) [] []).
    { right. exists u. pose proof (B_pos P HP). unfold vlive; cbn. unfold zlen; cbn. splits; try assumption; lia. }
    destruct (vassign_ok P HP xs h1 _ [] [] [] [] Hv2) as (h' & v' & ids' & frees' & E & Hv' & Hp & U' & _).
    change (zlen []) with 0 in E. rewrite E. exists h', v', ids', frees'. splits; try assumption.
    + eapply upd_trans; [exact U|exact U'].
    + intros Hph. destruct (Hp Hph) as [_ ->]. split; [reflexivity|discriminate].
Qed.

(** ** Several vectors *)
Definition vobj h v (a : option (list V)) bs ts : Prop :=
  match a with
  | Some xs => exists ids frees, vinv h v xs ids frees /\ bs = frees ++ ids /\ ts = vts v
  | None => v_data v = None /\ f_tab (v_fl v) = None /\ bs = [] /\ ts = [] /\ hok [] [] h
  end.

Lemma vobj_frame h h' v a bs ts :
  vobj h v a bs ts -> (forall b, b ∈ bs -> sameb b h h') -> (forall u, u ∈ ts -> tb h' !! u = tb h !! u) ->
  hok bs ts h' -> vobj h' v a bs ts.
Proof.
  destruct a as [xs|]; cbn.
  - intros (ids & frees & Hv & -> & ->) Hs Ht Hok. exists ids, frees. splits. eapply vinv_frame; eassumption.
  - intros (E1 & E2 & -> & -> & _) _ _ Hok. auto.
Qed.

Lemma vobj_hok h v a bs ts : vobj h v a bs ts -> hok bs ts h.
Proof.
  destruct a as [xs|]; cbn.
  - intros (ids & frees & Hv & -> & ->). eapply vinv_hok; eassumption.
  - intros (_ & _ & -> & -> & H). exact H.
Qed.

Definition vw_inv (w : vworld V) A G : Prop := winv vobj (w_heap w) (w_vecs w) A G.

(** What the caller must respect: lifetimes, and no call on a vector that was moved from (other than destroying it,
    moving from it again, copying it or assigning to it by move). *)
Definition vw_legal (A : gmap nat (option (list V))) (p : vwop V) : Prop :=
  match p with
  | VDefault o => A !! o = None
  | VSized o n _ => A !! o = None /\ 0 <= n
  | VCopy o src | VMove o src => A !! o = None /\ is_Some (A !! src)
  | VCopyAssign o src => (exists xs, A !! o = Some (Some xs)) /\ (exists xs, A !! src = Some (Some xs))
  | VMoveAssign o src => is_Some (A !! o) /\ is_Some (A !! src)
  | VCall o c => exists xs, A !! o = Some (Some xs) /\ seq_legal xs c
  | VDestroy o => is_Some (A !! o)
  end.

(** The two defects that must be avoided *)
Definition vw_guard (w : vworld V) (p : vwop V) : Prop :=
  match p with
  | VCopy _ src | VCopyAssign _ src => forall v, w_vecs w !! src = Some v -> ~ vfull v
  | VMoveAssign o _ | VDestroy o => forall v, w_vecs w !! o = Some v -> ~ phantom v
  | VCall o c => forall v, w_vecs w !! o = Some v -> vguard v c
  | _ => True
  end.

Lemma hok_nil h : (forall b, (nx h <= b)%nat -> absb b h /\ tb h !! b = None) -> hok [] [] h.
Proof. intros H. unfold hok; splits; [exact H| |]; intros b Hb; inversion Hb. Qed.

Lemma husk_obj h v : hok [] [] h -> v_data v = None -> f_tab (v_fl v) = None -> vobj h v None [] [].
Proof. cbn. auto. Qed.

Lemma vobj_free h v a bs ts :
  vobj h v a bs ts -> ~ phantom v -> exists h', vec_free_all P h v = Ok h' /\ upd bs ts h [] [] h'.
Proof.
  destruct a as [xs|]; cbn.
  - intros (ids & frees & Hv & -> & ->) Hp. eapply vfree_ok; eassumption.
  - intros (E & _ & -> & -> & Hok) _. exists h. unfold vec_free_all. rewrite E. split; [reflexivity|apply upd_refl; assumption].
Qed.

Lemma vw_step_ok w A G p :
  expo P <= 30 -> vw_inv w A G -> vw_legal A p -> vw_guard w p ->
  exists w' r A' G', vwstep P w p = Ok (w', r) /\ vw_step A p r A' /\ vw_inv w' A' G'.
Proof.
  intros HN Hw Hl Hg. pose proof (hok_nil _ (wi_new _ _ _ _ _ Hw)) as Hok.
  assert (Hhusk : exists x0 a0, vobj (w_heap w) x0 a0 [] []).
  { exists (vec_default P), None. apply husk_obj; [assumption|reflexivity|reflexivity]. }
  destruct w as [h objs]. unfold vw_inv in *. cbn [w_heap w_vecs] in *.
  destruct p as [o|o n x|o src|o src|o src|o src|o c|o]; cbn [vw_legal vw_guard vwstep w_heap w_vecs] in *; unfold vget; cbn [w_vecs].
  - eexists _, _, _, _. split; [reflexivity|]. split; [constructor|]. cbn [w_heap w_vecs].
    apply w_add; [exact Hw|apply (wi_dom _ _ _ _ _ Hw); exact Hl|]. cbn. exists [], []. splits. left. auto.
  - destruct Hl as [Ho Hn]. destruct (vsized_ok h n x Hok Hn) as (h' & v & ids & -> & Hv & _ & U). cbn [obind].
    eexists _, _, _, _. split; [reflexivity|]. split; [constructor|]. cbn [w_heap w_vecs].
    eapply w_new; [exact vobj_frame|exact vobj_hok|exact Hw|apply (wi_dom _ _ _ _ _ Hw); exact Ho|exact U| |exact Hhusk].
    cbn. exists ids, []. auto.
  - destruct Hl as [Ho [a Ha]]. destruct (wi_lookup _ _ _ _ _ _ _ Hw Ha) as (v & bs & ts & Ev & Eg & Hv). rewrite Ev. cbn [obind].
    destruct a as [xs|].
    + destruct Hv as (ids & frees & Hv & -> & ->).
      destruct (vcopy_ok h v xs ids frees HN Hv (Hg _ Ev)) as (h' & v' & ids' & frees' & -> & Hv' & U & _). cbn [obind].
      eexists _, _, _, _. split; [reflexivity|]. split; [constructor; eassumption|]. cbn [w_heap w_vecs].
      eapply w_new; [exact vobj_frame|exact vobj_hok|exact Hw|apply (wi_dom _ _ _ _ _ Hw); exact Ho|exact U| |exact Hhusk].
      cbn. eauto.
    + destruct Hv as (Ed & _). unfold vec_copy. rewrite Ed. cbn [obind].
      eexists _, _, _, _. split; [reflexivity|]. split; [apply vws_copy_moved; assumption|]. cbn [w_heap w_vecs].
      apply w_add; [exact Hw|apply (wi_dom _ _ _ _ _ Hw); exact Ho|]. cbn. exists [], []. splits. left. auto.
  - destruct Hl as [Ho [a Ha]]. destruct (wi_lookup _ _ _ _ _ _ _ Hw Ha) as (v & bs & ts & Ev & Eg & Hv). rewrite Ev. cbn [obind vec_move].
    assert (Hne : o <> src) by congruence.
    destruct Hhusk as (x0 & a0 & H0).
    pose proof (w_add vobj h objs A G o x0 a0 Hw (proj2 (wi_dom _ _ _ _ _ Hw o) Ho) H0) as Hw1.
    eexists _, _, _, _. split; [reflexivity|]. split; [apply vws_move; eassumption|]. cbn [w_heap w_vecs].
    eapply (w_transfer vobj) with (o := o) (src := src) (x' := v) (a' := a) (a0 := None) in Hw1; try assumption.
    + rewrite !insert_insert in Hw1. rewrite (insert_commute _ o src), (insert_commute A o src) by assumption. exact Hw1.
    + rewrite lookup_insert_ne by assumption. exact Eg.
    + apply lookup_insert.
    + exact Hv.
    + apply husk_obj; [assumption|reflexivity|reflexivity].
  - destruct Hl as [[ys Hys] [xs Hxs]].
    destruct (wi_lookup _ _ _ _ _ _ _ Hw Hys) as (d & bsd & tsd & Ed & Egd & (idsd & freesd & Hd & -> & ->)). rewrite Ed. cbn [obind].
    destruct (wi_lookup _ _ _ _ _ _ _ Hw Hxs) as (v & bs & ts & Ev & Eg & (ids & frees & Hv & -> & ->)). rewrite Ev. cbn [obind].
    unfold vec_copy_assign. rewrite (vwalk_ok h v xs ids frees HN Hv (Hg _ Ev)). cbn [obind].
    destruct (vassign_ok P HP xs h d [] ys idsd freesd Hd) as (h' & d' & ids' & frees' & E & Hd' & _ & U & _).
    change (zlen []) with 0 in E. rewrite E. cbn [obind].
    eexists _, _, _, _. split; [reflexivity|]. split; [constructor; [eassumption|eauto]|]. cbn [w_heap w_vecs].
    eapply w_upd; [exact vobj_frame|exact vobj_hok|exact Hw|exact Egd|exact U|]. cbn. eauto.
  - destruct Hl as [[ad Had] [a Ha]].
    destruct (wi_lookup _ _ _ _ _ _ _ Hw Had) as (d & bsd & tsd & Ed & Egd & Hd). rewrite Ed. cbn [obind].
    destruct (wi_lookup _ _ _ _ _ _ _ Hw Ha) as (v & bs & ts & Ev & Eg & Hv). rewrite Ev. cbn [obind].
    unfold vec_move_assign. destruct (vobj_free h d ad bsd tsd Hd (Hg _ Ed)) as (h' & -> & U). cbn [obind].
    pose proof (upd_hok _ _ _ _ _ _ (vobj_hok _ _ _ _ _ Hd) U) as Hok'.
    set (s' := Vec (v_size v) None 0 (v_idx v) (v_bsize v) (FList 0 (f_idx (v_fl v)) None)).
    assert (Hs' : vobj h' s' None [] []) by (apply husk_obj; [assumption|reflexivity|reflexivity]).
    pose proof (w_upd vobj vobj_frame vobj_hok _ _ _ _ o s' None _ _ _ _ h' Hw Egd U Hs') as Hw1.
    destruct (decide (o = src)) as [->|Hne].
    + eexists _, _, _, _. split; [reflexivity|]. split; [apply vws_move_assign; eassumption|]. cbn [w_heap w_vecs].
      rewrite !insert_insert. exact Hw1.
    + eexists _, _, _, _. split; [reflexivity|]. split; [apply vws_move_assign; eassumption|]. cbn [w_heap w_vecs].
      eapply (w_transfer vobj) with (o := o) (src := src) (x' := v) (a' := a) (y' := s') (a0 := None) (bs := bs) (ts := ts) in Hw1; try assumption.
      * rewrite !insert_insert in Hw1. exact Hw1.
      * rewrite lookup_insert_ne by assumption. exact Eg.
      * apply lookup_insert.
      * eapply (wi_obj _ _ _ _ _ Hw1 src); rewrite lookup_insert_ne by assumption; assumption.
  - destruct Hl as (xs & Hxs & Hlc). destruct (wi_lookup _ _ _ _ _ _ _ Hw Hxs) as (v & bs & ts & Ev & Eg & (ids & frees & Hv & -> & ->)).
    rewrite Ev. cbn [obind].
    destruct (vstep_ok h v xs ids frees c HN Hv Hlc (Hg _ Ev)) as (h' & v' & r & xs' & ids' & frees' & -> & Hs & Hv' & U & _). cbn [obind].
    eexists _, _, _, _. split; [reflexivity|]. split; [econstructor; eassumption|]. cbn [w_heap w_vecs].
    eapply w_upd; [exact vobj_frame|exact vobj_hok|exact Hw|exact Eg|exact U|]. cbn. eauto.
  - destruct Hl as [a Ha]. destruct (wi_lookup _ _ _ _ _ _ _ Hw Ha) as (v & bs & ts & Ev & Eg & Hv). rewrite Ev. cbn [obind].
    destruct (vobj_free h v a bs ts Hv (Hg _ Ev)) as (h' & -> & U). cbn [obind].
    eexists _, _, _, _. split; [reflexivity|]. split; [constructor; eauto|]. cbn [w_heap w_vecs].
    eapply w_del with (x0 := vec_default P) (a0 := None); [exact vobj_frame|exact vobj_hok|exact Hw|exact Eg|exact U|].
    apply husk_obj; [|reflexivity|reflexivity]. eapply upd_hok; [exact (vobj_hok _ _ _ _ _ Hv)|exact U].
Qed.

(** A program every step of which respects [vw_legal] and [vw_guard] *)
Fixpoint vw_ok (w : vworld V) A (ps : list (vwop V)) : Prop :=
  match ps with
  | [] => True
  | p :: ps' => vw_legal A p /\ vw_guard w p /\
      forall w' r A', vwstep P w p = Ok (w', r) -> vw_step A p r A' -> vw_ok w' A' ps'
  end.

Lemma vw_run_ok ps : expo P <= 30 -> forall w A G, vw_inv w A G -> vw_ok w A ps ->
  exists w' tr A' G', vwrun P w ps = Ok (w', tr) /\ map fst tr = ps /\ vw_trace A tr A' /\ vw_inv w' A' G'.
Proof.
  intros HN. induction ps as [|p ps IH]; intros w A G Hw Hok; cbn [vwrun].
  - exists w, [], A, G. splits; try assumption. constructor.
  - destruct Hok as (Hl & Hg & Hn). destruct (vw_step_ok w A G p HN Hw Hl Hg) as (w1 & r & A1 & G1 & E & Hs & Hw1). rewrite E. cbn [obind].
    destruct (IH w1 A1 G1 Hw1 (Hn _ _ _ E Hs)) as (w2 & tr & A2 & G2 & -> & Ht & Htr & Hw2). cbn [obind].
    exists w2, ((p, r) :: tr), A2, G2. splits; try assumption; [cbn; congruence|econstructor; eassumption].
Qed.

End vec.
