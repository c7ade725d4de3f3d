(** Programs over several mapped vectors behave as their specification. *)
From stdpp Require Import gmap.
From Verif Require Import Base BlkHeap BlkProofs BlkMore BlkRun BlkIter BlkIterProofs BlkWorld VecModel VecSpec VecProofs VecWorld VecFinal
  MapStore MapStoreProofs MapModel MapSpec MapRel MapProofs MapReach DualModel DualSpec DualProofs MapFinal CopyModel.

(** ** A call keeps to the memory of its own container *)
Section track.
Context {V : Type}.
Variable P : params.
Hypothesis HP : 0 <= expo P <= 30.
Notation B := (bsz P).
Implicit Types (s : store V) (xs : list V) (h : bheap V).

Definition tracks s s' : Prop :=
  match s, s' with
  | SBlk h v, SBlk h' v' => forall xs ids frees, vgood P h v xs ids frees ->
      exists xs' ids' frees', vgood P h' v' xs' ids' frees' /\ upd (frees ++ ids) (vts v) h (frees' ++ ids') (vts v') h'
  | SVec _, SVec _ => True
  | _, _ => False
  end.

Lemma tracks_refl s : tracks s s.
Proof. destruct s as [xs|h v]; [exact I|]. intros xs ids frees [Hv Hp]. exists xs, ids, frees. split; [split; assumption|]. apply upd_refl. eapply vinv_hok; eassumption. Qed.

Lemma good_unique h v xs ids frees xs' ids' frees' : vgood P h v xs ids frees -> vgood P h v xs' ids' frees' -> xs = xs'.
Proof.
  intros H1 H2. apply (holds_unique P (SBlk h v)); apply ok_holds; try exact HP; cbn; eauto.
Qed.

Lemma step_tracks s xs o s' r : st_ok P s xs -> lst_legal xs o -> o <> VWalk -> st_step P s o = Ok (s', r) -> tracks s s'.
Proof.
  destruct HP as [HP1 HP2]. destruct s as [ys|h v].
  - intros _ _ _ E. cbn in E. apply obind_ok in E as ([xs' r'] & _ & E). injection E as <- _. exact I.
  - intros (ids0 & frees0 & H0) [Hl _] Hw E. cbn in E. apply obind_ok in E as ([[h' v'] r'] & E & E'). injection E' as <- _.
    intros xs1 ids frees Hg. pose proof (good_unique _ _ _ _ _ _ _ _ H0 Hg). subst xs1. destruct Hg as [Hv Hp].
    destruct (vstep_ok P HP1 h v xs ids frees o HP2 Hv Hl) as (h1 & v1 & r1 & xs1 & ids1 & frees1 & E1 & _ & Hv1 & U & Hp1 & _).
    { destruct o; cbn; tauto. }
    rewrite E in E1. injection E1 as <- <- _. exists xs1, ids1, frees1. split; [split; [exact Hv1|tauto]|exact U].
Qed.

Lemma erase_tracks s xs i s' b : st_ok P s xs -> st_erase P s i = Ok (s', b) -> tracks s s'.
Proof.
  destruct s as [ys|h v]; cbn [st_erase].
  - intros _. destruct ((0 <=? i) && (i <? zlen ys)); [|discriminate]. intros [= <- _]. exact I.
  - intros Hs. destruct (i =? v_size v - 1); [|intros [= <- _]; apply tracks_refl]. intros E.
    apply obind_ok in E as ([h' v'] & E & E'). injection E' as <- _.
    destruct HP as [HP1 HP2]. intros xs1 ids frees [Hv Hp].
    destruct (vstep_ok P HP1 h v xs1 ids frees VPop HP2 Hv I I) as (h1 & v1 & r1 & xs' & ids1 & frees1 & E1 & _ & Hv1 & U & Hp1 & _).
    cbn [vec_step] in E1. rewrite E in E1. cbn [obind] in E1. injection E1 as <- <- _. exists xs', ids1, frees1. split; [split; [exact Hv1|tauto]|exact U].
Qed.

Lemma it_map_upd f t v ids frees last : forall k n h it xs,
  vlive P h v t xs ids frees -> entry h t (zlen xs / B) -> (n + k = length xs)%nat ->
  it_at P h t (Z.of_nat n) it -> it_at P h t (zlen xs) last ->
  exists h', it_map P h it last k f = Ok (h', drop n xs) /\ vlive P h' v t (take n xs ++ map f (drop n xs)) ids frees /\
    upd (frees ++ ids) (vts v) h (frees ++ ids) (vts v) h'.
Proof.
  pose proof HP as [HP1 HP2]. induction k as [|k IH]; intros n h it xs Hl He Hk Hit Hlast; cbn [it_map]; rewrite (it_at_eq P HP1 _ _ _ _ _ _ Hit Hlast).
  - replace n with (length xs) by lia. rewrite drop_all, firstn_all. cbn [map]. rewrite app_nil_r.
    destruct (Z.eqb_spec (Z.of_nat (length xs)) (zlen xs)); [|unfold zlen in *; lia]. exists h. splits; [exact Hl|].
    apply upd_refl. apply (vinv_hok P h v xs). right. eauto.
  - destruct (Z.eqb_spec (Z.of_nat n) (zlen xs)); [unfold zlen in *; lia|].
    destruct (lookup_lt_is_Some_2 xs n) as [x Hx]; [lia|]. pose proof (vlen_ids P HP1 _ _ _ _ _ _ Hl) as Hlen.
    assert (Hv : vinv P h v xs ids frees) by (right; eauto).
    rewrite (it_read_ok P HP1 h t (v_slots v) 0 ids 0 xs (v_fl v) frees (Z.of_nat n) it x); try assumption; try lia; try apply Hl.
    2:{ rewrite zl_nat. exact Hx. }
    cbn [obind]. destruct (vset_ok P HP1 h v xs ids frees n (f x) Hv ltac:(lia)) as (h1 & E1 & Hv1 & U1).
    unfold vec_set in E1. destruct (vat_ok P HP1 h v xs ids frees (Z.of_nat n) Hv) as (i & b & E2 & Hb & Ei & Hj & _); [unfold zlen; lia|].
    rewrite E2 in E1. cbn [obind] in E1.
    assert (Hptr : i_ptr it = PSlot b (Z.of_nat n mod B)).
    { apply it_at_inv in Hit as (c & Ec & ->). unfold vec_at in E2. assert (v_data v = Some t) as Ed by apply Hl. rewrite Ed, shiftr_bsz, land_bsz in E2 by assumption.
      rewrite Ec in E2. cbn [obind] in E2. injection E2 as ->. reflexivity. }
    rewrite Hptr, E1. cbn [obind]. pose proof (eset_tb P _ _ _ _ _ E1) as Htb.
    assert (Hl1 : vlive P h1 v t (<[n := f x]> xs) ids frees).
    { destruct Hv1 as [(-> & _)|(t' & Hl1)]; [assert (v_data (vec_default P) = Some t) as F by apply Hl; discriminate|].
      assert (v_data v = Some t) as F by apply Hl. assert (v_data v = Some t') as F' by apply Hl1. assert (t' = t) as -> by congruence. exact Hl1. }
    assert (He1 : forall q, entry h t q -> entry h1 t q) by (intros q [c Ec]; exists c; unfold tget in *; rewrite Htb; exact Ec).
    assert (Hz1 : zlen (<[n := f x]> xs) = zlen xs) by (unfold zlen; rewrite insert_length; reflexivity).
    destruct (it_add_ok P HP1 h1 t (Z.of_nat n) it 1 (it_at_tb P _ _ _ _ _ Htb Hit)) as (it' & -> & Hit'); [pose proof (B_int P HP); lia| |].
    { apply He1. destruct (decide (S n = length xs)) as [E|Hne].
      - replace (Z.of_nat n + 1) with (zlen xs) by (unfold zlen; lia). assumption.
      - destruct (bk_locate P HP1 h t (v_slots v) 0 ids 0 xs (v_fl v) frees (Z.of_nat n + 1)) as (i' & b' & _ & _ & _ & _ & E5); try lia; [apply Hl|unfold zlen; lia|].
        rewrite !Z.add_0_l in E5. eexists. exact E5. }
    cbn [obind]. destruct (IH (S n) h1 it' (<[n := f x]> xs) Hl1) as (h2 & -> & Hl2 & U2).
    + rewrite Hz1. apply He1. exact He.
    + rewrite insert_length. lia.
    + replace (Z.of_nat (S n)) with (Z.of_nat n + 1) by lia. exact Hit'.
    + rewrite Hz1. eapply it_at_tb; eassumption.
    + cbn [obind]. exists h2. rewrite drop_insert_gt by lia. rewrite (drop_S _ _ _ Hx). split; [reflexivity|]. split.
      * rewrite drop_insert_gt in Hl2 by lia. rewrite (take_S_r _ _ (f x)) in Hl2 by (apply list_lookup_insert; lia).
        rewrite take_insert in Hl2 by lia. rewrite <- app_assoc in Hl2. exact Hl2.
      * eapply upd_trans; [exact U1|exact U2].
Qed.

Lemma modify_tracks s xs f s' l : st_ok P s xs -> st_modify P s f = Ok (s', l) -> tracks s s'.
Proof.
  intros Hs E. pose proof (modify_room P HP s xs f s' l Hs E) as Hf. revert Hs Hf E. pose proof HP as [HP1 HP2].
  destruct s as [ys|h v]; cbn [st_room st_modify].
  - intros _ _ [= <- _]. exact I.
  - intros _ Hf E. apply obind_ok in E as (first & E1 & E). apply obind_ok in E as (lst & E2 & E).
    apply obind_ok in E as ([h' l'] & E3 & E). injection E as <- _. intros xs1 ids frees [Hv Hp].
    destruct Hv as [(Ev & Ex & Ei & Ef & H)|(t & Hl)].
    + subst v xs1. unfold vec_begin in E1. cbn in E1, E2, E3. rewrite E2 in E1. injection E1 as ->.
      unfold vec_end in E2; cbn in E2. rewrite Z.eqb_refl in E2. injection E2 as <-. cbn in E3. injection E3 as <- <-.
      pose proof (tracks_refl (SBlk h (vec_default P))) as T. cbn [tracks] in T. apply (T []). split; [left; auto|exact Hp].
    + destruct (vbegin_ok P HP1 _ _ _ _ _ _ Hl Hf) as (first' & F1 & H1). destruct (vend_ok P HP1 _ _ _ _ _ _ Hl Hf) as (lst' & F2 & H2).
      pose proof (vend_entry P HP1 _ _ _ _ _ _ Hl Hf) as He.
      rewrite F1 in E1. rewrite F2 in E2. injection E1 as ->. injection E2 as ->.
      destruct (it_map_upd f t v ids frees lst (length xs1) 0 h first xs1 Hl He eq_refl H1 H2) as (h1 & E & Hl' & U).
      assert (v_size v = zlen xs1) as Hsz by apply Hl. rewrite Hsz in E3. unfold zlen in E3. rewrite Nat2Z.id, E in E3. injection E3 as <- _.
      rewrite drop_0 in Hl'. cbn [take app] in Hl'. exists (map f xs1), ids, frees. split; [split; [right; eauto|exact Hp]|exact U].
Qed.

Ltac step_t E := apply obind_ok in E as (? & ? & E).

Lemma push_tracks s xs x s' r : st_ok P s xs -> st_step P s (VPush x) = Ok (s', r) -> tracks s s'.
Proof. intros Hs. eapply step_tracks; [exact Hs|split; [exact I|discriminate]|discriminate]. Qed.
Lemma set_tracks s xs i x s' r : st_ok P s xs -> 0 <= i < zlen xs -> st_step P s (VSet i x) = Ok (s', r) -> tracks s s'.
Proof. intros Hs Hi. eapply step_tracks; [exact Hs|split; [exact Hi|discriminate]|discriminate]. Qed.
Lemma clear_tracks s xs s' r : st_ok P s xs -> st_step P s VClear = Ok (s', r) -> tracks s s'.
Proof. intros Hs. eapply step_tracks; [exact Hs|split; [exact I|discriminate]|discriminate]. Qed.

Lemma mv_tracks `{Countable K} (kdef : option K) (m : mv V K) a o m' r :
  mrel P m a -> mv_step P kdef m o = Ok (m', r) -> tracks (m_st m) (m_st m').
Proof.
  intros R E. pose proof (r_st _ _ _ _ R) as Hs. pose proof (fun k i => rel_range P _ _ _ k i R) as Hrg. cbn beta in Hrg.
  assert (Hsame : m' = m -> tracks (m_st m) (m_st m')) by (intros ->; apply tracks_refl).
  destruct o as [k x|x|k x|k|k|i|i|i| |k i|i ord|k ord|f| | |]; cbn [mv_step] in E.
  - unfold mv_insert in E. destruct (m_lk m !! k); [injection E as <- _; apply tracks_refl|].
    apply obind_ok in E as ([s' r'] & E1 & E). injection E as <- _. eapply push_tracks; eassumption.
  - unfold mv_insert_no in E. apply obind_ok in E as ([s' r'] & E1 & E). injection E as <- _. eapply push_tracks; eassumption.
  - unfold mv_assign in E. destruct (m_lk m !! k) as [i|] eqn:Ek; apply obind_ok in E as ([s' r'] & E1 & E); injection E as <- _.
    + eapply set_tracks; [exact Hs|eapply Hrg; exact Ek|exact E1].
    + eapply push_tracks; eassumption.
  - apply Hsame. unfold mv_find_use in E. step_t E. step_t E. destruct (si_eq _ _); [congruence|]. step_t E. congruence.
  - apply Hsame. unfold mv_findp in E. destruct (m_lk m !! k); [|congruence]. apply obind_ok in E as ([s' []] & E1 & E); congruence.
  - apply Hsame. unfold mv_get in E. apply obind_ok in E as ([s' []] & E1 & E); congruence.
  - apply Hsame. unfold mv_getp, mv_get in E. destruct (i <? st_size (m_st m)); [|congruence]. apply obind_ok in E as ([s' []] & E1 & E); congruence.
  - apply Hsame. unfold mv_at in E. apply obind_ok in E as ([s' []] & E1 & E); congruence.
  - apply Hsame. unfold mv_back in E. apply obind_ok in E as ([s' []] & E1 & E); congruence.
  - unfold mv_alias in E. destruct (i <? st_size (m_st m)); injection E as <- _; apply tracks_refl.
  - unfold mv_remove_idx in E. destruct (st_size (m_st m) <=? i); [apply Hsame; congruence|].
    apply obind_ok in E as ([s' b] & E1 & E). destruct (mp_shift b i ord (m_lk m) kdef) as [lk [k|]]; [|discriminate]. injection E as <- _.
    eapply erase_tracks; eassumption.
  - unfold mv_remove in E. destruct (m_lk m !! k); [|apply Hsame; congruence].
    apply obind_ok in E as ([s' b] & E1 & E). injection E as <- _. eapply erase_tracks; eassumption.
  - unfold mv_modify in E. apply obind_ok in E as ([s' l] & E1 & E). injection E as <- _. eapply modify_tracks; eassumption.
  - apply Hsame. unfold mv_apply in E. apply obind_ok in E as ([s' []] & E1 & E); congruence.
  - apply Hsame. congruence.
  - unfold mv_clear in E. apply obind_ok in E as ([s' r'] & E1 & E). injection E as <- _. eapply clear_tracks; eassumption.
Qed.

Lemma dv_tracks `{Countable K1} `{Countable K2} cl (kd1 : option K1) (kd2 : option K2) (d : dv V K1 K2) a o d' r :
  drel P d a -> dv_step P cl kd1 kd2 d o = Ok (d', r) -> tracks (d_st d) (d_st d').
Proof.
  intros R E. pose proof (r_st _ _ _ _ R) as Hs. pose proof (fun k i => rel_range P _ _ _ k i R) as Hrg. cbn beta in Hrg.
  assert (Hsame : d' = d -> tracks (d_st d) (d_st d')) by (intros ->; apply tracks_refl).
  assert (Hpush : forall x d1 i, d_push P d x = Ok (d1, i) -> tracks (d_st d) (d_st d1)).
  { intros x d1 i E1. unfold d_push in E1. apply obind_ok in E1 as ([s' r'] & E1 & E2). injection E2 as <- _. eapply push_tracks; eassumption. }
  assert (Hemp : forall k i (d1 : dv V K1 K2), d_st (d_emplace k i d1) = d_st d1) by (intros [k|k] i d1; reflexivity).
  assert (Hone : forall k x, dv_insert_one P d k x = Ok (d', r) -> tracks (d_st d) (d_st d')).
  { intros k x E1. unfold dv_insert_one in E1. destruct (negb (d_new d k)); [apply Hsame; congruence|].
    apply obind_ok in E1 as ([d1 i] & E1 & E2). injection E2 as <- _. rewrite Hemp. eapply Hpush; exact E1. }
  assert (Haone : forall k x, dv_assign_one P d k x = Ok (d', r) -> tracks (d_st d) (d_st d')).
  { intros k x E1. unfold dv_assign_one in E1. destruct (d_lk d k) as [i|] eqn:Ek.
    - apply obind_ok in E1 as ([s' r'] & E1 & E2). injection E2 as <- _. eapply set_tracks; [exact Hs|eapply Hrg; exact Ek|exact E1].
    - apply obind_ok in E1 as ([d1 i] & E1 & E2). injection E2 as <- _. rewrite Hemp. eapply Hpush; exact E1. }
  assert (Hri : forall i o1 o2, dv_remove_idx P cl kd1 kd2 d i o1 o2 = Ok (d', r) -> tracks (d_st d) (d_st d')).
  { intros i o1 o2 E1. unfold dv_remove_idx in E1. destruct (st_size (d_st d) <=? i); [apply Hsame; congruence|].
    apply obind_ok in E1 as ([s' b] & E1 & E2). pose proof (erase_tracks _ _ _ _ _ Hs E1) as Ht. destruct cl.
    - destruct (dm_shift b i o1 (d_l1 d)), (dm_shift b i o2 (d_l2 d)). step_t E2. step_t E2. injection E2 as <- _. exact Ht.
    - destruct (dm_shift b i o1 (d_l1 d)), (dm_shift b i o2 (d_l2 d)). step_t E2. step_t E2. injection E2 as <- _. exact Ht.
    - destruct (mp_shift b i o1 (d_l1 d) kd1) as [l1 [k1|]], (mp_shift b i o2 (d_l2 d) kd2) as [l2 [k2|]]; try discriminate. injection E2 as <- _. exact Ht. }
  destruct o as [k1 k2 x|k1 x|k2 x|x|k1 k2 x|k1 x|k2 x|k i|k old|k|i|i| |i o1 o2|k o1 o2|f| | |]; cbn [dv_step] in E.
  - unfold dv_insert in E. destruct (negb _ && negb _); [apply Hsame; congruence|]. apply obind_ok in E as ([d1 i] & E1 & E).
    specialize (Hpush _ _ _ E1). destruct cl; injection E as <- _; exact Hpush.
  - eapply Hone; exact E.
  - eapply Hone; exact E.
  - unfold dv_insert0 in E. apply obind_ok in E as ([d1 i] & E1 & E). injection E as <- _. eapply Hpush; exact E1.
  - assert (Happ : forall (l1 : Z -> dv V K1 K2 -> gmap K1 Z) (l2 : Z -> dv V K1 K2 -> gmap K2 Z) (rr : Z -> mret V), ('(d1, index) <-! d_push P d x ;; Ok (Dv (d_st d1) (l1 index d1) (l2 index d1), rr index)) = Ok (d', r) -> tracks (d_st d) (d_st d')).
    { intros l1 l2 rr F. apply obind_ok in F as ([d1 i] & E1 & F). injection F as <- _. cbn [d_st]. eapply Hpush; exact E1. }
    unfold dv_assign in E. destruct cl.
    + destruct (d_l1 d !! k1) as [i|] eqn:Ek.
      * apply obind_ok in E as ([s' r'] & E1 & E). injection E as <- _. eapply set_tracks; [exact Hs|eapply (Hrg (inl k1)); exact Ek|exact E1].
      * eapply (Happ (fun i d1 => <[k1 := i]> (d_l1 d1)) (fun i d1 => <[k2 := i]> (d_l2 d1)) (fun i => MIdx (Some i))). exact E.
    + destruct (d_l1 d !! k1) as [i|] eqn:Ek.
      * apply obind_ok in E as ([s' r'] & E1 & E). injection E as <- _. eapply set_tracks; [exact Hs|eapply (Hrg (inl k1)); exact Ek|exact E1].
      * eapply (Happ (fun i d1 => mp_emplace k1 i (d_l1 d1)) (fun i d1 => <[k2 := i]> (d_l2 d1)) (fun i => MIdx (Some i))). exact E.
    + pose proof (Happ (fun i d1 => <[k1 := i]> (d_l1 d1)) (fun i d1 => <[k2 := i]> (d_l2 d1)) (fun i => MIdx (Some i))) as Hap.
      destruct (d_l1 d !! k1) as [i|] eqn:Ek; [|apply Hap; exact E]. destruct (d_l2 d !! k2) as [j|]; [|apply Hap; exact E].
      destruct (j =? i); [|apply Hap; exact E]. apply obind_ok in E as ([s' r'] & E1 & E). injection E as <- _.
      eapply set_tracks; [exact Hs|eapply (Hrg (inl k1)); exact Ek|exact E1].
  - eapply Haone; exact E.
  - eapply Haone; exact E.
  - unfold dv_term_idx in E. destruct (i <? st_size (d_st d)); injection E as <- _; rewrite ?Hemp; apply tracks_refl.
  - unfold dv_term in E. destruct (d_lk d old); injection E as <- _; rewrite ?Hemp; apply tracks_refl.
  - apply Hsame. unfold dv_find in E. destruct cl.
    1-2: step_t E; step_t E; destruct (si_eq _ _); [congruence|]; step_t E; congruence.
    destruct (d_lk d k); [|congruence]. apply obind_ok in E as ([s' []] & E1 & E); congruence.
  - apply Hsame. unfold dv_get in E. destruct (match cl with CPtr => _ | _ => _ end); [congruence|]. apply obind_ok in E as ([s' []] & E1 & E); congruence.
  - apply Hsame. unfold dv_at in E. apply obind_ok in E as ([s' []] & E1 & E); congruence.
  - apply Hsame. unfold dv_back in E. apply obind_ok in E as ([s' []] & E1 & E); congruence.
  - eapply Hri; exact E.
  - unfold dv_remove in E. destruct (d_lk d k) as [i|]; [|apply Hsame; congruence]. destruct cl; [eapply Hri; exact E|eapply Hri; exact E|].
    apply obind_ok in E as ([s' b] & E1 & E). pose proof (erase_tracks _ _ _ _ _ Hs E1) as Ht. destruct k as [k1|k2].
    + destruct (mp_shift true i o2 (d_l2 d) kd2) as [l2 [k2|]]; [|discriminate]. injection E as <- _. exact Ht.
    + destruct (mp_shift true i o1 (d_l1 d) kd1) as [l1 [k1|]]; [|discriminate]. injection E as <- _. exact Ht.
  - unfold dv_modify in E. apply obind_ok in E as ([s' l] & E1 & E). injection E as <- _. eapply modify_tracks; eassumption.
  - apply Hsame. unfold dv_apply in E. apply obind_ok in E as ([s' []] & E1 & E); congruence.
  - apply Hsame. congruence.
  - unfold dv_clear in E. apply obind_ok in E as ([s' r'] & E1 & E). injection E as <- _. eapply clear_tracks; eassumption.
Qed.

End track.

(** ** Several containers *)
Section world.
Context {V L OP RET A : Type}.
Variable P : params.
Hypothesis HP : 0 <= expo P <= 30.
Variable l0 : L.
Variable step : store V -> L -> OP -> outcome (store V * L * RET).
Variable stb : bool.
Variable a0 : A.
Variable vals : A -> list V.
Variable Rl : L -> A -> Prop.
Variable exec : A -> OP -> A * RET.
Variable legal : store V -> L -> OP -> Prop.
Variable oclr : OP.
Variable rclr : RET.
Hypothesis vals0 : vals a0 = [].
Hypothesis Rl0 : Rl l0 a0.
Hypothesis step_ok : forall s l a o, st_ok P s (vals a) -> Rl l a -> st_stable s = stb -> legal s l o ->
  exists s' l', step s l o = Ok (s', l', (exec a o).2) /\ st_ok P s' (vals (exec a o).1) /\ Rl l' (exec a o).1 /\ tracks P s s'.
Hypothesis clr_ok : forall xs l, step (SVec xs) l oclr = Ok (SVec [], l0, rclr).

Notation cont := (cont V L).
Implicit Types (h : bheap V) (x : cont).

(** What a container owns and holds *)
Definition cobj h x (a : option A) bs ts : Prop :=
  match c_st x, a with
  | RVec xs, Some a => stb = false /\ xs = vals a /\ Rl (c_lk x) a /\ bs = [] /\ ts = [] /\ hok [] [] h
  | RVec _, None => stb = false /\ bs = [] /\ ts = [] /\ hok [] [] h
  | RBlk v, Some a => stb = true /\ Rl (c_lk x) a /\ exists ids frees, vgood P h v (vals a) ids frees /\ bs = frees ++ ids /\ ts = vts v
  | RBlk v, None => stb = true /\ v_data v = None /\ f_tab (v_fl v) = None /\ bs = [] /\ ts = [] /\ hok [] [] h
  end.

Lemma cobj_frame h h' x a bs ts :
  cobj h x a bs ts -> (forall b, b ∈ bs -> sameb b h h') -> (forall u, u ∈ ts -> tb h' !! u = tb h !! u) ->
  hok bs ts h' -> cobj h' x a bs ts.
Proof.
  unfold cobj. destruct (c_st x) as [xs|v], a as [a|].
  - intros (E1 & E2 & E3 & -> & -> & _) _ _ Hok. auto 7.
  - intros (E1 & -> & -> & _) _ _ Hok. auto.
  - intros (E1 & E2 & ids & frees & [Hv Hp] & -> & ->) Hs Ht Hok. splits; try assumption. exists ids, frees. splits. split; [exact (vinv_frame P (proj1 HP) h h' v _ ids frees Hv Hs Ht Hok)|exact Hp].
  - intros (E1 & E2 & E3 & -> & -> & _) _ _ Hok. auto 7.
Qed.

Lemma cobj_hok h x a bs ts : cobj h x a bs ts -> hok bs ts h.
Proof.
  unfold cobj. destruct (c_st x) as [xs|v], a as [a|].
  - intros (_ & _ & _ & -> & -> & H). exact H.
  - intros (_ & -> & -> & H). exact H.
  - intros (_ & _ & ids & frees & [Hv _] & -> & ->). eapply vinv_hok; exact Hv.
  - intros (_ & _ & _ & -> & -> & H). exact H.
Qed.

Definition cw_inv (w : cworld V L) W G : Prop := winv cobj (cw_heap w) (cw_objs w) W G.

(** What the caller must respect: lifetimes, no use of a container that was moved from other than destroying it, moving
    to it and, if the storage is a std::vector, copying to it and clear(). *)
Definition cs_legal (w : cworld V L) (W : gmap nat (option A)) (p : cop V L OP) : Prop :=
  match p with
  | CDefault o => W !! o = None
  | CCopy o src => W !! o = None /\ exists a, W !! src = Some (Some a)
  | CMove o src _ _ => W !! o = None /\ exists a, W !! src = Some (Some a)
  | CCopyAssign o src => (exists a, W !! src = Some (Some a)) /\ (exists d, W !! o = Some d /\ (stb = true -> d <> None))
  | CMoveAssign o src _ _ => is_Some (W !! o) /\ exists a, W !! src = Some (Some a)
  | CCall o c => (exists a x, W !! o = Some (Some a) /\ cw_objs w !! o = Some x /\ legal (in_heap (cw_heap w) (c_st x)) (c_lk x) c) \/
      (W !! o = Some None /\ stb = false /\ c = oclr)
  | CDestroy o => is_Some (W !! o)
  end.

(** The defects of StableBlockVector to avoid: a full table (no copies), a vector emptied by removals (its copy is broken) *)
Definition cs_guard (w : cworld V L) (p : cop V L OP) : Prop :=
  match p with
  | CCopy _ src => forall x v, cw_objs w !! src = Some x -> c_st x = RBlk v -> ~ vfull P v /\ (v_size v = 0 -> v_data v = None)
  | CCopyAssign _ src => forall x v, cw_objs w !! src = Some x -> c_st x = RBlk v -> ~ vfull P v
  | _ => True
  end.

Lemma cobj_free h x a bs ts : cobj h x a bs ts -> exists h', rst_free P h (c_st x) = Ok h' /\ upd bs ts h [] [] h'.
Proof.
  destruct HP as [HP1 HP2]. unfold cobj. destruct (c_st x) as [xs|v], a as [a|]; cbn [rst_free].
  - intros (_ & _ & _ & -> & -> & H). exists h. split; [reflexivity|apply upd_refl; exact H].
  - intros (_ & -> & -> & H). exists h. split; [reflexivity|apply upd_refl; exact H].
  - intros (_ & _ & ids & frees & [Hv Hp] & -> & ->). eapply vfree_ok; eassumption.
  - intros (_ & E & _ & -> & -> & H). exists h. unfold vec_free_all. rewrite E. split; [reflexivity|apply upd_refl; exact H].
Qed.

Lemma cobj_stb h x a bs ts : cobj h x a bs ts -> match c_st x with RVec _ => stb = false | RBlk _ => stb = true end.
Proof. unfold cobj. destruct (c_st x), a; tauto. Qed.

Lemma cw_step_ok w W G p :
  cw_inv w W G -> cs_legal w W p -> cs_guard w p ->
  exists w' G', cstep P l0 step stb w p = Ok (w', (cs_exec a0 exec rclr W p).2) /\ cw_inv w' (cs_exec a0 exec rclr W p).1 G'.
Proof.
  intros Hw Hl Hg. pose proof (hok_nil _ (wi_new _ _ _ _ _ Hw)) as Hok. pose proof HP as [HP1 HP2].
  set (husk := Cont (if stb then RBlk (Vec 0 None 0 0 0 flist0) else RVec (@nil V)) l0).
  assert (Hhusk : forall h, hok [] [] h -> cobj h husk None [] []) by (intros h H; subst husk; unfold cobj; destruct stb; cbn; auto 7).
  destruct w as [h objs]. unfold cw_inv in *. cbn [cw_heap cw_objs] in *.
  destruct p as [o|o src|o src jx jl|o src|o src jx jl|o c|o]; cbn [cs_legal cs_guard cstep cs_exec fst snd cw_heap cw_objs] in *; unfold cget; cbn [cw_objs].
  - eexists _, _. split; [reflexivity|]. cbn [cw_heap cw_objs].
    apply w_add; [exact Hw|apply (wi_dom _ _ _ _ _ Hw); exact Hl|]. unfold cobj. destruct stb eqn:Eb; cbn; rewrite ?vals0.
    + splits; [exact Rl0|]. exists [], []. splits. split; [left; auto|intros [F _]; cbn in F; congruence].
    + auto 7.
  - destruct Hl as [Ho [a Ha]]. destruct (wi_lookup _ _ _ _ _ _ _ Hw Ha) as (x & bs & ts & Ex & Eg & Hx). rewrite Ex, Ha. cbn [obind].
    unfold cobj in Hx. destruct (c_st x) as [xs|v] eqn:Es; cbn [rst_copy].
    + destruct Hx as (E1 & -> & Hr & -> & -> & _). cbn [obind]. eexists _, _. split; [reflexivity|]. cbn [cw_heap cw_objs].
      apply w_add; [exact Hw|apply (wi_dom _ _ _ _ _ Hw); exact Ho|]. unfold cobj. cbn. auto 7.
    + destruct Hx as (E1 & Hr & ids & frees & [Hv Hp] & -> & ->). destruct (Hg x v Ex Es) as [Hf He].
      destruct (vcopy_ok P HP1 h v (vals a) ids frees HP2 Hv Hf) as (h' & v' & ids' & frees' & -> & Hv' & U & Hp'). cbn [obind].
      eexists _, _. split; [reflexivity|]. cbn [cw_heap cw_objs].
      eapply w_new; [exact cobj_frame|exact cobj_hok|exact Hw|apply (wi_dom _ _ _ _ _ Hw); exact Ho|exact U| |].
      * unfold cobj. cbn. splits; try assumption. exists ids', frees'. splits. split; [exact Hv'|]. intros F. destruct (Hp' F) as [Fx Fd].
        apply Fd, He. rewrite (vinv_size _ _ _ _ _ _ Hv), Fx. reflexivity.
      * eexists husk, None. apply Hhusk. exact Hok.
  - destruct Hl as [Ho [a Ha]]. destruct (wi_lookup _ _ _ _ _ _ _ Hw Ha) as (x & bs & ts & Ex & Eg & Hx). rewrite Ex, Ha. cbn [obind].
    assert (Hne : o <> src) by congruence.
    pose proof (w_add cobj h objs W G o husk None Hw (proj2 (wi_dom _ _ _ _ _ Hw o) Ho) (Hhusk _ Hok)) as Hw1.
    destruct (rst_move (c_st x) jx) as [st st'] eqn:Em. eexists _, _. split; [reflexivity|]. cbn [cw_heap cw_objs].
    eapply (w_transfer cobj) with (o := o) (src := src) (x' := Cont st (c_lk x)) (a' := Some a) (y' := Cont st' jl) (a0 := None) (bs := bs) (ts := ts) in Hw1;
      [|assumption|rewrite lookup_insert_ne by assumption; exact Eg|apply lookup_insert| |].
    + rewrite !insert_insert in Hw1. exact Hw1.
    + unfold cobj in *. cbn [c_st c_lk]. destruct (c_st x) as [xs|v]; cbn in Em; injection Em as <- <-; exact Hx.
    + pose proof (cobj_stb _ _ _ _ _ Hx) as Hb. unfold cobj. cbn [c_st c_lk]. destruct (c_st x) as [xs|v]; cbn in Em; injection Em as <- <-; auto 7.
  - destruct Hl as [[a Ha] (ad & Had & Hnn)].
    destruct (wi_lookup _ _ _ _ _ _ _ Hw Had) as (d & bsd & tsd & Ed & Egd & Hd). rewrite Ed. cbn [obind].
    destruct (wi_lookup _ _ _ _ _ _ _ Hw Ha) as (x & bs & ts & Ex & Eg & Hx). rewrite Ex, Ha. cbn [obind].
    pose proof (cobj_stb _ _ _ _ _ Hd) as Hbd. pose proof (cobj_stb _ _ _ _ _ Hx) as Hbx.
    destruct (c_st d) as [ys|vd] eqn:Esd; destruct (c_st x) as [xs|v] eqn:Es; cbn [rst_copy_assign]; try congruence.
    + cbn [obind]. eexists _, _. split; [reflexivity|]. cbn [cw_heap cw_objs].
      unfold cobj in Hd, Hx. rewrite Es in Hx. rewrite Esd in Hd. destruct Hx as (E1 & -> & Hr & -> & -> & _).
      assert (bsd = [] /\ tsd = []) as [-> ->] by (destruct ad; tauto).
      eapply w_upd; [exact cobj_frame|exact cobj_hok|exact Hw|exact Egd|apply upd_refl; exact Hok|]. unfold cobj. cbn. auto 7.
    + unfold cobj in Hd, Hx. rewrite Es in Hx. rewrite Esd in Hd. destruct ad as [ad|]; [|exfalso; apply Hnn; tauto].
      destruct Hx as (E1 & Hr & ids & frees & [Hv Hp] & -> & ->). destruct Hd as (_ & _ & idsd & freesd & [Hvd Hpd] & -> & ->).
      unfold vec_copy_assign. rewrite (vwalk_ok P HP1 h v (vals a) ids frees HP2 Hv (Hg x v Ex Es)). cbn [obind].
      destruct (vassign_ok P HP1 (vals a) h vd [] (vals ad) idsd freesd Hvd) as (h' & d' & ids' & frees' & E & Hd' & Hp' & U & _).
      change (zlen []) with 0 in E. rewrite E. cbn [obind].
      eexists _, _. split; [reflexivity|]. cbn [cw_heap cw_objs].
      eapply w_upd; [exact cobj_frame|exact cobj_hok|exact Hw|exact Egd|exact U|]. unfold cobj. cbn. splits; try assumption.
      exists ids', frees'. splits. split; [exact Hd'|]. intros F. apply Hpd, (Hp' F).
  - destruct Hl as [[ad Had] [a Ha]].
    destruct (wi_lookup _ _ _ _ _ _ _ Hw Had) as (d & bsd & tsd & Ed & Egd & Hd). rewrite Ed. cbn [obind].
    destruct (wi_lookup _ _ _ _ _ _ _ Hw Ha) as (x & bs & ts & Ex & Eg & Hx). rewrite Ex, Ha. cbn [obind].
    pose proof (cobj_stb _ _ _ _ _ Hd) as Hbd. pose proof (cobj_stb _ _ _ _ _ Hx) as Hbx.
    destruct (cobj_free h d ad bsd tsd Hd) as (h' & Ef & U).
    pose proof (upd_hok _ _ _ _ _ _ (cobj_hok _ _ _ _ _ Hd) U) as Hok'.
    assert (exists st', rst_move_assign P h (c_st d) (c_st x) jx = Ok (h', c_st x, st') /\ cobj h' (Cont st' jl) None [] []) as (st' & -> & Hs').
    { unfold rst_move_assign, cobj. cbn [c_st c_lk]. destruct (c_st d) as [ys|vd]; destruct (c_st x) as [xs|v]; cbn [rst_free] in Ef; try congruence.
      - injection Ef as <-. exists (RVec jx). auto 7.
      - unfold vec_move_assign. rewrite Ef. cbn [obind]. eexists. split; [reflexivity|]. cbn. auto 7. }
    cbn [obind].
    pose proof (w_upd cobj cobj_frame cobj_hok _ _ _ _ o (Cont st' jl) None _ _ _ _ h' Hw Egd U Hs') as Hw1.
    destruct (decide (o = src)) as [->|Hne].
    + eexists _, _. split; [reflexivity|]. cbn [cw_heap cw_objs]. rewrite !insert_insert. exact Hw1.
    + eexists _, _. split; [reflexivity|]. cbn [cw_heap cw_objs].
      eapply (w_transfer cobj) with (o := o) (src := src) (x' := Cont (c_st x) (c_lk x)) (a' := Some a) (y' := Cont st' jl) (a0 := None) (bs := bs) (ts := ts) in Hw1;
        [|assumption|rewrite lookup_insert_ne by assumption; exact Eg|apply lookup_insert| |exact Hs'].
      * rewrite !insert_insert in Hw1. exact Hw1.
      * destruct x as [sx lx]. cbn [c_st c_lk]. eapply (wi_obj _ _ _ _ _ Hw1 src); rewrite lookup_insert_ne by assumption; assumption.
  - destruct Hl as [(a & x & Ha & Ex & Hlc)|(Ha & Eb & ->)].
    + destruct (wi_lookup _ _ _ _ _ _ _ Hw Ha) as (x' & bs & ts & Ex' & Eg & Hx). rewrite Ex in Ex'. injection Ex' as <-. rewrite Ex, Ha. cbn [obind].
      pose proof (cobj_stb _ _ _ _ _ Hx) as Hb. unfold cobj in Hx.
      destruct (exec a c) as [a' r] eqn:Exec. cbn [fst snd].
      destruct (c_st x) as [xs|v] eqn:Es; cbn [in_heap] in *.
      * destruct Hx as (E1 & -> & Hr & -> & -> & _).
        destruct (step_ok (SVec (vals a)) (c_lk x) a c eq_refl Hr (eq_sym E1) Hlc) as (s' & l' & -> & Hs & Hr' & T). rewrite Exec in Hs, Hr'. cbn [obind fst snd] in *.
        destruct s' as [xs'|]; [|contradiction]. cbn [of_store]. eexists _, _. rewrite Exec. split; [reflexivity|]. cbn [cw_heap cw_objs].
        eapply w_upd; [exact cobj_frame|exact cobj_hok|exact Hw|exact Eg|apply upd_refl; exact Hok|]. unfold cobj. cbn in *. auto 7.
      * destruct Hx as (E1 & Hr & ids & frees & Hv & -> & ->).
        destruct (step_ok (SBlk h v) (c_lk x) a c (ex_intro _ ids (ex_intro _ frees Hv)) Hr (eq_sym E1) Hlc) as (s' & l' & -> & Hs & Hr' & T). rewrite Exec in Hs, Hr'. cbn [obind fst snd] in *.
        destruct s' as [|h' v']; [contradiction|]. destruct (T _ _ _ Hv) as (xs1 & ids1 & frees1 & Hv1 & U).
        destruct Hs as (ids2 & frees2 & Hv2). pose proof (good_unique P HP _ _ _ _ _ _ _ _ Hv1 Hv2). subst xs1.
        cbn [of_store]. eexists _, _. rewrite Exec. split; [reflexivity|]. cbn [cw_heap cw_objs].
        eapply w_upd; [exact cobj_frame|exact cobj_hok|exact Hw|exact Eg|exact U|]. unfold cobj. cbn. splits; try assumption. eauto.
    + destruct (wi_lookup _ _ _ _ _ _ _ Hw Ha) as (x & bs & ts & Ex & Eg & Hx). rewrite Ex, Ha. cbn [obind fst snd].
      unfold cobj in Hx. destruct (c_st x) as [xs|v]; [|destruct Hx; congruence]. destruct Hx as (_ & -> & -> & _). cbn [in_heap].
      rewrite clr_ok. cbn [obind of_store]. eexists _, _. split; [reflexivity|]. cbn [cw_heap cw_objs].
      eapply w_upd; [exact cobj_frame|exact cobj_hok|exact Hw|exact Eg|apply upd_refl; exact Hok|]. unfold cobj. cbn. rewrite vals0. auto 7.
  - destruct Hl as [a Ha]. destruct (wi_lookup _ _ _ _ _ _ _ Hw Ha) as (x & bs & ts & Ex & Eg & Hx). rewrite Ex. cbn [obind].
    destruct (cobj_free h x a bs ts Hx) as (h' & -> & U). cbn [obind].
    eexists _, _. split; [reflexivity|]. cbn [cw_heap cw_objs].
    eapply w_del with (x0 := husk) (a0 := None); [exact cobj_frame|exact cobj_hok|exact Hw|exact Eg|exact U|].
    apply Hhusk. eapply upd_hok; [exact (cobj_hok _ _ _ _ _ Hx)|exact U].
Qed.

(** A program every step of which respects [cs_legal] and [cs_guard] *)
Fixpoint cs_ok (w : cworld V L) (W : gmap nat (option A)) (ps : list (cop V L OP)) : Prop :=
  match ps with
  | [] => True
  | p :: ps' => cs_legal w W p /\ cs_guard w p /\
      forall w' r, cstep P l0 step stb w p = Ok (w', r) -> cs_ok w' (cs_exec a0 exec rclr W p).1 ps'
  end.

Lemma cw_run_ok ps : forall w W G, cw_inv w W G -> cs_ok w W ps ->
  exists w' G', crun P l0 step stb w ps = Ok (w', (cs_run a0 exec rclr W ps).2) /\ cw_inv w' (cs_run a0 exec rclr W ps).1 G'.
Proof.
  induction ps as [|p ps IH]; intros w W G Hw Hok; cbn [crun cs_run].
  - exists w, G. split; [reflexivity|exact Hw].
  - destruct Hok as (Hl & Hg & Hn). destruct (cw_step_ok w W G p Hw Hl Hg) as (w1 & G1 & E & Hw1). specialize (Hn _ _ E). rewrite E. cbn [obind].
    destruct (cs_exec a0 exec rclr W p) as [W1 r] eqn:Ex. cbn [fst snd] in *.
    destruct (IH w1 W1 G1 Hw1 Hn) as (w2 & G2 & -> & Hw2). cbn [obind]. destruct (cs_run a0 exec rclr W1 ps) as [W2 tr]. cbn [fst snd] in *. eauto.
Qed.

Lemma cw_init : cw_inv cworld0 ∅ ∅.
Proof. apply w_init. Qed.

(** What the invariant says of one container, by observation *)
Lemma cw_holds w W G o a : cw_inv w W G -> W !! o = Some (Some a) ->
  exists x, cw_objs w !! o = Some x /\ holds P (in_heap (cw_heap w) (c_st x)) (vals a) /\ Rl (c_lk x) a /\
    st_ok P (in_heap (cw_heap w) (c_st x)) (vals a) /\ st_stable (in_heap (cw_heap w) (c_st x)) = stb.
Proof.
  intros Hw Ha. destruct (wi_lookup _ _ _ _ _ _ _ Hw Ha) as (x & bs & ts & Ex & Eg & Hx). exists x. split; [exact Ex|].
  assert (st_ok P (in_heap (cw_heap w) (c_st x)) (vals a) /\ Rl (c_lk x) a /\ st_stable (in_heap (cw_heap w) (c_st x)) = stb) as (H1 & H2 & H3).
  { unfold cobj in Hx. destruct (c_st x) as [xs|v]; cbn.
    - destruct Hx as (E1 & -> & Hr & _). auto.
    - destruct Hx as (E1 & Hr & ids & frees & Hv & _). splits; try assumption; [eauto|auto]. }
  splits; try assumption. apply ok_holds; assumption.
Qed.

Lemma cw_gone w W G : cw_inv w W G -> cw_objs w = ∅ -> el (cw_heap w) = ∅ /\ bl (cw_heap w) = ∅ /\ tb (cw_heap w) = ∅.
Proof. intros Hw E. unfold cw_inv in Hw. rewrite E in Hw. eapply w_empty; exact Hw. Qed.

End world.
