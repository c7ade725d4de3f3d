(** States of the two-key mapped vectors reached by any legal calls, and what single calls do in them. *)
From stdpp Require Import gmap.
From Verif Require Import Base BlkHeap BlkProofs BlkIter VecModel VecSpec VecProofs VecWorld VecFinal
  MapStore MapStoreProofs MapModel MapSpec MapRel MapProofs MapReach DualModel DualSpec DualProofs MapFinal.

Lemma cls_ptr (c : dcls) : c = CPtr \/ c <> CPtr.
Proof. destruct c; (left; reflexivity) || (right; discriminate). Qed.

(** *** One lookup map *)
Section loops.
Context `{Countable K}.
Implicit Types (lk : gmap K Z) (ord : list K).

Lemma mp_shift_right er i ord lk kd : ord_ok lk ord ->
  ((exists k0, (mp_shift er i ord lk kd).2 = Some k0 /\ forall k, delete k0 (mp_shift er i ord lk kd).1 !! k = moved er i (lk !! k)) <-> one_or_default kd lk i).
Proof.
  intros Ho. split; [|apply mp_shift_guard; exact Ho]. intros (k0 & E & Hr).
  destruct (mp_shift_ind er i ord lk kd Ho) as [[Hn Hi]|(k1 & Hk1 & Hi)].
  - right. split; [exact Hn|]. exists k0. split; [congruence|]. specialize (Hr k0). rewrite lookup_delete in Hr.
    eapply (moved_dec er i (lk !! k0) (Hn k0)). congruence.
  - left. exists k1. split; [exact Hk1|]. intros k' Hk'. assert (k1 = k0) as -> by congruence. destruct (decide (k' = k0)); [assumption|].
    specialize (Hr k'). rewrite lookup_delete_ne, mp_shift_lk, Hk' in Hr by congruence || exact Ho. cbn in Hr. rewrite Z.eqb_refl in Hr. discriminate.
Qed.

Lemma mp_dec_right i ord lk k0 : ord_ok lk ord -> lk !! k0 = Some i ->
  ((forall k, delete k0 (mp_dec i ord lk) !! k = moved true i (lk !! k)) <-> (forall k', lk !! k' = Some i -> k' = k0)).
Proof.
  intros Ho E. split; [|intros Hu; apply mp_dec_guard; assumption]. intros Hr k' Hk'. destruct (decide (k' = k0)); [assumption|].
  specialize (Hr k'). rewrite lookup_delete_ne, mp_dec_lk, Hk' in Hr by congruence || exact Ho. cbn in Hr. rewrite Z.eqb_refl in Hr. discriminate.
Qed.

Lemma mp_shift_nonneg er i ord lk kd k0 : ord_ok lk ord -> 0 <= i -> (forall k j, lk !! k = Some j -> 0 <= j) ->
  forall k j, delete k0 (mp_shift er i ord lk kd).1 !! k = Some j -> 0 <= j.
Proof.
  intros Ho Hi Hn k j E. apply lookup_delete_Some in E as [_ E]. rewrite mp_shift_lk in E by exact Ho. eapply dec1_nonneg; [exact Hi| |exact E]. apply Hn.
Qed.
Lemma mp_dec_nonneg i ord lk k0 : ord_ok lk ord -> 0 <= i -> (forall k j, lk !! k = Some j -> 0 <= j) ->
  forall k j, delete k0 (mp_dec i ord lk) !! k = Some j -> 0 <= j.
Proof.
  intros Ho Hi Hn k j E. apply lookup_delete_Some in E as [_ E]. rewrite mp_dec_lk in E by exact Ho. eapply dec1_nonneg; [exact Hi| |exact E]. apply Hn.
Qed.
End loops.

Lemma it_new_throws {A} (h : bheap A) t pos off : it_new h t pos off <> Throw.
Proof.
  unfold it_new, it_ptr, tget. destruct t as [t|]; [|destruct (pos =? 0); discriminate]. destruct (tb h !! t) as [cs|]; [|discriminate].
  destruct (pos <? 0); [discriminate|]. destruct (cs !! Z.to_nat pos); discriminate.
Qed.
Lemma begin_throws {A} P (h : bheap A) v : vec_begin P h v <> Throw.
Proof.
  unfold vec_begin, vec_end. destruct (v_size v =? 0), (v_bsize v =? bsz P), (v_data v); try apply it_new_throws; discriminate.
Qed.

Lemma sbv_read_cases {A} P (ks : list A) : 0 <= expo P <= 30 -> sbv_read P ks = Ok ks \/ (sbv_read P ks = UB /\ 64 * bsz P <= zlen ks).
Proof.
  intros HP. destruct (Z.lt_ge_cases (zlen ks) (64 * bsz P)) as [Hlt|Hge]; [left; apply sbv_read_ok; assumption|].
  pose proof HP as [HP1 HP2]. unfold sbv_read. destruct (default_good (V := A) P HP) as [Hv Hp].
  destruct (vpushes_ok P HP1 ks bheap0 (vec_default P) [] [] [] Hv) as (h' & v' & ids' & frees' & E & Hv' & _). rewrite E. cbn [obind].
  destruct (vfull_dec P HP v') as [F|F].
  - right. split; [|exact Hge]. unfold vec_walk. pose proof (begin_throws P h' v'). destruct (vec_begin P h' v') as [first| |]; [|congruence|reflexivity]. cbn [obind].
    assert (Hnp : ~ phantom v'). { destruct Hv' as [(-> & _)|(t & Hl)]; [intros [? _]; cbn in *; congruence|]. intros [_ Hneg].
      destruct F as (_ & F2 & F3). assert (0 < v_slots v') by apply Hl. lia. }
    rewrite (full_end_ub P HP h' v' ks ids' frees'); [reflexivity| |exact F]. split; [exact Hv'|exact Hnp].
  - left. eapply vwalk_ok; [assumption|assumption|exact Hv'|exact F].
Qed.

Section dual.
Context {V : Type} `{Countable K1} `{Countable K2}.
Variable P : params.
Hypothesis HP : 0 <= expo P <= 30.
Variable cl : dcls.
Variable kd1 : option K1.
Variable kd2 : option K2.
Notation B := (bsz P).
Notation term := (K1 + K2)%type.
Implicit Types (d : dv V K1 K2).
Notation assoc := (assoc V (K1 + K2)%type (EqDecision0 := sum_eq_dec) (H := sum_countable)).
Implicit Types (a : assoc).
Notation step := (dv_step P cl kd1 kd2).

(** A term given to insert_or_assign denotes a position of the container, or nothing. *)
Definition din_range d (o : dop V K1 K2) : Prop :=
  match o with
  | DAssign k1 _ _ | DAssign1 k1 _ => forall i, d_l1 d !! k1 = Some i -> i < st_size (d_st d)
  | DAssign2 k2 _ => forall i, d_l2 d !! k2 = Some i -> i < st_size (d_st d)
  | _ => True
  end.

Inductive dreach (stb : bool) : dv V K1 K2 -> Prop :=
| dr_init : dreach stb (dv0 P stb)
| dr_step d o d' r : dreach stb d -> dv_legal cl d o -> step d o = Ok (d', r) -> dreach stb d'.

Definition dnonneg d : Prop := forall k i, d_lk d k = Some i -> 0 <= i.

Lemma push_any d xs x : st_ok P (d_st d) xs -> exists s', d_push P d x = Ok (Dv s' (d_l1 d) (d_l2 d), zlen xs) /\
  st_ok P s' (xs ++ [x]) /\ st_kept P (d_st d) s'.
Proof.
  intros Hs. destruct (st_push_ok P HP _ _ x Hs) as (s' & E & Hs' & Kp). unfold d_push. rewrite E. cbn. rewrite (st_ok_size P _ _ Hs). eauto.
Qed.

(** *** insert *)
Definition used d k : Prop := d_lk d k <> None.
(** What insert does to the terms when it goes ahead *)
Definition ins_lk d (k1 : K1) (k2 : K2) (n : Z) (k : K1 + K2) : option Z :=
  match cl, k with
  | CMap, _ | CStr, inr _ => if decide (k = inl k1 \/ k = inr k2) then Some n else d_lk d k
  | _, _ => if decide (k = inl k1 \/ k = inr k2) then match d_lk d k with Some i => Some i | None => Some n end else d_lk d k
  end.

Lemma insert_emplace1 d k1 n k : mp_emplace k1 n (d_l1 d) !! k = if decide (k = k1) then match d_l1 d !! k with Some i => Some i | None => Some n end else d_l1 d !! k.
Proof. rewrite mp_emplace_lk. destruct (decide (k = k1)) as [->|]; destruct (d_l1 d !! k1); reflexivity. Qed.
Lemma insert_emplace2 d k2 n k : mp_emplace k2 n (d_l2 d) !! k = if decide (k = k2) then match d_l2 d !! k with Some i => Some i | None => Some n end else d_l2 d !! k.
Proof. rewrite mp_emplace_lk. destruct (decide (k = k2)) as [->|]; destruct (d_l2 d !! k2); reflexivity. Qed.
Lemma insert_lk {K} `{Countable K} (lk : gmap K Z) k0 n k : <[k0 := n]> lk !! k = if decide (k = k0) then Some n else lk !! k.
Proof. destruct (decide (k = k0)) as [->|]; [apply lookup_insert|apply lookup_insert_ne; congruence]. Qed.
Lemma two_l k1 k2 k {A} (x y : A) : (if decide ((inl k : term) = inl k1 \/ (inl k : term) = inr k2) then x else y) = if decide (k = k1) then x else y.
Proof. destruct (decide (k = k1)) as [->|]; [rewrite decide_True by auto|rewrite decide_False by (intros [?|?]; congruence)]; reflexivity. Qed.
Lemma two_r k1 k2 k {A} (x y : A) : (if decide ((inr k : term) = inl k1 \/ (inr k : term) = inr k2) then x else y) = if decide (k = k2) then x else y.
Proof. destruct (decide (k = k2)) as [->|]; [rewrite decide_True by auto|rewrite decide_False by (intros [?|?]; congruence)]; reflexivity. Qed.

Lemma dinsert_any d xs k1 k2 x : st_ok P (d_st d) xs ->
  (used d (inl k1) /\ used d (inr k2) /\ step d (DInsert k1 k2 x) = Ok (d, MIdx None)) \/
  (~ (used d (inl k1) /\ used d (inr k2)) /\ exists d', step d (DInsert k1 k2 x) = Ok (d', MIdx (Some (zlen xs))) /\ st_ok P (d_st d') (xs ++ [x]) /\
     st_kept P (d_st d) (d_st d') /\ forall k, d_lk d' k = ins_lk d k1 k2 (zlen xs) k).
Proof.
  intros Hs. cbn [dv_step]. unfold dv_insert, used, d_new.
  destruct (d_lk d (inl k1)) as [i|] eqn:E1; destruct (d_lk d (inr k2)) as [j|] eqn:E2; cbn [negb andb]; [left; splits; congruence|right..].
  all: split; [intros [? ?]; congruence|]; destruct (push_any d xs x Hs) as (s' & E & Hs' & Kp); rewrite E; cbn [obind d_st d_l1 d_l2];
    eexists; splits; [destruct cl; exact Hs'|destruct cl; exact Kp|]; intros k; unfold ins_lk; destruct cl; destruct k as [k|k]; cbn [d_lk d_l1 d_l2];
    rewrite ?two_l, ?two_r, ?insert_emplace1, ?insert_emplace2, ?insert_lk; reflexivity.
Qed.

Lemma dinsert_one_any d xs k x : st_ok P (d_st d) xs ->
  (used d k /\ dv_insert_one P d k x = Ok (d, MIdx None)) \/
  (d_lk d k = None /\ exists d', dv_insert_one P d k x = Ok (d', MIdx (Some (zlen xs))) /\ st_ok P (d_st d') (xs ++ [x]) /\
     st_kept P (d_st d) (d_st d') /\ forall k', d_lk d' k' = if decide (k' = k) then Some (zlen xs) else d_lk d k').
Proof.
  intros Hs. unfold dv_insert_one, used, d_new. destruct (d_lk d k) as [i|] eqn:E1; cbn [negb]; [left; split; congruence|right].
  split; [reflexivity|]. destruct (push_any d xs x Hs) as (s' & E & Hs' & Kp); rewrite E; cbn [obind].
  eexists; splits; [rewrite d_emplace_st; exact Hs'|rewrite d_emplace_st; exact Kp|]. intros k'. rewrite d_emplace_lk.
  assert (d_lk (Dv s' (d_l1 d) (d_l2 d)) k = None) as -> by (destruct k; exact E1). destruct k'; reflexivity.
Qed.

Lemma dinsert0_any d xs x : st_ok P (d_st d) xs ->
  exists d', step d (DInsert0 x) = Ok (d', MIdx (Some (zlen xs))) /\ st_ok P (d_st d') (xs ++ [x]) /\ st_kept P (d_st d) (d_st d') /\ forall k, d_lk d' k = d_lk d k.
Proof.
  intros Hs. cbn [dv_step]. unfold dv_insert0. destruct (push_any d xs x Hs) as (s' & E & Hs' & Kp); rewrite E; cbn [obind].
  eexists; splits; [exact Hs'|exact Kp].
Qed.

(** *** insert_or_assign *)
(** The element to be replaced, if any *)
Definition asg_at d k1 k2 : option Z :=
  match cl with
  | CPtr => match d_l1 d !! k1, d_l2 d !! k2 with Some i, Some j => if j =? i then Some i else None | _, _ => None end
  | _ => d_l1 d !! k1
  end.

Lemma dassign_any d xs k1 k2 x : st_ok P (d_st d) xs -> dnonneg d -> din_range d (DAssign k1 k2 x) ->
  exists d', step d (DAssign k1 k2 x) = Ok (d', MIdx (Some (match asg_at d k1 k2 with Some i => i | None => zlen xs end))) /\
    st_ok P (d_st d') (match asg_at d k1 k2 with Some i => <[Z.to_nat i := x]> xs | None => xs ++ [x] end) /\ st_kept P (d_st d) (d_st d') /\
    (forall k, d_lk d' k = if decide (k = inl k1 \/ k = inr k2) then Some (match asg_at d k1 k2 with Some i => i | None => zlen xs end) else d_lk d k).
Proof.
  intros Hs Hn Hr. cbn [dv_step din_range] in *. unfold dv_assign, asg_at. pose proof (st_ok_size P _ _ Hs) as Hz. rewrite Hz in Hr.
  assert (Hset : forall i, d_l1 d !! k1 = Some i -> exists s', st_step P (d_st d) (VSet i x) = Ok (s', VUnit) /\ st_ok P s' (<[Z.to_nat i := x]> xs) /\ st_kept P (d_st d) s').
  { intros i Ei. apply (st_set_ok P HP); [exact Hs|]. split; [apply (Hn (inl k1)), Ei|apply Hr, Ei]. }
  assert (Happ : exists d', ('(d1, index) <-! d_push P d x ;; Ok (Dv (d_st d1) (<[k1 := index]> (d_l1 d1)) (<[k2 := index]> (d_l2 d1)), MIdx (V := V) (Some index))) =
      Ok (d', MIdx (Some (zlen xs))) /\ st_ok P (d_st d') (xs ++ [x]) /\ st_kept P (d_st d) (d_st d') /\
      (forall k, d_lk d' k = if decide (k = inl k1 \/ k = inr k2) then Some (zlen xs) else d_lk d k)).
  { destruct (push_any d xs x Hs) as (s' & E & Hs' & Kp); rewrite E; cbn [obind]. eexists; splits; [exact Hs'|exact Kp|].
    intros [k|k]; cbn [d_lk d_l1 d_l2]; rewrite ?two_l, ?two_r, ?insert_lk; reflexivity. }
  destruct cl.
  - destruct (d_l1 d !! k1) as [i|] eqn:E1; [|exact Happ]. destruct (Hset i eq_refl) as (s' & E & Hs' & Kp). rewrite E; cbn [obind].
    eexists; splits; [exact Hs'|exact Kp|]. intros [k|k]; cbn [d_lk d_l1 d_l2]; rewrite ?two_l, ?two_r, ?insert_lk; [|reflexivity].
    destruct (decide (k = k1)) as [->|]; [exact E1|reflexivity].
  - destruct (d_l1 d !! k1) as [i|] eqn:E1; [|unfold mp_emplace].
    + destruct (Hset i eq_refl) as (s' & E & Hs' & Kp). rewrite E; cbn [obind].
      eexists; splits; [exact Hs'|exact Kp|]. intros [k|k]; cbn [d_lk d_l1 d_l2]; rewrite ?two_l, ?two_r, ?insert_lk; [|reflexivity].
      destruct (decide (k = k1)) as [->|]; [exact E1|reflexivity].
    + destruct (push_any d xs x Hs) as (s' & E & Hs' & Kp). rewrite E in Happ |- *. cbn [obind d_st d_l1 d_l2] in *. rewrite E1. exact Happ.
  - destruct (d_l1 d !! k1) as [i|] eqn:E1; [|exact Happ]. destruct (d_l2 d !! k2) as [j|] eqn:E2; [|exact Happ].
    destruct (Z.eqb_spec j i) as [->|]; [|exact Happ]. destruct (Hset i eq_refl) as (s' & E & Hs' & Kp). rewrite E; cbn [obind].
    eexists; splits; [exact Hs'|exact Kp|]. intros [k|k]; cbn [d_lk d_l1 d_l2]; rewrite ?two_l, ?two_r.
    + destruct (decide (k = k1)) as [->|]; [exact E1|reflexivity].
    + destruct (decide (k = k2)) as [->|]; [exact E2|reflexivity].
Qed.

Lemma dassign_one_any d xs k x : st_ok P (d_st d) xs -> dnonneg d -> (forall i, d_lk d k = Some i -> i < st_size (d_st d)) ->
  exists d', dv_assign_one P d k x = Ok (d', MIdx (Some (match d_lk d k with Some i => i | None => zlen xs end))) /\
    st_ok P (d_st d') (match d_lk d k with Some i => <[Z.to_nat i := x]> xs | None => xs ++ [x] end) /\ st_kept P (d_st d) (d_st d') /\
    (forall k', d_lk d' k' = if decide (k' = k) then Some (match d_lk d k with Some i => i | None => zlen xs end) else d_lk d k').
Proof.
  intros Hs Hn Hr. unfold dv_assign_one. pose proof (st_ok_size P _ _ Hs) as Hz. rewrite Hz in Hr. destruct (d_lk d k) as [i|] eqn:Ek.
  - destruct (st_set_ok P HP (d_st d) xs i x Hs) as (s' & E & Hs' & Kp); [split; [eapply Hn, Ek|apply Hr; reflexivity]|]. rewrite E; cbn [obind].
    eexists; splits; [exact Hs'|exact Kp|]. intros k'. destruct (decide (k' = k)) as [->|]; [destruct k; exact Ek|destruct k'; reflexivity].
  - destruct (push_any d xs x Hs) as (s' & E & Hs' & Kp); rewrite E; cbn [obind].
    eexists; splits; [rewrite d_emplace_st; exact Hs'|rewrite d_emplace_st; exact Kp|]. intros k'. rewrite d_emplace_lk.
    assert (d_lk (Dv s' (d_l1 d) (d_l2 d)) k = None) as -> by (destruct k; exact Ek). destruct k'; reflexivity.
Qed.

(** *** addSearchTerm, addSearchTermForIndex *)
Lemma dterm_any d k i : exists d', Ok (d_emplace k i d, MBool (V := V) (d_new d k)) = Ok (d', MBool (match d_lk d k with Some _ => false | None => true end)) /\
  d_st d' = d_st d /\ forall k', d_lk d' k' = if decide (k' = k) then match d_lk d k with Some j => Some j | None => Some i end else d_lk d k'.
Proof.
  eexists. splits; [apply d_emplace_st|]. intros k'. rewrite d_emplace_lk. destruct (d_lk d k) eqn:E; destruct (decide (k' = k)) as [->|]; congruence.
Qed.

(** *** removal *)
Lemma drem_any d xs i o1 o2 : cl <> CPtr -> st_ok P (d_st d) xs -> 0 <= i < zlen xs -> ord_ok (d_l1 d) o1 -> ord_ok (d_l2 d) o2 ->
  (dv_remove_idx P cl kd1 kd2 d i o1 o2 = UB /\ cl = CStr /\ (64 * B <= terms_at (d_l1 d) i \/ 64 * B <= terms_at (d_l2 d) i)) \/
  exists d', dv_remove_idx P cl kd1 kd2 d i o1 o2 = Ok (d', MUnit) /\ st_ok P (d_st d') (without (st_stable (d_st d)) i xs) /\ st_kept P (d_st d) (d_st d') /\
    forall k, d_lk d' k = moved (erases (st_stable (d_st d)) (zlen xs) i) i (d_lk d k).
Proof.
  intros Hc Hs Hi Ho1 Ho2. destruct (st_erase_ok P HP _ _ i Hs Hi) as (s' & E & Hs' & Kp). unfold dv_remove_idx. rewrite (st_ok_size P _ _ Hs).
  destruct (Z.leb_spec (zlen xs) i); [lia|]. rewrite E. cbn [obind]. rewrite <- erases_neg. set (er := erases (st_stable (d_st d)) (zlen xs) i).
  rewrite <- without_erased in Hs'.
  pose proof (fun k => dm_removed er i o1 (d_l1 d) k Ho1) as D1. pose proof (fun k => dm_removed er i o2 (d_l2 d) k Ho2) as D2.
  pose proof (dm_keys_len er i o1 (d_l1 d) Ho1) as L1. pose proof (dm_keys_len er i o2 (d_l2 d) Ho2) as L2.
  destruct cl; [| |congruence].
  - right. destruct (dm_shift er i o1 (d_l1 d)) as [l1 ks1]. destruct (dm_shift er i o2 (d_l2 d)) as [l2 ks2]. cbn [obind d_keys fst snd] in *.
    eexists; splits; [exact Hs'|exact Kp|]. intros [k|k]; cbn; [apply D1|apply D2].
  - destruct (dm_shift er i o1 (d_l1 d)) as [l1 ks1]. destruct (dm_shift er i o2 (d_l2 d)) as [l2 ks2]. cbn [obind d_keys fst snd] in *.
    destruct (sbv_read_cases P ks1 HP) as [->|[-> F]]; [|left; splits; left; lia]. cbn [obind].
    destruct (sbv_read_cases P ks2 HP) as [->|[-> F]]; [|left; splits; right; lia]. cbn [obind].
    right. eexists; splits; [exact Hs'|exact Kp|]. intros [k|k]; cbn; [apply D1|apply D2].
Qed.

(** What a removal should do to the terms *)
Definition drem_right d (o : dop V K1 K2) i : Prop :=
  exists d', step d o = Ok (d', MUnit) /\ forall k, d_lk d' k = moved (erases (st_stable (d_st d)) (st_size (d_st d)) i) i (d_lk d k).

Lemma dv2_lk s (l1 : gmap K1 Z) (l2 : gmap K2 Z) k : d_lk (Dv (V := V) s l1 l2) k = match k with inl k1 => l1 !! k1 | inr k2 => l2 !! k2 end.
Proof. destruct k; reflexivity. Qed.

Lemma drem_ptr_iff d xs i o1 o2 : cl = CPtr -> st_ok P (d_st d) xs -> 0 <= i < zlen xs -> ord_ok (d_l1 d) o1 -> ord_ok (d_l2 d) o2 ->
  (drem_right d (DRemoveIdx i o1 o2) i <-> one_or_default kd1 (d_l1 d) i /\ one_or_default kd2 (d_l2 d) i).
Proof.
  intros Hc Hs Hi Ho1 Ho2. destruct (st_erase_ok P HP _ _ i Hs Hi) as (s' & E & Hs' & Kp). unfold drem_right. cbn [dv_step]. unfold dv_remove_idx.
  rewrite (st_ok_size P _ _ Hs). destruct (Z.leb_spec (zlen xs) i); [lia|]. rewrite E. cbn [obind]. rewrite Hc. rewrite <- erases_neg.
  set (er := erases (st_stable (d_st d)) (zlen xs) i). rewrite <- (mp_shift_right er i o1 (d_l1 d) kd1 Ho1), <- (mp_shift_right er i o2 (d_l2 d) kd2 Ho2).
  destruct (mp_shift er i o1 (d_l1 d) kd1) as [l1 i1]. destruct (mp_shift er i o2 (d_l2 d) kd2) as [l2 i2]. cbn [fst snd]. split.
  - intros (d' & Ed & Hk). destruct i1 as [k1|]; [|discriminate]. destruct i2 as [k2|]; [|discriminate]. injection Ed as <-.
    split; [exists k1|exists k2]; (split; [reflexivity|]); intros k; [apply (Hk (inl k))|apply (Hk (inr k))].
  - intros [(k1 & -> & G1) (k2 & -> & G2)]. eexists. split; [reflexivity|]. intros [k|k]; [apply G1|apply G2].
Qed.

Lemma drem_ptr_key_iff d xs k i o1 o2 : cl = CPtr -> st_stable (d_st d) = false -> st_ok P (d_st d) xs -> d_lk d k = Some i -> 0 <= i < zlen xs ->
  ord_ok (d_l1 d) o1 -> ord_ok (d_l2 d) o2 ->
  (drem_right d (DRemove k o1 o2) i <-> dkey_guard P cl kd1 kd2 d k).
Proof.
  intros Hc Hst Hs Ek Hi Ho1 Ho2. destruct (st_erase_ok P HP _ _ i Hs Hi) as (s' & E & Hs' & Kp). unfold drem_right, dkey_guard. cbn [dv_step]. unfold dv_remove.
  rewrite Ek, E. cbn [obind]. rewrite Hc, Hst. cbn [erases negb orb]. split.
  - intros (d' & Ed & Hk) i' Ei'. injection Ei' as <-. destruct k as [k1|k2]; cbn in Ek.
    + rewrite <- (mp_dec_right i o1 (d_l1 d) k1 Ho1 Ek), <- (mp_shift_right true i o2 (d_l2 d) kd2 Ho2).
      destruct (mp_shift true i o2 (d_l2 d) kd2) as [l2 i2]. destruct i2 as [k2|]; [|discriminate]. injection Ed as <-. cbn [fst snd].
      split; [intros k; apply (Hk (inl k))|]. exists k2. split; [reflexivity|]. intros k. apply (Hk (inr k)).
    + rewrite <- (mp_dec_right i o2 (d_l2 d) k2 Ho2 Ek), <- (mp_shift_right true i o1 (d_l1 d) kd1 Ho1).
      destruct (mp_shift true i o1 (d_l1 d) kd1) as [l1 i1]. destruct i1 as [k1|]; [|discriminate]. injection Ed as <-. cbn [fst snd].
      split; [intros k; apply (Hk (inr k))|]. exists k1. split; [reflexivity|]. intros k. apply (Hk (inl k)).
  - intros G. specialize (G i eq_refl). destruct k as [k1|k2]; cbn in Ek; destruct G as [G1 G2].
    + rewrite <- (mp_dec_right i o1 (d_l1 d) k1 Ho1 Ek) in G1. rewrite <- (mp_shift_right true i o2 (d_l2 d) kd2 Ho2) in G2.
      destruct (mp_shift true i o2 (d_l2 d) kd2) as [l2 i2]. cbn [fst snd] in G2. destruct G2 as (k2 & -> & G2).
      eexists. split; [reflexivity|]. intros [k|k]; [apply G1|apply G2].
    + rewrite <- (mp_dec_right i o2 (d_l2 d) k2 Ho2 Ek) in G1. rewrite <- (mp_shift_right true i o1 (d_l1 d) kd1 Ho1) in G2.
      destruct (mp_shift true i o1 (d_l1 d) kd1) as [l1 i1]. cbn [fst snd] in G2. destruct G2 as (k1 & -> & G2).
      eexists. split; [reflexivity|]. intros [k|k]; [apply G2|apply G1].
Qed.

(** Elements of the pointer class *)
Lemma drem_ptr_els d xs i o1 o2 d' r : cl = CPtr -> st_ok P (d_st d) xs -> 0 <= i -> dnonneg d -> ord_ok (d_l1 d) o1 -> ord_ok (d_l2 d) o2 ->
  step d (DRemoveIdx i o1 o2) = Ok (d', r) -> (i < zlen xs /\ st_ok P (d_st d') (without (st_stable (d_st d)) i xs) \/ (zlen xs <= i /\ d' = d)) /\
  st_kept P (d_st d) (d_st d') /\ dnonneg d'.
Proof.
  intros Hc Hs Hi0 Hn Ho1 Ho2 Es. cbn [dv_step] in Es. unfold dv_remove_idx in Es. rewrite (st_ok_size P _ _ Hs) in Es.
  destruct (Z.leb_spec (zlen xs) i) as [Hle|Hlt]; [injection Es as <- _; splits; [right; auto|apply st_kept_refl|exact Hn]|].
  destruct (st_erase_ok P HP _ _ i Hs) as (s' & E & Hs' & Kp); [lia|]. rewrite E in Es. cbn [obind] in Es. rewrite Hc in Es.
  set (er := negb _) in Es. pose proof (fun kd k0 => mp_shift_nonneg er i o1 (d_l1 d) kd k0 Ho1 Hi0 (fun k => Hn (inl k))) as N1.
  pose proof (fun kd k0 => mp_shift_nonneg er i o2 (d_l2 d) kd k0 Ho2 Hi0 (fun k => Hn (inr k))) as N2. specialize (N1 kd1). specialize (N2 kd2).
  destruct (mp_shift er i o1 (d_l1 d) kd1) as [l1 i1]. destruct (mp_shift er i o2 (d_l2 d) kd2) as [l2 i2]. destruct i1 as [k1|]; [|discriminate]. destruct i2 as [k2|]; [|discriminate].
  injection Es as <- _. cbn [d_st]. rewrite without_erased. splits; [left; auto|exact Kp|].
  intros [k|k] j; cbn; [apply N1|apply N2].
Qed.

Lemma drem_ptr_key_els d xs k o1 o2 d' r : cl = CPtr -> st_stable (d_st d) = false -> st_ok P (d_st d) xs -> dnonneg d -> ord_ok (d_l1 d) o1 -> ord_ok (d_l2 d) o2 ->
  step d (DRemove k o1 o2) = Ok (d', r) ->
  match d_lk d k with Some i => 0 <= i < zlen xs /\ st_ok P (d_st d') (delete (Z.to_nat i) xs) | None => d' = d end /\
  st_kept P (d_st d) (d_st d') /\ dnonneg d'.
Proof.
  intros Hc Hst Hs Hn Ho1 Ho2 Es. cbn [dv_step] in Es. unfold dv_remove in Es. destruct (d_lk d k) as [i|] eqn:Ek; [|injection Es as <- _; splits; [apply st_kept_refl|exact Hn]].
  rewrite Hc in Es. pose proof (Hn _ _ Ek) as Hi0.
  assert (Hi : 0 <= i < zlen xs).
  { split; [exact Hi0|]. destruct (d_st d) as [ys|]; [|discriminate]. cbn in Hs. subst ys. cbn [st_erase] in Es.
    destruct (Z.ltb_spec i (zlen xs)); [assumption|]. rewrite andb_false_r in Es. discriminate. }
  destruct (st_erase_ok P HP _ _ i Hs Hi) as (s' & E & Hs' & Kp). rewrite E in Es. cbn [obind] in Es.
  unfold st_erased in Hs'. rewrite Hst in Hs'. cbn [andb] in Hs'.
  pose proof (fun kd k0 => mp_shift_nonneg true i o1 (d_l1 d) kd k0 Ho1 Hi0 (fun k => Hn (inl k))) as N1.
  pose proof (fun kd k0 => mp_shift_nonneg true i o2 (d_l2 d) kd k0 Ho2 Hi0 (fun k => Hn (inr k))) as N2. specialize (N1 kd1). specialize (N2 kd2).
  pose proof (fun k0 => mp_dec_nonneg i o1 (d_l1 d) k0 Ho1 Hi0 (fun k => Hn (inl k))) as M1.
  pose proof (fun k0 => mp_dec_nonneg i o2 (d_l2 d) k0 Ho2 Hi0 (fun k => Hn (inr k))) as M2.
  destruct k as [k1|k2].
  - destruct (mp_shift true i o2 (d_l2 d) kd2) as [l2 [k2|]]; [|discriminate]. injection Es as <- _. splits; [apply Hi|apply Hi|exact Hs'|exact Kp|].
    intros [k|k] j; cbn; [apply M1|apply N2].
  - destruct (mp_shift true i o1 (d_l1 d) kd1) as [l1 [k1|]]; [|discriminate]. injection Es as <- _. splits; [apply Hi|apply Hi|exact Hs'|exact Kp|].
    intros [k|k] j; cbn; [apply N1|apply M2].
Qed.

(** *** Reachable states *)
Lemma moved_nonneg er i o j : 0 <= i -> (forall j', o = Some j' -> 0 <= j') -> moved er i o = Some j -> 0 <= j.
Proof.
  intros Hi Ho E. destruct o as [j'|]; cbn in E; [|discriminate]. specialize (Ho _ eq_refl). destruct (j' =? i); [discriminate|].
  destruct er; cbn in E; [destruct (Z.ltb_spec i j')|]; injection E as <-; lia.
Qed.

Lemma dfind_same d k d' r : step d (DFind k) = Ok (d', r) -> d' = d.
Proof.
  cbn [dv_step]. unfold dv_find. intros E.
  assert (H1 : (it <-! match d_lk d k with Some i => st_iter P (d_st d) i | None => st_end P (d_st d) end ;;
      last <-! st_end P (d_st d) ;;
      if si_eq it last then Ok (d, MVal None) else x <-! st_deref P (d_st d) it ;; Ok (d, MVal (Some x))) = Ok (d', r) -> d' = d).
  { intros E'. apply obind_ok in E' as (it & _ & E'). apply obind_ok in E' as (last & _ & E'). destruct (si_eq it last); [congruence|].
    apply obind_ok in E' as (x & _ & E'). congruence. }
  destruct cl; try (apply H1, E). destruct (d_lk d k); [|congruence]. apply obind_ok in E as ([s' []] & _ & E); congruence.
Qed.

Lemma dreach_step d xs o d' r : st_ok P (d_st d) xs -> dnonneg d -> dv_legal cl d o -> din_range d o -> step d o = Ok (d', r) ->
  (exists xs', st_ok P (d_st d') xs') /\ dnonneg d' /\ st_kept P (d_st d) (d_st d').
Proof.
  intros Hs Hn Hl Hr E. pose proof (st_ok_size P _ _ Hs) as Hsz. pose proof (zlen_nonneg xs) as Hz.
  assert (Hsame : d' = d -> (exists xs', st_ok P (d_st d') xs') /\ dnonneg d' /\ st_kept P (d_st d) (d_st d')) by (intros ->; splits; eauto using st_kept_refl).
  assert (Hlk : forall k' (c : bool) o j, (forall i, o = Some i -> 0 <= i) -> (if c then o else d_lk d k') = Some j -> 0 <= j).
  { intros k' [] o' j Ho E'; [apply Ho, E'|eapply Hn, E']. }
  assert (Hins1 : forall k x, dv_insert_one P d k x = Ok (d', r) -> (exists xs', st_ok P (d_st d') xs') /\ dnonneg d' /\ st_kept P (d_st d) (d_st d')).
  { intros k x Ex. destruct (dinsert_one_any d xs k x Hs) as [[_ E1]|(_ & d1 & E1 & H1 & H2 & H3)]; rewrite Ex in E1; injection E1 as <- _; [apply Hsame; reflexivity|].
    splits; [eauto| |exact H2]. intros k' j. rewrite H3. destruct (decide (k' = k)); [intros [= <-]; lia|apply Hn]. }
  assert (Has1 : forall k x, (forall i, d_lk d k = Some i -> i < st_size (d_st d)) -> dv_assign_one P d k x = Ok (d', r) ->
     (exists xs', st_ok P (d_st d') xs') /\ dnonneg d' /\ st_kept P (d_st d) (d_st d')).
  { intros k x Hkr Ex. destruct (dassign_one_any d xs k x Hs Hn Hkr) as (d1 & E1 & H1 & H2 & H3). rewrite Ex in E1. injection E1 as <- _.
    splits; [eauto| |exact H2]. intros k' j. rewrite H3. destruct (decide (k' = k)); [|apply Hn]. destruct (d_lk d k) eqn:Ek; intros [= <-]; [eapply Hn, Ek|lia]. }
  assert (Hterm : forall k i, 0 <= i -> Ok (d_emplace k i d, MBool (V := V) (d_new d k)) = Ok (d', r) ->
     (exists xs', st_ok P (d_st d') xs') /\ dnonneg d' /\ st_kept P (d_st d) (d_st d')).
  { intros k i Hi Ex. destruct (dterm_any d k i) as (d1 & E1 & H1 & H2). rewrite Ex in E1. injection E1 as <- _. rewrite H1.
    splits; [eauto| |apply st_kept_refl]. intros k' j. rewrite H2. destruct (decide (k' = k)); [|apply Hn]. destruct (d_lk d k) eqn:Ek; intros [= <-]; [eapply Hn, Ek|lia]. }
  assert (Hrem : forall i o1 o2, cl <> CPtr -> 0 <= i -> ord_ok (d_l1 d) o1 -> ord_ok (d_l2 d) o2 -> dv_remove_idx P cl kd1 kd2 d i o1 o2 = Ok (d', r) ->
     (exists xs', st_ok P (d_st d') xs') /\ dnonneg d' /\ st_kept P (d_st d) (d_st d')).
  { intros i o1 o2 Hc Hi Ho1 Ho2 Ex. destruct (Z.le_gt_cases (zlen xs) i) as [Hge|Hlt].
    - unfold dv_remove_idx in Ex. rewrite Hsz in Ex. destruct (Z.leb_spec (zlen xs) i); [|lia]. apply Hsame. congruence.
    - destruct (drem_any d xs i o1 o2 Hc Hs) as [(E1 & _)|(d1 & E1 & H1 & H2 & H3)]; [lia|exact Ho1|exact Ho2|congruence|].
      rewrite Ex in E1. injection E1 as <- _. splits; [eauto| |exact H2]. intros k j. rewrite H3. apply moved_nonneg; [exact Hi|]. apply Hn. }
  destruct o as [k1 k2 x|k1 x|k2 x|x|k1 k2 x|k1 x|k2 x|k i|k old|k|i|i| |i o1 o2|k o1 o2|f| | |]; cbn [dv_legal din_range] in *.
  - destruct (dinsert_any d xs k1 k2 x Hs) as [(_ & _ & E1)|(_ & d1 & E1 & H1 & H2 & H3)]; rewrite E in E1; injection E1 as <- _; [apply Hsame; reflexivity|].
    splits; [eauto| |exact H2]. intros k j. rewrite H3. unfold ins_lk. pose proof (Hn k) as Hk.
    destruct cl, k; destruct (decide _); try apply Hk; try (intros [= <-]; lia); (destruct (d_lk d _); [exact (Hk j)|intros [= <-]; lia]).
  - eapply Hins1, E.
  - eapply Hins1, E.
  - destruct (dinsert0_any d xs x Hs) as (d1 & E1 & H1 & H2 & H3). rewrite E in E1; injection E1 as <- _. splits; [eauto| |exact H2].
    intros k j. rewrite H3. apply Hn.
  - destruct (dassign_any d xs k1 k2 x Hs Hn Hr) as (d1 & E1 & H1 & H2 & H3). rewrite E in E1; injection E1 as <- _. splits; [eauto| |exact H2].
    intros k j. rewrite H3. destruct (decide _); [|apply Hn]. unfold asg_at. pose proof (Hn (inl k1)) as Hk. cbn in Hk.
    destruct cl; [destruct (d_l1 d !! k1)..|]; try (intros [= <-]; (lia || (apply Hk; reflexivity))).
    destruct (d_l1 d !! k1); [|intros [= <-]; lia]. destruct (d_l2 d !! k2); [|intros [= <-]; lia]. destruct (_ =? _); intros [= <-]; [apply Hk; reflexivity|lia].
  - eapply (Has1 (inl k1)), E. exact Hr.
  - eapply (Has1 (inr k2)), E. exact Hr.
  - destruct Hl as [_ Hi]. cbn [dv_step] in E. unfold dv_term_idx in E. destruct (i <? st_size (d_st d)); [eapply Hterm; [exact Hi|exact E]|]. apply Hsame. congruence.
  - cbn [dv_step] in E. unfold dv_term in E. destruct (d_lk d old) eqn:Eo; [|apply Hsame; congruence]. eapply Hterm; [eapply Hn, Eo|exact E].
  - apply Hsame. eapply dfind_same, E.
  - apply Hsame. cbn [dv_step] in E. unfold dv_get in E. destruct (match cl with CPtr => _ | _ => _ end); [congruence|]. apply obind_ok in E as ([s' []] & _ & E); congruence.
  - apply Hsame. cbn [dv_step] in E. unfold dv_at in E. apply obind_ok in E as ([s' []] & _ & E); congruence.
  - apply Hsame. cbn [dv_step] in E. unfold dv_back in E. apply obind_ok in E as ([s' []] & _ & E); congruence.
  - destruct Hl as (Hi & Ho1 & Ho2 & _ & Hst). destruct (cls_ptr cl) as [Hc|Hc]; [|eapply Hrem; [exact Hc|exact Hi|exact Ho1|exact Ho2|exact E]].
    destruct (drem_ptr_els d xs i o1 o2 d' r Hc Hs Hi Hn Ho1 Ho2 E) as ([[_ H1]|[_ ->]] & H2 & H3); splits; eauto.
  - destruct Hl as (Ho1 & Ho2 & _ & Hst). destruct (cls_ptr cl) as [Hc|Hc].
    + destruct (drem_ptr_key_els d xs k o1 o2 d' r Hc (Hst Hc) Hs Hn Ho1 Ho2 E) as (H1 & H2 & H3).
      destruct (d_lk d k) as [i|] eqn:Ek; [destruct H1 as [_ H1]; splits; eauto|subst d'; splits; eauto].
    + cbn [dv_step] in E. unfold dv_remove in E. destruct (d_lk d k) as [i|] eqn:Ek; [|apply Hsame; congruence].
      assert (dv_remove_idx P cl kd1 kd2 d i o1 o2 = Ok (d', r)) as E' by (destruct cl; [exact E|exact E|congruence]). eapply Hrem; [exact Hc|eapply Hn, Ek|exact Ho1|exact Ho2|exact E'].
  - cbn [dv_step] in E. unfold dv_modify in E. destruct (st_modify P (d_st d) f) as [[s' l]| |] eqn:E1; cbn [obind] in E; try discriminate.
    injection E as <- _. destruct (st_modify_ok P HP (d_st d) xs f Hs (modify_room P HP _ _ _ _ _ Hs E1)) as (s1 & E2 & Hm & Kp).
    rewrite E1 in E2. injection E2 as -> ->. cbn [d_st]. splits; [eauto| |exact Kp]. intros k j. rewrite dv2_lk. destruct k; [apply (Hn (inl _))|apply (Hn (inr _))].
  - apply Hsame. cbn [dv_step] in E. unfold dv_apply in E. apply obind_ok in E as ([s' []] & _ & E); congruence.
  - apply Hsame. cbn [dv_step] in E. congruence.
  - cbn [dv_step] in E. unfold dv_clear in E. destruct (st_clear_ok P HP (d_st d) xs Hs) as (s1 & E1 & Hm & Kp). rewrite E1 in E. cbn [obind] in E.
    injection E as <- _. cbn [d_st]. splits; [eauto| |exact Kp]. intros k j. rewrite dv2_lk. destruct k; rewrite lookup_empty; discriminate.
Qed.

(** DualMappedVector and DualStringMappedVector: every reachable state agrees with the specification. *)
Lemma dreach_rel stb d : cl <> CPtr -> dreach stb d -> exists a, drel P d a.
Proof.
  intros Hc Hr. induction Hr as [|d o d' r Hr (a & R) Hl E]; [eexists; apply drel0; exact HP|].
  pose proof (r_st _ _ _ _ R) as Hs. pose proof (rel_size P _ _ _ R) as Hsz. pose proof (as_len a) as Hlen.
  assert (Hok : dv_guard P cl kd1 kd2 d o -> exists a, drel P d' a).
  { intros G. destruct (dv_step_ok P HP cl kd1 kd2 d a o R Hl G) as (d1 & E1 & R1 & _). rewrite E in E1. injection E1 as <- _. eauto. }
  assert (Hrem : forall i o1 o2, 0 <= i -> ord_ok (d_l1 d) o1 -> ord_ok (d_l2 d) o2 -> dv_remove_idx P cl kd1 kd2 d i o1 o2 = Ok (d', r) -> exists a, drel P d' a).
  { intros i o1 o2 Hi Ho1 Ho2 Ex. destruct (Z.le_gt_cases (zlen (as_vals a)) i) as [Hge|Hlt].
    - unfold dv_remove_idx in Ex. destruct (Z.leb_spec (st_size (d_st d)) i); [|lia]. injection Ex as <- _. eauto.
    - destruct (drem_any d (as_vals a) i o1 o2 Hc Hs) as [(E1 & _)|(d1 & E1 & H1 & H2 & H3)]; [lia|exact Ho1|exact Ho2|congruence|].
      rewrite Ex in E1. injection E1 as <- _. destruct (proj2 (pos_ids_len a (Z.to_nat i))) as [u Eu]; [unfold zlen in *; lia|].
      exists (as_remove (st_stable (d_st d)) u (Z.to_nat i) a). eapply rel_remove; [exact R|exact Eu|rewrite Z2Nat.id by lia; rewrite <- without_erased; exact H1|].
      intros k. rewrite H3, Z2Nat.id, erases_neg by lia. reflexivity. }
  destruct o as [k1 k2 x|k1 x|k2 x|x|k1 k2 x|k1 x|k2 x|k i|k old|k|i|i| |i o1 o2|k o1 o2|f| | |]; try (apply Hok; exact I).
  - apply dfind_same in E as ->. eauto.
  - destruct Hl as (Hi & Ho1 & Ho2 & _). eapply Hrem; eassumption.
  - destruct Hl as (Ho1 & Ho2 & _). cbn [dv_step] in E. unfold dv_remove in E. destruct (d_lk d k) as [i|] eqn:Ek; [|injection E as <- _; eauto].
    assert (dv_remove_idx P cl kd1 kd2 d i o1 o2 = Ok (d', r)) as E' by (destruct cl; [exact E|exact E|congruence]). eapply Hrem; [|exact Ho1|exact Ho2|exact E'].
    apply (rel_range P _ _ _ _ _ R Ek).
  - apply Hok. cbn [dv_guard]. cbn [dv_step] in E. unfold dv_modify in E. apply obind_ok in E as ([s' l] & E & _). eapply modify_room; eassumption.
  - cbn [dv_step] in E. unfold dv_apply in E. apply obind_ok in E as ([s' []] & _ & E); try discriminate. injection E as <- _. eauto.
Qed.

(** DualMappedPointerVector: no element ever has two terms of one kind, and positions are in range. *)
Definition inj {K} `{Countable K} (lk : gmap K Z) : Prop := forall k k' i, lk !! k = Some i -> lk !! k' = Some i -> k = k'.
Definition below {K} `{Countable K} (n : Z) (lk : gmap K Z) : Prop := forall k i, lk !! k = Some i -> 0 <= i < n.

Lemma emplace_inj {K} `{Countable K} (lk : gmap K Z) k0 n : inj lk -> below n lk -> 0 <= n -> inj (mp_emplace k0 n lk) /\ below (n + 1) (mp_emplace k0 n lk).
Proof.
  intros Hi Hb Hn. split.
  - intros k k' i. rewrite !mp_emplace_lk. destruct (lk !! k0) eqn:E0; [destruct (decide (k = k0)), (decide (k' = k0)); subst; rewrite <- ?E0; apply Hi|].
    destruct (decide (k = k0)), (decide (k' = k0)); subst; try congruence; [intros [= <-] F|intros F [= <-]|apply Hi]; apply Hb in F; lia.
  - intros k i. rewrite mp_emplace_lk. destruct (lk !! k0) as [z|] eqn:E0; [destruct (decide (k = k0)) as [->|]|destruct (decide (k = k0)) as [->|]];
      first [intros [= <-]; lia|intros F; rewrite ?E0 in F; first [apply Hb in F; lia|injection F as <-; apply Hb in E0; lia]].
Qed.
Lemma insert_inj {K} `{Countable K} (lk : gmap K Z) k0 n : inj lk -> below n lk -> 0 <= n -> inj (<[k0 := n]> lk) /\ below (n + 1) (<[k0 := n]> lk).
Proof.
  intros Hi Hb Hn. split.
  - intros k k' i. rewrite !insert_lk. destruct (decide (k = k0)), (decide (k' = k0)); subst; try congruence; [intros [= <-] F|intros F [= <-]|apply Hi]; apply Hb in F; lia.
  - intros k i. rewrite insert_lk. destruct (decide (k = k0)) as [->|]; [intros [= <-]; lia|]. intros F. apply Hb in F. lia.
Qed.
Lemma below_up {K} `{Countable K} (lk : gmap K Z) n : below n lk -> below (n + 1) lk.
Proof. intros Hb k i F. apply Hb in F. lia. Qed.

Lemma shift_sub {K} `{Countable K} (lk : gmap K Z) i ord kd k0 k j : inj lk -> ord_ok lk ord -> (mp_shift true i ord lk kd).2 = Some k0 ->
  delete k0 (mp_shift true i ord lk kd).1 !! k = Some j -> moved true i (lk !! k) = Some j.
Proof.
  intros Hi Ho E0 E. apply lookup_delete_Some in E as [Hne E]. rewrite mp_shift_lk in E by exact Ho.
  assert (Hk : lk !! k <> Some i).
  { intros F. destruct (mp_shift_ind true i ord lk kd Ho) as [[Hn _]|(k1 & Hk1 & E1)]; [eapply Hn, F|]. assert (k1 = k0) as -> by congruence.
    apply Hne. eapply Hi; [exact Hk1|exact F]. }
  destruct (moved_dec true i (lk !! k) Hk) as [<- _]. exact E.
Qed.
Lemma dec_sub {K} `{Countable K} (lk : gmap K Z) i ord k0 k j : inj lk -> ord_ok lk ord -> lk !! k0 = Some i ->
  delete k0 (mp_dec i ord lk) !! k = Some j -> moved true i (lk !! k) = Some j.
Proof.
  intros Hi Ho E0 E. apply lookup_delete_Some in E as [Hne E]. rewrite mp_dec_lk in E by exact Ho.
  assert (Hk : lk !! k <> Some i) by (intros F; apply Hne; eapply Hi; [exact E0|exact F]).
  destruct (moved_dec true i (lk !! k) Hk) as [<- _]. exact E.
Qed.
Lemma sub_inj {K} `{Countable K} (lk lk' : gmap K Z) i n : inj lk -> below n lk -> 0 <= i < n ->
  (forall k j, lk' !! k = Some j -> moved true i (lk !! k) = Some j) -> inj lk' /\ below (n - 1) lk'.
Proof.
  intros Hi Hb Hr Hs.
  assert (Hm : forall k j, moved true i (lk !! k) = Some j -> exists j0, lk !! k = Some j0 /\ 0 <= j0 < n /\ ((i < j0 /\ j = j0 - 1) \/ (j0 < i /\ j = j0))).
  { intros k j E. destruct (lk !! k) as [j0|] eqn:E0; cbn in E; [|discriminate]. pose proof (Hb _ _ E0). exists j0. splits; try lia.
    destruct (Z.eqb_spec j0 i); [discriminate|]. destruct (Z.ltb_spec i j0); injection E as <-; lia. }
  split.
  - intros k k' j E E'. apply Hs, Hm in E as (j0 & E & Hj). apply Hs, Hm in E' as (j1 & E' & Hj'). assert (j0 = j1) as -> by lia. eapply Hi; eassumption.
  - intros k j E. apply Hs, Hm in E as (j0 & E & Hj). lia.
Qed.

Definition pinv d : Prop := inj (d_l1 d) /\ inj (d_l2 d) /\ below (st_size (d_st d)) (d_l1 d) /\ below (st_size (d_st d)) (d_l2 d).

Lemma inj_empty {K} `{Countable K} n : inj (∅ : gmap K Z) /\ below n (∅ : gmap K Z).
Proof. split; intros ? ?; rewrite lookup_empty; discriminate. Qed.

Lemma pinv_step d xs o d' r : cl = CPtr -> st_ok P (d_st d) xs -> pinv d -> dv_legal cl d o -> step d o = Ok (d', r) -> pinv d'.
Proof.
  intros Hc Hs (I1 & I2 & B1 & B2) Hl E. pose proof (st_ok_size P _ _ Hs) as Hsz. pose proof (zlen_nonneg xs) as Hz. rewrite Hsz in *.
  assert (Hn : dnonneg d) by (intros [k|k] i F; [apply B1 in F|apply B2 in F]; lia).
  assert (Hsame : d' = d -> pinv d') by (intros ->; unfold pinv; rewrite Hsz; auto).
  assert (Hpush : forall x d1 n, d_push P d x = Ok (d1, n) -> n = zlen xs /\ st_size (d_st d1) = zlen xs + 1 /\ d_l1 d1 = d_l1 d /\ d_l2 d1 = d_l2 d).
  { intros x d1 n Ex. destruct (push_any d xs x Hs) as (s' & E' & Hs' & _). rewrite Ex in E'. injection E' as -> ->. cbn.
    rewrite (st_ok_size P _ _ Hs'), zlen_app, zlen_cons, zlen_nil. splits; lia. }
  assert (Hset : forall i x s' r', st_step P (d_st d) (VSet i x) = Ok (s', r') -> 0 <= i < zlen xs -> st_size s' = zlen xs).
  { intros i x s' r' Ex Hi. destruct (st_set_ok P HP (d_st d) xs i x Hs Hi) as (s1 & E1 & H1' & _). rewrite Ex in E1. injection E1 as -> _.
    rewrite (st_ok_size P _ _ H1'). unfold zlen. rewrite insert_length. reflexivity. }
  pose proof (fun k => emplace_inj (d_l1 d) k (zlen xs) I1 B1 Hz) as EM1. pose proof (fun k => emplace_inj (d_l2 d) k (zlen xs) I2 B2 Hz) as EM2.
  pose proof (fun k => insert_inj (d_l1 d) k (zlen xs) I1 B1 Hz) as IN1. pose proof (fun k => insert_inj (d_l2 d) k (zlen xs) I2 B2 Hz) as IN2.
  pose proof (below_up _ _ B1) as U1. pose proof (below_up _ _ B2) as U2.
  assert (Hemp : forall k x d1, d_push P d x = Ok (d1, zlen xs) -> pinv (d_emplace k (zlen xs) d1)).
  { intros k x d1 Ex. destruct (Hpush _ _ _ Ex) as (_ & S1 & L1 & L2). unfold pinv. rewrite d_emplace_st, S1.
    destruct k; cbn [d_emplace d_l1 d_l2]; rewrite L1, L2; splits; try assumption; apply EM1 || apply EM2. }
  assert (Happ : forall k1 k2 x r', ('(d1, index) <-! d_push P d x ;; Ok (Dv (d_st d1) (<[k1 := index]> (d_l1 d1)) (<[k2 := index]> (d_l2 d1)), r' index)) = Ok (d', r) -> pinv d').
  { intros k1 k2 x r' Ex. destruct (d_push P d x) as [[d1 n]| |] eqn:Ep; try discriminate. destruct (Hpush _ _ _ Ep) as (-> & S1 & L1 & L2). cbn [obind] in Ex. injection Ex as <- _.
    unfold pinv; cbn [d_st d_l1 d_l2]. rewrite S1, L1, L2. splits; apply IN1 || apply IN2. }
  assert (Hi1 : forall k x, dv_insert_one P d k x = Ok (d', r) -> pinv d').
  { intros k x Ex. unfold dv_insert_one in Ex. destruct (negb (d_new d k)); [apply Hsame; congruence|].
    destruct (d_push P d x) as [[d1 n]| |] eqn:Ep; try discriminate. destruct (Hpush _ _ _ Ep) as (-> & _). cbn [obind] in Ex. injection Ex as <- _. eapply Hemp, Ep. }
  assert (Ha1 : forall k x, dv_assign_one P d k x = Ok (d', r) -> pinv d').
  { intros k x Ex. unfold dv_assign_one in Ex. destruct (d_lk d k) as [i|] eqn:Ek.
    - apply obind_ok in Ex as ([s' r'] & Ex & E'). injection E' as <- _. unfold pinv. cbn. rewrite (Hset _ _ _ _ Ex); [auto|]. destruct k; [eapply B1, Ek|eapply B2, Ek].
    - destruct (d_push P d x) as [[d1 n]| |] eqn:Ep; try discriminate. destruct (Hpush _ _ _ Ep) as (-> & _). cbn [obind] in Ex. injection Ex as <- _. eapply Hemp, Ep. }
  assert (Hers : forall i s' b, st_stable (d_st d) = false -> 0 <= i < zlen xs -> st_erase P (d_st d) i = Ok (s', b) -> b = true /\ st_size s' = zlen xs - 1).
  { intros i s' b Hst Hi Ex. destruct (st_erase_ok P HP _ _ i Hs Hi) as (s1 & E1 & H1' & _). rewrite Ex, Hst in E1. injection E1 as -> ->. split; [reflexivity|].
    rewrite (st_ok_size P _ _ H1'). unfold st_erased. rewrite Hst. cbn [andb]. unfold zlen in *. rewrite length_delete by (apply lookup_lt_is_Some_2; lia). lia. }
  destruct o as [k1 k2 x|k1 x|k2 x|x|k1 k2 x|k1 x|k2 x|k i|k old|k|i|i| |i o1 o2|k o1 o2|f| | |]; cbn [dv_legal] in Hl.
  - cbn [dv_step] in E. unfold dv_insert in E. destruct (_ && _); [apply Hsame; congruence|]. rewrite Hc in E.
    destruct (d_push P d x) as [[d1 n]| |] eqn:Ep; try discriminate. destruct (Hpush _ _ _ Ep) as (-> & S1 & L1 & L2). cbn [obind] in E. injection E as <- _.
    unfold pinv; cbn [d_st d_l1 d_l2]. rewrite S1, L1, L2. splits; apply EM1 || apply EM2.
  - eapply Hi1, E.
  - eapply Hi1, E.
  - congruence.
  - cbn [dv_step] in E. unfold dv_assign in E. rewrite Hc in E. destruct (d_l1 d !! k1) as [i|] eqn:Ek; [|eapply Happ, E].
    destruct (d_l2 d !! k2) as [j|] eqn:Ek2; [|eapply Happ, E]. destruct (j =? i); [|eapply Happ, E].
    apply obind_ok in E as ([s' r'] & E & E'). injection E' as <- _. unfold pinv. cbn. rewrite (Hset _ _ _ _ E); [auto|]. eapply B1, Ek.
  - eapply Ha1, E.
  - eapply Ha1, E.
  - destruct Hl. congruence.
  - congruence.
  - apply Hsame. eapply dfind_same, E.
  - apply Hsame. cbn [dv_step] in E. unfold dv_get in E. destruct (match cl with CPtr => _ | _ => _ end); [congruence|]. apply obind_ok in E as ([s' []] & _ & E); congruence.
  - destruct Hl. congruence.
  - apply Hsame. cbn [dv_step] in E. unfold dv_back in E. apply obind_ok in E as ([s' []] & _ & E); congruence.
  - destruct Hl as (Hi0 & Ho1 & Ho2 & _ & Hst). specialize (Hst Hc). cbn [dv_step] in E. unfold dv_remove_idx in E. rewrite Hsz, Hc in E.
    destruct (Z.leb_spec (zlen xs) i) as [|Hlt]; [apply Hsame; congruence|]. apply obind_ok in E as ([s' b] & Ex & E).
    destruct (Hers _ _ _ Hst (conj Hi0 Hlt) Ex) as [-> Hz']. pose proof (shift_sub (d_l1 d) i o1 kd1) as T1. pose proof (shift_sub (d_l2 d) i o2 kd2) as T2.
    destruct (mp_shift true i o1 (d_l1 d) kd1) as [l1 i1]. destruct (mp_shift true i o2 (d_l2 d) kd2) as [l2 i2]. cbn [fst snd] in *.
    destruct i1 as [k1|]; [|discriminate]. destruct i2 as [k2|]; [|discriminate]. injection E as <- _. unfold pinv. cbn [d_st d_l1 d_l2]. rewrite Hz'.
    destruct (sub_inj (d_l1 d) (delete k1 l1) i (zlen xs) I1 B1) as [? ?]; [lia|intros k j; apply T1; auto|].
    destruct (sub_inj (d_l2 d) (delete k2 l2) i (zlen xs) I2 B2) as [? ?]; [lia|intros k j; apply T2; auto|]. auto.
  - destruct Hl as (Ho1 & Ho2 & _ & Hst). specialize (Hst Hc). cbn [dv_step] in E. unfold dv_remove in E.
    destruct (d_lk d k) as [i|] eqn:Ek; [|apply Hsame; congruence]. rewrite Hc in E. apply obind_ok in E as ([s' b] & Ex & E).
    assert (Hi : 0 <= i < zlen xs) by (destruct k; [eapply B1, Ek|eapply B2, Ek]).
    destruct (Hers _ _ _ Hst Hi Ex) as [-> Hz']. destruct k as [k1|k2]; cbn in Ek.
    + pose proof (shift_sub (d_l2 d) i o2 kd2) as T2. destruct (mp_shift true i o2 (d_l2 d) kd2) as [l2 i2]. cbn [fst snd] in *.
      destruct i2 as [k2|]; [|discriminate]. injection E as <- _. unfold pinv. cbn [d_st d_l1 d_l2]. rewrite Hz'.
      destruct (sub_inj (d_l1 d) (delete k1 (mp_dec i o1 (d_l1 d))) i (zlen xs) I1 B1) as [? ?]; [lia|intros k j; apply dec_sub; auto|].
      destruct (sub_inj (d_l2 d) (delete k2 l2) i (zlen xs) I2 B2) as [? ?]; [lia|intros k j; apply T2; auto|]. auto.
    + pose proof (shift_sub (d_l1 d) i o1 kd1) as T1. destruct (mp_shift true i o1 (d_l1 d) kd1) as [l1 i1]. cbn [fst snd] in *.
      destruct i1 as [k1|]; [|discriminate]. injection E as <- _. unfold pinv. cbn [d_st d_l1 d_l2]. rewrite Hz'.
      destruct (sub_inj (d_l2 d) (delete k2 (mp_dec i o2 (d_l2 d))) i (zlen xs) I2 B2) as [? ?]; [lia|intros k j; apply dec_sub; auto|].
      destruct (sub_inj (d_l1 d) (delete k1 l1) i (zlen xs) I1 B1) as [? ?]; [lia|intros k j; apply T1; auto|]. auto.
  - cbn [dv_step] in E. unfold dv_modify in E. destruct (st_modify P (d_st d) f) as [[s' l]| |] eqn:E1; cbn [obind] in E; try discriminate.
    injection E as <- _. destruct (st_modify_ok P HP (d_st d) xs f Hs (modify_room P HP _ _ _ _ _ Hs E1)) as (s1 & E2 & Hm & Kp).
    rewrite E1 in E2. injection E2 as -> ->. unfold pinv. cbn [d_st d_l1 d_l2]. rewrite (st_ok_size P _ _ Hm). unfold zlen. rewrite map_length. fold (zlen xs). auto.
  - apply Hsame. cbn [dv_step] in E. unfold dv_apply in E. apply obind_ok in E as ([s' []] & _ & E); congruence.
  - apply Hsame. cbn [dv_step] in E. congruence.
  - cbn [dv_step] in E. unfold dv_clear in E. apply obind_ok in E as ([s' r'] & _ & E). injection E as <- _. unfold pinv. cbn [d_st d_l1 d_l2].
    splits; apply (inj_empty 0) || apply inj_empty.
Qed.

(** *** All reachable states of the three classes *)
Lemma dreach_ok stb d : dreach stb d -> (exists xs, st_ok P (d_st d) xs) /\ st_stable (d_st d) = stb /\
  (forall k i, d_lk d k = Some i -> 0 <= i < st_size (d_st d)) /\ (cl = CPtr -> inj (d_l1 d) /\ inj (d_l2 d)).
Proof.
  intros Hr. assert (H3 : (exists xs, st_ok P (d_st d) xs) /\ st_stable (d_st d) = stb /\ dnonneg d /\ (cl = CPtr -> pinv d)).
  { induction Hr as [|d o d' r Hr ((xs & Hs) & Hb & Hn & Hp) Hl E].
    - splits.
      + exists []. apply (r_st P _ _ _ (drel0 P HP stb)).
      + destruct stb; reflexivity.
      + intros k i. destruct k; cbn; rewrite lookup_empty; discriminate.
      + intros _. unfold pinv. cbn [d_l1 d_l2 dv0]. splits; apply (inj_empty 0) || apply inj_empty.
    - assert (Hir : din_range d o).
      { destruct (cls_ptr cl) as [Hc|Hc].
        - destruct (Hp Hc) as (_ & _ & B1 & B2). destruct o; cbn; try exact I; intros i F; (eapply B1, F) || (eapply B2, F).
        - destruct (dreach_rel stb d Hc Hr) as [a R]. pose proof (fun k i => rel_range P _ _ _ k i R) as Hg. rewrite <- (st_ok_size P _ _ (r_st _ _ _ _ R)) in Hg.
          destruct o; cbn; try exact I; intros i F; (apply (Hg (inl _) i F)) || (apply (Hg (inr _) i F)). }
      destruct (dreach_step d xs o d' r Hs Hn Hl Hir E) as (A & C & D). splits; try assumption.
      + rewrite (st_kept_stable P _ _ D). exact Hb.
      + intros Hc. eapply pinv_step; eauto. }
  destruct H3 as (Hs & Hb & Hn & Hp). splits; [exact Hs|exact Hb| |intros Hc; destruct (Hp Hc) as (I1 & I2 & _); auto].
  destruct (cls_ptr cl) as [Hc|Hc].
  - destruct (Hp Hc) as (_ & _ & B1 & B2). intros [k|k] i F; [eapply B1, F|eapply B2, F].
  - destruct (dreach_rel stb d Hc Hr) as [a R]. intros k i F. rewrite (st_ok_size P _ _ (r_st _ _ _ _ R)). apply (rel_range P _ _ _ k i R F).
Qed.
End dual.
