(** The two-key mapped vectors against the specification. *)
From stdpp Require Import gmap.
From Verif Require Import Base BlkHeap BlkProofs BlkIter VecModel VecSpec VecProofs VecWorld VecFinal MapStore MapStoreProofs MapModel MapSpec MapRel MapProofs DualModel DualSpec.

Section loops.
Context `{Countable K}.
Implicit Types (lk : gmap K Z) (ord : list K).

Lemma dm_shift_eq er i ord : forall lk ind, (dm_shift er i ord lk).1 = (mp_shift er i ord lk ind).1.
Proof.
  induction ord as [|k ord IH]; intros lk ind; cbn [dm_shift mp_shift]; [reflexivity|]. destruct (lk !! k) as [j|]; [|apply IH].
  destruct (er && (i <? j)); [apply IH|]. destruct (j =? i); [|apply IH].
  rewrite <- (IH lk (Some k)). destruct (dm_shift er i ord lk). reflexivity.
Qed.

Lemma dm_shift_keys er i ord : forall lk, NoDup ord ->
  (forall k, k ∈ (dm_shift er i ord lk).2 <-> k ∈ ord /\ lk !! k = Some i) /\ NoDup (dm_shift er i ord lk).2.
Proof.
  induction ord as [|k0 ord IH]; intros lk Hnd; cbn [dm_shift].
  - split; [|constructor]. intros k. split; [intros F; inversion F|intros [F _]; inversion F].
  - apply NoDup_cons in Hnd as [Hk0 Hnd].
    assert (Hskip : lk !! k0 <> Some i -> forall lk1, (forall k, k <> k0 -> lk1 !! k = lk !! k) ->
      (forall k, k ∈ (dm_shift er i ord lk1).2 <-> k ∈ k0 :: ord /\ lk !! k = Some i) /\ NoDup (dm_shift er i ord lk1).2).
    { intros Hne lk1 E1. destruct (IH lk1 Hnd) as [I1 I2]. split; [|exact I2]. intros k. rewrite I1. split.
      - intros [Hk E]. split; [constructor; exact Hk|]. rewrite <- E1; [exact E|]. intros ->. contradiction.
      - intros [Hk E]. apply elem_of_cons in Hk as [->|Hk]; [contradiction|]. split; [exact Hk|]. rewrite E1; [exact E|]. intros ->. contradiction. }
    destruct (lk !! k0) as [j|] eqn:Ej.
    + destruct (er && (i <? j)) eqn:Eb.
      * apply Hskip; [|intros k Hne; apply lookup_insert_ne; congruence]. intros [= ->]. apply andb_true_iff in Eb as [_ Eb]. lia.
      * destruct (Z.eqb_spec j i) as [->|Hne].
        -- destruct (IH lk Hnd) as [I1 I2]. destruct (dm_shift er i ord lk) as [lk' ks]. cbn in *. split.
           ++ intros k. rewrite elem_of_cons, I1, elem_of_cons. split; [intros [->|[]]; auto|]. intros [[->|] ?]; auto.
           ++ constructor; [|exact I2]. intros F. apply I1 in F as [F _]. contradiction.
        -- apply Hskip; [congruence|reflexivity].
    + apply Hskip; [congruence|reflexivity].
Qed.

Lemma dm_del_lk ks : forall lk k, dm_del ks lk !! k = if decide (k ∈ ks) then None else lk !! k.
Proof.
  unfold dm_del. induction ks as [|k0 ks IH]; intros lk k; cbn.
  - rewrite decide_False by (intros F; inversion F). reflexivity.
  - rewrite IH. destruct (decide (k ∈ ks)) as [F|F].
    + rewrite decide_True by (constructor; exact F). reflexivity.
    + destruct (decide (k = k0)) as [->|Hne].
      * rewrite decide_True by constructor. apply lookup_delete.
      * rewrite decide_False by (intros G; apply elem_of_cons in G as [G|G]; contradiction). apply lookup_delete_ne. congruence.
Qed.

Lemma dm_removed er i ord lk k : ord_ok lk ord ->
  dm_del (dm_shift er i ord lk).2 (dm_shift er i ord lk).1 !! k = shifted er i (lk !! k).
Proof.
  intros Ho. rewrite dm_del_lk, (dm_shift_eq er i ord lk None), mp_shift_lk by exact Ho. rewrite shifted_dec1.
  destruct (dm_shift_keys er i ord lk (proj1 Ho)) as [Hks _]. destruct (decide (k ∈ (dm_shift er i ord lk).2)) as [F|F].
  - apply Hks in F as [_ ->]. rewrite Z.eqb_refl. reflexivity.
  - destruct (lk !! k) as [j|] eqn:E; [|reflexivity]. destruct (Z.eqb_spec j i) as [->|]; [|reflexivity].
    exfalso. apply F, Hks. split; [apply Ho; rewrite E; eauto|exact E].
Qed.

(** How many terms denote position [i] *)
Definition terms_at (lk : gmap K Z) (i : Z) : Z := zlen (base.filter (fun kv => kv.2 = i) (map_to_list lk)).

Lemma dm_keys_len er i ord lk : ord_ok lk ord -> zlen (dm_shift er i ord lk).2 <= terms_at lk i.
Proof.
  intros Ho. destruct (dm_shift_keys er i ord lk (proj1 Ho)) as [Hks Hnd]. unfold terms_at, zlen.
  apply inj_le. rewrite <- (map_length fst (base.filter _ _)). apply submseteq_length. apply NoDup_submseteq; [exact Hnd|].
  intros k Hk. apply Hks in Hk as [_ E]. apply elem_of_list_fmap. exists (k, i). split; [reflexivity|].
  apply elem_of_list_filter. split; [reflexivity|]. apply elem_of_map_to_list. exact E.
Qed.

(** The guard of the one-key removal loop *)
Definition one_or_default (kd : option K) lk i : Prop :=
  (exists k, lk !! k = Some i /\ forall k', lk !! k' = Some i -> k' = k) \/
  ((forall k, lk !! k <> Some i) /\ exists d, kd = Some d /\ lk !! d = None).

Lemma mp_shift_guard er i ord lk kd : ord_ok lk ord -> one_or_default kd lk i ->
  exists k0, (mp_shift er i ord lk kd).2 = Some k0 /\ forall k, delete k0 (mp_shift er i ord lk kd).1 !! k = shifted er i (lk !! k).
Proof.
  intros Ho Hg.
  assert (Hdel : forall k0 k, delete k0 (mp_shift er i ord lk kd).1 !! k = if decide (k = k0) then None else dec1 er i (lk !! k)).
  { intros k0 k. destruct (decide (k = k0)) as [->|Hne]; [apply lookup_delete|rewrite lookup_delete_ne by congruence; apply mp_shift_lk; exact Ho]. }
  destruct (mp_shift_ind er i ord lk kd Ho) as [[Hn Hi]|(k0 & Hk0 & Hi)].
  - destruct Hg as [(k & Hk & _)|(_ & d & -> & Hd)]; [exfalso; eapply Hn; exact Hk|]. exists d. split; [exact Hi|]. intros k. rewrite Hdel.
    apply (shifted_of_dec er i (fun k => lk !! k)); [|right; exact Hd]. intros k' Hk'. exfalso. eapply Hn; exact Hk'.
  - exists k0. split; [exact Hi|]. intros k. rewrite Hdel. apply (shifted_of_dec er i (fun k => lk !! k)); [|left; exact Hk0].
    intros k' Hk'. destruct Hg as [(k1 & _ & Hu)|(Hn & _)]; [|exfalso; eapply Hn; exact Hk']. rewrite (Hu _ Hk'), (Hu _ Hk0). reflexivity.
Qed.

Lemma mp_dec_guard i ord lk k0 : ord_ok lk ord -> lk !! k0 = Some i -> (forall k', lk !! k' = Some i -> k' = k0) ->
  forall k, delete k0 (mp_dec i ord lk) !! k = shifted true i (lk !! k).
Proof.
  intros Ho E Hu k. rewrite <- (shifted_of_dec true i (fun k => lk !! k) k0 k Hu (or_introl E)).
  destruct (decide (k = k0)) as [->|Hne]; [apply lookup_delete|]. rewrite lookup_delete_ne by congruence. apply mp_dec_lk. exact Ho.
Qed.
End loops.

(** *** The temporary StableBlockVector of DualStringMappedVector::removeIndex *)
Section sbv.
Context {A : Type}.
Variable P : params.
Hypothesis HP : 0 <= expo P <= 30.
Notation B := (bsz P).

Definition slots_ok (v : vec) : Prop := (v_slots v = 0 /\ v_bsize v = B) \/ 64 <= v_slots v.

Lemma push_slots (h : bheap A) v x h' v' : slots_ok v -> vec_push P h v x = Ok (h', v') -> 64 <= v_slots v'.
Proof.
  intros Hv E. unfold vec_push in E. apply obind_ok in E as ([h1 v1] & E1 & E). apply obind_ok in E as (c & _ & E).
  apply obind_ok in E as (h2 & _ & E). injection E as _ <-. cbn. unfold vec_block_check in E1.
  destruct (Z.leb_spec B (v_bsize v)) as [Hle|Hlt].
  - apply obind_ok in E1 as ([h3 v3] & E1 & E2). apply obind_ok in E2 as ([[h4 f] c'] & _ & E2). apply obind_ok in E2 as (h5 & _ & E2).
    injection E2 as _ <-. cbn. destruct (Z.eqb_spec (v_slots v) 0) as [E0|Hne0].
    + destruct (talloc h 64) as [h6 t]. injection E1 as _ <-. cbn. lia.
    + destruct Hv as [[? _]|Hv]; [contradiction|]. destruct (v_slots v - 1 <=? v_idx v).
      * destruct (talloc h (v_slots v * 2)) as [h6 t]. apply obind_ok in E1 as (h7 & _ & E1). apply obind_ok in E1 as (h8 & _ & E1).
        injection E1 as _ <-. cbn. lia.
      * injection E1 as _ <-. exact Hv.
  - injection E1 as _ <-. destruct Hv as [[_ E]|Hv]; [lia|exact Hv].
Qed.

Lemma pushes_slots xs : forall (h : bheap A) v h' v', slots_ok v -> vec_pushes P h v xs = Ok (h', v') -> slots_ok v'.
Proof.
  induction xs as [|x xs IH]; intros h v h' v' Hv E; cbn in E; [injection E as _ <-; exact Hv|].
  apply obind_ok in E as ([h1 v1] & E1 & E). eapply IH; [|exact E]. right. eapply push_slots; eassumption.
Qed.

Lemma sbv_read_ok (ks : list A) : zlen ks < 64 * B -> sbv_read P ks = Ok ks.
Proof.
  intros Hlen. pose proof HP as [HP1 HP2]. unfold sbv_read. destruct (default_good (V := A) P HP) as [Hv Hp].
  destruct (vpushes_ok P HP1 ks bheap0 (vec_default P) [] [] [] Hv) as (h' & v' & ids' & frees' & E & Hv' & _).
  rewrite E. cbn [obind]. eapply vwalk_ok; [assumption|assumption|exact Hv'|]. intros (F1 & F2 & F3).
  pose proof (B_pos P HP1). assert (F : slots_ok v') by (eapply pushes_slots; [|exact E]; left; split; reflexivity). destruct F as [[F _]|F].
  - destruct Hv' as [(-> & _)|(t & Hl)]; [apply F1; reflexivity|]. assert (0 < v_slots v') by apply Hl. lia.
  - destruct Hv' as [(-> & _)|(t & Hl)]; [apply F1; reflexivity|]. destruct Hl as (_ & _ & _ & _ & _ & Hz & _).
    cbn [app] in Hz. nia.
Qed.
End sbv.

Section dual.
Context {V : Type} `{Countable K1} `{Countable K2}.
Variable P : params.
Hypothesis HP : 0 <= expo P <= 30.
Variable cl : dcls.
Variable kd1 : option K1.
Variable kd2 : option K2.
Notation B := (bsz P).
Notation term := (K1 + K2)%type.
Implicit Types (d : dv V K1 K2).
Notation assoc := (assoc V (K1 + K2)%type (EqDecision0 := sum_eq_dec) (H := sum_countable)).
Implicit Types (a : assoc).

Definition drel d a : Prop := rel P (d_st d) (d_lk d) a.

Definition rem_legal d o1 o2 : Prop :=
  ord_ok (d_l1 d) o1 /\ ord_ok (d_l2 d) o2 /\ (cl = CStr -> st_stable (d_st d) = true) /\ (cl = CPtr -> st_stable (d_st d) = false).

Definition dv_legal d (o : dop V K1 K2) : Prop :=
  match o with
  | DInsert0 _ | DTerm _ _ => cl <> CPtr
  | DTermIdx _ i | DAt i => cl <> CPtr /\ 0 <= i
  | DGet i => 0 <= i /\ (cl <> CPtr -> i < st_size (d_st d))
  | DBack => 0 < st_size (d_st d)
  | DRemoveIdx i o1 o2 => 0 <= i /\ rem_legal d o1 o2
  | DRemove _ o1 o2 => rem_legal d o1 o2
  | _ => True
  end.

Definition drem_guard d i : Prop :=
  match cl with
  | CMap => True
  | CStr => terms_at (d_l1 d) i < 64 * B /\ terms_at (d_l2 d) i < 64 * B
  | CPtr => one_or_default kd1 (d_l1 d) i /\ one_or_default kd2 (d_l2 d) i
  end.
(** remove(term): as removeIndex, except that the pointer class needs the term given to be the element's only one *)
Definition dkey_guard d (k : term) : Prop :=
  forall i, d_lk d k = Some i ->
  match cl with
  | CPtr =>
      match k with
      | inl k1 => (forall k', d_l1 d !! k' = Some i -> k' = k1) /\ one_or_default kd2 (d_l2 d) i
      | inr k2 => (forall k', d_l2 d !! k' = Some i -> k' = k2) /\ one_or_default kd1 (d_l1 d) i
      end
  | _ => drem_guard d i
  end.

Definition dv_guard d (o : dop V K1 K2) : Prop :=
  match o with
  | DFind _ => cl <> CPtr -> st_room P (d_st d) /\ (st_stable (d_st d) = true -> st_size (d_st d) <= 2147483648 - B)
  | DModify _ | DApply => st_room P (d_st d)
  | DRemoveIdx i _ _ => i < st_size (d_st d) -> drem_guard d i
  | DRemove k _ _ => dkey_guard d k
  | _ => True
  end.

Lemma d_emplace_st k i d : d_st (d_emplace k i d) = d_st d.
Proof. destruct k; reflexivity. Qed.
Lemma d_emplace_lk k i d k' : d_lk (d_emplace k i d) k' =
  match d_lk d k with Some _ => d_lk d k' | None => if decide (k' = k) then Some i else d_lk d k' end.
Proof.
  destruct k as [k|k], k' as [k'|k']; cbn; rewrite ?mp_emplace_lk.
  - destruct (d_l1 d !! k); [reflexivity|]. destruct (decide (k' = k)) as [->|Hne]; [rewrite decide_True by reflexivity; reflexivity|].
    rewrite decide_False by congruence. reflexivity.
  - destruct (d_l1 d !! k); [reflexivity|]. rewrite decide_False by congruence. reflexivity.
  - destruct (d_l2 d !! k); [reflexivity|]. rewrite decide_False by congruence. reflexivity.
  - destruct (d_l2 d !! k); [reflexivity|]. destruct (decide (k' = k)) as [->|Hne]; [rewrite decide_True by reflexivity; reflexivity|].
    rewrite decide_False by congruence. reflexivity.
Qed.

Lemma d_new_unused d a k : drel d a -> d_new d k = unused a k.
Proof.
  intros R. unfold d_new, unused. pose proof (rel_lk_none P _ _ _ k R) as Hn. destruct (d_lk d k) eqn:E, (a_tm a !! k) eqn:E'; try reflexivity.
  - pose proof (proj2 Hn eq_refl). congruence.
  - pose proof (proj1 Hn eq_refl). congruence.
Qed.

Lemma d_push_ok d a x : drel d a -> exists s', d_push P d x = Ok (Dv s' (d_l1 d) (d_l2 d), zlen (a_el a)) /\
  st_ok P s' (as_vals a ++ [x]) /\ st_kept P (d_st d) s'.
Proof.
  intros R. destruct (st_push_ok P HP _ _ x (r_st _ _ _ _ R)) as (s' & E & Hs' & Kp). unfold d_push. rewrite E. cbn.
  rewrite (rel_size P _ _ _ R). eauto.
Qed.

Lemma d_set_ok d a i x : drel d a -> 0 <= i < zlen (as_vals a) -> exists s', st_step P (d_st d) (VSet i x) = Ok (s', VUnit) /\
  st_ok P s' (<[Z.to_nat i := x]> (as_vals a)) /\ st_kept P (d_st d) s'.
Proof. intros R Hi. exact (st_set_ok P HP _ _ i x (r_st _ _ _ _ R) Hi). Qed.

(** removeIndex and remove in the range *)
Lemma dremove_idx_ok d a i o1 o2 u : drel d a -> 0 <= i -> as_ids a !! Z.to_nat i = Some u -> rem_legal d o1 o2 -> drem_guard d i ->
  exists d', dv_remove_idx P cl kd1 kd2 d i o1 o2 = Ok (d', MUnit) /\ drel d' (as_remove (st_stable (d_st d)) u (Z.to_nat i) a) /\ st_kept P (d_st d) (d_st d').
Proof.
  intros R Hi0 Eu (Ho1 & Ho2 & _ & _) Hg. pose proof (r_st _ _ _ _ R) as Hs. pose proof (rel_size P _ _ _ R) as Hz. pose proof (as_len a) as Hlen.
  assert (Hi : 0 <= i < zlen (as_vals a)). { apply lookup_lt_Some in Eu. rewrite as_len_ids in Eu. unfold zlen in *. lia. }
  destruct (st_erase_ok P HP _ _ i Hs Hi) as (s' & E & Hs' & Kp). unfold dv_remove_idx. destruct (Z.leb_spec (st_size (d_st d)) i); [lia|].
  rewrite E. cbn [obind]. set (er := negb (st_stable (d_st d) && negb (i =? zlen (as_vals a) - 1))) in *.
  assert (Hfin : forall l1 l2, (forall k, l1 !! k = shifted er i (d_l1 d !! k)) -> (forall k, l2 !! k = shifted er i (d_l2 d !! k)) ->
    exists d', Ok (Dv s' l1 l2, MUnit (V := V)) = Ok (d', MUnit) /\ drel d' (as_remove (st_stable (d_st d)) u (Z.to_nat i) a) /\ st_kept P (d_st d) (d_st d')).
  { intros l1 l2 E1 E2. eexists; splits; [|exact Kp]. eapply rel_remove; [exact R|exact Eu|rewrite Z2Nat.id by lia; exact Hs'|].
    intros k. rewrite Z2Nat.id by lia. fold er. destruct k; cbn; auto. }
  unfold drem_guard in Hg. destruct cl.
  - pose proof (fun k => dm_removed er i o1 (d_l1 d) k Ho1) as D1. pose proof (fun k => dm_removed er i o2 (d_l2 d) k Ho2) as D2.
    destruct (dm_shift er i o1 (d_l1 d)) as [l1 ks1]. destruct (dm_shift er i o2 (d_l2 d)) as [l2 ks2]. cbn. apply Hfin; assumption.
  - pose proof (fun k => dm_removed er i o1 (d_l1 d) k Ho1) as D1. pose proof (fun k => dm_removed er i o2 (d_l2 d) k Ho2) as D2.
    pose proof (dm_keys_len er i o1 (d_l1 d) Ho1) as L1. pose proof (dm_keys_len er i o2 (d_l2 d) Ho2) as L2.
    destruct (dm_shift er i o1 (d_l1 d)) as [l1 ks1]. destruct (dm_shift er i o2 (d_l2 d)) as [l2 ks2]. cbn [fst snd] in *. unfold d_keys.
    rewrite (sbv_read_ok P HP ks1) by lia. cbn [obind]. rewrite (sbv_read_ok P HP ks2) by lia. cbn [obind]. apply Hfin; assumption.
  - destruct Hg as [G1 G2]. destruct (mp_shift_guard er i o1 (d_l1 d) kd1 Ho1 G1) as (k1 & E1 & D1).
    destruct (mp_shift_guard er i o2 (d_l2 d) kd2 Ho2 G2) as (k2 & E2 & D2).
    destruct (mp_shift er i o1 (d_l1 d) kd1) as [l1 i1]. destruct (mp_shift er i o2 (d_l2 d) kd2) as [l2 i2]. cbn [fst snd] in *. subst i1 i2.
    apply Hfin; assumption.
Qed.

Lemma dremove_ptr_ok d a k i o1 o2 u : cl = CPtr -> drel d a -> d_lk d k = Some i -> as_ids a !! Z.to_nat i = Some u -> 0 <= i ->
  rem_legal d o1 o2 -> dkey_guard d k ->
  exists d', dv_remove P cl kd1 kd2 d k o1 o2 = Ok (d', MUnit) /\ drel d' (as_remove (st_stable (d_st d)) u (Z.to_nat i) a) /\ st_kept P (d_st d) (d_st d').
Proof.
  intros Hcl R Ek Eu Hi0 (Ho1 & Ho2 & _ & Hst) Hg. pose proof (r_st _ _ _ _ R) as Hs. pose proof (rel_size P _ _ _ R) as Hz. pose proof (as_len a) as Hlen.
  specialize (Hst Hcl). specialize (Hg i Ek). rewrite Hcl in *. pose proof (rel_range P _ _ _ k i R Ek) as Hi.
  destruct (st_erase_ok P HP _ _ i Hs Hi) as (s' & E & Hs' & Kp). rewrite Hst in E. cbn in E. unfold dv_remove. rewrite Ek, E. cbn [obind].
  assert (Hfin : forall l1 l2, (forall k, l1 !! k = shifted true i (d_l1 d !! k)) -> (forall k, l2 !! k = shifted true i (d_l2 d !! k)) ->
    exists d', Ok (Dv s' l1 l2, MUnit (V := V)) = Ok (d', MUnit) /\ drel d' (as_remove (st_stable (d_st d)) u (Z.to_nat i) a) /\ st_kept P (d_st d) (d_st d')).
  { intros l1 l2 E1 E2. eexists; splits; [|exact Kp]. eapply rel_remove; [exact R|exact Eu|rewrite Z2Nat.id by lia; exact Hs'|].
    intros k'. rewrite Hst. cbn [andb negb]. rewrite Z2Nat.id by lia. destruct k'; cbn; auto. }
  destruct k as [k1|k2]; cbn in Ek; destruct Hg as [Hu G].
  - destruct (mp_shift_guard true i o2 (d_l2 d) kd2 Ho2 G) as (k2 & E2 & D2).
    destruct (mp_shift true i o2 (d_l2 d) kd2) as [l2 i2]. cbn [fst snd] in *. subst i2. apply Hfin; [|exact D2].
    apply mp_dec_guard; assumption.
  - destruct (mp_shift_guard true i o1 (d_l1 d) kd1 Ho1 G) as (k1 & E1 & D1).
    destruct (mp_shift true i o1 (d_l1 d) kd1) as [l1 i1]. cbn [fst snd] in *. subst i1. apply Hfin; [exact D1|].
    apply mp_dec_guard; assumption.
Qed.

Lemma dv_step_ok d a o : drel d a -> dv_legal d o -> dv_guard d o ->
  exists d', dv_step P cl kd1 kd2 d o = Ok (d', (as_dexec cl (st_stable (d_st d)) a o).2) /\
  drel d' (as_dexec cl (st_stable (d_st d)) a o).1 /\ st_kept P (d_st d) (d_st d').
Proof.
  intros R Hl Hg. pose proof (r_st _ _ _ _ R) as Hs. pose proof (rel_size P _ _ _ R) as Hz. pose proof (as_len a) as Hlen.
  assert (Hnone : forall k, d_lk d k = None <-> a_tm a !! k = None) by (intros k; exact (rel_lk_none P _ _ _ k R)).
  assert (Hsome : forall k i, d_lk d k = Some i -> exists u p, a_tm a !! k = Some u /\ as_ids a !! p = Some u /\ i = Z.of_nat p /\ as_pos u a = Some p).
  { intros k i E. destruct (proj1 (rel_lk P _ _ _ k i R) E) as (u & p & E1 & E2 & E3). exists u, p. splits; try assumption.
    apply pos_lookup; [apply R|exact E2]. }
  assert (Hrange : forall k i, d_lk d k = Some i -> 0 <= i < zlen (as_vals a)) by (intros k i E; exact (rel_range P _ _ _ k i R E)).
  (* append, entering [k] with emplace *)
  assert (Hadd1 : forall x k, d_lk d k = None -> exists d', ('(d1, index) <-! d_push P d x ;; Ok (d_emplace k index d1, MIdx (V := V) (Some index))) =
      Ok (d', some_len a) /\ drel d' (as_add x [k] a) /\ st_kept P (d_st d) (d_st d')).
  { intros x k Hk. destruct (d_push_ok d a x R) as (s' & E & Hs' & Kp). rewrite E. cbn [obind]. eexists; splits; [|rewrite d_emplace_st; exact Kp].
    unfold drel. rewrite d_emplace_st. cbn [d_st]. eapply rel_add; [exact R|exact Hs'|]. intros k'. rewrite d_emplace_lk.
    assert (d_lk (Dv s' (d_l1 d) (d_l2 d)) k = None) as -> by exact Hk. destruct (decide (k' = k)) as [->|Hne].
    - rewrite decide_True by constructor. f_equal. lia.
    - rewrite decide_False; [reflexivity|]. intros F. apply elem_of_list_singleton in F. contradiction. }
  (* append, writing some of the two keys *)
  assert (Hadd2 : forall x (k1 : K1) (k2 : K2) l1 l2 ks, (forall k, d_lk (Dv (d_st d) l1 l2) k = if decide (k ∈ ks) then Some (zlen (a_el a)) else d_lk d k) ->
      forall s', st_ok P s' (as_vals a ++ [x]) -> drel (Dv s' l1 l2) (as_add x ks a)).
  { intros x k1 k2 l1 l2 ks Hk s' Hs'. eapply rel_add; [exact R|exact Hs'|]. intros k. specialize (Hk k). rewrite Hlen. exact Hk. }
  assert (Hboth : forall l1 l2 k1 k2 i, l1 = <[k1 := i]> (d_l1 d) -> l2 = <[k2 := i]> (d_l2 d) -> forall k,
      d_lk (Dv (d_st d) l1 l2) k = if decide (k ∈ [inl k1; inr k2]) then Some i else d_lk d k).
  { intros l1 l2 k1 k2 i -> -> k. destruct k as [k|k]; cbn.
    - destruct (decide (k = k1)) as [->|Hne]; [rewrite lookup_insert, decide_True by constructor; reflexivity|].
      rewrite lookup_insert_ne by congruence. rewrite decide_False; [reflexivity|]. rewrite !elem_of_cons, elem_of_nil. intros [F|[F|F]]; congruence.
    - destruct (decide (k = k2)) as [->|Hne]; [rewrite lookup_insert, decide_True by (constructor; constructor); reflexivity|].
      rewrite lookup_insert_ne by congruence. rewrite decide_False; [reflexivity|]. rewrite !elem_of_cons, elem_of_nil. intros [F|[F|F]]; congruence. }
  assert (Hin2 : forall k1 k2 i k, d_l1 d !! k1 <> None -> d_lk (Dv (d_st d) (d_l1 d) (<[k2 := i]> (d_l2 d))) k = if decide (k ∈ [inr k2]) then Some i else d_lk d k).
  { intros k1 k2 i k _. destruct k as [k|k]; cbn.
    - rewrite decide_False; [reflexivity|]. rewrite elem_of_list_singleton. congruence.
    - destruct (decide (k = k2)) as [->|Hne]; [rewrite lookup_insert, decide_True by constructor; reflexivity|].
      rewrite lookup_insert_ne by congruence. rewrite decide_False; [reflexivity|]. rewrite elem_of_list_singleton. congruence. }
  assert (Hin1 : forall k1 i k, d_lk (Dv (d_st d) (<[k1 := i]> (d_l1 d)) (d_l2 d)) k = if decide (k ∈ [inl k1]) then Some i else d_lk d k).
  { intros k1 i k. destruct k as [k|k]; cbn.
    - destruct (decide (k = k1)) as [->|Hne]; [rewrite lookup_insert, decide_True by constructor; reflexivity|].
      rewrite lookup_insert_ne by congruence. rewrite decide_False; [reflexivity|]. rewrite elem_of_list_singleton. congruence.
    - rewrite decide_False; [reflexivity|]. rewrite elem_of_list_singleton. congruence. }
  assert (Happ : forall x k1 k2 (g : gmap K1 Z -> Z -> gmap K1 Z), (forall i, g (d_l1 d) i = <[k1 := i]> (d_l1 d)) -> exists d',
      ('(d1, index) <-! d_push P d x ;; Ok (Dv (d_st d1) (g (d_l1 d1) index) (<[k2 := index]> (d_l2 d1)), MIdx (V := V) (Some index))) = Ok (d', some_len a) /\
      drel d' (as_add x [inl k1; inr k2] a) /\ st_kept P (d_st d) (d_st d')).
  { intros x k1 k2 g Hgk. destruct (d_push_ok d a x R) as (s' & E & Hs' & Kp). rewrite E. cbn [obind]. eexists; splits; [|exact Kp].
    apply (Hadd2 x k1 k2); [|exact Hs']. apply Hboth; [apply Hgk|reflexivity]. }
  assert (Hput : forall x k i, d_lk d k = Some i -> exists s' u p, st_step P (d_st d) (VSet i x) = Ok (s', VUnit) /\ st_kept P (d_st d) s' /\
      a_tm a !! k = Some u /\ as_pos u a = Some p /\ i = Z.of_nat p /\ as_ids a !! p = Some u /\ drel (Dv s' (d_l1 d) (d_l2 d)) (as_put u x a)).
  { intros x k i Ek. destruct (Hsome _ _ Ek) as (u & p & E1 & E2 & -> & E4).
    destruct (d_set_ok d a _ x R (Hrange _ _ Ek)) as (s' & E & Hs' & Kp). exists s', u, p. splits; try assumption.
    rewrite Nat2Z.id in Hs'. eapply rel_put; [exact R|exact E2|exact Hs']. }
  assert (Hins1 : forall k x, exists d', dv_insert_one P d k x = Ok (d', (as_insert1 k x a).2) /\ drel d' (as_insert1 k x a).1 /\ st_kept P (d_st d) (d_st d')).
  { intros k x. unfold dv_insert_one, as_insert1. rewrite (d_new_unused d a k R). destruct (unused a k) eqn:Eu; cbn [negb].
    - cbn [fst snd]. apply Hadd1. apply Hnone. unfold unused in Eu. destruct (a_tm a !! k); [discriminate|reflexivity].
    - eexists; splits; [exact R|apply st_kept_refl]. }
  assert (Has1 : forall k x, exists d', dv_assign_one P d k x = Ok (d', (as_assign1 k x a).2) /\ drel d' (as_assign1 k x a).1 /\ st_kept P (d_st d) (d_st d')).
  { intros k x. unfold dv_assign_one, as_assign1. destruct (d_lk d k) as [i|] eqn:Ek.
    - destruct (Hput x k i Ek) as (s' & u & p & E & Kp & E1 & E2 & -> & E4 & R'). rewrite E, E1, E2. cbn. eexists; splits; [exact R'|exact Kp].
    - rewrite (proj1 (Hnone k) Ek). cbn [fst snd]. apply Hadd1. exact Ek. }
  assert (Hterm : forall k i u, as_ids a !! Z.to_nat i = Some u -> 0 <= i ->
     exists d', Ok (d_emplace k i d, MBool (V := V) (d_new d k)) = Ok (d', (as_term k (Some u) a).2) /\ drel d' (as_term k (Some u) a).1 /\ st_kept P (d_st d) (d_st d')).
  { intros k i u Eu H0i. unfold as_term. rewrite (d_new_unused d a k R). destruct (unused a k) eqn:En; cbn [fst snd].
    - eexists; splits; [|rewrite d_emplace_st; apply st_kept_refl]. unfold drel. rewrite d_emplace_st. unfold as_alias.
      eapply rel_alias; [exact R|exact Eu|]. intros k'. rewrite d_emplace_lk. rewrite (proj2 (Hnone k)).
      + destruct (decide (k' = k)); [f_equal; lia|reflexivity].
      + unfold unused in En. destruct (a_tm a !! k); [discriminate|reflexivity].
    - eexists; splits; [|rewrite d_emplace_st; apply st_kept_refl]. unfold drel. rewrite d_emplace_st.
      eapply rel_same_ids; [exact R|reflexivity|reflexivity|reflexivity|exact Hs|]. intros k'. rewrite d_emplace_lk.
      destruct (d_lk d k) eqn:Ek; [reflexivity|]. apply Hnone in Ek. unfold unused in En. rewrite Ek in En. discriminate. }
  destruct o; cbn [dv_step as_dexec dv_legal dv_guard] in *.
  - unfold dv_insert. rewrite !(d_new_unused d a _ R). destruct (negb (unused a (inl k1)) && negb (unused a (inr k2))) eqn:Eb; [eexists; splits; [exact R|apply st_kept_refl]|].
    cbn [fst snd]. destruct (d_push_ok d a x R) as (s' & E & Hs' & Kp). rewrite E. cbn [obind d_st d_l1 d_l2]. eexists; splits; [|destruct cl; exact Kp].
    assert (Hu1 : forall i, mp_emplace k1 i (d_l1 d) = if unused a (inl k1) then <[k1 := i]> (d_l1 d) else d_l1 d).
    { intros i. rewrite <- (d_new_unused d a _ R). unfold mp_emplace, d_new; cbn. destruct (d_l1 d !! k1); reflexivity. }
    assert (Hu2 : forall i, mp_emplace k2 i (d_l2 d) = if unused a (inr k2) then <[k2 := i]> (d_l2 d) else d_l2 d).
    { intros i. rewrite <- (d_new_unused d a _ R). unfold mp_emplace, d_new; cbn. destruct (d_l2 d !! k2); reflexivity. }
    destruct cl; cbn [ins_keys].
    + apply (Hadd2 x k1 k2); [apply Hboth; reflexivity|exact Hs'].
    + rewrite Hu1. destruct (unused a (inl k1)) eqn:Eu; (apply (Hadd2 x k1 k2); [|exact Hs']).
      * apply Hboth; reflexivity.
      * intros k. apply (Hin2 k1). intros F. apply (Hnone (inl k1)) in F. unfold unused in Eu. rewrite F in Eu. discriminate.
    + rewrite Hu1, Hu2. rewrite !filter_cons. destruct (unused a (inl k1)) eqn:Eu1, (unused a (inr k2)) eqn:Eu2; cbn in Eb; try discriminate;
        rewrite ?decide_True by reflexivity; rewrite ?decide_False by discriminate; rewrite filter_nil; (apply (Hadd2 x k1 k2); [|exact Hs']).
      * apply Hboth; reflexivity.
      * intros k. apply Hin1.
      * intros k. apply (Hin2 k1). intros F. apply (Hnone (inl k1)) in F. unfold unused in Eu1. rewrite F in Eu1. discriminate.
  - apply Hins1.
  - apply Hins1.
  - unfold dv_insert0. destruct (d_push_ok d a x R) as (s' & E & Hs' & Kp). rewrite E. cbn [obind fst snd]. eexists; splits; [|exact Kp].
    eapply rel_add; [exact R|exact Hs'|]. intros k. cbn [d_lk d_l1 d_l2]. rewrite decide_False by (intros F; inversion F). reflexivity.
  - unfold dv_assign. destruct cl eqn:Ecl.
    1,2: destruct (d_l1 d !! k1) as [i|] eqn:E1;
      [destruct (Hput x (inl k1) i E1) as (s' & u & p & E & Kp & T1 & T2 & -> & T4 & R'); rewrite E, T1, T2; cbn [obind fst snd]; eexists; splits; [|exact Kp];
       eapply rel_alias; [exact R'|rewrite ids_put; exact T4|];
       intros k; destruct k as [k|k]; cbn; [rewrite decide_False by congruence; reflexivity|];
       destruct (decide (k = k2)) as [->|Hne]; [rewrite lookup_insert, decide_True by reflexivity; reflexivity|];
       rewrite lookup_insert_ne by congruence; rewrite decide_False by congruence; reflexivity|
       rewrite (proj1 (Hnone (inl k1)) E1); cbn [fst snd]].
    + apply (Happ x k1 k2 (fun l i => <[k1 := i]> l)). reflexivity.
    + apply (Happ x k1 k2 (fun l i => mp_emplace k1 i l)). intros i. unfold mp_emplace. rewrite E1. reflexivity.
    + pose proof (Happ x k1 k2 (fun l i => <[k1 := i]> l) (fun i => eq_refl)) as Happ. cbn beta in Happ.
      destruct (d_l1 d !! k1) as [i|] eqn:E1; [|rewrite (proj1 (Hnone (inl k1)) E1); exact Happ].
      destruct (d_l2 d !! k2) as [j|] eqn:E2.
      * destruct (Hput x (inl k1) i E1) as (s' & u & p & E & Kp & T1 & T2 & -> & T4 & R'). destruct (Hsome (inr k2) j E2) as (v & q & W1 & W2 & -> & W4).
        rewrite T1, W1. destruct (Z.eqb_spec (Z.of_nat q) (Z.of_nat p)) as [Eq|Hne].
        -- assert (q = p) as -> by lia. assert (v = u) as -> by congruence. rewrite decide_True by reflexivity. rewrite E, T2. cbn.
           eexists; splits; [exact R'|exact Kp].
        -- rewrite decide_False by (intros ->; rewrite T2 in W4; injection W4 as ->; contradiction). exact Happ.
      * destruct (Hsome (inl k1) i E1) as (u & p & T1 & _). rewrite T1, (proj1 (Hnone (inr k2)) E2). exact Happ.
  - apply Has1.
  - apply Has1.
  - destruct Hl as [_ H0i]. unfold dv_term_idx. destruct (Z.ltb_spec i (st_size (d_st d))).
    + destruct (proj2 (pos_ids_len a (Z.to_nat i))) as [u Eu]; [unfold zlen in *; lia|]. rewrite Eu. apply Hterm; assumption.
    + rewrite (lookup_ge_None_2 (as_ids a)) by (rewrite as_len_ids; unfold zlen in *; lia). eexists; splits; [exact R|apply st_kept_refl].
  - unfold dv_term. destruct (d_lk d old) as [i|] eqn:Eo.
    + destruct (Hsome _ _ Eo) as (u & p & -> & E2 & -> & _). apply Hterm; [rewrite Nat2Z.id; exact E2|lia].
    + rewrite (proj1 (Hnone old) Eo). eexists; splits; [exact R|apply st_kept_refl].
  - unfold dv_find. cbn [fst snd].
    assert (Hiter : cl <> CPtr -> exists d', (it <-! match d_lk d k with Some i => st_iter P (d_st d) i | None => st_end P (d_st d) end ;;
      last <-! st_end P (d_st d) ;;
      if si_eq it last then Ok (d, MVal None) else x <-! st_deref P (d_st d) it ;; Ok (d, MVal (Some x))) = Ok (d', MVal (as_find k a)) /\ drel d' a /\ st_kept P (d_st d) (d_st d')).
    { intros Hc. destruct (Hg Hc) as [Hroom Hbig]. destruct (st_iters P HP _ _ Hs Hroom) as (pos & Hend & Hit & Heq & Hrd).
      destruct (d_lk d k) as [i|] eqn:El.
      - destruct (rel_find P _ _ _ k i R El) as (x & Ex & ->). pose proof (Hrange _ _ El) as Hi.
        assert (Hb : st_iter P (d_st d) i = Ok (pos i)) by (apply Hit; [lia|intros Est; specialize (Hbig Est); lia]).
        rewrite Hb. cbn [obind]. rewrite Hend. cbn [obind]. rewrite Heq by lia. destruct (Z.eqb_spec i (zlen (as_vals a))); [lia|].
        rewrite (Hrd _ _ Ex) by lia. cbn. eexists; splits; [exact R|apply st_kept_refl].
      - rewrite Hend. cbn [obind]. rewrite Heq by (unfold zlen; lia). rewrite Z.eqb_refl.
        rewrite (rel_find_none P _ _ _ k R El). eexists; splits; [exact R|apply st_kept_refl]. }
    destruct cl; try (apply Hiter; discriminate). destruct (d_lk d k) as [i|] eqn:El.
    + destruct (rel_find P _ _ _ k i R El) as (x & Ex & ->). pose proof (Hrange _ _ El) as Hi.
      destruct (st_get_ok P HP _ _ i x Hs) as [s' ->]; [lia|exact Ex|]. cbn. eexists; splits; [exact R|apply st_kept_refl].
    + rewrite (rel_find_none P _ _ _ k R El). eexists; splits; [exact R|apply st_kept_refl].
  - destruct Hl as [H0i Hlt]. unfold dv_get. cbn [fst snd]. destruct (match cl with CPtr => st_size (d_st d) <=? i | _ => false end) eqn:Eb.
    + rewrite (lookup_ge_None_2 (as_vals a)) by (destruct cl; try discriminate; unfold zlen in *; lia). eexists; splits; [exact R|apply st_kept_refl].
    + assert (i < st_size (d_st d)) by (destruct cl; [apply Hlt; discriminate|apply Hlt; discriminate|lia]).
      destruct (lookup_lt_is_Some_2 (as_vals a) (Z.to_nat i)) as [x Ex]; [unfold zlen in *; lia|].
      destruct (st_get_ok P HP _ _ i x Hs) as [s' ->]; [lia|exact Ex|]. rewrite Ex. cbn. eexists; splits; [exact R|apply st_kept_refl].
  - destruct Hl as [_ H0i]. unfold dv_at. destruct (st_step_ok P HP _ _ (VAt i) Hs) as (s' & r & -> & S & _ & _); [split; [exact H0i|discriminate]|exact I|].
    cbn in S |- *. inversion S; subst; rewrite ?Nat2Z.id.
    + match goal with E : _ !! _ = Some _ |- _ => rewrite E end. eexists; splits; [exact R|apply st_kept_refl].
    + rewrite (lookup_ge_None_2 (as_vals a)) by (unfold zlen in *; lia). eexists; splits; [exact R|apply st_kept_refl].
  - unfold dv_back. destruct (as_vals a) as [|x xs' _] eqn:Ev using rev_ind; [unfold zlen in *; cbn in *; lia|].
    destruct (st_step_ok P HP _ _ VBack Hs) as (s' & r & -> & S & _ & _); [split; [cbn; destruct xs'; discriminate|discriminate]|exact I|].
    cbn in S |- *. inversion S; subst. match goal with E : _ ++ [_] = _ ++ [_] |- _ => apply app_inj_tail in E as [-> ->] end.
    rewrite last_snoc. eexists; splits; [exact R|apply st_kept_refl].
  - destruct Hl as [H0i Hrl]. cbn [fst snd]. destruct (Z.ltb_spec i (st_size (d_st d))) as [Hlt|Hge].
    + destruct (proj2 (pos_ids_len a (Z.to_nat i))) as [u Eu]; [unfold zlen in *; lia|]. rewrite Eu. apply dremove_idx_ok; auto.
    + rewrite (lookup_ge_None_2 (as_ids a)) by (rewrite as_len_ids; unfold zlen in *; lia). unfold dv_remove_idx.
      destruct (Z.leb_spec (st_size (d_st d)) i); [|lia]. eexists; splits; [exact R|apply st_kept_refl].
  - cbn [fst snd]. destruct (d_lk d k) as [i|] eqn:El.
    + destruct (Hsome _ _ El) as (u & p & -> & E2 & -> & ->).
      assert (Hgen : cl <> CPtr -> exists d', dv_remove P cl kd1 kd2 d k o1 o2 = Ok (d', MUnit) /\ drel d' (as_remove (st_stable (d_st d)) u p a) /\ st_kept P (d_st d) (d_st d')).
      { intros Hc. destruct (dremove_idx_ok d a (Z.of_nat p) o1 o2 u R) as (d' & E & R' & Kp); [lia|rewrite Nat2Z.id; exact E2|exact Hl| |].
        - specialize (Hg _ El). destruct cl; try exact Hg. contradiction.
        - exists d'. rewrite Nat2Z.id in R'. splits; try assumption. unfold dv_remove. rewrite El. destruct cl; try exact E. contradiction. }
      assert (cl = CPtr \/ cl <> CPtr) as [Hc|Hc] by (destruct cl; [right|right|left]; congruence); [|apply Hgen; exact Hc].
      destruct (dremove_ptr_ok d a k (Z.of_nat p) o1 o2 u Hc R El) as (d' & E & R' & Kp); [rewrite Nat2Z.id; exact E2|lia|exact Hl|exact Hg|].
      exists d'. rewrite Nat2Z.id in R'. splits; assumption.
    + rewrite (proj1 (Hnone k) El). unfold dv_remove. rewrite El. eexists; splits; [exact R|apply st_kept_refl].
  - unfold dv_modify. destruct (st_modify_ok P HP _ _ f Hs Hg) as (s' & E & Hs' & Kp). rewrite E. cbn. eexists; splits; [|exact Kp].
    eapply rel_map; [exact R|exact Hs'].
  - unfold dv_apply. destruct (st_step_ok P HP _ _ VWalk Hs) as (s' & r & -> & S & _ & _); [split; [exact I|discriminate]|exact Hg|].
    cbn in S |- *. inversion S; subst. eexists; splits; [exact R|apply st_kept_refl].
  - rewrite Hz. eexists; splits; [exact R|apply st_kept_refl].
  - unfold dv_clear. destruct (st_clear_ok P HP _ _ Hs) as (s' & E & Hs' & Kp). rewrite E. cbn. eexists; splits; [|exact Kp].
    eapply rel_clear; [exact R|exact Hs'|]. intros k. destruct k; cbn; apply lookup_empty.
Qed.

Fixpoint dv_safe d (ops : list (dop V K1 K2)) : Prop :=
  match ops with
  | [] => True
  | o :: ops' => dv_legal d o /\ dv_guard d o /\ forall d' r, dv_step P cl kd1 kd2 d o = Ok (d', r) -> dv_safe d' ops'
  end.

Lemma dv_run_ok ops : forall d a, drel d a -> dv_safe d ops ->
  exists d', dv_run P cl kd1 kd2 d ops = Ok (d', (as_drun cl (st_stable (d_st d)) a ops).2) /\
    drel d' (as_drun cl (st_stable (d_st d)) a ops).1 /\ st_stable (d_st d') = st_stable (d_st d).
Proof.
  induction ops as [|o ops IH]; intros d a R Hsf; cbn [dv_run as_drun].
  - eexists; splits. exact R.
  - destruct Hsf as (Hl & Hg & Hsf). destruct (dv_step_ok d a o R Hl Hg) as (d1 & E & R1 & Kp). rewrite E. cbn [obind].
    apply st_kept_stable in Kp. destruct (as_dexec cl (st_stable (d_st d)) a o) as [a1 r1] eqn:Ea. cbn [fst snd] in *.
    destruct (IH d1 a1 R1 (Hsf _ _ E)) as (d2 & E2 & R2 & Est). rewrite E2. cbn [obind]. rewrite Kp in *.
    destruct (as_drun cl (st_stable (d_st d)) a1 ops) as [a2 tr2]. cbn [fst snd] in *. eexists; splits; [exact R2|congruence].
Qed.

Lemma drel0 stb : drel (dv0 P stb) assoc0.
Proof.
  pose proof (rel_empty (V := V) (K := term) P stb (d_lk (dv0 (V := V) (K1 := K1) (K2 := K2) P stb)) HP) as R.
  assert (Hn : forall k, d_lk (dv0 (V := V) (K1 := K1) (K2 := K2) P stb) k = None) by (intros [k|k]; apply lookup_empty).
  exact (R Hn).
Qed.
End dual.
