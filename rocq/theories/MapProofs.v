(** The single-key mapped vectors against the specification. *)
From stdpp Require Import gmap.
From Verif Require Import Base BlkHeap BlkIter VecModel VecSpec VecFinal MapStore MapStoreProofs MapModel MapSpec MapRel.

(** *** The loops over the lookup map *)
Section loops.
Context `{Countable K}.
Implicit Types (lk : gmap K Z) (ord : list K).

(** [ord] lists every key once *)
Definition ord_ok lk ord : Prop := NoDup ord /\ forall k, is_Some (lk !! k) -> k ∈ ord.

Definition dec1 (er : bool) (i : Z) (o : option Z) : option Z :=
  match o with Some j => Some (if er && (i <? j) then j - 1 else j) | None => None end.

Lemma mp_shift_ok er i ord : forall lk ind, NoDup ord ->
  (forall k, (mp_shift er i ord lk ind).1 !! k = if decide (k ∈ ord) then dec1 er i (lk !! k) else lk !! k) /\
  (((forall k, k ∈ ord -> lk !! k <> Some i) /\ (mp_shift er i ord lk ind).2 = ind) \/
   (exists k, k ∈ ord /\ lk !! k = Some i /\ (mp_shift er i ord lk ind).2 = Some k)).
Proof.
  induction ord as [|k0 ord IH]; intros lk ind Hnd; cbn [mp_shift].
  - split; [intros k; rewrite decide_False by (intros F; inversion F); reflexivity|]. left. split; [|reflexivity]. intros k F. inversion F.
  - apply NoDup_cons in Hnd as [Hk0 Hnd].
    assert (Hstep : forall lk1 ind1, lk1 !! k0 = dec1 er i (lk !! k0) -> (forall k, k <> k0 -> lk1 !! k = lk !! k) ->
      (forall k, (mp_shift er i ord lk1 ind1).1 !! k = if decide (k ∈ k0 :: ord) then dec1 er i (lk !! k) else lk !! k) /\
      (((forall k, k ∈ ord -> lk !! k <> Some i) /\ (mp_shift er i ord lk1 ind1).2 = ind1) \/
       (exists k, k ∈ ord /\ lk !! k = Some i /\ (mp_shift er i ord lk1 ind1).2 = Some k))).
    { intros lk1 ind1 E1 E2. destruct (IH lk1 ind1 Hnd) as [I1 I2]. split.
      - intros k. rewrite I1. destruct (decide (k = k0)) as [->|Hne].
        + rewrite decide_False by assumption. rewrite decide_True by constructor. exact E1.
        + rewrite E2 by assumption. destruct (decide (k ∈ ord)) as [F|F].
          * rewrite decide_True by (constructor; exact F). reflexivity.
          * rewrite decide_False; [reflexivity|]. intros G. apply elem_of_cons in G as [G|G]; contradiction.
      - assert (E2' : forall k, k ∈ ord -> lk1 !! k = lk !! k) by (intros k Hk; apply E2; intros ->; contradiction).
        destruct I2 as [[I2 I3]|(k & Hk & I2 & I3)].
        + left. split; [|exact I3]. intros k Hk. rewrite <- E2' by exact Hk. apply I2. exact Hk.
        + right. exists k. rewrite <- E2' by exact Hk. auto. }
    destruct (lk !! k0) as [j|] eqn:Ej.
    + destruct (er && (i <? j)) eqn:Eb.
      * destruct (Hstep (<[k0 := j - 1]> lk) ind) as [S1 S2].
        { rewrite lookup_insert. cbn. rewrite Eb. reflexivity. }
        { intros k Hne. apply lookup_insert_ne. congruence. }
        split; [exact S1|]. destruct S2 as [[S2 S3]|(k & Hk & S2 & S3)].
        -- left. split; [|exact S3]. intros k Hk. apply elem_of_cons in Hk as [->|Hk]; [|apply S2; exact Hk].
           rewrite Ej. intros [= ->]. apply andb_true_iff in Eb as [_ Eb]. lia.
        -- right. exists k. splits; try assumption. constructor. exact Hk.
      * destruct (Z.eqb_spec j i) as [->|Hji].
        -- destruct (Hstep lk (Some k0)) as [S1 S2]; [rewrite Ej; cbn; rewrite Eb; reflexivity|reflexivity|].
           split; [exact S1|]. right. destruct S2 as [[S2 S3]|(k & Hk & S2 & S3)].
           ++ exists k0. splits; try assumption. constructor.
           ++ exists k. splits; try assumption. constructor. exact Hk.
        -- destruct (Hstep lk ind) as [S1 S2]; [rewrite Ej; cbn; rewrite Eb; reflexivity|reflexivity|].
           split; [exact S1|]. destruct S2 as [[S2 S3]|(k & Hk & S2 & S3)].
           ++ left. split; [|exact S3]. intros k Hk. apply elem_of_cons in Hk as [->|Hk]; [|apply S2; exact Hk]. congruence.
           ++ right. exists k. splits; try assumption. constructor. exact Hk.
    + destruct (Hstep lk ind) as [S1 S2]; [rewrite Ej; reflexivity|reflexivity|].
      split; [exact S1|]. destruct S2 as [[S2 S3]|(k & Hk & S2 & S3)].
      * left. split; [|exact S3]. intros k Hk. apply elem_of_cons in Hk as [->|Hk]; [|apply S2; exact Hk]. congruence.
      * right. exists k. splits; try assumption. constructor. exact Hk.
Qed.

Lemma mp_shift_lk er i ord lk ind k : ord_ok lk ord -> (mp_shift er i ord lk ind).1 !! k = dec1 er i (lk !! k).
Proof.
  intros [Hnd Hall]. rewrite (proj1 (mp_shift_ok er i ord lk ind Hnd)). destruct (decide (k ∈ ord)) as [|Hn]; [reflexivity|].
  destruct (lk !! k) eqn:E; [|reflexivity]. exfalso. apply Hn, Hall. rewrite E. eauto.
Qed.

Lemma mp_shift_ind er i ord lk ind : ord_ok lk ord ->
  ((forall k, lk !! k <> Some i) /\ (mp_shift er i ord lk ind).2 = ind) \/
  (exists k, lk !! k = Some i /\ (mp_shift er i ord lk ind).2 = Some k).
Proof.
  intros [Hnd Hall]. destruct (proj2 (mp_shift_ok er i ord lk ind Hnd)) as [[H1 H2]|(k & _ & H1 & H2)]; [left|right; eauto].
  split; [|exact H2]. intros k E. apply (H1 k); [|exact E]. apply Hall. rewrite E. eauto.
Qed.

Lemma mp_dec_shift i ord : forall lk ind, mp_dec i ord lk = (mp_shift true i ord lk ind).1.
Proof.
  induction ord as [|k ord IH]; intros lk ind; cbn; [reflexivity|]. destruct (lk !! k) as [j|]; [|apply IH].
  destruct (i <? j); [apply IH|]. destruct (j =? i); apply IH.
Qed.
Lemma mp_dec_lk i ord lk k : ord_ok lk ord -> mp_dec i ord lk !! k = dec1 true i (lk !! k).
Proof. intros Ho. rewrite (mp_dec_shift i ord lk None). apply mp_shift_lk. exact Ho. Qed.

Lemma shifted_dec1 er i o : shifted er i o = match o with Some j => if j =? i then None else dec1 er i o | None => None end.
Proof. destruct o as [j|]; cbn; [|reflexivity]. destruct (j =? i); [reflexivity|]. destruct (er && (i <? j)); reflexivity. Qed.

Lemma mp_emplace_lk k i lk k' : mp_emplace k i lk !! k' = match lk !! k with Some _ => lk !! k' | None => if decide (k' = k) then Some i else lk !! k' end.
Proof.
  unfold mp_emplace. destruct (lk !! k) eqn:E; [reflexivity|]. destruct (decide (k' = k)) as [->|Hne]; [apply lookup_insert|apply lookup_insert_ne; congruence].
Qed.
End loops.

Section map.
Context {V : Type} `{Countable K}.
Variable P : params.
Hypothesis HP : 0 <= expo P <= 30.
Variable kdef : option K.
Implicit Types (m : mv V K) (a : assoc V K) (s : store V) (lk : gmap K Z).
Notation B := (bsz P).

Definition mrel m a : Prop := rel P (m_st m) (fun k => m_lk m !! k) a.

(** What the caller must respect (indices are unsigned), and that the loop visits each key once *)
Definition mv_legal m (o : mop V K) : Prop :=
  match o with
  | MGet i => 0 <= i < st_size (m_st m)
  | MGetP i | MAt i | MAlias _ i => 0 <= i
  | MBack => 0 < st_size (m_st m)
  | MRemoveIdx i ord => 0 <= i /\ ord_ok (m_lk m) ord
  | MRemove _ ord => ord_ok (m_lk m) ord
  | _ => True
  end.

(** Removal is right only if the element has at most one search term, and ... *)
Definition idx_guard m i : Prop :=
  i < st_size (m_st m) ->
  (exists k, m_lk m !! k = Some i /\ forall k', m_lk m !! k' = Some i -> k' = k) \/
  ((forall k, m_lk m !! k <> Some i) /\ exists d, kdef = Some d /\ m_lk m !! d = None).
Definition key_guard m k : Prop := forall i k', m_lk m !! k = Some i -> m_lk m !! k' = Some i -> k' = k.

Definition mv_guard m (o : mop V K) : Prop :=
  match o with
  | MFind _ => st_room P (m_st m) /\ (st_stable (m_st m) = true -> st_size (m_st m) <= 2147483648 - B)
  | MModify _ | MApply => st_room P (m_st m)
  | MRemoveIdx i _ => idx_guard m i
  | MRemove k _ => key_guard m k
  | _ => True
  end.

(** *** Single steps of the storage *)
Lemma st_get_ok s xs i x : st_ok P s xs -> 0 <= i -> xs !! Z.to_nat i = Some x -> exists s', st_step P s (VGet i) = Ok (s', VVal x).
Proof.
  intros Hs H0 Hx. assert (i < zlen xs) by (apply lookup_lt_Some in Hx; unfold zlen; lia).
  destruct (st_step_ok P HP s xs (VGet i) Hs) as (s' & r & E & S & _ & _); [split; [cbn; lia|discriminate]|exact I|].
  cbn in S. inversion S; subst. rewrite Nat2Z.id in Hx. exists s'. rewrite E. congruence.
Qed.

Lemma rel_size s lkf a : rel P s lkf a -> st_size s = zlen (a_el a).
Proof. intros R. rewrite (st_ok_size P _ _ (r_st _ _ _ _ R)). apply as_len. Qed.

Lemma pos_ids_len a i : (exists u, as_ids a !! i = Some u) <-> (i < length (a_el a))%nat.
Proof. rewrite <- as_len_ids. split; [intros [u E]; eapply lookup_lt_Some; exact E|]. intros E. apply lookup_lt_is_Some_2. exact E. Qed.

(** *** Insertion: holds for every lookup map, also one with stale entries *)
Lemma insert_any m xs k x : st_ok P (m_st m) xs ->
  exists m', mv_step P kdef m (MInsert k x) =
    Ok (m', MIdx (match m_lk m !! k with Some _ => None | None => Some (zlen xs) end)) /\
  st_kept P (m_st m) (m_st m') /\
  match m_lk m !! k with
  | Some _ => m' = m
  | None => st_ok P (m_st m') (xs ++ [x]) /\ m_lk m' = <[k := zlen xs]> (m_lk m)
  end.
Proof.
  intros Hs. cbn. unfold mv_insert. destruct (m_lk m !! k) eqn:Ek; [eexists; splits; apply st_kept_refl|].
  destruct (st_push_ok P HP _ _ x Hs) as (s' & E & Hs' & Kp). rewrite E. cbn. rewrite (st_ok_size P _ _ Hs).
  eexists; splits; [exact Kp|exact Hs'|]. cbn. unfold mp_emplace. rewrite Ek. reflexivity.
Qed.

Lemma insert_no_any m xs x : st_ok P (m_st m) xs ->
  exists m', mv_step P kdef m (MInsertNo x) = Ok (m', MIdx (Some (zlen xs))) /\
  st_kept P (m_st m) (m_st m') /\ st_ok P (m_st m') (xs ++ [x]) /\ m_lk m' = m_lk m.
Proof.
  intros Hs. cbn. unfold mv_insert_no. destruct (st_push_ok P HP _ _ x Hs) as (s' & E & Hs' & Kp). rewrite E. cbn.
  rewrite (st_ok_size P _ _ Hs). eexists; splits; assumption.
Qed.

Lemma assign_any m xs k x : st_ok P (m_st m) xs -> (forall i, m_lk m !! k = Some i -> 0 <= i < zlen xs) ->
  exists m', mv_step P kdef m (MAssign k x) =
    Ok (m', MIdx (Some (match m_lk m !! k with Some i => i | None => zlen xs end))) /\
  st_kept P (m_st m) (m_st m') /\
  match m_lk m !! k with
  | Some i => st_ok P (m_st m') (<[Z.to_nat i := x]> xs) /\ m_lk m' = m_lk m
  | None => st_ok P (m_st m') (xs ++ [x]) /\ m_lk m' = <[k := zlen xs]> (m_lk m)
  end.
Proof.
  intros Hs Hr. cbn. unfold mv_assign. destruct (m_lk m !! k) as [i|] eqn:Ek.
  - destruct (st_set_ok P HP _ _ i x Hs) as (s' & E & Hs' & Kp); [auto|]. rewrite E. cbn. eexists; splits; assumption.
  - destruct (st_push_ok P HP _ _ x Hs) as (s' & E & Hs' & Kp). rewrite E. cbn. rewrite (st_ok_size P _ _ Hs).
    eexists; splits; [exact Kp|exact Hs'|]. cbn. unfold mp_emplace. rewrite Ek. reflexivity.
Qed.

(** *** Removal *)
(** What the code leaves behind, whatever the guard: every entry is shifted, and at most one is taken out. *)
Lemma remove_idx_any m xs i ord : st_ok P (m_st m) xs -> 0 <= i < zlen xs -> ord_ok (m_lk m) ord ->
  let er := negb (st_stable (m_st m) && negb (i =? zlen xs - 1)) in
  ((forall k, m_lk m !! k <> Some i) /\ kdef = None /\ mv_step P kdef m (MRemoveIdx i ord) = UB) \/
  exists m' k0, mv_step P kdef m (MRemoveIdx i ord) = Ok (m', MUnit) /\ st_ok P (m_st m') (st_erased (m_st m) xs i) /\ st_kept P (m_st m) (m_st m') /\
    (((forall k, m_lk m !! k <> Some i) /\ kdef = Some k0) \/ m_lk m !! k0 = Some i) /\
    (forall k, m_lk m' !! k = if decide (k = k0) then None else dec1 er i (m_lk m !! k)).
Proof.
  intros Hs Hi Ho er. pose proof (st_ok_size P _ _ Hs) as Hz. destruct (st_erase_ok P HP _ _ i Hs Hi) as (s' & E & Hs' & Kp).
  fold er in E. cbn. unfold mv_remove_idx. destruct (Z.leb_spec (st_size (m_st m)) i); [lia|]. rewrite E. cbn [obind].
  pose proof (fun k => mp_shift_lk er i ord (m_lk m) kdef k Ho) as Hlk.
  destruct (mp_shift er i ord (m_lk m) kdef) as [lk' ind] eqn:Esh. cbn in Hlk.
  assert (Hind : ((forall k, m_lk m !! k <> Some i) /\ ind = kdef) \/ (exists k, m_lk m !! k = Some i /\ ind = Some k)).
  { pose proof (mp_shift_ind er i ord (m_lk m) kdef Ho) as Hx. rewrite Esh in Hx. exact Hx. }
  assert (Hdel : forall k0 k, delete k0 lk' !! k = if decide (k = k0) then None else dec1 er i (m_lk m !! k)).
  { intros k0 k. destruct (decide (k = k0)) as [->|Hne]; [apply lookup_delete|rewrite lookup_delete_ne by congruence; apply Hlk]. }
  destruct Hind as [[Hn ->]|(k0 & Hk0 & ->)].
  - destruct kdef as [d|] eqn:Ed; [|left; splits; assumption]. right. eexists _, d. splits; cbn; try assumption; [left; auto|apply Hdel].
  - right. eexists _, k0. splits; cbn; try assumption; [right; exact Hk0|apply Hdel].
Qed.

Lemma remove_any m xs k0 i ord : st_ok P (m_st m) xs -> m_lk m !! k0 = Some i -> 0 <= i < zlen xs -> ord_ok (m_lk m) ord ->
  exists m', mv_step P kdef m (MRemove k0 ord) = Ok (m', MUnit) /\ st_ok P (m_st m') (st_erased (m_st m) xs i) /\ st_kept P (m_st m) (m_st m') /\
    (forall k, m_lk m' !! k = if decide (k = k0) then None else dec1 (negb (st_stable (m_st m) && negb (i =? zlen xs - 1))) i (m_lk m !! k)).
Proof.
  intros Hs Hk0 Hi Ho. destruct (st_erase_ok P HP _ _ i Hs Hi) as (s' & E & Hs' & Kp). cbn. unfold mv_remove. rewrite Hk0, E. cbn [obind].
  eexists; splits; cbn; try assumption. intros k. destruct (decide (k = k0)) as [->|Hne]; [apply lookup_delete|].
  rewrite lookup_delete_ne by congruence. destruct (negb _); [apply mp_dec_lk; exact Ho|]. destruct (m_lk m !! k); reflexivity.
Qed.

Lemma shifted_of_dec er i (lk : K -> option Z) k0 k :
  (forall k', lk k' = Some i -> k' = k0) -> (lk k0 = Some i \/ lk k0 = None) ->
  (if decide (k = k0) then None else dec1 er i (lk k)) = shifted er i (lk k).
Proof.
  intros Hu H0. rewrite shifted_dec1. destruct (decide (k = k0)) as [->|Hne].
  - destruct H0 as [->| ->]; [rewrite Z.eqb_refl|]; reflexivity.
  - destruct (lk k) as [j|] eqn:E; [|reflexivity]. destruct (Z.eqb_spec j i) as [->|]; [|reflexivity]. exfalso. apply Hne, Hu. exact E.
Qed.

(** *** One call *)
Lemma mv_step_ok m a o : mrel m a -> mv_legal m o -> mv_guard m o ->
  exists m', mv_step P kdef m o = Ok (m', (as_exec (st_stable (m_st m)) a o).2) /\
  mrel m' (as_exec (st_stable (m_st m)) a o).1 /\ st_kept P (m_st m) (m_st m').
Proof.
  intros R Hl Hg. pose proof (r_st _ _ _ _ R) as Hs. pose proof (rel_size _ _ _ R) as Hz. pose proof (as_len a) as Hlen.
  assert (Hnone : forall k, m_lk m !! k = None <-> a_tm a !! k = None) by (intros k; exact (rel_lk_none P _ _ _ k R)).
  assert (Hsome : forall k i, m_lk m !! k = Some i -> exists u p, a_tm a !! k = Some u /\ as_ids a !! p = Some u /\ i = Z.of_nat p /\ as_pos u a = Some p).
  { intros k i E. destruct (proj1 (rel_lk P _ _ _ k i R) E) as (u & p & E1 & E2 & E3). exists u, p. splits; try assumption.
    apply pos_lookup; [apply R|exact E2]. }
  assert (Hrange : forall k i, m_lk m !! k = Some i -> 0 <= i < zlen (as_vals a)) by (intros k i E; exact (rel_range P _ _ _ k i R E)).
  assert (Hadd : forall x k, a_tm a !! k = None -> exists m', (let index := st_size (m_st m) in '(s, _) <-! st_step P (m_st m) (VPush x) ;;
        Ok (Mv s (mp_emplace k index (m_lk m)), MIdx (V := V) (Some index))) = Ok (m', MIdx (Some (zlen (a_el a)))) /\ mrel m' (as_add x [k] a) /\ st_kept P (m_st m) (m_st m')).
  { intros x k Hk. destruct (st_push_ok P HP _ _ x Hs) as (s' & E & Hs' & Kp). cbn zeta. rewrite E. cbn. rewrite Hz. eexists; splits; [|exact Kp].
    eapply rel_add; [exact R|exact Hs'|]. intros k'. cbn. rewrite mp_emplace_lk. rewrite (proj2 (Hnone k) Hk).
    destruct (decide (k' = k)) as [->|Hne].
    - rewrite decide_True by constructor. f_equal. lia.
    - rewrite decide_False; [reflexivity|]. intros F. apply elem_of_list_singleton in F. contradiction. }
  destruct o; cbn [mv_step as_exec mv_legal mv_guard] in *.
  - unfold mv_insert. destruct (a_tm a !! k) as [u|] eqn:Ek.
    + destruct (m_lk m !! k) eqn:El; [|apply Hnone in El; congruence]. eexists; splits; [exact R|apply st_kept_refl].
    + rewrite (proj2 (Hnone k) Ek). apply Hadd. exact Ek.
  - unfold mv_insert_no. destruct (st_push_ok P HP _ _ x Hs) as (s' & E & Hs' & Kp). rewrite E. cbn. rewrite Hz. eexists; splits; [|exact Kp].
    eapply rel_add; [exact R|exact Hs'|]. intros k'. cbn. rewrite decide_False by (intros F; inversion F). reflexivity.
  - unfold mv_assign. destruct (a_tm a !! k) as [u|] eqn:Ek.
    + destruct (m_lk m !! k) as [i|] eqn:El; [|apply Hnone in El; congruence]. pose proof (Hrange _ _ El) as Hi.
      destruct (Hsome _ _ El) as (u' & p & E1 & E2 & -> & E4). assert (u' = u) as -> by congruence.
      destruct (st_set_ok P HP _ _ (Z.of_nat p) x Hs Hi) as (s' & E & Hs' & Kp). rewrite E. cbn. rewrite E4. cbn.
      eexists; splits; [|exact Kp]. rewrite Nat2Z.id in Hs'. eapply rel_put; eassumption.
    + rewrite (proj2 (Hnone k) Ek). apply Hadd. exact Ek.
  - destruct Hg as [Hroom Hbig]. destruct (st_iters P HP _ _ Hs Hroom) as (pos & Hend & Hit & Heq & Hrd). unfold mv_find_use, mv_find.
    destruct (m_lk m !! k) as [i|] eqn:El.
    + destruct (rel_find P _ _ _ k i R El) as (x & Ex & ->). pose proof (Hrange _ _ El) as Hi.
      assert (Hb : st_iter P (m_st m) i = Ok (pos i)) by (apply Hit; [lia|intros Est; specialize (Hbig Est); lia]).
      rewrite Hb. cbn [obind]. rewrite Hend. cbn [obind]. rewrite Heq by lia. destruct (Z.eqb_spec i (zlen (as_vals a))); [lia|].
      rewrite (Hrd _ _ Ex) by lia. cbn. eexists; splits; [exact R|apply st_kept_refl].
    + rewrite Hend. cbn [obind]. rewrite Heq by (unfold zlen; lia). rewrite Z.eqb_refl.
      rewrite (rel_find_none P _ _ _ k R El). eexists; splits; [exact R|apply st_kept_refl].
  - unfold mv_findp. destruct (m_lk m !! k) as [i|] eqn:El.
    + destruct (rel_find P _ _ _ k i R El) as (x & Ex & ->). pose proof (Hrange _ _ El) as Hi.
      destruct (st_get_ok _ _ i x Hs) as [s' ->]; [lia|exact Ex|]. cbn. eexists; splits; [exact R|apply st_kept_refl].
    + rewrite (rel_find_none P _ _ _ k R El). eexists; splits; [exact R|apply st_kept_refl].
  - unfold mv_get. destruct (lookup_lt_is_Some_2 (as_vals a) (Z.to_nat i)) as [x Ex]; [unfold zlen in *; lia|].
    destruct (st_get_ok _ _ i x Hs) as [s' ->]; [lia|exact Ex|]. rewrite Ex. cbn. eexists; splits; [exact R|apply st_kept_refl].
  - unfold mv_getp, mv_get. destruct (Z.ltb_spec i (st_size (m_st m))).
    + destruct (lookup_lt_is_Some_2 (as_vals a) (Z.to_nat i)) as [x Ex]; [unfold zlen in *; lia|].
      destruct (st_get_ok _ _ i x Hs) as [s' ->]; [lia|exact Ex|]. rewrite Ex. cbn. eexists; splits; [exact R|apply st_kept_refl].
    + rewrite (lookup_ge_None_2 (as_vals a)) by (unfold zlen in *; lia). eexists; splits; [exact R|apply st_kept_refl].
  - unfold mv_at. destruct (st_step_ok P HP _ _ (VAt i) Hs) as (s' & r & -> & S & _ & _); [split; [exact Hl|discriminate]|exact I|].
    cbn in S |- *. inversion S; subst; rewrite ?Nat2Z.id.
    + match goal with E : _ !! _ = Some _ |- _ => rewrite E end. eexists; splits; [exact R|apply st_kept_refl].
    + rewrite (lookup_ge_None_2 (as_vals a)) by (unfold zlen in *; lia). eexists; splits; [exact R|apply st_kept_refl].
  - unfold mv_back. destruct (as_vals a) as [|x xs' _] eqn:Ev using rev_ind; [unfold zlen in *; cbn in *; lia|].
    destruct (st_step_ok P HP _ _ VBack Hs) as (s' & r & -> & S & _ & _); [split; [cbn; destruct xs'; discriminate|discriminate]|exact I|].
    cbn in S |- *. inversion S; subst. match goal with E : _ ++ [_] = _ ++ [_] |- _ => apply app_inj_tail in E as [-> ->] end.
    rewrite last_snoc. eexists; splits; [exact R|apply st_kept_refl].
  - unfold mv_alias. destruct (Z.ltb_spec i (st_size (m_st m))).
    + destruct (proj2 (pos_ids_len a (Z.to_nat i))) as [u Eu]; [unfold zlen in *; lia|]. rewrite Eu.
      destruct (a_tm a !! k) as [u'|] eqn:Ek.
      * destruct (m_lk m !! k) eqn:El; [|apply Hnone in El; congruence]. eexists; splits; [|apply st_kept_refl].
        unfold mp_emplace. rewrite El. destruct m. exact R.
      * rewrite (proj2 (Hnone k) Ek). eexists; splits; [|apply st_kept_refl]. eapply rel_alias; [exact R|exact Eu|]. intros k'. cbn.
        rewrite mp_emplace_lk, (proj2 (Hnone k) Ek). destruct (decide (k' = k)); [f_equal; lia|reflexivity].
    + rewrite (lookup_ge_None_2 (as_ids a)) by (rewrite as_len_ids; unfold zlen in *; lia). eexists; splits; [exact R|apply st_kept_refl].
  - destruct Hl as [H0 Ho]. destruct (Z.ltb_spec i (st_size (m_st m))) as [Hlt|Hge].
    + destruct (proj2 (pos_ids_len a (Z.to_nat i))) as [u Eu]; [unfold zlen in *; lia|]. rewrite Eu. specialize (Hg Hlt).
      destruct (remove_idx_any m _ i ord Hs ltac:(lia) Ho) as [(Hn & Hd & _)|(m' & k0 & E & Hs' & Kp & Hk0 & Hlk)].
      { exfalso. destruct Hg as [(k & Hk & _)|(_ & d & Hd' & _)]; [eapply Hn; exact Hk|congruence]. }
      exists m'. splits; [exact E| |exact Kp]. eapply rel_remove; [exact R|exact Eu|rewrite Z2Nat.id by lia; exact Hs'|].
      intros k. rewrite Z2Nat.id by lia. cbn. rewrite Hlk. apply (shifted_of_dec _ i (fun k => m_lk m !! k)).
      * intros k' Hk'. destruct Hg as [(k1 & Hk1 & Hu)|(Hn & _)]; [|exfalso; eapply Hn; exact Hk'].
        destruct Hk0 as [[Hn _]|Hk0]; [exfalso; eapply Hn; exact Hk'|]. rewrite (Hu _ Hk'), (Hu _ Hk0). reflexivity.
      * destruct Hk0 as [[Hn Hd]|Hk0]; [|left; exact Hk0]. right. destruct Hg as [(k1 & Hk1 & _)|(_ & d & Hd' & Hdn)]; [exfalso; eapply Hn; exact Hk1|congruence].
    + rewrite (lookup_ge_None_2 (as_ids a)) by (rewrite as_len_ids; unfold zlen in *; lia). unfold mv_remove_idx.
      destruct (Z.leb_spec (st_size (m_st m)) i); [|lia]. eexists; splits; [exact R|apply st_kept_refl].
  - destruct (m_lk m !! k) as [i|] eqn:El.
    + destruct (Hsome _ _ El) as (u & p & -> & E2 & -> & ->). pose proof (Hrange _ _ El) as Hi.
      destruct (remove_any m _ k _ ord Hs El Hi Hl) as (m' & E & Hs' & Kp & Hlk). exists m'. splits; [exact E| |exact Kp].
      eapply rel_remove; [exact R|exact E2|exact Hs'|]. intros k'. cbn. rewrite Hlk. apply (shifted_of_dec _ _ (fun k => m_lk m !! k)).
      * intros k2 Hk2. exact (Hg _ _ El Hk2).
      * left. exact El.
    + rewrite (proj1 (Hnone k) El). unfold mv_remove. rewrite El. eexists; splits; [exact R|apply st_kept_refl].
  - unfold mv_modify. destruct (st_modify_ok P HP _ _ f Hs Hg) as (s' & E & Hs' & Kp). rewrite E. cbn. eexists; splits; [|exact Kp].
    eapply rel_map; eassumption.
  - unfold mv_apply. destruct (st_step_ok P HP _ _ VWalk Hs) as (s' & r & -> & S & _ & _); [split; [exact I|discriminate]|exact Hg|].
    cbn in S |- *. inversion S; subst. eexists; splits; [exact R|apply st_kept_refl].
  - rewrite Hz. eexists; splits; [exact R|apply st_kept_refl].
  - unfold mv_clear. destruct (st_clear_ok P HP _ _ Hs) as (s' & E & Hs' & Kp). rewrite E. cbn. eexists; splits; [|exact Kp].
    eapply rel_clear; [exact R|exact Hs'|]. intros k. cbn. apply lookup_empty.
Qed.

(** *** Programs *)
Fixpoint mv_safe m (ops : list (mop V K)) : Prop :=
  match ops with
  | [] => True
  | o :: ops' => mv_legal m o /\ mv_guard m o /\ forall m' r, mv_step P kdef m o = Ok (m', r) -> mv_safe m' ops'
  end.

Lemma mv_run_ok ops : forall m a, mrel m a -> mv_safe m ops ->
  exists m', mv_run P kdef m ops = Ok (m', (as_run (st_stable (m_st m)) a ops).2) /\
    mrel m' (as_run (st_stable (m_st m)) a ops).1 /\ st_stable (m_st m') = st_stable (m_st m).
Proof.
  induction ops as [|o ops IH]; intros m a R Hsf; cbn [mv_run as_run].
  - eexists; splits. exact R.
  - destruct Hsf as (Hl & Hg & Hsf). destruct (mv_step_ok m a o R Hl Hg) as (m1 & E & R1 & Kp). rewrite E. cbn [obind].
    apply st_kept_stable in Kp. destruct (as_exec (st_stable (m_st m)) a o) as [a1 r1] eqn:Ea. cbn [fst snd] in *.
    destruct (IH m1 a1 R1 (Hsf _ _ E)) as (m2 & E2 & R2 & Est). rewrite E2. cbn [obind]. rewrite Kp in *.
    destruct (as_run (st_stable (m_st m)) a1 ops) as [a2 tr2]. cbn [fst snd] in *. eexists; splits; [exact R2|congruence].
Qed.

(** *** The guards on removal are exact: if one fails, the call is undefined or the terms left are wrong *)
Lemma remove_idx_exact m a i ord : mrel m a -> mv_legal m (MRemoveIdx i ord) -> ~ idx_guard m i ->
  mv_step P kdef m (MRemoveIdx i ord) = UB \/
  exists m' k, mv_step P kdef m (MRemoveIdx i ord) = Ok (m', MUnit) /\
    (m_lk m' !! k = None <-> a_tm (as_exec (st_stable (m_st m)) a (MRemoveIdx i ord)).1 !! k <> None).
Proof.
  intros R [H0 Ho] Hg. pose proof (r_st _ _ _ _ R) as Hs. pose proof (rel_size _ _ _ R) as Hz. pose proof (as_len a) as Hlen.
  assert (Hlt : i < st_size (m_st m)) by (destruct (Z.ltb_spec i (st_size (m_st m))); [assumption|]; exfalso; apply Hg; intros F; lia).
  destruct (remove_idx_any m _ i ord Hs ltac:(lia) Ho) as [(_ & _ & E)|(m' & k0 & E & Hs' & Kp & Hk0 & Hlk)]; [left; exact E|].
  right. exists m'. cbn [as_exec fst]. destruct (proj2 (pos_ids_len a (Z.to_nat i))) as [u Eu]; [unfold zlen in *; lia|]. rewrite Eu.
  assert (Htm : forall k, a_tm (as_remove (st_stable (m_st m)) u (Z.to_nat i) a) !! k = None <-> shifted true i (m_lk m !! k) = None).
  { intros k. cbn. destruct (m_lk m !! k) as [j|] eqn:Ej.
    - destruct (proj1 (rel_lk P _ _ _ k j R) Ej) as (v & p & E1 & E2 & E3). cbn. destruct (Z.eqb_spec j i) as [->|Hne].
      + assert (v = u) as -> by (rewrite E3 in Eu; rewrite Nat2Z.id in Eu; congruence). split; [reflexivity|]. intros _.
        apply map_filter_lookup_None. right. intros w Ew. cbn. rewrite E1 in Ew. injection Ew as <-. intros F. apply F. reflexivity.
      + assert (v <> u). { intros ->. apply Hne. rewrite E3. assert (p = Z.to_nat i) by (apply (NoDup_lookup (as_ids a) p (Z.to_nat i) u); [apply R|assumption|assumption]). lia. }
        split; [|destruct (i <? j); discriminate]. intros F. apply map_filter_lookup_None in F as [F|F]; [congruence|]. exfalso. eapply F; [exact E1|assumption].
    - split; [reflexivity|]. intros _. apply map_filter_lookup_None. left. apply (rel_lk_none P _ _ _ k R). exact Ej. }
  (* some key that is still there but must not be, or the other way round *)
  destruct Hk0 as [[Hn Hd]|Hk0].
  - (* keyless: the default key is in use *)
    exists k0. split; [exact E|]. rewrite Hlk, decide_True by reflexivity. split; [|reflexivity]. intros _ F. apply Htm in F.
    destruct (m_lk m !! k0) as [j|] eqn:Ej.
    + cbn in F. destruct (Z.eqb_spec j i) as [->|]; [eapply Hn; exact Ej|]. destruct (i <? j); discriminate.
    + apply Hg. intros _. right. split; [exact Hn|]. exists k0. auto.
  - (* another term of the same element is left *)
    destruct (decide (map_Forall (fun k j => j = i -> k = k0) (m_lk m))) as [Hall|Hex].
    { exfalso. apply Hg. intros _. left. exists k0. split; [exact Hk0|]. intros k' Hk'. exact (Hall k' i Hk' eq_refl). }
    apply (map_not_Forall _) in Hex. destruct Hex as (k1 & j & Ek1 & Hne).
    assert (j = i /\ k1 <> k0) as [-> Hk1].
    { destruct (decide (j = i)) as [->|Hj]; [|exfalso; apply Hne; intros; contradiction]. split; [reflexivity|]. intros ->. apply Hne. reflexivity. }
    exists k1. split; [exact E|]. rewrite Hlk, decide_False by assumption. rewrite Ek1. cbn. split; [discriminate|]. intros F. exfalso. apply F.
    apply Htm. rewrite Ek1. cbn. rewrite Z.eqb_refl. reflexivity.
Qed.

Lemma remove_exact m a k ord : mrel m a -> mv_legal m (MRemove k ord) -> ~ key_guard m k ->
  exists m' k', mv_step P kdef m (MRemove k ord) = Ok (m', MUnit) /\
    m_lk m' !! k' <> None /\ a_tm (as_exec (st_stable (m_st m)) a (MRemove k ord)).1 !! k' = None.
Proof.
  intros R Ho Hg. pose proof (r_st _ _ _ _ R) as Hs.
  destruct (m_lk m !! k) as [i|] eqn:Ek; [|exfalso; apply Hg; intros i k' F; congruence].
  destruct (decide (map_Forall (fun k' j => j = i -> k' = k) (m_lk m))) as [Hall|Hex].
  { exfalso. apply Hg. intros i' k' E E'. assert (i' = i) as -> by congruence. exact (Hall k' i E' eq_refl). }
  apply (map_not_Forall _) in Hex. destruct Hex as (k1 & j & Ek1 & Hne).
  assert (j = i /\ k1 <> k) as [-> Hk1].
  { destruct (decide (j = i)) as [->|Hj]; [|exfalso; apply Hne; intros; contradiction]. split; [reflexivity|]. intros ->. apply Hne. reflexivity. }
  destruct (remove_any m _ k i ord Hs Ek (rel_range P _ _ _ k i R Ek) Ho) as (m' & E & _ & _ & Hlk).
  exists m', k1. split; [exact E|]. rewrite Hlk, decide_False by assumption. rewrite Ek1. split; [discriminate|].
  destruct (proj1 (rel_lk P _ _ _ k i R) Ek) as (u & p & E1 & E2 & E3). destruct (proj1 (rel_lk P _ _ _ k1 i R) Ek1) as (u' & p' & E1' & E2' & E3').
  assert (p' = p) as -> by lia. assert (u' = u) as -> by congruence. cbn [as_exec fst]. rewrite E1.
  apply pos_lookup in E2; [|apply R]. rewrite E2. cbn. apply map_filter_lookup_None. right. intros w Ew. cbn. rewrite E1' in Ew. injection Ew as <-. intros F. apply F. reflexivity.
Qed.

(** *** Stability: removing an element that is not the last does not touch stable storage *)
Lemma stable_remove_same m i ord m' r : st_stable (m_st m) = true -> i <> st_size (m_st m) - 1 ->
  mv_step P kdef m (MRemoveIdx i ord) = Ok (m', r) -> m_st m' = m_st m.
Proof.
  intros Hst Hi. cbn. unfold mv_remove_idx. destruct (_ <=? _); [intros [= <- _]; reflexivity|].
  destruct (m_st m) as [|h v] eqn:Es; [discriminate|]. cbn in *. destruct (Z.eqb_spec i (v_size v - 1)); [contradiction|]. cbn.
  destruct (mp_shift false i ord (m_lk m) kdef) as [lk [k|]]; [|discriminate]. intros [= <- _]. reflexivity.
Qed.

Lemma stable_remove_key_same m k ord m' r : st_stable (m_st m) = true -> m_lk m !! k <> Some (st_size (m_st m) - 1) ->
  mv_step P kdef m (MRemove k ord) = Ok (m', r) -> m_st m' = m_st m.
Proof.
  intros Hst Hi. cbn. unfold mv_remove. destruct (m_lk m !! k) as [i|]; [|intros [= <- _]; reflexivity].
  destruct (m_st m) as [|h v] eqn:Es; [discriminate|]. cbn in *. destruct (Z.eqb_spec i (v_size v - 1)); [congruence|]. cbn. intros [= <- _]. reflexivity.
Qed.
End map.
