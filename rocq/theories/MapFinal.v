(** Final forms of the mapped vector results. *)
From stdpp Require Import gmap.
From Verif Require Import Base BlkHeap BlkProofs BlkIter VecModel VecSpec VecProofs VecWorld VecFinal
  MapStore MapStoreProofs MapModel MapSpec MapRel MapProofs MapReach DualModel DualSpec DualProofs.

(** What the storage holds, by observation: its size and what operator[] yields *)
Definition holds {V} P (s : store V) (xs : list V) : Prop :=
  st_size s = zlen xs /\ forall n x, xs !! n = Some x -> exists s', st_step P s (VGet (Z.of_nat n)) = Ok (s', VVal x).

Lemma ok_holds {V} P (s : store V) xs : 0 <= expo P <= 30 -> st_ok P s xs -> holds P s xs.
Proof.
  intros HP Hs. split; [apply (st_ok_size P); exact Hs|]. intros n x Hx. apply (st_get_ok P HP s xs); [exact Hs|lia|]. rewrite Nat2Z.id. exact Hx.
Qed.

Lemma holds_unique {V} P (s : store V) xs ys : holds P s xs -> holds P s ys -> xs = ys.
Proof.
  intros [S1 R1] [S2 R2]. apply list_eq. intros n. destruct (xs !! n) as [x|] eqn:E1; destruct (ys !! n) as [y|] eqn:E2; try reflexivity.
  - destruct (R1 _ _ E1) as [s1 F1], (R2 _ _ E2) as [s2 F2]. congruence.
  - apply lookup_lt_Some in E1. apply lookup_ge_None in E2. unfold zlen in *. lia.
  - apply lookup_lt_Some in E2. apply lookup_ge_None in E1. unfold zlen in *. lia.
Qed.

(** The position a term should have after the element at [i] is removed; [er]: later elements move down *)
Definition moved (er : bool) (i : Z) (o : option Z) : option Z :=
  match o with
  | Some j => if j =? i then None else if er && (i <? j) then Some (j - 1) else Some j
  | None => None
  end.
(** The elements after the removal of the one at [i]: stable storage only gives up the last one *)
Definition erases (stb : bool) (n i : Z) : bool := negb stb || (i =? n - 1).
Definition without {V} (stb : bool) (i : Z) (xs : list V) : list V :=
  if erases stb (zlen xs) i then delete (Z.to_nat i) xs else xs.

Lemma without_erased {V} (s : store V) xs i : without (st_stable s) i xs = st_erased s xs i.
Proof. unfold without, st_erased, erases. destruct (st_stable s), (i =? zlen xs - 1); reflexivity. Qed.
Lemma erases_neg (b : bool) n i : erases b n i = negb (b && negb (i =? n - 1)).
Proof. unfold erases. destruct b, (i =? n - 1); reflexivity. Qed.

Lemma moved_dec er i o : o <> Some i -> dec1 er i o = moved er i o /\ (moved er i o = None -> o = None).
Proof.
  intros Hne. split.
  - destruct o as [k|]; cbn; [|reflexivity]. destruct (Z.eqb_spec k i); [congruence|]. destruct er; cbn; [|reflexivity]. destruct (i <? k); reflexivity.
  - destruct o as [k|]; cbn; [|reflexivity]. destruct (Z.eqb_spec k i); [congruence|]. destruct (er && (i <? k)); discriminate.
Qed.

Lemma term_at_or_none `{Countable K} (lk : gmap K Z) i : (exists k, lk !! k = Some i) \/ (forall k, lk !! k <> Some i).
Proof.
  destruct (decide (map_Exists (fun _ j => j = i) lk)) as [(k & j & E & ->)|Hn]; [left; eauto|]. right. intros k E. apply Hn. exists k, i. auto.
Qed.

Section map.
Context {V : Type} `{Countable K}.
Variable P : params.
Hypothesis HP : 0 <= expo P <= 30.
Variable kdef : option K.
Implicit Types (m : mv V K) (s : store V).

Lemma insert_final stb m k x : mreach P kdef stb m ->
  exists xs, holds P (m_st m) xs /\
  match m_lk m !! k with
  | Some _ => mv_step P kdef m (MInsert k x) = Ok (m, MIdx None)
  | None =>
      exists m', mv_step P kdef m (MInsert k x) = Ok (m', MIdx (Some (zlen xs))) /\ holds P (m_st m') (xs ++ [x]) /\
        m_lk m' = <[k := zlen xs]> (m_lk m) /\ st_kept P (m_st m) (m_st m') /\
        ((stb = true -> zlen xs <= 2147483647) -> exists it, mv_find P m' k = Ok it /\ st_deref P (m_st m') it = Ok x)
  end.
Proof.
  intros Hr. destruct (mreach_ok P HP kdef stb m Hr) as ((xs & Hs) & Hn & Hb). exists xs. split; [apply ok_holds; assumption|].
  destruct (insert_any P HP kdef m xs k x Hs) as (m' & E & Hk & Hm). destruct (m_lk m !! k) eqn:Ek; [subst m'; exact E|].
  destruct Hm as [Hm Hlk]. exists m'. splits; try assumption; [apply ok_holds; assumption|]. intros Hz. unfold mv_find. rewrite Hlk, lookup_insert.
  apply (st_iter_read P HP _ (xs ++ [x])); [exact Hm| |apply zlen_nonneg|rewrite (st_kept_stable P _ _ Hk), Hb; exact Hz]. unfold zlen. rewrite Nat2Z.id, lookup_app_r, Nat.sub_diag by lia. reflexivity.
Qed.

Lemma insert_no_final stb m x : mreach P kdef stb m ->
  exists xs m', holds P (m_st m) xs /\ mv_step P kdef m (MInsertNo x) = Ok (m', MIdx (Some (zlen xs))) /\ holds P (m_st m') (xs ++ [x]) /\
    m_lk m' = m_lk m /\ st_kept P (m_st m) (m_st m').
Proof.
  intros Hr. destruct (mreach_ok P HP kdef stb m Hr) as ((xs & Hs) & Hn & Hb). destruct (insert_no_any P HP kdef m xs x Hs) as (m' & E & Hk & Hm & Hlk).
  exists xs, m'. splits; try assumption; apply ok_holds; assumption.
Qed.

Lemma assign_final stb m k x : mreach P kdef stb m -> in_range m (MAssign k x) ->
  exists xs m', holds P (m_st m) xs /\ st_kept P (m_st m) (m_st m') /\
  match m_lk m !! k with
  | Some i => mv_step P kdef m (MAssign k x) = Ok (m', MIdx (Some i)) /\ holds P (m_st m') (<[Z.to_nat i := x]> xs) /\ m_lk m' = m_lk m /\ 0 <= i < zlen xs /\
      ((stb = true -> i <= 2147483647) -> exists it, mv_find P m' k = Ok it /\ st_deref P (m_st m') it = Ok x)
  | None => mv_step P kdef m (MAssign k x) = Ok (m', MIdx (Some (zlen xs))) /\ holds P (m_st m') (xs ++ [x]) /\ m_lk m' = <[k := zlen xs]> (m_lk m) /\
      ((stb = true -> zlen xs <= 2147483647) -> exists it, mv_find P m' k = Ok it /\ st_deref P (m_st m') it = Ok x)
  end.
Proof.
  intros Hr Hi. destruct (mreach_ok P HP kdef stb m Hr) as ((xs & Hs) & Hn & Hb). cbn in Hi.
  assert (Hrg : forall i, m_lk m !! k = Some i -> 0 <= i < zlen xs).
  { intros i Ei. specialize (Hi _ Ei). rewrite (st_ok_size P _ _ Hs) in Hi. split; [eapply Hn, Ei|exact Hi]. }
  destruct (assign_any P HP kdef m xs k x Hs Hrg) as (m' & E & Hk & Hm). exists xs, m'. split; [apply ok_holds; assumption|]. split; [exact Hk|].
  destruct (m_lk m !! k) as [i|] eqn:Ek; destruct Hm as [Hm Hlk].
  - pose proof (Hrg i eq_refl) as Hi'. split; [assumption|]. split; [apply ok_holds; assumption|]. split; [assumption|]. split; [exact Hi'|]. intros Hz. unfold mv_find. rewrite Hlk, Ek.
    apply (st_iter_read P HP _ (<[Z.to_nat i := x]> xs)); [exact Hm| |apply Hi'|rewrite (st_kept_stable P _ _ Hk), Hb; exact Hz].
    apply list_lookup_insert. unfold zlen in Hi'. lia.
  - split; [assumption|]. split; [apply ok_holds; assumption|]. split; [assumption|]. intros Hz. unfold mv_find. rewrite Hlk, lookup_insert.
    apply (st_iter_read P HP _ (xs ++ [x])); [exact Hm| |apply zlen_nonneg|rewrite (st_kept_stable P _ _ Hk), Hb; exact Hz]. unfold zlen. rewrite Nat2Z.id, lookup_app_r, Nat.sub_diag by lia. reflexivity.
Qed.

(** What removeIndex should do *)
Definition rem_idx_right m i ord : Prop :=
  exists m', mv_step P kdef m (MRemoveIdx i ord) = Ok (m', MUnit) /\
    forall k, m_lk m' !! k = moved (erases (st_stable (m_st m)) (st_size (m_st m)) i) i (m_lk m !! k).
Definition rem_key_right m k0 i ord : Prop :=
  exists m', mv_step P kdef m (MRemove k0 ord) = Ok (m', MUnit) /\
    forall k, m_lk m' !! k = moved (erases (st_stable (m_st m)) (st_size (m_st m)) i) i (m_lk m !! k).

Lemma remove_idx_iff stb m i ord : mreach P kdef stb m -> 0 <= i < st_size (m_st m) -> ord_ok (m_lk m) ord ->
  (rem_idx_right m i ord <-> idx_guard kdef m i).
Proof.
  intros Hr Hi Ho. destruct (mreach_ok P HP kdef stb m Hr) as ((xs & Hs) & Hn & Hb). pose proof (st_ok_size P _ _ Hs) as Hsz. rewrite Hsz in Hi.
  unfold rem_idx_right. rewrite Hsz. rewrite erases_neg.
  destruct (remove_idx_any P HP kdef m xs i ord Hs Hi Ho) as [(Hno & -> & E)|(m' & k0 & E & Hm & Hk & Hk0 & Hlk)].
  - split; [intros (m' & E' & _); congruence|]. intros G. destruct G as [(k & Hk & _)|(_ & d & F & _)]; [lia| |]; [exfalso; eapply Hno, Hk|discriminate].
  - split.
    + intros (m1 & E1 & H1). rewrite E in E1. injection E1 as <-. intros _. destruct Hk0 as [(Hno & ->)|Hk0].
      * right. split; [exact Hno|]. exists k0. split; [reflexivity|]. specialize (H1 k0). rewrite Hlk in H1. destruct (decide (k0 = k0)); [|congruence].
        apply (moved_dec (negb (st_stable (m_st m) && negb (i =? zlen xs - 1))) i (m_lk m !! k0) (Hno k0)). congruence.
      * left. exists k0. split; [exact Hk0|]. intros k' Hk'. specialize (H1 k'). rewrite Hlk, Hk' in H1. destruct (decide (k' = k0)); [assumption|].
        cbn in H1. rewrite Z.eqb_refl in H1. discriminate.
    + intros G. exists m'. split; [exact E|]. intros k. rewrite Hlk. destruct (decide (k = k0)) as [->|Hne].
      * destruct Hk0 as [(Hno & Hd)| -> ]; [|cbn; rewrite Z.eqb_refl; reflexivity].
        destruct G as [(k & Hk2 & _)|(_ & d & Hd' & Hnd)]; [lia|exfalso; eapply Hno, Hk2|]. assert (d = k0) as -> by congruence. rewrite Hnd. reflexivity.
      * destruct (decide (m_lk m !! k = Some i)) as [Ek|Ek].
        -- exfalso. destruct Hk0 as [(Hno & _)|Hk0]; [eapply Hno, Ek|].
           destruct G as [(k1 & _ & Hu)|(Hno & _)]; [lia| |eapply Hno, Ek]. apply Hne. rewrite (Hu k Ek), (Hu k0 Hk0). reflexivity.
        -- apply (moved_dec _ i (m_lk m !! k) Ek).
Qed.

Lemma remove_key_iff stb m k0 i ord : mreach P kdef stb m -> m_lk m !! k0 = Some i -> i < st_size (m_st m) -> ord_ok (m_lk m) ord ->
  (rem_key_right m k0 i ord <-> key_guard m k0).
Proof.
  intros Hr Ek0 Hi Ho. destruct (mreach_ok P HP kdef stb m Hr) as ((xs & Hs) & Hn & Hb). pose proof (st_ok_size P _ _ Hs) as Hsz. rewrite Hsz in Hi.
  unfold rem_key_right. rewrite Hsz. rewrite erases_neg. pose proof (Hn _ _ Ek0).
  destruct (remove_any P HP kdef m xs k0 i ord Hs Ek0) as (m' & E & Hm & Hk & Hlk); [lia|exact Ho|]. split.
  - intros (m1 & E1 & H1). rewrite E in E1. injection E1 as <-. intros i' k' Ei Ek'. assert (i' = i) as -> by congruence.
    specialize (H1 k'). rewrite Hlk, Ek' in H1. destruct (decide (k' = k0)); [assumption|]. cbn in H1. rewrite Z.eqb_refl in H1. discriminate.
  - intros G. exists m'. split; [exact E|]. intros k. rewrite Hlk. destruct (decide (k = k0)) as [->|Hne]; [rewrite Ek0; cbn; rewrite Z.eqb_refl; reflexivity|].
    apply (moved_dec _ i (m_lk m !! k)). intros Ek. apply Hne, (G i k Ek0 Ek).
Qed.

Lemma remove_elems stb m i k ord m' r : mreach P kdef stb m -> mv_legal m (MRemoveIdx i ord) ->
  (mv_step P kdef m (MRemoveIdx i ord) = Ok (m', r) /\ i < st_size (m_st m)) \/
  (mv_step P kdef m (MRemove k ord) = Ok (m', r) /\ m_lk m !! k = Some i /\ i < st_size (m_st m)) ->
  exists xs, holds P (m_st m) xs /\ holds P (m_st m') (without stb i xs) /\ st_kept P (m_st m) (m_st m') /\
    (stb = true -> i <> zlen xs - 1 -> m_st m' = m_st m).
Proof.
  intros Hr [Hi Ho] Hs0. destruct (mreach_ok P HP kdef stb m Hr) as ((xs & Hs) & Hn & Hb). pose proof (st_ok_size P _ _ Hs) as Hsz. exists xs.
  split; [apply ok_holds; assumption|]. rewrite <- Hb at 1. rewrite without_erased. destruct Hs0 as [[E Hlt]|(E & Ek & Hlt)]; rewrite Hsz in Hlt.
  - destruct (remove_idx_any P HP kdef m xs i ord Hs) as [(_ & _ & E1)|(m1 & k0 & E1 & Hm & Hk & _)]; [lia|exact Ho|congruence|].
    rewrite E in E1. injection E1 as <- _. splits; [apply ok_holds; assumption|exact Hk|]. intros -> Hne.
    eapply stable_remove_same; [exact Hb|rewrite Hsz; exact Hne|exact E].
  - destruct (remove_any P HP kdef m xs k i ord Hs Ek) as (m1 & E1 & Hm & Hk & _); [lia|exact Ho|].
    rewrite E in E1. injection E1 as <- _. splits; [apply ok_holds; assumption|exact Hk|]. intros -> Hne.
    eapply stable_remove_key_same; [exact Hb|rewrite Ek, Hsz; congruence|exact E].
Qed.

(** Removal from stable storage is defined whenever the key type has a default value. *)
Lemma stable_erase_runs (s : store V) xs i : st_ok P s xs -> st_stable s = true -> 0 <= i -> exists s' b, st_erase P s i = Ok (s', b).
Proof.
  intros Hs Hb Hi. destruct (Z.lt_ge_cases i (zlen xs)) as [Hlt|Hge]; [destruct (st_erase_ok P HP s xs i Hs (conj Hi Hlt)) as (s' & E & _); eauto|].
  pose proof (st_ok_size P _ _ Hs) as Hsz. destruct s as [|h v]; [discriminate|]. cbn in *. destruct (Z.eqb_spec i (v_size v - 1)); [lia|eauto].
Qed.
Lemma stable_remove_runs dk m i ord : kdef = Some dk -> mreach P kdef true m -> 0 <= i -> ord_ok (m_lk m) ord -> exists m' r, mv_step P kdef m (MRemoveIdx i ord) = Ok (m', r).
Proof.
  intros Hk Hr Hi Ho. destruct (mreach_ok P HP kdef true m Hr) as ((xs & Hs) & Hn & Hb). cbn [mv_step]. unfold mv_remove_idx.
  destruct (st_size (m_st m) <=? i); [eauto|]. destruct (stable_erase_runs _ _ i Hs Hb Hi) as (s' & b & ->). cbn [obind].
  pose proof (mp_shift_ind b i ord (m_lk m) kdef Ho) as Hd. destruct (mp_shift b i ord (m_lk m) kdef) as [lk ind]. cbn [snd] in Hd.
  destruct Hd as [[_ ->]|(k0 & _ & ->)]; [rewrite Hk|]; eauto.
Qed.
Lemma stable_remove_key_runs m k ord : mreach P kdef true m -> exists m' r, mv_step P kdef m (MRemove k ord) = Ok (m', r).
Proof.
  intros Hr. destruct (mreach_ok P HP kdef true m Hr) as ((xs & Hs) & Hn & Hb). cbn [mv_step]. unfold mv_remove.
  destruct (m_lk m !! k) as [i|] eqn:Ek; [|eauto]. destruct (stable_erase_runs _ _ i Hs Hb (Hn _ _ Ek)) as (s' & b & ->). cbn [obind]. eauto.
Qed.

Lemma modify_final stb m f : mreach P kdef stb m -> st_room P (m_st m) ->
  exists xs m', holds P (m_st m) xs /\ mv_step P kdef m (MModify f) = Ok (m', MList xs) /\ holds P (m_st m') (map f xs) /\ m_lk m' = m_lk m /\
    st_kept P (m_st m) (m_st m') /\ mv_step P kdef m MApply = Ok (m, MList xs).
Proof.
  intros Hr Hf. destruct (mreach_ok P HP kdef stb m Hr) as ((xs & Hs) & Hn & Hb). exists xs.
  destruct (st_modify_ok P HP (m_st m) xs f Hs Hf) as (s1 & E1 & Hm & K1). exists (Mv s1 (m_lk m)).
  split; [apply ok_holds; assumption|]. cbn [mv_step]. unfold mv_modify, mv_apply. rewrite E1. cbn [obind].
  splits; [apply ok_holds; assumption|exact K1|].
  destruct (st_step_ok P HP (m_st m) xs VWalk Hs) as (s2 & r & E2 & Hq & _); [split; [exact I|discriminate]|exact Hf|].
  rewrite E2. cbn [obind]. inversion Hq; subst. reflexivity.
Qed.

(** A full table makes apply and modify undefined. *)
Lemma modify_full stb m f : mreach P kdef stb m -> (exists m' r, mv_step P kdef m (MModify f) = Ok (m', r)) -> st_room P (m_st m).
Proof.
  intros Hr (m' & r & E). destruct (mreach_ok P HP kdef stb m Hr) as ((xs & Hs) & Hn & Hb). cbn [mv_step] in E. unfold mv_modify in E.
  destruct (st_modify P (m_st m) f) as [[s' l]| |] eqn:E1; cbn [obind] in E; try discriminate. eapply modify_room; eassumption.
Qed.

(** Guarded histories *)
Definition mgood (stb : bool) m (a : assoc V K) : Prop :=
  exists ops tr, mv_safe P kdef (mv0 P stb) ops /\ mv_run P kdef (mv0 P stb) ops = Ok (m, tr) /\ a = (as_run stb assoc0 ops).1.

Lemma mv0_stable stb : st_stable (m_st (mv0 (V := V) (K := K) P stb)) = stb.
Proof. destruct stb; reflexivity. Qed.
Lemma mrel0 stb : mrel P (mv0 P stb) (assoc0 (V := V) (K := K)).
Proof. apply rel_empty; [exact HP|]. intros k. cbn. apply lookup_empty. Qed.

(** [n] insertions with fresh terms *)
Lemma many_inserts (f : nat -> K) (x : V) stb n : (forall i j, f i = f j -> i = j) ->
  exists (m : mv V K) xs, mreach P kdef stb m /\ st_ok P (m_st m) xs /\ zlen xs = Z.of_nat n /\ forall j, (n <= j)%nat -> m_lk m !! f j = None.
Proof.
  intros Hf. induction n as [|n (m & xs & Hr & Hs & Hl & Hn)].
  - exists (mv0 P stb), []. splits; [constructor|]. exact (r_st _ _ _ _ (mrel0 stb)).
  - destruct (insert_any P HP kdef m xs (f n) x Hs) as (m' & E & Hk & Hm). rewrite (Hn n ltac:(lia)) in E, Hm. destruct Hm as [Hm Hlk].
    exists m', (xs ++ [x]). splits; [|exact Hm|unfold zlen in *; rewrite app_length; cbn [length]; lia|].
    + econstructor; [exact Hr| | |exact E]; cbn; exact I.
    + intros j Hj. rewrite Hlk, lookup_insert_ne by (intros Ef; apply Hf in Ef; lia). apply Hn. lia.
Qed.


Lemma history_final stb ops : mv_safe P kdef (mv0 P stb) ops ->
  exists m, mv_run P kdef (mv0 P stb) ops = Ok (m, (as_run stb assoc0 ops).2) /\ holds P (m_st m) (as_vals (as_run stb assoc0 ops).1) /\
    mgood stb m (as_run stb assoc0 ops).1.
Proof.
  intros Hs. destruct (mv_run_ok P HP kdef ops (mv0 P stb) assoc0 (mrel0 stb) Hs) as (m & E & R & _). rewrite mv0_stable in *.
  exists m. splits; [exact E|apply ok_holds; [exact HP|apply R]|]. exists ops, (as_run stb assoc0 ops).2. splits; [exact Hs|exact E].
Qed.

Lemma mgood_rel stb m a : mgood stb m a -> mrel P m a /\ st_stable (m_st m) = stb.
Proof.
  intros (ops & tr & Hs & E & ->). destruct (mv_run_ok P HP kdef ops (mv0 P stb) assoc0 (mrel0 stb) Hs) as (m' & E' & R & Hb).
  rewrite mv0_stable in *. rewrite E in E'. injection E' as <- _. split; assumption.
Qed.

(** Every stored position is that of an element; the element is the one the term denotes *)
Lemma find_final stb m a k : mgood stb m a ->
  match m_lk m !! k with
  | Some i => 0 <= i < st_size (m_st m) /\ exists x, as_find k a = Some x /\ as_vals a !! Z.to_nat i = Some x /\
      ((stb = true -> i <= 2147483647) -> exists it, mv_find P m k = Ok it /\ st_deref P (m_st m) it = Ok x) /\
      mv_step P kdef m (MFindP k) = Ok (m, MVal (Some x))
  | None => as_find k a = None /\ mv_find P m k = st_end P (m_st m) /\ mv_step P kdef m (MFindP k) = Ok (m, MVal None)
  end.
Proof.
  intros Hg. destruct (mgood_rel _ _ _ Hg) as [R Hb]. destruct (m_lk m !! k) as [i|] eqn:Ek.
  - pose proof (rel_range P _ _ _ _ _ R Ek) as Hi. rewrite <- (st_ok_size P _ _ (r_st _ _ _ _ R)) in Hi. split; [exact Hi|].
    destruct (rel_find P _ _ _ _ _ R Ek) as (x & Hx & Hf). exists x. splits; try assumption.
    + intros Hle. unfold mv_find. rewrite Ek. apply (st_iter_read P HP _ (as_vals a)); [apply R|exact Hx|lia|rewrite Hb; exact Hle].
    + destruct (st_get_ok P HP (m_st m) (as_vals a) i x) as [s' E]; [apply R|lia|exact Hx|]. cbn [mv_step]. unfold mv_findp. rewrite Ek, E. reflexivity.
  - splits; [exact (rel_find_none P _ _ _ _ R Ek)|unfold mv_find; rewrite Ek; reflexivity|cbn; unfold mv_findp; rewrite Ek; reflexivity].
Qed.

(** *** Histories without aliases and without the default key *)
Definition plain_op (d : K) (o : mop V K) : Prop :=
  match o with MAlias _ _ => False | MInsert k _ | MAssign k _ => k <> d | _ => True end.
Fixpoint mv_legal_run m (ops : list (mop V K)) : Prop :=
  match ops with
  | [] => True
  | o :: ops' => mv_legal m o /\ forall m' r, mv_step P kdef m o = Ok (m', r) -> mv_legal_run m' ops'
  end.
Definition solo (d : K) (a : assoc V K) : Prop :=
  (forall k k' u, a_tm a !! k = Some u -> a_tm a !! k' = Some u -> k = k') /\ a_tm a !! d = None.

Lemma solo_step d stb a o : awf a -> solo d a -> plain_op d o -> solo d (as_exec stb a o).1.
Proof.
  intros Hw [S1 S2] Ho.
  assert (Hadd : forall k x, k <> d -> a_tm a !! k = None -> solo d (as_add x [k] a)).
  { intros k x Hk Hn. split; cbn.
    - intros k1 k2 u. destruct (decide (k1 = k)) as [->|N1]; destruct (decide (k2 = k)) as [->|N2]; rewrite ?lookup_insert, ?(lookup_insert_ne _ k) by congruence; try reflexivity.
      + intros [= <-] E. apply (aw_tm _ Hw), (aw_nx _ Hw) in E. lia.
      + intros E [= <-]. apply (aw_tm _ Hw), (aw_nx _ Hw) in E. lia.
      + apply S1.
    - rewrite lookup_insert_ne by congruence. exact S2. }
  assert (Hrem : forall u p, solo d (as_remove stb u p a)).
  { intros u p. split; cbn.
    - intros k1 k2 v E1 E2. apply map_filter_lookup_Some in E1 as [E1 _]. apply map_filter_lookup_Some in E2 as [E2 _]. eapply S1; eassumption.
    - apply map_filter_lookup_None. left. exact S2. }
  destruct o; cbn [as_exec plain_op fst] in *; try (split; assumption); try contradiction.
  - destruct (a_tm a !! k) eqn:Ek; [split; assumption|]. apply Hadd; assumption.
  - destruct (a_tm a !! k) eqn:Ek; [split; assumption|]. apply Hadd; assumption.
  - destruct (as_ids a !! Z.to_nat i); [apply Hrem|split; assumption].
  - destruct (a_tm a !! k); [|split; assumption]. destruct (as_pos n a); [apply Hrem|split; assumption].
  - split; cbn; [intros k k' u E; rewrite lookup_empty in E; discriminate|apply lookup_empty].
Qed.

Lemma solo_guard d m a o : kdef = Some d -> mrel P m a -> solo d a -> st_stable (m_st m) = false -> plain_op d o -> mv_guard P kdef m o.
Proof.
  intros Hd R [S1 S2] Hb Ho. assert (Hroom : st_room P (m_st m)) by (destruct (m_st m); [exact I|discriminate]).
  assert (Hu : forall k k' i, m_lk m !! k = Some i -> m_lk m !! k' = Some i -> k' = k).
  { intros k k' i E1 E2. apply (rel_lk _ _ _ _ _ _ R) in E1 as (u & p & E1 & F1 & ->). apply (rel_lk _ _ _ _ _ _ R) in E2 as (u' & p' & E2 & F2 & E).
    assert (p' = p) as -> by lia. assert (u' = u) as -> by congruence. eapply S1; eassumption. }
  destruct o; cbn [mv_guard]; try exact I; try exact Hroom.
  - split; [exact Hroom|]. congruence.
  - intros Hi. destruct (term_at_or_none (m_lk m) i) as [[k Hk]|Hno]; [left; exists k; split; [exact Hk|intros k' Hk'; eapply Hu; eassumption]|].
    right. split; [exact Hno|]. exists d. split; [exact Hd|]. apply (rel_lk_none _ _ _ _ _ R). exact S2.
  - intros i k' E1 E2. eapply Hu; eassumption.
Qed.

Lemma plain_safe d ops : kdef = Some d -> Forall (plain_op d) ops -> forall m a, mrel P m a -> solo d a -> st_stable (m_st m) = false ->
  mv_legal_run m ops -> mv_safe P kdef m ops.
Proof.
  intros Hd Hp. induction Hp as [|o ops Ho Hp IH]; intros m a R S Hb Hl; [exact I|]. destruct Hl as [Hl1 Hl2].
  pose proof (solo_guard d m a o Hd R S Hb Ho) as G. cbn. splits; [exact Hl1|exact G|]. intros m' r E.
  destruct (mv_step_ok P HP kdef m a o R Hl1 G) as (m1 & E1 & R1 & K1). rewrite E in E1. injection E1 as <- _.
  eapply IH; [exact R1| | |exact (Hl2 _ _ E)].
  - apply solo_step; [eapply rel_awf, R|exact S|exact Ho].
  - rewrite (st_kept_stable P _ _ K1). exact Hb.
Qed.

Lemma plain_final d ops : kdef = Some d -> Forall (plain_op d) ops -> mv_legal_run (mv0 P false) ops ->
  exists m, mv_run P kdef (mv0 P false) ops = Ok (m, (as_run false assoc0 ops).2) /\ holds P (m_st m) (as_vals (as_run false assoc0 ops).1) /\
    mgood false m (as_run false assoc0 ops).1.
Proof.
  intros Hd Hp Hl. apply history_final. eapply plain_safe; [exact Hd|exact Hp|apply mrel0| |reflexivity|exact Hl].
  split; [intros k k' u; cbn|cbn]; rewrite lookup_empty; [discriminate|reflexivity].
Qed.
End map.

Section dual.
Context {V : Type} `{Countable K1} `{Countable K2}.
Variable P : params.
Hypothesis HP : 0 <= expo P <= 30.
Variable cl : dcls.
Variable kd1 : option K1.
Variable kd2 : option K2.
Notation term := (K1 + K2)%type.
Notation assoc := (assoc V (K1 + K2)%type (EqDecision0 := sum_eq_dec) (H := sum_countable)).
Implicit Types (d : dv V K1 K2) (a : assoc).

Definition dgood (stb : bool) d a : Prop :=
  exists ops tr, dv_safe P cl kd1 kd2 (dv0 P stb) ops /\ dv_run P cl kd1 kd2 (dv0 P stb) ops = Ok (d, tr) /\ a = (as_drun cl stb assoc0 ops).1.

Lemma dv0_stable stb : st_stable (d_st (dv0 (V := V) (K1 := K1) (K2 := K2) P stb)) = stb.
Proof. destruct stb; reflexivity. Qed.

Lemma dhistory_final stb ops : dv_safe P cl kd1 kd2 (dv0 P stb) ops ->
  exists d, dv_run P cl kd1 kd2 (dv0 P stb) ops = Ok (d, (as_drun cl stb assoc0 ops).2) /\
    holds P (d_st d) (as_vals (as_drun cl stb assoc0 ops).1) /\ dgood stb d (as_drun cl stb assoc0 ops).1.
Proof.
  intros Hs. destruct (dv_run_ok P HP cl kd1 kd2 ops (dv0 P stb) assoc0 (drel0 P HP stb) Hs) as (d & E & R & _). rewrite dv0_stable in *.
  exists d. splits; [exact E|apply ok_holds; [exact HP|apply R]|]. exists ops, (as_drun cl stb assoc0 ops).2. splits; [exact Hs|exact E].
Qed.

Lemma dgood_rel stb d a : dgood stb d a -> drel P d a /\ st_stable (d_st d) = stb.
Proof.
  intros (ops & tr & Hs & E & ->). destruct (dv_run_ok P HP cl kd1 kd2 ops (dv0 P stb) assoc0 (drel0 P HP stb) Hs) as (d' & E' & R & Hb).
  rewrite dv0_stable in *. rewrite E in E'. injection E' as <- _. split; assumption.
Qed.

Lemma dgood_awf stb d a : dgood stb d a -> awf a.
Proof. intros Hg. eapply rel_awf. apply (dgood_rel _ _ _ Hg). Qed.

Lemma dgood_step stb d a o : dgood stb d a -> dv_legal cl d o -> dv_guard P cl kd1 kd2 d o ->
  exists d', dv_step P cl kd1 kd2 d o = Ok (d', (as_dexec cl stb a o).2) /\ drel P d' (as_dexec cl stb a o).1 /\ st_kept P (d_st d) (d_st d').
Proof. intros Hg Hl G. destruct (dgood_rel _ _ _ Hg) as [R <-]. apply dv_step_ok; assumption. Qed.

(** Terms and positions *)
Lemma dfind_final stb d a k : dgood stb d a ->
  match d_lk d k with
  | Some i => 0 <= i < st_size (d_st d) /\ exists x, as_find k a = Some x /\ as_vals a !! Z.to_nat i = Some x
  | None => as_find k a = None
  end.
Proof.
  intros Hg. destruct (dgood_rel _ _ _ Hg) as [R Hb]. destruct (d_lk d k) as [i|] eqn:Ek; [|exact (rel_find_none P _ _ _ _ R Ek)].
  pose proof (rel_range P _ _ _ _ _ R Ek) as Hi. rewrite <- (st_ok_size P _ _ (r_st _ _ _ _ R)) in Hi. split; [exact Hi|].
  destruct (rel_find P _ _ _ _ _ R Ek) as (x & Hx & Hf). eauto.
Qed.

Lemma dremove_stable_same d i o1 o2 d' r : st_stable (d_st d) = true -> i <> st_size (d_st d) - 1 ->
  dv_step P cl kd1 kd2 d (DRemoveIdx i o1 o2) = Ok (d', r) -> d_st d' = d_st d.
Proof.
  intros Hb Hi E. cbn [dv_step] in E. unfold dv_remove_idx in E. destruct (st_size (d_st d) <=? i); [injection E as <- _; reflexivity|].
  destruct (d_st d) as [ys|h v] eqn:Es; [discriminate|]. cbn [st_erase] in E. cbn in Hi. destruct (Z.eqb_spec i (v_size v - 1)); [contradiction|]. cbn [obind] in E.
  destruct cl.
  - destruct (dm_shift false i o1 (d_l1 d)), (dm_shift false i o2 (d_l2 d)). cbn [d_keys obind] in E. injection E as <- _. reflexivity.
  - destruct (dm_shift false i o1 (d_l1 d)) as [? ks1], (dm_shift false i o2 (d_l2 d)) as [? ks2]. cbn [d_keys] in E.
    destruct (sbv_read P ks1); cbn [obind] in E; try discriminate. destruct (sbv_read P ks2); cbn [obind] in E; try discriminate. injection E as <- _. reflexivity.
  - destruct (mp_shift false i o1 (d_l1 d) kd1) as [? [?|]], (mp_shift false i o2 (d_l2 d) kd2) as [? [?|]]; try discriminate. injection E as <- _. reflexivity.
Qed.
End dual.
