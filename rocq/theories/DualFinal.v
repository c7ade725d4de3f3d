(** What single calls do in every reachable state of the two-key mapped vectors. *)
From stdpp Require Import gmap.
From Verif Require Import Base BlkHeap BlkProofs BlkIter VecModel VecSpec VecProofs VecWorld VecFinal
  MapStore MapStoreProofs MapModel MapSpec MapRel MapProofs MapReach DualModel DualSpec DualProofs MapFinal DualReach.

Section dual.
Context {V : Type} `{Countable K1} `{Countable K2}.
Variable P : params.
Hypothesis HP : 0 <= expo P <= 30.
Variable cl : dcls.
Variable kd1 : option K1.
Variable kd2 : option K2.
Notation B := (bsz P).
Notation term := (K1 + K2)%type.
Implicit Types (d : dv V K1 K2).
Notation step := (dv_step P cl kd1 kd2).
Notation reach := (dreach P cl kd1 kd2).
Notation idx i := (MIdx (V := V) (Some i)).

(** find(k) denotes the element x.  For the iterator classes: the iterator returned reads x; with stable storage, as long
    as the position fits the iterator's int offset (C17, C26_find_refuted). *)
Definition dfinds d (k : term) (x : V) : Prop :=
  exists i, d_lk d k = Some i /\ (cl = CPtr -> step d (DFind k) = Ok (d, MVal (Some x))) /\
    (cl <> CPtr -> (st_stable (d_st d) = true -> i <= 2147483647) -> exists it, st_iter P (d_st d) i = Ok it /\ st_deref P (d_st d) it = Ok x).

Lemma finds_intro d xs k i x : st_ok P (d_st d) xs -> d_lk d k = Some i -> 0 <= i -> xs !! Z.to_nat i = Some x -> dfinds d k x.
Proof.
  intros Hs Ek Hi Hx. exists i. splits; [exact Ek| |].
  - intros Hc. destruct (st_get_ok P HP (d_st d) xs i x Hs Hi Hx) as [s' E]. cbn [dv_step]. unfold dv_find. rewrite Hc, Ek, E. reflexivity.
  - intros _ Hle. apply (st_iter_read P HP _ xs); assumption.
Qed.
Lemma finds_last d xs k x : st_ok P (d_st d) (xs ++ [x]) -> d_lk d k = Some (zlen xs) -> dfinds d k x.
Proof.
  intros Hs Ek. eapply finds_intro; [exact Hs|exact Ek|apply zlen_nonneg|]. unfold zlen. rewrite Nat2Z.id, lookup_app_r, Nat.sub_diag by lia. reflexivity.
Qed.
(** A term that is not stored is not found. *)
Lemma not_found d k : d_lk d k = None ->
  (cl = CPtr -> step d (DFind k) = Ok (d, MVal None)) /\ (cl <> CPtr -> forall last, st_end P (d_st d) = Ok last -> step d (DFind k) = Ok (d, MVal None)).
Proof.
  intros Ek. split.
  - intros Hc. cbn [dv_step]. unfold dv_find. rewrite Hc, Ek. reflexivity.
  - intros Hc last El. cbn [dv_step]. unfold dv_find. rewrite Ek, El. cbn [obind].
    assert (si_eq last last = true) as -> by (destruct last as [i|it]; cbn; [apply Z.eqb_refl|]; unfold it_eq; rewrite !Z.eqb_refl, bool_decide_eq_true_2 by reflexivity; reflexivity).
    destruct cl; [reflexivity|reflexivity|congruence].
Qed.

(** *** insert *)
Lemma dinsert_final stb d k1 k2 x : reach stb d -> exists xs, holds P (d_st d) xs /\
  (used d (inl k1) -> used d (inr k2) -> step d (DInsert k1 k2 x) = Ok (d, MIdx None)) /\
  (~ (used d (inl k1) /\ used d (inr k2)) -> exists d', step d (DInsert k1 k2 x) = Ok (d', idx (zlen xs)) /\ holds P (d_st d') (xs ++ [x]) /\ st_kept P (d_st d) (d_st d') /\
     (forall k, k <> inl k1 -> k <> inr k2 -> d_lk d' k = d_lk d k) /\
     (forall k, k = inl k1 \/ k = inr k2 -> d_lk d k = None \/ cl = CMap \/ (cl = CStr /\ k = inr k2) -> dfinds d' k x /\ d_lk d' k = Some (zlen xs)) /\
     (forall k, used d k -> cl = CPtr \/ (cl = CStr /\ k <> inr k2) -> d_lk d' k = d_lk d k)).
Proof.
  intros Hr. destruct (dreach_ok P HP cl kd1 kd2 stb d Hr) as ((xs & Hs) & Hb & Hg & _). exists xs. split; [apply ok_holds; assumption|].
  destruct (dinsert_any P HP cl kd1 kd2 d xs k1 k2 x Hs) as [(U1 & U2 & E)|(Hu & d' & E & Hs' & Kp & L)].
  - split; [intros _ _; exact E|]. intros F. exfalso. apply F. auto.
  - split; [intros U1 U2; exfalso; apply Hu; auto|]. intros _. exists d'. splits; [exact E|apply ok_holds; assumption|exact Kp| | |].
    + intros k N1 N2. rewrite L. unfold ins_lk. destruct cl, k; rewrite decide_False by tauto; reflexivity.
    + intros k Hk Hn. assert (Ek : d_lk d' k = Some (zlen xs)).
      { rewrite L. unfold ins_lk. destruct Hk as [->| ->]; destruct cl; rewrite decide_True by tauto; try reflexivity;
          (destruct Hn as [->|[Hc|[Hc ?]]]; [reflexivity|congruence|congruence]). }
      split; [eapply finds_last; eassumption|exact Ek].
    + intros k Hk Hc. rewrite L. unfold ins_lk. unfold used in Hk. destruct Hc as [Hc|[Hc Hne]].
      * rewrite Hc. destruct k; destruct (decide _); try reflexivity; destruct (d_lk d _); congruence.
      * rewrite Hc. destruct k as [k|k]; destruct (decide _) as [D|D]; try reflexivity; [destruct (d_lk d _); congruence|destruct D; congruence].
Qed.

Lemma dinsert_one_final stb d k x : reach stb d ->
  let o := match k with inl k1 => DInsert1 k1 x | inr k2 => DInsert2 k2 x end in
  exists xs, holds P (d_st d) xs /\
  (used d k -> step d o = Ok (d, MIdx None)) /\
  (d_lk d k = None -> exists d', step d o = Ok (d', idx (zlen xs)) /\ holds P (d_st d') (xs ++ [x]) /\ st_kept P (d_st d) (d_st d') /\
     (forall k', k' <> k -> d_lk d' k' = d_lk d k') /\ dfinds d' k x).
Proof.
  intros Hr o. destruct (dreach_ok P HP cl kd1 kd2 stb d Hr) as ((xs & Hs) & Hb & Hg & _). exists xs. split; [apply ok_holds; assumption|].
  assert (step d o = dv_insert_one P d k x) as -> by (subst o; destruct k; reflexivity).
  destruct (dinsert_one_any P HP d xs k x Hs) as [(U & E)|(U & d' & E & Hs' & Kp & L)].
  - split; [intros _; exact E|]. intros F. exfalso. apply U, F.
  - split; [intros F; exfalso; apply F, U|]. intros _. exists d'. splits; [exact E|apply ok_holds; assumption|exact Kp| |].
    + intros k' Hne. rewrite L, decide_False by assumption. reflexivity.
    + eapply finds_last; [exact Hs'|]. rewrite L, decide_True by reflexivity. reflexivity.
Qed.

Lemma dinsert0_final stb d x : reach stb d ->
  exists xs d', holds P (d_st d) xs /\ step d (DInsert0 x) = Ok (d', idx (zlen xs)) /\ holds P (d_st d') (xs ++ [x]) /\ st_kept P (d_st d) (d_st d') /\
    forall k, d_lk d' k = d_lk d k.
Proof.
  intros Hr. destruct (dreach_ok P HP cl kd1 kd2 stb d Hr) as ((xs & Hs) & Hb & Hg & _).
  destruct (dinsert0_any P HP cl kd1 kd2 d xs x Hs) as (d' & E & Hs' & Kp & L). exists xs, d'. splits; try apply ok_holds; assumption.
Qed.

(** *** insert_or_assign: [p] is the position of the element replaced, or of the new one *)
Lemma dassign_final stb d k1 k2 x : reach stb d ->
  exists xs d' p, holds P (d_st d) xs /\ step d (DAssign k1 k2 x) = Ok (d', idx p) /\ st_kept P (d_st d) (d_st d') /\
    match asg_at cl d k1 k2 with
    | Some i => p = i /\ 0 <= i < zlen xs /\ holds P (d_st d') (<[Z.to_nat p := x]> xs)
    | None => p = zlen xs /\ holds P (d_st d') (xs ++ [x])
    end /\
    dfinds d' (inl k1) x /\ dfinds d' (inr k2) x /\ (forall k, k <> inl k1 -> k <> inr k2 -> d_lk d' k = d_lk d k).
Proof.
  intros Hr. destruct (dreach_ok P HP cl kd1 kd2 stb d Hr) as ((xs & Hs) & Hb & Hg & _). exists xs.
  assert (Hn : dnonneg d) by (intros k i F; apply Hg in F; lia).
  destruct (dassign_any P HP cl kd1 kd2 d xs k1 k2 x Hs Hn) as (d' & E & Hs' & Kp & L); [intros i F; apply (Hg (inl k1) i F)|].
  assert (Ha : forall i, asg_at cl d k1 k2 = Some i -> 0 <= i < zlen xs).
  { intros i F. rewrite <- (st_ok_size P _ _ Hs). unfold asg_at in F. apply (Hg (inl k1)). cbn. destruct cl; try exact F.
    destruct (d_l1 d !! k1); [|discriminate]. destruct (d_l2 d !! k2); [|discriminate]. destruct (_ =? _); congruence. }
  eexists d', _. split; [apply ok_holds; assumption|]. split; [exact E|]. split; [exact Kp|].
  assert (L1 := L (inl k1)). rewrite decide_True in L1 by auto. assert (L2 := L (inr k2)). rewrite decide_True in L2 by auto.
  assert (L3 : forall k, k <> inl k1 -> k <> inr k2 -> d_lk d' k = d_lk d k) by (intros k N1 N2; rewrite L, decide_False by tauto; reflexivity).
  destruct (asg_at cl d k1 k2) as [i|].
  - specialize (Ha i eq_refl). assert (Hx : <[Z.to_nat i := x]> xs !! Z.to_nat i = Some x) by (apply list_lookup_insert; unfold zlen in *; lia).
    splits; [apply Ha|apply Ha|apply ok_holds; assumption| | |exact L3]; (eapply finds_intro; [exact Hs'|eassumption|lia|exact Hx]).
  - splits; [apply ok_holds; assumption| | |exact L3]; eapply finds_last; eassumption.
Qed.

Lemma dassign_one_final stb d k x : reach stb d ->
  let o := match k with inl k1 => DAssign1 k1 x | inr k2 => DAssign2 k2 x end in
  exists xs d' p, holds P (d_st d) xs /\ step d o = Ok (d', idx p) /\ st_kept P (d_st d) (d_st d') /\
    match d_lk d k with
    | Some i => p = i /\ 0 <= i < zlen xs /\ holds P (d_st d') (<[Z.to_nat p := x]> xs)
    | None => p = zlen xs /\ holds P (d_st d') (xs ++ [x])
    end /\
    dfinds d' k x /\ (forall k', k' <> k -> d_lk d' k' = d_lk d k').
Proof.
  intros Hr o. destruct (dreach_ok P HP cl kd1 kd2 stb d Hr) as ((xs & Hs) & Hb & Hg & _). exists xs.
  assert (step d o = dv_assign_one P d k x) as -> by (subst o; destruct k; reflexivity).
  assert (Hn : dnonneg d) by (intros k' i F; apply Hg in F; lia).
  destruct (dassign_one_any P HP d xs k x Hs Hn) as (d' & E & Hs' & Kp & L); [intros i F; apply (Hg _ i F)|].
  eexists d', _. split; [apply ok_holds; assumption|]. split; [exact E|]. split; [exact Kp|].
  assert (L1 := L k). rewrite decide_True in L1 by auto.
  assert (L3 : forall k', k' <> k -> d_lk d' k' = d_lk d k') by (intros k' N1; rewrite L, decide_False by tauto; reflexivity).
  pose proof (Hg k) as Ha. rewrite (st_ok_size P _ _ Hs) in Ha. destruct (d_lk d k) as [i|].
  - specialize (Ha i eq_refl). assert (Hx : <[Z.to_nat i := x]> xs !! Z.to_nat i = Some x) by (apply list_lookup_insert; unfold zlen in *; lia).
    splits; [apply Ha|apply Ha|apply ok_holds; assumption| |exact L3]; (eapply finds_intro; [exact Hs'|eassumption|lia|exact Hx]).
  - splits; [apply ok_holds; assumption| |exact L3]; eapply finds_last; eassumption.
Qed.

(** *** addSearchTerm and addSearchTermForIndex *)
Lemma dterm_final d k old : exists d' b, step d (DTerm k old) = Ok (d', MBool b) /\ d_st d' = d_st d /\
  (b = true <-> d_lk d k = None /\ used d old) /\ (b = true -> d_lk d' k = d_lk d old) /\ forall k', (b = false \/ k' <> k) -> d_lk d' k' = d_lk d k'.
Proof.
  cbn [dv_step]. unfold dv_term, used. destruct (d_lk d old) as [i|] eqn:Eo.
  - destruct (dterm_any d k i) as (d' & -> & Hst & L). exists d', (match d_lk d k with Some _ => false | None => true end).
    splits; [exact Hst| | |].
    + destruct (d_lk d k); split; intros F; try congruence; [destruct F; congruence|split; congruence].
    + intros F. rewrite L, decide_True by reflexivity. destruct (d_lk d k); congruence.
    + intros k' F. rewrite L. destruct (decide (k' = k)) as [->|]; [|reflexivity]. destruct (d_lk d k); [reflexivity|destruct F; congruence].
  - exists d, false. splits; try (intros; congruence). split; [congruence|]. intros [_ F]. congruence.
Qed.
Lemma dterm_idx_final d k i : exists d' b, step d (DTermIdx k i) = Ok (d', MBool b) /\ d_st d' = d_st d /\
  (b = true <-> d_lk d k = None /\ i < st_size (d_st d)) /\ (b = true -> d_lk d' k = Some i) /\ forall k', (b = false \/ k' <> k) -> d_lk d' k' = d_lk d k'.
Proof.
  cbn [dv_step]. unfold dv_term_idx. destruct (Z.ltb_spec i (st_size (d_st d))).
  - destruct (dterm_any d k i) as (d' & -> & Hst & L). exists d', (match d_lk d k with Some _ => false | None => true end).
    splits; [exact Hst| | |].
    + destruct (d_lk d k); split; intros F; try congruence; [destruct F; congruence|split; congruence].
    + intros F. rewrite L, decide_True by reflexivity. destruct (d_lk d k); congruence.
    + intros k' F. rewrite L. destruct (decide (k' = k)) as [->|]; [|reflexivity]. destruct (d_lk d k); [reflexivity|destruct F; congruence].
  - exists d, false. splits; try (intros; congruence). split; [congruence|]. intros [_ F]. lia.
Qed.

(** *** removal *)
Lemma dremove_same d o1 o2 k : d_lk d k = None -> step d (DRemove k o1 o2) = Ok (d, MUnit).
Proof. intros E. cbn [dv_step]. unfold dv_remove. rewrite E. reflexivity. Qed.
Lemma dremove_idx_same d o1 o2 i : st_size (d_st d) <= i -> step d (DRemoveIdx i o1 o2) = Ok (d, MUnit).
Proof. intros E. cbn [dv_step]. unfold dv_remove_idx. destruct (Z.leb_spec (st_size (d_st d)) i); [reflexivity|lia]. Qed.
Lemma dremove_by_key d o1 o2 k i : cl <> CPtr -> d_lk d k = Some i -> step d (DRemove k o1 o2) = step d (DRemoveIdx i o1 o2).
Proof. intros Hc E. cbn [dv_step]. unfold dv_remove. rewrite E. destruct cl; [reflexivity|reflexivity|congruence]. Qed.

Lemma drem_final stb d i o1 o2 : cl <> CPtr -> reach stb d -> 0 <= i < st_size (d_st d) -> ord_ok (d_l1 d) o1 -> ord_ok (d_l2 d) o2 ->
  (step d (DRemoveIdx i o1 o2) = UB /\ cl = CStr /\ (64 * B <= terms_at (d_l1 d) i \/ 64 * B <= terms_at (d_l2 d) i)) \/
  exists xs d', holds P (d_st d) xs /\ step d (DRemoveIdx i o1 o2) = Ok (d', MUnit) /\ holds P (d_st d') (without stb i xs) /\ st_kept P (d_st d) (d_st d') /\
    (stb = true -> i <> zlen xs - 1 -> d_st d' = d_st d) /\
    forall k, d_lk d' k = moved (erases stb (zlen xs) i) i (d_lk d k).
Proof.
  intros Hc Hr Hi Ho1 Ho2. destruct (dreach_ok P HP cl kd1 kd2 stb d Hr) as ((xs & Hs) & Hb & Hg & _).
  pose proof (st_ok_size P _ _ Hs) as Hsz. rewrite Hsz in Hi.
  destruct (drem_any P HP cl kd1 kd2 d xs i o1 o2 Hc Hs Hi Ho1 Ho2) as [F|(d' & E & Hs' & Kp & L)]; [left; exact F|right].
  exists xs, d'. rewrite Hb in *. splits; [apply ok_holds; assumption|exact E|apply ok_holds; assumption|exact Kp| |exact L].
  intros -> Hne. eapply dremove_stable_same; [exact Hb|rewrite Hsz; exact Hne|exact E].
Qed.

(** The pointer class: an element has at most one key of each kind; a missing key must not make the default key's entry go. *)
Definition has {K} `{Countable K} (kd : option K) (lk : gmap K Z) (i : Z) : Prop :=
  (exists k, lk !! k = Some i) \/ (exists dk, kd = Some dk /\ lk !! dk = None).
Lemma has_one {K} `{Countable K} (kd : option K) (lk : gmap K Z) i : inj lk -> (one_or_default kd lk i <-> has kd lk i).
Proof.
  intros Hi. split.
  - intros [(k & E & _)|(_ & D)]; [left; eauto|right; exact D].
  - intros [(k & E)|D]; [left; exists k; split; [exact E|]; intros k' E'; eapply Hi; eassumption|].
    destruct (term_at_or_none lk i) as [(k & E)|N]; [left; exists k; split; [exact E|]; intros k' E'; eapply Hi; eassumption|right; auto].
Qed.

Lemma drem_ptr_final stb d i o1 o2 : cl = CPtr -> reach stb d -> 0 <= i < st_size (d_st d) -> ord_ok (d_l1 d) o1 -> ord_ok (d_l2 d) o2 ->
  (drem_right P cl kd1 kd2 d (DRemoveIdx i o1 o2) i <-> has kd1 (d_l1 d) i /\ has kd2 (d_l2 d) i).
Proof.
  intros Hc Hr Hi Ho1 Ho2. destruct (dreach_ok P HP cl kd1 kd2 stb d Hr) as ((xs & Hs) & Hb & Hg & Hp). destruct (Hp Hc) as [I1 I2].
  rewrite (st_ok_size P _ _ Hs) in Hi. rewrite (drem_ptr_iff P HP cl kd1 kd2 d xs i o1 o2 Hc Hs Hi Ho1 Ho2), !has_one by assumption. reflexivity.
Qed.
Lemma drem_ptr_key_final stb d k i o1 o2 : cl = CPtr -> stb = false -> reach stb d -> d_lk d k = Some i -> ord_ok (d_l1 d) o1 -> ord_ok (d_l2 d) o2 ->
  (drem_right P cl kd1 kd2 d (DRemove k o1 o2) i <-> match k with inl _ => has kd2 (d_l2 d) i | inr _ => has kd1 (d_l1 d) i end).
Proof.
  intros Hc Hb' Hr Ek Ho1 Ho2. destruct (dreach_ok P HP cl kd1 kd2 stb d Hr) as ((xs & Hs) & Hb & Hg & Hp). destruct (Hp Hc) as [I1 I2].
  pose proof (Hg _ _ Ek) as Hi. rewrite (st_ok_size P _ _ Hs) in Hi. rewrite Hb' in Hb.
  rewrite (drem_ptr_key_iff P HP cl kd1 kd2 d xs k i o1 o2 Hc Hb Hs Ek Hi Ho1 Ho2). unfold dkey_guard. rewrite Hc, Ek. destruct k as [k|k]; cbn in Ek; split.
  - intros G. apply has_one; [assumption|]. apply (G i eq_refl).
  - intros G i' [= <-]. split; [intros k' E'; eapply I1; eassumption|apply has_one; assumption].
  - intros G. apply has_one; [assumption|]. apply (G i eq_refl).
  - intros G i' [= <-]. split; [intros k' E'; eapply I2; eassumption|apply has_one; assumption].
Qed.
(** Whatever is left is right, also when the default key's entry is lost. *)
Lemma drem_ptr_sound stb d i o o1 o2 d' r : cl = CPtr -> stb = false -> reach stb d -> 0 <= i < st_size (d_st d) -> ord_ok (d_l1 d) o1 -> ord_ok (d_l2 d) o2 ->
  o = DRemoveIdx i o1 o2 \/ (exists k, o = DRemove k o1 o2 /\ d_lk d k = Some i) -> step d o = Ok (d', r) ->
  exists xs, holds P (d_st d) xs /\ holds P (d_st d') (delete (Z.to_nat i) xs) /\ forall k j, d_lk d' k = Some j -> moved true i (d_lk d k) = Some j.
Proof.
  intros Hc Hb' Hr Hi Ho1 Ho2 Ho E. destruct (dreach_ok P HP cl kd1 kd2 stb d Hr) as ((xs & Hs) & Hb & Hg & Hp). destruct (Hp Hc) as [I1 I2].
  assert (Hn : dnonneg d) by (intros k' j F; apply Hg in F; lia). pose proof (st_ok_size P _ _ Hs) as Hsz. rewrite Hb' in Hb. rewrite Hsz in Hi.
  exists xs. split; [apply ok_holds; assumption|]. destruct Ho as [->|(k & -> & Ek)].
  - destruct (drem_ptr_els P HP cl kd1 kd2 d xs i o1 o2 d' r Hc Hs (proj1 Hi) Hn Ho1 Ho2 E) as ([[_ Hs']|[F _]] & _); [|lia].
    unfold without in Hs'. rewrite Hb in Hs'. split; [apply ok_holds; [exact HP|exact Hs']|].
    cbn [dv_step] in E. unfold dv_remove_idx in E. rewrite Hsz, Hc in E. destruct (Z.leb_spec (zlen xs) i); [lia|]. 
    destruct (st_erase_ok P HP _ _ i Hs Hi) as (s1 & E1 & _). rewrite E1, Hb in E. cbn [obind andb negb] in E.
    pose proof (shift_sub (d_l1 d) i o1 kd1) as T1. pose proof (shift_sub (d_l2 d) i o2 kd2) as T2.
    destruct (mp_shift true i o1 (d_l1 d) kd1) as [l1 i1]. destruct (mp_shift true i o2 (d_l2 d) kd2) as [l2 i2]. cbn [fst snd] in *.
    destruct i1 as [k1|]; [|discriminate]. destruct i2 as [k2|]; [|discriminate]. injection E as <- _.
    intros [k|k] j; [apply (T1 k1)|apply (T2 k2)]; auto.
  - destruct (drem_ptr_key_els P HP cl kd1 kd2 d xs k o1 o2 d' r Hc Hb Hs Hn Ho1 Ho2 E) as (Hs' & _). rewrite Ek in Hs'. destruct Hs' as [_ Hs'].
    split; [apply ok_holds; [exact HP|exact Hs']|]. cbn [dv_step] in E. unfold dv_remove in E. rewrite Ek, Hc in E.
    destruct (st_erase_ok P HP _ _ i Hs Hi) as (s1 & E1 & _). rewrite E1 in E. cbn [obind] in E. destruct k as [k1|k2]; cbn in Ek.
    + pose proof (shift_sub (d_l2 d) i o2 kd2) as T2. destruct (mp_shift true i o2 (d_l2 d) kd2) as [l2 i2]. cbn [fst snd] in *.
      destruct i2 as [k2|]; [|discriminate]. injection E as <- _. intros [k|k] j; [apply dec_sub|apply (T2 k2)]; auto.
    + pose proof (shift_sub (d_l1 d) i o1 kd1) as T1. destruct (mp_shift true i o1 (d_l1 d) kd1) as [l1 i1]. cbn [fst snd] in *.
      destruct i1 as [k1|]; [|discriminate]. injection E as <- _. intros [k|k] j; [apply (T1 k1)|apply dec_sub]; auto.
Qed.

(** *** modify, transform, apply *)
Lemma dmodify_final stb d f : reach stb d -> st_room P (d_st d) ->
  exists xs d', holds P (d_st d) xs /\ step d (DModify f) = Ok (d', MList xs) /\ holds P (d_st d') (map f xs) /\ (forall k, d_lk d' k = d_lk d k) /\
    st_kept P (d_st d) (d_st d') /\ step d DApply = Ok (d, MList xs).
Proof.
  intros Hr Hf. destruct (dreach_ok P HP cl kd1 kd2 stb d Hr) as ((xs & Hs) & Hb & _). exists xs.
  destruct (st_modify_ok P HP (d_st d) xs f Hs Hf) as (s1 & E1 & Hm & Kp). exists (Dv s1 (d_l1 d) (d_l2 d)).
  split; [apply ok_holds; assumption|]. cbn [dv_step]. unfold dv_modify, dv_apply. rewrite E1. cbn [obind].
  splits; [apply ok_holds; assumption|exact Kp|].
  destruct (st_step_ok P HP (d_st d) xs VWalk Hs) as (s2 & r & E2 & Hq & _); [split; [exact I|discriminate]|exact Hf|].
  rewrite E2. cbn [obind]. inversion Hq; subst. reflexivity.
Qed.
Lemma dmodify_full stb d f : reach stb d -> (exists d' r, step d (DModify f) = Ok (d', r)) -> st_room P (d_st d).
Proof.
  intros Hr (d' & r & E). destruct (dreach_ok P HP cl kd1 kd2 stb d Hr) as ((xs & Hs) & _). cbn [dv_step] in E. unfold dv_modify in E.
  destruct (st_modify P (d_st d) f) as [[s' l]| |] eqn:E1; cbn [obind] in E; try discriminate. eapply modify_room; eassumption.
Qed.
Lemma unstable_room (s : store V) : st_stable s = false -> st_room P s.
Proof. destruct s; [intros _; exact I|discriminate]. Qed.

(** *** find, in every reachable state *)
Lemma dfind_reach stb d k : reach stb d -> exists xs, holds P (d_st d) xs /\
  match d_lk d k with
  | Some i => 0 <= i < zlen xs /\ exists x, xs !! Z.to_nat i = Some x /\ dfinds d k x
  | None => (cl = CPtr -> step d (DFind k) = Ok (d, MVal None)) /\ (cl <> CPtr -> forall last, st_end P (d_st d) = Ok last -> step d (DFind k) = Ok (d, MVal None))
  end.
Proof.
  intros Hr. destruct (dreach_ok P HP cl kd1 kd2 stb d Hr) as ((xs & Hs) & Hb & Hg & _). exists xs. split; [apply ok_holds; assumption|].
  pose proof (Hg k) as Hk. rewrite (st_ok_size P _ _ Hs) in Hk. destruct (d_lk d k) as [i|] eqn:Ek; [|apply not_found; exact Ek].
  specialize (Hk i eq_refl). split; [exact Hk|]. destruct (lookup_lt_is_Some_2 xs (Z.to_nat i)) as [x Hx]; [unfold zlen in *; lia|]. exists x. split; [exact Hx|].
  eapply finds_intro; [exact Hs|exact Ek|lia|exact Hx].
Qed.

(** Legal histories that run: reachable states *)
Fixpoint dv_legal_run d (ops : list (dop V K1 K2)) : Prop :=
  match ops with
  | [] => True
  | o :: ops' => dv_legal cl d o /\ forall d' r, step d o = Ok (d', r) -> dv_legal_run d' ops'
  end.
Lemma run_reach stb ops : forall d d' tr, reach stb d -> dv_legal_run d ops -> dv_run P cl kd1 kd2 d ops = Ok (d', tr) -> reach stb d'.
Proof.
  induction ops as [|o ops IH]; intros d d' tr Hr Hl E; cbn [dv_run dv_legal_run] in *; [congruence|]. destruct Hl as [Hl1 Hl2].
  apply obind_ok in E as ([d1 r] & E1 & E). apply obind_ok in E as ([d2 tr2] & E2 & E). injection E as <- _.
  eapply IH; [|apply (Hl2 _ _ E1)|exact E2]. econstructor; eassumption.
Qed.
End dual.
