(** The mapped vectors when a call is left by an exception.

    Simplifications: std::vector, std::map and std::unordered_map give the strong guarantee the standard demands of
    emplace_back, emplace and operator[] (elements whose move constructor throws and that cannot be copied, and throwing
    hash functions, are excluded); the assignment of an element or pointer already constructed does not throw. *)
From stdpp Require Import gmap.
From Verif Require Import Base BlkHeap BlkProofs BlkMore BlkRun BlkIter BlkIterProofs VecModel VecSpec VecProofs VecWorld VecFinal VecThrow
  MapStore MapStoreProofs MapModel MapSpec MapRel MapProofs DualModel DualSpec DualProofs.

(** ** Model *)

(** What throws while an element is appended: its constructor (PElem), or a request for memory (PMem; in the block vector
    for a table if [first], for a block otherwise). *)
Inductive pfault := PElem | PMem (first : bool).
(** Where the call is left: looking the key up, appending the element, or entering the key number [n] (0: the first one the
    call enters). *)
Inductive fault := FFind | FPush (f : pfault) | FKey (n : nat).

Section model.
Context {V : Type}.
Variable P : params.

(** dataStorage.emplace_back left by an exception.  [None]: there is no such exception. *)
Definition st_push_fail (s : store V) (f : pfault) : option (outcome (store V)) :=
  match s with
  | SVec xs => Some (Ok (SVec xs))
  | SBlk h v =>
      match f with
      | PElem => Some ('(h1, v1) <-! vec_push_throw P h v ;; Ok (SBlk h1 v1))
      | PMem first => (fun r => '(h1, v1) <-! r ;; Ok (SBlk h1 v1)) <$> vec_push_nomem P h v first
      end
  end.

Section one.
Context `{Countable K}.

Definition mv_push_fail (m : mv V K) f : option (outcome (mv V K)) :=
  (fun r => s <-! r ;; Ok (Mv s (m_lk m))) <$> st_push_fail (m_st m) f.
(** The element is there, the key is not. *)
Definition mv_key_fail (m : mv V K) x : outcome (mv V K) :=
  '(s, _) <-! st_step P (m_st m) (VPush x) ;; Ok (Mv s (m_lk m)).

(** [None]: the call does not get to the point where that can happen.
    - insert: MV:42-51, MPV:36-57, SMV:41-50; insert without a key: MV:59-62, MPV:64-67, SMV:58-61
    - insert_or_assign: MV:74-83, MPV:74-98, SMV:73-83
    - addSearchTermForIndex: MV:124-128, MPV:125-129 *)
Definition mv_fail (m : mv V K) (o : mop V K) (f : fault) : option (outcome (mv V K)) :=
  match o, f with
  | MInsert _ _, FFind | MAssign _ _, FFind | MFind _, FFind | MFindP _, FFind | MRemove _ _, FFind => Some (Ok m)
  | MInsert k x, FPush p => match m_lk m !! k with Some _ => None | None => mv_push_fail m p end
  | MInsert k x, FKey 0 => match m_lk m !! k with Some _ => None | None => Some (mv_key_fail m x) end
  | MInsertNo x, FPush p => mv_push_fail m p
  | MAssign k x, FPush p => match m_lk m !! k with Some _ => Some (Ok m) | None => mv_push_fail m p end
  | MAssign k x, FKey 0 => match m_lk m !! k with Some _ => None | None => Some (mv_key_fail m x) end
  | MAlias k i, FKey 0 => if i <? st_size (m_st m) then Some (Ok m) else None
  | _, _ => None
  end.
End one.

Section two.
Context `{Countable K1} `{Countable K2}.
Variable cl : dcls.
Notation dv := (dv V K1 K2).
Implicit Types d : dv.

Definition dv_push_fail d f : option (outcome dv) :=
  (fun r => s <-! r ;; Ok (Dv s (d_l1 d) (d_l2 d))) <$> st_push_fail (d_st d) f.
(** No key, or only the first, is entered; [emp]: with emplace rather than operator[]. *)
Definition dv_key_fail d (emp : bool) k1 x (n : nat) : option (outcome dv) :=
  match n with
  | 0%nat => Some ('(d1, _) <-! d_push P d x ;; Ok d1)
  | 1%nat => Some ('(d1, index) <-! d_push P d x ;;
               Ok (Dv (d_st d1) (if emp then mp_emplace k1 index (d_l1 d1) else <[k1 := index]> (d_l1 d1)) (d_l2 d1)))
  | _ => None
  end.
Definition dv_key_fail1 d x (n : nat) : option (outcome dv) :=
  match n with 0%nat => Some ('(d1, _) <-! d_push P d x ;; Ok d1) | _ => None end.

Definition dv_insert_fail d k1 k2 x (f : fault) : option (outcome dv) :=
  match f with
  | FFind => Some (Ok d)
  | _ =>
      if negb (d_new d (inl k1)) && negb (d_new d (inr k2)) then None
      else match f with
           | FPush p => dv_push_fail d p
           | FKey n => dv_key_fail d (match cl with CMap => false | _ => true end) k1 x n
           | FFind => None
           end
  end.
Definition dv_insert_one_fail d (k : K1 + K2) x (f : fault) : option (outcome dv) :=
  match f with
  | FFind => Some (Ok d)
  | FPush p => if negb (d_new d k) then None else dv_push_fail d p
  | FKey n => if negb (d_new d k) then None else dv_key_fail1 d x n
  end.
Definition dv_assign_fail d k1 k2 x (f : fault) : option (outcome dv) :=
  match f with
  | FFind => Some (Ok d)
  | FPush p =>
      match cl with
      | CPtr =>
          match d_l1 d !! k1, d_l2 d !! k2 with
          | Some i, Some j => if j =? i then Some (Ok d) else dv_push_fail d p
          | _, _ => dv_push_fail d p
          end
      | _ => match d_l1 d !! k1 with Some _ => Some (Ok d) | None => dv_push_fail d p end
      end
  | FKey n =>
      match cl with
      | CPtr =>
          match d_l1 d !! k1, d_l2 d !! k2 with
          | Some i, Some j => if j =? i then None else dv_key_fail d false k1 x n
          | _, _ => dv_key_fail d false k1 x n
          end
      | _ =>
          match d_l1 d !! k1 with
          | Some i =>
              match n with
              | 0%nat => Some ('(s, _) <-! st_step P (d_st d) (VSet i x) ;; Ok (Dv s (d_l1 d) (d_l2 d)))
              | _ => None
              end
          | None => dv_key_fail d (match cl with CStr => true | _ => false end) k1 x n
          end
      end
  end.
Definition dv_assign_one_fail d (k : K1 + K2) x (f : fault) : option (outcome dv) :=
  match f with
  | FFind => Some (Ok d)
  | FPush p => match d_lk d k with Some _ => Some (Ok d) | None => dv_push_fail d p end
  | FKey n => match d_lk d k with Some _ => None | None => dv_key_fail1 d x n end
  end.

(** - insert: DMV:53-123, DSMV:53-125, DMPV:52-120
    - insert_or_assign: DMV:137-190, DSMV:139-194, DMPV:130-209
    - addSearchTermForIndex, addSearchTerm: DMV:194-263, DSMV:198-270 *)
Definition dv_fail d (o : dop V K1 K2) (f : fault) : option (outcome dv) :=
  match o with
  | DInsert k1 k2 x => dv_insert_fail d k1 k2 x f
  | DInsert1 k1 x => dv_insert_one_fail d (inl k1) x f
  | DInsert2 k2 x => dv_insert_one_fail d (inr k2) x f
  | DInsert0 x => match f with FPush p => dv_push_fail d p | _ => None end
  | DAssign k1 k2 x => dv_assign_fail d k1 k2 x f
  | DAssign1 k1 x => dv_assign_one_fail d (inl k1) x f
  | DAssign2 k2 x => dv_assign_one_fail d (inr k2) x f
  | DTermIdx _ _ | DTerm _ _ => match f with FKey 0 => Some (Ok d) | FFind => Some (Ok d) | _ => None end
  | DFind _ | DRemove _ _ _ => match f with FFind => Some (Ok d) | _ => None end
  | _ => None
  end.
End two.
End model.

(** ** What is left behind, in terms of the specification *)
Section spec.
Context {V : Type}.

(** One key: nothing has happened, or the element was added without its key. *)
Definition as_fail `{Countable K} (a : assoc V K) (o : mop V K) (f : fault) : assoc V K :=
  match o, f with
  | MInsert _ x, FKey _ | MAssign _ x, FKey _ => as_add x [] a
  | _, _ => a
  end.

(** Two keys: nothing has happened, or the element was added without its keys or with the first only, or the existing
    element was given the new value but not the second key. *)
Definition as_dfail `{Countable K1} `{Countable K2} (cl : dcls) (a : assoc V (K1 + K2)) (o : dop V K1 K2) (f : fault) : assoc V (K1 + K2) :=
  match o, f with
  | DInsert _ _ x, FKey 0 | DInsert1 _ x, FKey _ | DInsert2 _ x, FKey _ | DAssign1 _ x, FKey _ | DAssign2 _ x, FKey _ => as_add x [] a
  | DInsert k1 _ x, FKey _ => as_add x (match cl with CMap => [inl k1] | _ => if unused a (inl k1) then [inl k1] else [] end) a
  | DAssign k1 k2 x, FKey n =>
      match cl, a_tm a !! inl k1 with
      | CMap, Some u | CStr, Some u => as_put u x a
      | _, _ => match n with 0%nat => as_add x [] a | _ => as_add x [inl k1] a end
      end
  | _, _ => a
  end.
End spec.

(** The exceptions after which stable storage is broken (C60, C62): a throwing constructor of an element, and no memory for
    the very first block. *)
Definition st_survives {V} P (s : store V) (f : fault) : Prop :=
  match s, f with
  | SBlk _ _, FPush PElem => False
  | SBlk _ v, FPush (PMem false) => v <> vec_default P
  | _, _ => True
  end.

(** ** Proofs *)
Section store.
Context {V : Type}.
Variable P : params.
Hypothesis HP : 0 <= expo P <= 30.

Lemma st_push_fail_ok (s : store V) xs p r : st_ok P s xs -> st_survives P s (FPush p) -> st_push_fail P s p = Some r ->
  exists s', r = Ok s' /\ st_ok P s' xs /\ st_stable s' = st_stable s.
Proof.
  destruct s as [ys|h v]; cbn [st_push_fail].
  - intros -> _ [= <-]. exists (SVec xs). splits.
  - intros (ids & frees & Hv & Hn) Hsv. destruct p as [|first]; [destruct Hsv|]. pose proof HP as [HP1 _].
    destruct (vec_push_nomem P h v first) as [q|] eqn:E; [|discriminate]. intros [= <-].
    destruct (vnomem_ok P HP1 _ _ _ _ _ _ _ Hv E) as (h1 & v1 & -> & Hv1 & Hp & _). cbn [obind]. eexists. splits.
    exists ids, frees. split; [exact Hv1|]. intros X. destruct (Hp X) as [Y|[-> ->]]; [exact (Hn Y)|]. cbn in Hsv. congruence.
Qed.
End store.

Section one.
Context {V : Type} `{Countable K}.
Variable P : params.
Hypothesis HP : 0 <= expo P <= 30.
Variable kdef : option K.
Implicit Types (m : mv V K) (a : assoc V K).

Lemma mv_push_fail_ok m a p r : mrel P m a -> st_survives P (m_st m) (FPush p) -> mv_push_fail P m p = Some r ->
  exists m', r = Ok m' /\ mrel P m' a /\ st_stable (m_st m') = st_stable (m_st m).
Proof.
  intros R Hsv E. unfold mv_push_fail in E. destruct (st_push_fail P (m_st m) p) as [q|] eqn:Ep; [|discriminate]. injection E as <-.
  destruct (st_push_fail_ok P HP _ _ _ _ (r_st _ _ _ _ R) Hsv Ep) as (s' & -> & Hs' & Hb). cbn [obind]. eexists. splits; [|exact Hb].
  eapply rel_same_ids; [exact R| | | | |]; try reflexivity. exact Hs'.
Qed.

Lemma mv_key_fail_ok m a x : mrel P m a ->
  exists m', mv_key_fail P m x = Ok m' /\ mrel P m' (as_add x [] a) /\ st_stable (m_st m') = st_stable (m_st m).
Proof.
  intros R. unfold mv_key_fail. destruct (st_push_ok P HP _ _ x (r_st _ _ _ _ R)) as (s' & E & Hs' & Kp). rewrite E. cbn [obind].
  eexists. splits; [|cbn; eapply st_kept_stable; exact Kp]. eapply rel_add; [exact R|exact Hs'|].
  intros k'. cbn. rewrite decide_False by (intros F; inversion F). reflexivity.
Qed.

Lemma mv_fail_ok m a o f r : mrel P m a -> st_survives P (m_st m) f -> mv_fail P m o f = Some r ->
  exists m', r = Ok m' /\ mrel P m' (as_fail a o f) /\ st_stable (m_st m') = st_stable (m_st m).
Proof.
  intros R Hsv E.
  assert (Hsame : Some (Ok m) = Some r -> exists m', r = Ok m' /\ mrel P m' a /\ st_stable (m_st m') = st_stable (m_st m)).
  { intros [= <-]. eexists. splits. exact R. }
  assert (Hkey : forall x, Some (mv_key_fail P m x) = Some r -> exists m', r = Ok m' /\ mrel P m' (as_add x [] a) /\ st_stable (m_st m') = st_stable (m_st m)).
  { intros x [= <-]. apply mv_key_fail_ok. exact R. }
  destruct o, f as [|p|[|n]]; cbn [mv_fail as_fail] in *; try discriminate; try (apply Hsame; exact E);
    try (eapply mv_push_fail_ok; eassumption);
    try (destruct (m_lk m !! k); try discriminate; (apply Hsame; exact E) || (apply Hkey; exact E) || (eapply mv_push_fail_ok; eassumption)).
  destruct (i <? _); [apply Hsame; exact E|discriminate].
Qed.
End one.

Section two.
Context {V : Type} `{Countable K1} `{Countable K2}.
Variable P : params.
Hypothesis HP : 0 <= expo P <= 30.
Variable cl : dcls.
Notation assoc := (assoc V (K1 + K2)%type (EqDecision0 := sum_eq_dec) (H := sum_countable)).
Implicit Types (d : dv V K1 K2) (a : assoc).

Lemma dv_push_fail_ok d a p r : drel P d a -> st_survives P (d_st d) (FPush p) -> dv_push_fail P d p = Some r ->
  exists d', r = Ok d' /\ drel P d' a /\ st_stable (d_st d') = st_stable (d_st d).
Proof.
  intros R Hsv E. unfold dv_push_fail in E. destruct (st_push_fail P (d_st d) p) as [q|] eqn:Ep; [|discriminate]. injection E as <-.
  destruct (st_push_fail_ok P HP _ _ _ _ (r_st _ _ _ _ R) Hsv Ep) as (s' & -> & Hs' & Hb). cbn [obind]. eexists. splits; [|exact Hb].
  eapply rel_same_ids; [exact R| | | | |]; try reflexivity. exact Hs'.
Qed.

Lemma d_push0_ok d a x : drel P d a ->
  exists d', ('(d1, _) <-! d_push P d x ;; Ok d1) = Ok d' /\ drel P d' (as_add x [] a) /\ st_stable (d_st d') = st_stable (d_st d).
Proof.
  intros R. destruct (d_push_ok P HP d a x R) as (s' & E & Hs' & Kp). rewrite E. cbn [obind]. eexists. splits; [|cbn; eapply st_kept_stable; exact Kp].
  eapply rel_add; [exact R|exact Hs'|]. intros k'. cbn. rewrite decide_False by (intros F; inversion F). destruct k'; reflexivity.
Qed.

Lemma d_push1_ok d a (emp : bool) k1 x : drel P d a ->
  exists d', ('(d1, index) <-! d_push P d x ;;
      Ok (Dv (d_st d1) (if emp then mp_emplace k1 index (d_l1 d1) else <[k1 := index]> (d_l1 d1)) (d_l2 d1))) = Ok d' /\
    drel P d' (as_add x (if emp && negb (unused a (inl k1)) then [] else [inl k1]) a) /\ st_stable (d_st d') = st_stable (d_st d).
Proof.
  intros R. destruct (d_push_ok P HP d a x R) as (s' & E & Hs' & Kp). rewrite E. cbn [obind]. eexists. splits; [|cbn; eapply st_kept_stable; exact Kp].
  eapply rel_add; [exact R|exact Hs'|]. pose proof (as_len a) as Hlen. rewrite <- (d_new_unused P d a (inl k1) R). unfold d_new; cbn [d_lk].
  intros [k|k]; cbn [d_lk d_l1 d_l2 d_st].
  - destruct emp; cbn [andb].
    + rewrite mp_emplace_lk. destruct (d_l1 d !! k1) eqn:Ek; cbn [negb].
      * rewrite decide_False by (intros F; inversion F). reflexivity.
      * destruct (decide (k = k1)) as [->|Hne]; [rewrite decide_True by constructor; f_equal; lia|].
        rewrite decide_False; [reflexivity|]. rewrite elem_of_list_singleton. congruence.
    + destruct (decide (k = k1)) as [->|Hne]; [rewrite lookup_insert, decide_True by constructor; f_equal; lia|].
      rewrite lookup_insert_ne by congruence. rewrite decide_False; [reflexivity|]. rewrite elem_of_list_singleton. congruence.
  - rewrite decide_False; [reflexivity|]. destruct (_ && _); [apply not_elem_of_nil|]. rewrite elem_of_list_singleton. congruence.
Qed.

Lemma dv_fail_ok d a o f r : drel P d a -> st_survives P (d_st d) f -> dv_fail P cl d o f = Some r ->
  exists d', r = Ok d' /\ drel P d' (as_dfail cl a o f) /\ st_stable (d_st d') = st_stable (d_st d).
Proof.
  intros R Hsv E.
  assert (Hnone : forall k, d_lk d k = None <-> a_tm a !! k = None) by (intros k; exact (rel_lk_none P _ _ _ k R)).
  assert (Hsame : Some (Ok d) = Some r -> exists d', r = Ok d' /\ drel P d' a /\ st_stable (d_st d') = st_stable (d_st d)).
  { intros [= <-]. eexists. splits. exact R. }
  assert (Hk0 : forall x, Some ('(d1, _) <-! d_push P d x ;; Ok d1) = Some r -> exists d', r = Ok d' /\ drel P d' (as_add x [] a) /\ st_stable (d_st d') = st_stable (d_st d)).
  { intros x [= <-]. apply d_push0_ok. exact R. }
  assert (Hk : forall emp k1 x n, dv_key_fail P d emp k1 x n = Some r -> exists d', r = Ok d' /\
      drel P d' (match n with 0%nat => as_add x [] a | _ => as_add x (if emp && negb (unused a (inl k1)) then [] else [inl k1]) a end) /\ st_stable (d_st d') = st_stable (d_st d)).
  { intros emp k1 x n En. destruct n as [|[|n]]; cbn [dv_key_fail] in En; [apply Hk0; exact En| |discriminate]. injection En as <-. apply d_push1_ok. exact R. }
  assert (Hone : forall k x, dv_insert_one_fail P d k x f = Some r -> exists d', r = Ok d' /\
      drel P d' (match f with FKey _ => as_add x [] a | _ => a end) /\ st_stable (d_st d') = st_stable (d_st d)).
  { intros k x Eo. destruct f as [|p|n]; cbn [dv_insert_one_fail] in Eo; [apply Hsame; exact Eo| |]; destruct (negb _); try discriminate.
    - eapply dv_push_fail_ok; eassumption.
    - destruct n; [|discriminate]. apply Hk0. exact Eo. }
  assert (Haone : forall k x, dv_assign_one_fail P d k x f = Some r -> exists d', r = Ok d' /\
      drel P d' (match f with FKey _ => as_add x [] a | _ => a end) /\ st_stable (d_st d') = st_stable (d_st d)).
  { intros k x Eo. destruct f as [|p|n]; cbn [dv_assign_one_fail] in Eo; [apply Hsame; exact Eo| |]; destruct (d_lk d k); try discriminate.
    - apply Hsame; exact Eo.
    - eapply dv_push_fail_ok; eassumption.
    - destruct n; [|discriminate]. apply Hk0. exact Eo. }
  destruct o; cbn [dv_fail] in E; try discriminate.
  - unfold dv_insert_fail in E. destruct f as [|p|n]; cbn [as_dfail]; [apply Hsame; exact E| |]; destruct (_ && _); try discriminate.
    + eapply dv_push_fail_ok; eassumption.
    + destruct (Hk _ _ _ _ E) as (d' & -> & R' & Hb). exists d'. splits; [|exact Hb]. destruct n; [exact R'|].
      destruct cl; cbn [andb] in R'; try exact R'; destruct (unused a (inl k1)); exact R'.
  - destruct f as [|p|n]; cbn [as_dfail]; exact (Hone _ _ E).
  - destruct f as [|p|n]; cbn [as_dfail]; exact (Hone _ _ E).
  - destruct f as [|p|n]; try discriminate. cbn [as_dfail]. eapply dv_push_fail_ok; eassumption.
  - destruct f as [|p|n]; cbn [as_dfail dv_assign_fail] in *; [apply Hsame; exact E| |].
    + assert (Hor : Some (Ok d) = Some r \/ dv_push_fail P d p = Some r).
      { destruct cl; destruct (d_l1 d !! k1); auto. destruct (d_l2 d !! k2); auto. destruct (_ =? _); auto. }
      destruct Hor; [apply Hsame; assumption|eapply dv_push_fail_ok; eassumption].
    + pose proof (Hnone (inl k1)) as Hn1. cbn [d_lk] in Hn1.
      assert (Hset : forall i, d_l1 d !! k1 = Some i -> exists u, a_tm a !! inl k1 = Some u /\
        exists d', ('(s, _) <-! st_step P (d_st d) (VSet i x) ;; Ok (Dv s (d_l1 d) (d_l2 d))) = Ok d' /\ drel P d' (as_put u x a) /\ st_stable (d_st d') = st_stable (d_st d)).
      { intros i Ei. destruct (proj1 (rel_lk P _ _ _ (inl k1) i R) Ei) as (u & q & E1 & E2 & ->). exists u. split; [exact E1|].
        destruct (d_set_ok P HP d a _ x R (rel_range P _ _ _ (inl k1) _ R Ei)) as (s' & Es & Hs' & Kp). rewrite Es. cbn [obind]. eexists. splits; [|cbn; eapply st_kept_stable; exact Kp].
        rewrite Nat2Z.id in Hs'. eapply rel_put; [|exact E2|exact Hs']. exact R. }
      destruct cl.
      * destruct (d_l1 d !! k1) as [i|] eqn:Ei.
        -- destruct (Hset i eq_refl) as (u & -> & Hd). destruct n; [|discriminate]. injection E as <-. exact Hd.
        -- rewrite (proj1 Hn1 eq_refl). destruct (Hk _ _ _ _ E) as (d' & -> & R' & Hb). exists d'. splits; [|exact Hb]. destruct n; exact R'.
      * destruct (d_l1 d !! k1) as [i|] eqn:Ei.
        -- destruct (Hset i eq_refl) as (u & -> & Hd). destruct n; [|discriminate]. injection E as <-. exact Hd.
        -- pose proof (proj1 Hn1 eq_refl) as Et. rewrite Et. destruct (Hk _ _ _ _ E) as (d' & -> & R' & Hb). exists d'. splits; [|exact Hb]. destruct n; [exact R'|].
           unfold unused in R'. rewrite Et in R'. exact R'.
      * assert (Ek : dv_key_fail P d false k1 x n = Some r).
        { destruct (d_l1 d !! k1); [|exact E]. destruct (d_l2 d !! k2); [|exact E]. destruct (_ =? _); [discriminate|exact E]. }
        destruct (Hk _ _ _ _ Ek) as (d' & -> & R' & Hb). exists d'. splits; [|exact Hb].
        destruct (a_tm a !! inl k1); destruct n; exact R'.
  - destruct f as [|p|n]; cbn [as_dfail]; exact (Haone _ _ E).
  - destruct f as [|p|n]; cbn [as_dfail]; exact (Haone _ _ E).
  - destruct f as [|p|[|n]]; try discriminate; apply Hsame; exact E.
  - destruct f as [|p|[|n]]; try discriminate; apply Hsame; exact E.
  - destruct f; try discriminate. apply Hsame; exact E.
  - destruct f; try discriminate. apply Hsame; exact E.
Qed.
End two.
