(** Properties C26-C29, C36 and C37: the mapped vectors and mapOps (C30-C34: Props_Dual, C35: Props_Str).
    [kdef] is the value of a default-initialised key: [Some d] for class types such as std::string, [None] (reading it is
    undefined) for scalar types.  [stb]: reference_stability::stable.  [mreach]: every state reached by legal calls, right
    or wrong.  [mgood m a]: reached by calls that meet [mv_guard]; [a] is the specification's state after the same calls. *)
From stdpp Require Import gmap.
From Verif Require Import Base BlkHeap BlkIter VecModel VecSpec VecProofs VecWorld VecFinal MapStore MapStoreProofs MapModel MapSpec MapProofs MapReach
  DualModel DualSpec DualProofs MapFinal DualReach DualFinal MapCheck MapOps.

Definition PM (n : Z) : params := Params n false true.

(** ** C26
    Full statement: in every reachable state find(k) then denotes the new element.  False ([C26_find_refuted]): with stable
    storage and 2^31 elements the iterator find() returns does not.  Everything else holds, and this too in every other
    case. *)
Theorem C26_insert_partial :
  forall (V K : Type) `{Countable K} P, 0 <= expo P <= 30 -> forall (kdef : option K) stb (m : mv V K) k x, mreach P kdef stb m ->
  exists xs, holds P (m_st m) xs /\
  match m_lk m !! k with
  | Some _ => mv_step P kdef m (MInsert k x) = Ok (m, MIdx None)
  | None =>
      exists m', mv_step P kdef m (MInsert k x) = Ok (m', MIdx (Some (zlen xs))) /\ holds P (m_st m') (xs ++ [x]) /\
        m_lk m' = <[k := zlen xs]> (m_lk m) /\ st_kept P (m_st m) (m_st m') /\
        ((stb = true -> zlen xs <= 2147483647) -> exists it, mv_find P m' k = Ok it /\ st_deref P (m_st m') it = Ok x)
  end.
Proof. intros V K ? ? P HP kdef stb m k x. exact (insert_final P HP kdef stb m k x). Qed.
Print Assumptions C26_insert_partial.

(** Any block size; [f] gives the terms of the elements before.  [k]: a fresh term. *)
Theorem C26_find_refuted :
  forall (V K : Type) `{Countable K} P, 0 <= expo P <= 30 -> forall (kdef : option K) (f : nat -> K) (x : V), (forall i j, f i = f j -> i = j) ->
  exists (m m' : mv V K) k it, mreach P kdef true m /\ m_lk m !! k = None /\ mv_step P kdef m (MInsert k x) = Ok (m', MIdx (Some 2147483648)) /\
    mv_find P m' k = Ok it /\ st_deref P (m_st m') it = UB.
Proof.
  intros V K ? ? P HP kdef f x Hf. set (n := Z.to_nat 2147483648). assert (En : Z.of_nat n = 2147483648) by (unfold n; lia). clearbody n.
  destruct (many_inserts P HP kdef f x true n Hf) as (m & xs & Hr & Hs & Hl & Hn).
  destruct (insert_any P HP kdef m xs (f n) x Hs) as (m' & E & Hk & Hm). rewrite (Hn n ltac:(lia)) in E, Hm. destruct Hm as [Hm Hlk].
  destruct (mreach_ok P HP kdef true m Hr) as (_ & _ & Hb). rewrite <- (st_kept_stable P _ _ Hk) in Hb.
  destruct (st_iter_far P HP _ _ Hm Hb) as (it & E1 & E2); [destruct xs; discriminate|].
  exists m, m', (f n), it. splits; try assumption; [apply Hn; lia|rewrite E, Hl, En; reflexivity|].
  unfold mv_find. rewrite Hlk, lookup_insert, Hl, En. exact E1.
Qed.
Print Assumptions C26_find_refuted.

Theorem C26_insert_keyless :
  forall (V K : Type) `{Countable K} P, 0 <= expo P <= 30 -> forall (kdef : option K) stb (m : mv V K) x, mreach P kdef stb m ->
  exists xs m', holds P (m_st m) xs /\ mv_step P kdef m (MInsertNo x) = Ok (m', MIdx (Some (zlen xs))) /\ holds P (m_st m') (xs ++ [x]) /\
    m_lk m' = m_lk m /\ st_kept P (m_st m) (m_st m').
Proof. intros V K ? ? P HP kdef stb m x. exact (insert_no_final P HP kdef stb m x). Qed.
Print Assumptions C26_insert_keyless.

(** Whole histories: every call returns what the specification says. *)
Theorem C26_history :
  forall (V K : Type) `{Countable K} P, 0 <= expo P <= 30 -> forall (kdef : option K) stb (ops : list (mop V K)),
  mv_safe P kdef (mv0 P stb) ops ->
  exists m, mv_run P kdef (mv0 P stb) ops = Ok (m, (as_run stb assoc0 ops).2) /\ holds P (m_st m) (as_vals (as_run stb assoc0 ops).1) /\
    mgood P kdef stb m (as_run stb assoc0 ops).1.
Proof. intros V K ? ? P HP kdef stb ops. exact (history_final P HP kdef stb ops). Qed.
Print Assumptions C26_history.

(** A reachable state with a stale term (7 was an alias of the removed element), and an insert into it *)
Example C26_nonvacuous :
  let ops := [MInsert 5 10; MAlias 7 0; MInsert 6 20; MRemove 5 [5; 7; 6]; MInsertNo 30] in
  match reach_chk (PM 1) (Some 0) (mv0 (PM 1) false) ops with
  | Some m => mreach (PM 1) (Some 0) false m /\ m_lk m !! 7 = Some 0 /\ m_lk m !! 6 = Some 0 /\ m_st m = SVec [20; 30] /\
      mv_step (PM 1) (Some 0) m (MInsert 6 40) = Ok (m, MIdx None) /\
      match mv_step (PM 1) (Some 0) m (MInsert 8 40) with
      | Ok (m', r) => r = MIdx (Some 2) /\ m_st m' = SVec [20; 30; 40] /\ m_lk m' !! 8 = Some 2
      | _ => False
      end
  | None => False
  end.
Proof.
  cbv zeta. destruct (reach_chk (PM 1) (Some 0) _ _) as [m|] eqn:E; [|vm_compute in E; discriminate].
  split; [eapply reach_run; exact E|]. vm_compute in E. injection E as <-. vm_compute. splits.
Qed.

Definition mv_demo : list (mop Z Z) :=
  [MInsert 5 10; MInsert 6 20; MInsert 5 11; MAlias 7 1; MInsertNo 30; MFind 7; MFindP 6; MAssign 7 21; MFind 6; MFind 9; MRemoveIdx 2 [5; 7; 6];
   MSize; MRemove 5 [6; 7; 5]; MFind 5; MFind 6; MInsert 8 40; MModify (fun x => x + 1); MApply; MBack; MAt 1; MAt 3; MGetP 3; MClear; MSize].
Example C26_history_nonvacuous :
  (mv_safe (PM 0) (Some 0) (mv0 (PM 0) false) mv_demo /\ mv_safe (PM 0) (Some 0) (mv0 (PM 0) true) mv_demo) /\
  map snd (as_run false assoc0 mv_demo).2 =
    [MIdx (Some 0); MIdx (Some 1); MIdx None; MBool true; MIdx (Some 2); MVal (Some 20); MVal (Some 20); MIdx (Some 1); MVal (Some 21); MVal None; MUnit;
     MInt 2; MUnit; MVal None; MVal (Some 21); MIdx (Some 1); MList [21; 40]; MList [22; 41]; MVal (Some 41); MVal (Some 41); MOut; MVal None; MUnit; MInt 0].
Proof. split; [split; apply mv_chk_ok; vm_compute; reflexivity|vm_compute; reflexivity]. Qed.

(** ** C27
    Full statement: in every reachable state.  False ([C27_assign_refuted]): a search term left behind by a removal (C28)
    sends insert_or_assign outside the container.  [in_range]: the term is absent or denotes a position of the container. *)
Theorem C27_assign_partial :
  forall (V K : Type) `{Countable K} P, 0 <= expo P <= 30 -> forall (kdef : option K) stb (m : mv V K) k x,
  mreach P kdef stb m -> in_range m (MAssign k x) ->
  exists xs m', holds P (m_st m) xs /\ st_kept P (m_st m) (m_st m') /\
  match m_lk m !! k with
  | Some i => mv_step P kdef m (MAssign k x) = Ok (m', MIdx (Some i)) /\ holds P (m_st m') (<[Z.to_nat i := x]> xs) /\ m_lk m' = m_lk m /\ 0 <= i < zlen xs /\
      ((stb = true -> i <= 2147483647) -> exists it, mv_find P m' k = Ok it /\ st_deref P (m_st m') it = Ok x)
  | None => mv_step P kdef m (MAssign k x) = Ok (m', MIdx (Some (zlen xs))) /\ holds P (m_st m') (xs ++ [x]) /\ m_lk m' = <[k := zlen xs]> (m_lk m) /\
      ((stb = true -> zlen xs <= 2147483647) -> exists it, mv_find P m' k = Ok it /\ st_deref P (m_st m') it = Ok x)
  end.
Proof. intros V K ? ? P HP kdef stb m k x. exact (assign_final P HP kdef stb m k x). Qed.
Print Assumptions C27_assign_partial.

(** In guarded histories no condition is needed. *)
Theorem C27_assign_in_range :
  forall (V K : Type) `{Countable K} P, 0 <= expo P <= 30 -> forall (kdef : option K) stb (m : mv V K) a k x,
  mgood P kdef stb m a -> in_range m (MAssign k x).
Proof.
  intros V K ? ? P HP kdef stb m a k x Hg i Ei. pose proof (find_final P HP kdef stb m a k Hg) as F. rewrite Ei in F. lia.
Qed.
Print Assumptions C27_assign_in_range.

Theorem C27_assign_refuted :
  exists ops : list (mop Z Z), ops = [MInsert 5 10; MAlias 7 0; MRemove 5 [5; 7]] /\
  forall stb, exists m, mreach (PM 1) (Some 0) stb m /\ reach_chk (PM 1) (Some 0) (mv0 (PM 1) stb) ops = Some m /\
    mv_step (PM 1) (Some 0) m (MAssign 7 20) = UB.
Proof.
  eexists. split; [reflexivity|]. intros stb. destruct (reach_chk (PM 1) (Some 0) (mv0 (PM 1) stb) _) as [m|] eqn:E; [|destruct stb; vm_compute in E; discriminate].
  exists m. split; [eapply reach_run; exact E|]. split; [reflexivity|]. destruct stb; vm_compute in E; injection E as <-; vm_compute; reflexivity.
Qed.
Print Assumptions C27_assign_refuted.

(** ** C28
    Full statement: right in every reachable state.  False: [C28_removal_refuted].  [idx_guard] and [key_guard] (the element
    has exactly one search term; or, for removeIndex, none and the default key is not in use) say exactly when it is right. *)
Theorem C28_remove_index_partial :
  forall (V K : Type) `{Countable K} P, 0 <= expo P <= 30 -> forall (kdef : option K) stb (m : mv V K) i ord,
  mreach P kdef stb m -> 0 <= i < st_size (m_st m) -> ord_ok (m_lk m) ord ->
  (rem_idx_right P kdef m i ord <-> idx_guard kdef m i).
Proof. intros V K ? ? P HP kdef stb m i ord. exact (remove_idx_iff P HP kdef stb m i ord). Qed.
Print Assumptions C28_remove_index_partial.

Theorem C28_remove_key_partial :
  forall (V K : Type) `{Countable K} P, 0 <= expo P <= 30 -> forall (kdef : option K) stb (m : mv V K) k i ord,
  mreach P kdef stb m -> m_lk m !! k = Some i -> i < st_size (m_st m) -> ord_ok (m_lk m) ord ->
  (rem_key_right P kdef m k i ord <-> key_guard m k).
Proof. intros V K ? ? P HP kdef stb m k i ord. exact (remove_key_iff P HP kdef stb m k i ord). Qed.
Print Assumptions C28_remove_key_partial.

(** The elements are always right. *)
Theorem C28_remove_elements :
  forall (V K : Type) `{Countable K} P, 0 <= expo P <= 30 -> forall (kdef : option K) stb (m : mv V K) i k ord m' r,
  mreach P kdef stb m -> mv_legal m (MRemoveIdx i ord) ->
  (mv_step P kdef m (MRemoveIdx i ord) = Ok (m', r) /\ i < st_size (m_st m)) \/
  (mv_step P kdef m (MRemove k ord) = Ok (m', r) /\ m_lk m !! k = Some i /\ i < st_size (m_st m)) ->
  exists xs, holds P (m_st m) xs /\ holds P (m_st m') (without stb i xs) /\ st_kept P (m_st m) (m_st m') /\
    (stb = true -> i <> zlen xs - 1 -> m_st m' = m_st m).
Proof. intros V K ? ? P HP kdef stb m i k ord m' r. exact (remove_elems P HP kdef stb m i k ord m' r). Qed.
Print Assumptions C28_remove_elements.

(** Without aliases and without the default key, every legal history of the unstable container is right. *)
Theorem C28_no_alias_history :
  forall (V K : Type) `{Countable K} P, 0 <= expo P <= 30 -> forall (d : K) (ops : list (mop V K)),
  Forall (plain_op d) ops -> mv_legal_run P (Some d) (mv0 P false) ops ->
  exists m, mv_run P (Some d) (mv0 P false) ops = Ok (m, (as_run false assoc0 ops).2) /\ holds P (m_st m) (as_vals (as_run false assoc0 ops).1) /\
    mgood P (Some d) false m (as_run false assoc0 ops).1.
Proof. intros V K ? ? P HP d ops. exact (plain_final P HP (Some d) d ops eq_refl). Qed.
Print Assumptions C28_no_alias_history.

(** The specification's removal does what the claim says: the removed element's terms denote nothing, other terms denote
    the element they denoted. *)
Theorem C28_spec_removal :
  forall (V K : Type) `{Countable K} P, 0 <= expo P <= 30 -> forall (kdef : option K) stb (m : mv V K) a u p k, mgood P kdef stb m a -> as_ids a !! p = Some u ->
  a_tm (as_remove stb u p a) !! k = (v ← a_tm a !! k; if decide (v = u) then None else Some v) /\
  as_find k (as_remove stb u p a) = match a_tm a !! k with Some v => if decide (v = u) then None else as_find k a | None => None end.
Proof. intros V K ? ? P HP kdef stb m a u p k Hg. apply find_remove. eapply rel_awf. apply (mgood_rel P HP kdef stb m a Hg). Qed.
Print Assumptions C28_spec_removal.

(** (1) An element with two terms: remove(5) leaves 7, which now denotes the next element.  (2) An element without a term:
    removeIndex unlinks the element whose key is the default key.  (3) The same with a scalar key reads an indeterminate
    value. *)
Theorem C28_removal_refuted :
  (exists m m' : mv Z Z, mreach (PM 1) (Some 0) false m /\ m_st m = SVec [10; 20] /\ m_lk m !! 7 = Some 0 /\
     mv_step (PM 1) (Some 0) m (MRemove 5 [5; 6; 7]) = Ok (m', MUnit) /\ ord_ok (m_lk m) [5; 6; 7] /\
     mv_step (PM 1) (Some 0) m' (MFind 7) = Ok (m', MVal (Some 20))) /\
  (exists m m' : mv Z Z, mreach (PM 1) (Some 0) false m /\ m_st m = SVec [10; 20] /\ m_lk m !! 0 = Some 0 /\
     mv_step (PM 1) (Some 0) m (MRemoveIdx 1 [0]) = Ok (m', MUnit) /\ ord_ok (m_lk m) [0] /\
     m_st m' = SVec [10] /\ mv_step (PM 1) (Some 0) m' (MFind 0) = Ok (m', MVal None)) /\
  (exists m : mv Z Z, mreach (PM 1) None false m /\ m_st m = SVec [10] /\ mv_step (PM 1) None m (MRemoveIdx 0 []) = UB /\ ord_ok (m_lk m) []).
Proof.
  splits.
  - destruct (reach_chk (PM 1) (Some 0) (mv0 (PM 1) false) [MInsert 5 10; MAlias 7 0; MInsert 6 20]) as [m|] eqn:E; [|vm_compute in E; discriminate].
    exists m. pose proof (reach_run _ _ _ _ _ E) as Hr. vm_compute in E. injection E as <-. eexists. repeat (split; [first [exact Hr|apply ordb_ok; vm_compute; reflexivity|vm_compute; reflexivity]|]); first [apply ordb_ok; vm_compute; reflexivity|vm_compute; reflexivity].
  - destruct (reach_chk (PM 1) (Some 0) (mv0 (PM 1) false) [MInsert 0 10; MInsertNo 20]) as [m|] eqn:E; [|vm_compute in E; discriminate].
    exists m. pose proof (reach_run _ _ _ _ _ E) as Hr. vm_compute in E. injection E as <-. eexists. repeat (split; [first [exact Hr|apply ordb_ok; vm_compute; reflexivity|vm_compute; reflexivity]|]); first [apply ordb_ok; vm_compute; reflexivity|vm_compute; reflexivity].
  - destruct (reach_chk (PM 1) (@None Z) (mv0 (PM 1) false) [MInsertNo 10]) as [m|] eqn:E; [|vm_compute in E; discriminate].
    exists m. pose proof (reach_run _ _ _ _ _ E) as Hr. vm_compute in E. injection E as <-. repeat (split; [first [exact Hr|apply ordb_ok; vm_compute; reflexivity|vm_compute; reflexivity]|]); first [apply ordb_ok; vm_compute; reflexivity|vm_compute; reflexivity].
Qed.
Print Assumptions C28_removal_refuted.

(** ** C29
    Full statement: in every reachable state of every class.  False ([C29_find_refuted]) for MappedVector and
    MappedPointerVector (a term left behind by a removal, C28), and for a term that is not stored when the pointer table of
    the stable storage is exactly full (find calls end(), C18). *)
Theorem C29_find_partial :
  forall (V K : Type) `{Countable K} P, 0 <= expo P <= 30 -> forall (kdef : option K) stb (m : mv V K) a k, mgood P kdef stb m a ->
  match m_lk m !! k with
  | Some i => 0 <= i < st_size (m_st m) /\ exists x, as_find k a = Some x /\ as_vals a !! Z.to_nat i = Some x /\
      ((stb = true -> i <= 2147483647) -> exists it, mv_find P m k = Ok it /\ st_deref P (m_st m) it = Ok x) /\
      mv_step P kdef m (MFindP k) = Ok (m, MVal (Some x))
  | None => as_find k a = None /\ mv_find P m k = st_end P (m_st m) /\ mv_step P kdef m (MFindP k) = Ok (m, MVal None)
  end.
Proof. intros V K ? ? P HP kdef stb m a k. exact (find_final P HP kdef stb m a k). Qed.
Print Assumptions C29_find_partial.

(** The three two-key classes: in every reachable state. *)
Theorem C29_dual_find :
  forall (V K1 K2 : Type) `{Countable K1} `{Countable K2} P, 0 <= expo P <= 30 -> forall cl (kd1 : option K1) (kd2 : option K2) stb (d : dv V K1 K2) k,
  dreach P cl kd1 kd2 stb d -> exists xs, holds P (d_st d) xs /\
  match d_lk d k with
  | Some i => 0 <= i < zlen xs /\ exists x, xs !! Z.to_nat i = Some x /\ dfinds P cl kd1 kd2 d k x
  | None => (cl = CPtr -> dv_step P cl kd1 kd2 d (DFind k) = Ok (d, MVal None)) /\
      (cl <> CPtr -> forall last, st_end P (d_st d) = Ok last -> dv_step P cl kd1 kd2 d (DFind k) = Ok (d, MVal None))
  end.
Proof. intros V K1 K2 ? ? ? ? P HP cl kd1 kd2 stb d k. exact (dfind_reach P HP cl kd1 kd2 stb d k). Qed.
Print Assumptions C29_dual_find.

(** Whole histories of the two-key classes: every call, find included, returns what the specification says. *)
Theorem C29_dual_history :
  forall (V K1 K2 : Type) `{Countable K1} `{Countable K2} P, 0 <= expo P <= 30 -> forall cl (kd1 : option K1) (kd2 : option K2) stb (ops : list (dop V K1 K2)),
  dv_safe P cl kd1 kd2 (dv0 P stb) ops ->
  exists d, dv_run P cl kd1 kd2 (dv0 P stb) ops = Ok (d, (as_drun cl stb assoc0 ops).2) /\
    holds P (d_st d) (as_vals (as_drun cl stb assoc0 ops).1) /\ dgood P cl kd1 kd2 stb d (as_drun cl stb assoc0 ops).1.
Proof. intros V K1 K2 ? ? ? ? P HP cl kd1 kd2 stb ops. exact (dhistory_final P HP cl kd1 kd2 stb ops). Qed.
Print Assumptions C29_dual_history.

Definition dv_demo (rm : list (dop Z Z Z)) : list (dop Z Z Z) :=
  [DInsert 5 6 10; DInsert 7 8 20; DInsert 5 8 30; DFind (inl 7); DFind (inr 6); DAssign 5 6 11; DInsert1 9 40; DAssign1 9 41; DInsert2 1 50; DFind (inr 1);
   DFind (inl 2); DFind (inl 0)] ++ rm ++ [DFind (inl 5); DFind (inr 8); DFind (inl 9); DSize; DModify (fun x => x + 1); DApply; DBack; DClear; DSize].
Definition dv_demo_rm : list (dop Z Z Z) := [DTerm (inl 3) (inr 8); DTermIdx (inr 4) 2; DRemove (inl 3) [5; 7; 3; 9] [8; 6; 4; 1]; DRemoveIdx 0 [9; 5; 7; 3] [6; 4; 8; 1]].
Example C29_dual_history_nonvacuous :
  dv_safe (PM 0) CMap (Some 0) (Some 0) (dv0 (PM 0) false) (dv_demo dv_demo_rm) /\ dv_safe (PM 0) CMap (Some 0) (Some 0) (dv0 (PM 0) true) (dv_demo dv_demo_rm) /\
  dv_safe (PM 0) CStr (Some 0) (Some 0) (dv0 (PM 0) true) (dv_demo dv_demo_rm) /\
  dv_safe (PM 0) CPtr (Some 0) (Some 0) (dv0 (PM 0) false) (dv_demo [DRemove (inl 7) [5; 7; 9] [8; 6; 1]; DRemoveIdx 0 [9; 5; 7] [6; 8; 1]]) /\
  map snd (as_drun CMap false assoc0 (dv_demo dv_demo_rm)).2 =
    [MIdx (Some 0); MIdx (Some 1); MIdx None; MVal (Some 20); MVal (Some 10); MIdx (Some 0); MIdx (Some 2); MIdx (Some 2); MIdx (Some 3); MVal (Some 50);
     MVal None; MVal None; MBool true; MBool true; MUnit; MUnit; MVal None; MVal None; MVal (Some 41); MInt 2; MList [41; 50]; MList [42; 51]; MVal (Some 51); MUnit; MInt 0].
Proof. repeat (split; [apply dv_chk_ok; vm_compute; reflexivity|]). vm_compute. reflexivity. Qed.

Definition is_ub {A} (o : outcome A) : bool := match o with UB => true | _ => false end.
Lemma is_ub_true {A} (o : outcome A) : is_ub o = true -> o = UB.
Proof. destruct o; cbn; congruence. Qed.
Lemma chk_some {A} (o : option A) (p : A -> bool) : match o with Some a => p a | None => false end = true -> exists a, o = Some a /\ p a = true.
Proof. destruct o; [eauto|discriminate]. Qed.
Fixpoint many (n : nat) : list (mop Z Z) := match n with O => [] | S n' => MInsert (Z.of_nat n') (Z.of_nat n') :: many n' end.
(** (1) A stored position equal to size(); (2) the pointer class then reads past its storage; (3) find of an unknown key
    while the table of the stable storage is full. *)
Theorem C29_find_refuted :
  (exists m : mv Z Z, mreach (PM 1) (Some 0) false m /\ m_lk m !! 7 = Some 0 /\ st_size (m_st m) = 0 /\
     mv_step (PM 1) (Some 0) m (MFindP 7) = UB) /\
  (exists m : mv Z Z, mreach (PM 0) (Some 0) true m /\ st_size (m_st m) = 64 /\ m_lk m !! 99 = None /\ mv_step (PM 0) (Some 0) m (MFind 99) = UB) /\
  (exists d : dv Z Z Z, dreach (PM 0) CMap (Some 0) (Some 0) true d /\ st_size (d_st d) = 64 /\ d_lk d (inl 99) = None /\
     dv_step (PM 0) CMap (Some 0) (Some 0) d (DFind (inl 99)) = UB).
Proof.
  split; [|split].
  - destruct (reach_chk (PM 1) (Some 0) (mv0 (PM 1) false) [MInsert 5 10; MAlias 7 0; MRemove 5 [5; 7]]) as [m|] eqn:E; [|vm_compute in E; discriminate].
    exists m. pose proof (reach_run _ _ _ _ _ E) as Hr. vm_compute in E. injection E as <-.
    repeat (split; [first [exact Hr|vm_compute; reflexivity]|]); vm_compute; reflexivity.
  - destruct (chk_some (reach_chk (PM 0) (Some 0) (mv0 (PM 0) true) (many 64)) (fun m => (st_size (m_st m) =? 64) && bool_decide (m_lk m !! 99 = None) &&
      is_ub (mv_step (PM 0) (Some 0) m (MFind 99)))) as (m & E & C); [vm_compute; reflexivity|].
    exists m. apply andb_prop in C as [C C3]. apply andb_prop in C as [C1 C2]. apply bool_decide_eq_true in C2.
    splits; [eapply reach_run; exact E|lia|exact C2|apply is_ub_true; exact C3].
  - destruct (chk_some (dreach_chk (PM 0) CMap (Some 0) (Some 0) (dv0 (PM 0) true) (replicate 64 (DInsert0 1))) (fun d => (st_size (d_st d) =? 64) && bool_decide (d_lk d (inl 99) = None) &&
      is_ub (dv_step (PM 0) CMap (Some 0) (Some 0) d (DFind (inl 99))))) as (d & E & C); [vm_compute; reflexivity|].
    exists d. apply andb_prop in C as [C C3]. apply andb_prop in C as [C1 C2]. apply bool_decide_eq_true in C2.
    splits; [eapply dreach_run; exact E|lia|exact C2|apply is_ub_true; exact C3].
Qed.
Print Assumptions C29_find_refuted.

(** ** C36
    Full statement: every state.  False ([C36_modify_refuted]) exactly when the pointer table of stable storage is full
    ([C36_modify_exact]); unstable storage needs no condition ([C36_modify_unstable]). *)
Theorem C36_modify_partial :
  forall (V K : Type) `{Countable K} P, 0 <= expo P <= 30 -> forall (kdef : option K) stb (m : mv V K) (f : V -> V),
  mreach P kdef stb m -> st_room P (m_st m) ->
  exists xs m', holds P (m_st m) xs /\ mv_step P kdef m (MModify f) = Ok (m', MList xs) /\ holds P (m_st m') (map f xs) /\ m_lk m' = m_lk m /\
    st_kept P (m_st m) (m_st m') /\ mv_step P kdef m MApply = Ok (m, MList xs).
Proof. intros V K ? ? P HP kdef stb m f. exact (modify_final P HP kdef stb m f). Qed.
Print Assumptions C36_modify_partial.

Theorem C36_dual_modify_partial :
  forall (V K1 K2 : Type) `{Countable K1} `{Countable K2} P, 0 <= expo P <= 30 -> forall cl (kd1 : option K1) (kd2 : option K2) stb (d : dv V K1 K2) (f : V -> V),
  dreach P cl kd1 kd2 stb d -> st_room P (d_st d) ->
  exists xs d', holds P (d_st d) xs /\ dv_step P cl kd1 kd2 d (DModify f) = Ok (d', MList xs) /\ holds P (d_st d') (map f xs) /\
    (forall k, d_lk d' k = d_lk d k) /\ st_kept P (d_st d) (d_st d') /\ dv_step P cl kd1 kd2 d DApply = Ok (d, MList xs).
Proof. intros V K1 K2 ? ? ? ? P HP cl kd1 kd2 stb d f. exact (dmodify_final P HP cl kd1 kd2 stb d f). Qed.
Print Assumptions C36_dual_modify_partial.

Theorem C36_modify_exact :
  (forall (V K : Type) `{Countable K} P, 0 <= expo P <= 30 -> forall (kdef : option K) stb (m : mv V K) (f : V -> V),
     mreach P kdef stb m -> (exists m' r, mv_step P kdef m (MModify f) = Ok (m', r)) -> st_room P (m_st m)) /\
  (forall (V K1 K2 : Type) `{Countable K1} `{Countable K2} P, 0 <= expo P <= 30 -> forall cl (kd1 : option K1) (kd2 : option K2) stb (d : dv V K1 K2) (f : V -> V),
     dreach P cl kd1 kd2 stb d -> (exists d' r, dv_step P cl kd1 kd2 d (DModify f) = Ok (d', r)) -> st_room P (d_st d)).
Proof.
  split; [intros V K ? ? P HP kdef stb m f; exact (modify_full P HP kdef stb m f)|].
  intros V K1 K2 ? ? ? ? P HP cl kd1 kd2 stb d f. exact (dmodify_full P HP cl kd1 kd2 stb d f).
Qed.
Print Assumptions C36_modify_exact.

Theorem C36_modify_unstable :
  (forall (V K : Type) `{Countable K} P, 0 <= expo P <= 30 -> forall (kdef : option K) (m : mv V K), mreach P kdef false m -> st_room P (m_st m)) /\
  (forall (V K1 K2 : Type) `{Countable K1} `{Countable K2} P, 0 <= expo P <= 30 -> forall cl (kd1 : option K1) (kd2 : option K2) (d : dv V K1 K2),
     dreach P cl kd1 kd2 false d -> st_room P (d_st d)).
Proof.
  split.
  - intros V K ? ? P HP kdef m Hr. apply unstable_room. apply (mreach_ok P HP kdef false m Hr).
  - intros V K1 K2 ? ? ? ? P HP cl kd1 kd2 d Hr. apply unstable_room. apply (dreach_ok P HP cl kd1 kd2 false d Hr).
Qed.
Print Assumptions C36_modify_unstable.

Theorem C36_modify_refuted :
  exists m : mv Z Z, mreach (PM 0) (Some 0) true m /\ st_size (m_st m) = 64 /\ mv_step (PM 0) (Some 0) m (MModify (fun x => x)) = UB /\
    mv_step (PM 0) (Some 0) m MApply = UB.
Proof.
  destruct (chk_some (reach_chk (PM 0) (Some 0) (mv0 (PM 0) true) (many 64)) (fun m => (st_size (m_st m) =? 64) &&
      is_ub (mv_step (PM 0) (Some 0) m (MModify (fun x => x))) && is_ub (mv_step (PM 0) (Some 0) m MApply))) as (m & E & C); [vm_compute; reflexivity|].
  exists m. apply andb_prop in C as [C C3]. apply andb_prop in C as [C1 C2]. apply is_ub_true in C2.
  splits; [eapply reach_run; exact E|lia|exact C2|apply is_ub_true; exact C3].
Qed.
Print Assumptions C36_modify_refuted.

Example C36_nonvacuous :
  exists m, mreach (PM 0) (Some 0) true m /\ st_room (PM 0) (m_st m) /\
  match mv_step (PM 0) (Some 0) m (MModify (fun x => x + 1)) with
  | Ok (m', MList l) => bool_decide (l = [8; 7; 6; 5; 4; 3; 2; 1; 0]) &&
      match mv_step (PM 0) (Some 0) m' MApply with Ok (_, MList l') => bool_decide (l' = [9; 8; 7; 6; 5; 4; 3; 2; 1]) | _ => false end
  | _ => false
  end = true.
Proof.
  destruct (chk_some (reach_chk (PM 0) (Some 0) (mv0 (PM 0) true) (many 9)) (fun m => roomb (PM 0) (m_st m) &&
    match mv_step (PM 0) (Some 0) m (MModify (fun x => x + 1)) with
    | Ok (m', MList l) => bool_decide (l = [8; 7; 6; 5; 4; 3; 2; 1; 0]) &&
        match mv_step (PM 0) (Some 0) m' MApply with Ok (_, MList l') => bool_decide (l' = [9; 8; 7; 6; 5; 4; 3; 2; 1]) | _ => false end
    | _ => false
    end)) as (m & E & C); [vm_compute; reflexivity|].
  apply andb_prop in C as [C1 C2]. exists m. splits; [eapply reach_run; exact E|apply roomb_ok, C1|exact C2].
Qed.

(** ** C37.  [ns]: the nodes of the map; a map has one node per key. *)
Theorem C37_mapFind_default :
  forall (K V : Type) `{EqDecision K} (ns : list (K * V)) k d v, NoDup (map fst ns) ->
  (map_find_def ns k d = Ok v <-> (k, v) ∈ ns \/ (k ∉ map fst ns /\ v = d)).
Proof. intros K V ?. exact map_find_def_ok. Qed.
Print Assumptions C37_mapFind_default.

Theorem C37_mapFind_optional :
  forall (K V : Type) `{EqDecision K} (ns : list (K * V)) k o, NoDup (map fst ns) ->
  (map_find_opt ns k = Ok o <-> match o with Some v => (k, v) ∈ ns | None => k ∉ map fst ns end).
Proof. intros K V ?. exact map_find_opt_ok. Qed.
Print Assumptions C37_mapFind_optional.

Theorem C37_mapFind_defined :
  forall (K V : Type) `{EqDecision K} (ns : list (K * V)) k d, (exists v, map_find_def ns k d = Ok v) /\ (exists o, map_find_opt ns k = Ok o).
Proof. intros K V ?. exact map_find_defined. Qed.
Print Assumptions C37_mapFind_defined.

Example C37_nonvacuous :
  let ns := [(3, 30); (1, 10); (2, 20)] in
  NoDup (map fst ns) /\ map_find_def ns 2 99 = Ok 20 /\ map_find_def ns 4 99 = Ok 99 /\ map_find_opt ns 1 = Ok (Some 10) /\ map_find_opt ns 0 = Ok None.
Proof. cbv zeta. split; [apply (bool_decide_eq_true_1 _); vm_compute; reflexivity|]. repeat (split; [vm_compute; reflexivity|]). vm_compute. reflexivity. Qed.
