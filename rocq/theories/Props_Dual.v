(** Properties C30-C34: the two-key mapped vectors and removal from stable storage.
    [CMap]: DualMappedVector, [CStr]: DualStringMappedVector, [CPtr]: DualMappedPointerVector.  [dreach]: every state
    reached by legal calls.  [d_lk d k]: the position stored under term [k]; [used d k]: there is one.
    [dfinds d k x]: find(k) yields the element x. *)
From stdpp Require Import gmap.
From Verif Require Import Base BlkHeap BlkIter VecModel VecSpec VecProofs VecWorld VecFinal MapStore MapStoreProofs MapModel MapSpec MapProofs MapReach
  DualModel DualSpec DualProofs MapFinal DualReach DualFinal MapCheck.

Definition PD (n : Z) : params := Params n false true.
Definition is_ub {A} (o : outcome A) : bool := match o with UB => true | _ => false end.
Lemma is_ub_true {A} (o : outcome A) : is_ub o = true -> o = UB.
Proof. destruct o; cbn; congruence. Qed.
Lemma chk_some {A} (o : option A) (p : A -> bool) : match o with Some a => p a | None => false end = true -> exists a, o = Some a /\ p a = true.
Proof. destruct o; [eauto|discriminate]. Qed.
Lemma chk_ok {A} (o : outcome A) (p : A -> bool) : match o with Ok a => p a | _ => false end = true -> exists a, o = Ok a /\ p a = true.
Proof. destruct o; [eauto|discriminate|discriminate]. Qed.

(** ** C30
    Full statement: succeeds only if neither key is in use, and never changes what an existing term denotes.  False
    ([C30_dual_insert_refuted]): with exactly one key in use the insert goes ahead in all three classes; DualMappedVector
    then takes the key in use away from its element, DualStringMappedVector does so with the second key. *)
Theorem C30_dual_insert_partial :
  forall (V K1 K2 : Type) `{Countable K1} `{Countable K2} P, 0 <= expo P <= 30 -> forall cl (kd1 : option K1) (kd2 : option K2) stb (d : dv V K1 K2) k1 k2 x,
  dreach P cl kd1 kd2 stb d ->
  (used d (inl k1) /\ used d (inr k2) -> dv_step P cl kd1 kd2 d (DInsert k1 k2 x) = Ok (d, MIdx None)) /\
  (~ used d (inl k1) /\ ~ used d (inr k2) -> exists xs d', holds P (d_st d) xs /\ dv_step P cl kd1 kd2 d (DInsert k1 k2 x) = Ok (d', MIdx (Some (zlen xs))) /\
     holds P (d_st d') (xs ++ [x]) /\ st_kept P (d_st d) (d_st d') /\ forall k, used d k -> d_lk d' k = d_lk d k).
Proof.
  intros V K1 K2 ? ? ? ? P HP cl kd1 kd2 stb d k1 k2 x Hr. destruct (dinsert_final P HP cl kd1 kd2 stb d k1 k2 x Hr) as (xs & Hx & A & B).
  split; [intros [U1 U2]; apply A; assumption|]. intros [U1 U2]. destruct B as (d' & E & Hx' & Kp & L & _); [tauto|].
  exists xs, d'. splits; try assumption. intros k Hk. apply L; intros ->; contradiction.
Qed.
Print Assumptions C30_dual_insert_partial.

(** Exactly one key in use: what each class does.  The pointer class changes no existing term. *)
Theorem C30_dual_insert_exact :
  forall (V K1 K2 : Type) `{Countable K1} `{Countable K2} P, 0 <= expo P <= 30 -> forall cl (kd1 : option K1) (kd2 : option K2) stb (d : dv V K1 K2) k1 k2 x,
  dreach P cl kd1 kd2 stb d -> ~ (used d (inl k1) /\ used d (inr k2)) ->
  exists xs d', holds P (d_st d) xs /\ dv_step P cl kd1 kd2 d (DInsert k1 k2 x) = Ok (d', MIdx (Some (zlen xs))) /\ holds P (d_st d') (xs ++ [x]) /\
    st_kept P (d_st d) (d_st d') /\ (forall k, k <> inl k1 -> k <> inr k2 -> d_lk d' k = d_lk d k) /\
    (cl = CPtr -> forall k, used d k -> d_lk d' k = d_lk d k) /\ (cl = CStr -> forall k, used d k -> k <> inr k2 -> d_lk d' k = d_lk d k).
Proof.
  intros V K1 K2 ? ? ? ? P HP cl kd1 kd2 stb d k1 k2 x Hr Hu. destruct (dinsert_final P HP cl kd1 kd2 stb d k1 k2 x Hr) as (xs & Hx & A & B).
  destruct (B Hu) as (d' & E & Hx' & Kp & L & _ & L'). exists xs, d'. splits; try assumption; [intros Hc k Hk; apply L'; auto|intros Hc k Hk Hne; apply L'; auto].
Qed.
Print Assumptions C30_dual_insert_exact.

(** The one-key overloads have the property in full. *)
Theorem C30_dual_insert_one :
  forall (V K1 K2 : Type) `{Countable K1} `{Countable K2} P, 0 <= expo P <= 30 -> forall cl (kd1 : option K1) (kd2 : option K2) stb (d : dv V K1 K2) k x,
  dreach P cl kd1 kd2 stb d ->
  let o := match k with inl k1 => DInsert1 k1 x | inr k2 => DInsert2 k2 x end in
  exists xs, holds P (d_st d) xs /\
  (used d k -> dv_step P cl kd1 kd2 d o = Ok (d, MIdx None)) /\
  (d_lk d k = None -> exists d', dv_step P cl kd1 kd2 d o = Ok (d', MIdx (Some (zlen xs))) /\ holds P (d_st d') (xs ++ [x]) /\ st_kept P (d_st d) (d_st d') /\
     (forall k', k' <> k -> d_lk d' k' = d_lk d k') /\ dfinds P cl kd1 kd2 d' k x).
Proof. intros V K1 K2 ? ? ? ? P HP cl kd1 kd2 stb d k x. exact (dinsert_one_final P HP cl kd1 kd2 stb d k x). Qed.
Print Assumptions C30_dual_insert_one.

Definition lkb {K1 K2} `{Countable K1} `{Countable K2} (d : dv Z K1 K2) (k : K1 + K2) (i : Z) : bool := match d_lk d k with Some j => j =? i | None => false end.
Lemma lkb_ok {K1 K2} `{Countable K1} `{Countable K2} (d : dv Z K1 K2) k i : lkb d k i = true -> d_lk d k = Some i.
Proof. unfold lkb. destruct (d_lk d k); [intros E; f_equal; lia|discriminate]. Qed.

Theorem C30_dual_insert_refuted :
  (forall cl, exists d d' : dv Z Z Z, dreach (PD 1) cl (Some 0) (Some 0) false d /\ used d (inl 5) /\ dv_step (PD 1) cl (Some 0) (Some 0) d (DInsert 5 8 20) = Ok (d', MIdx (Some 1))) /\
  (forall cl, cl <> CPtr -> exists d d' : dv Z Z Z, dreach (PD 1) cl (Some 0) (Some 0) false d /\ d_lk d (inr 6) = Some 0 /\
     dv_step (PD 1) cl (Some 0) (Some 0) d (DInsert 7 6 20) = Ok (d', MIdx (Some 1)) /\ d_lk d' (inr 6) = Some 1) /\
  (exists d d' : dv Z Z Z, dreach (PD 1) CMap (Some 0) (Some 0) false d /\ d_lk d (inl 5) = Some 0 /\
     dv_step (PD 1) CMap (Some 0) (Some 0) d (DInsert 5 8 20) = Ok (d', MIdx (Some 1)) /\ d_lk d' (inl 5) = Some 1).
Proof.
  split; [|split].
  - intros cl. destruct (dreach_chk (PD 1) cl (Some 0) (Some 0) (dv0 (PD 1) false) [DInsert 5 6 10]) as [d|] eqn:E; [|destruct cl; vm_compute in E; discriminate].
    pose proof (dreach_run _ _ _ _ _ _ _ E) as Hr. exists d. destruct cl; vm_compute in E; injection E as <-; eexists; (split; [exact Hr|]); (split; [vm_compute; discriminate|]); vm_compute; reflexivity.
  - intros cl Hc. destruct (dreach_chk (PD 1) cl (Some 0) (Some 0) (dv0 (PD 1) false) [DInsert 5 6 10]) as [d|] eqn:E; [|destruct cl; vm_compute in E; discriminate].
    pose proof (dreach_run _ _ _ _ _ _ _ E) as Hr. exists d. destruct cl; [| |congruence]; vm_compute in E; injection E as <-; eexists; (split; [exact Hr|]); (split; [vm_compute; reflexivity|]); (split; [vm_compute; reflexivity|]); vm_compute; reflexivity.
  - destruct (dreach_chk (PD 1) CMap (Some 0) (Some 0) (dv0 (PD 1) false) [DInsert 5 6 10]) as [d|] eqn:E; [|vm_compute in E; discriminate].
    pose proof (dreach_run _ _ _ _ _ _ _ E) as Hr. exists d. vm_compute in E; injection E as <-; eexists; (split; [exact Hr|]); (split; [vm_compute; reflexivity|]); (split; [vm_compute; reflexivity|]); vm_compute; reflexivity.
Qed.
Print Assumptions C30_dual_insert_refuted.

Example C30_nonvacuous :
  forall cl, exists d d' : dv Z Z Z, dreach (PD 1) cl (Some 0) (Some 0) false d /\ used d (inl 5) /\ used d (inr 8) /\ d_lk d (inl 1) = None /\ d_lk d (inr 1) = None /\
  dv_step (PD 1) cl (Some 0) (Some 0) d (DInsert 5 8 30) = Ok (d, MIdx None) /\ dv_step (PD 1) cl (Some 0) (Some 0) d (DInsert 1 1 30) = Ok (d', MIdx (Some 2)) /\ d_st d' = SVec [10; 20; 30].
Proof.
  intros cl. destruct (dreach_chk (PD 1) cl (Some 0) (Some 0) (dv0 (PD 1) false) [DInsert 5 6 10; DInsert 7 8 20]) as [d|] eqn:E; [|destruct cl; vm_compute in E; discriminate].
  pose proof (dreach_run _ _ _ _ _ _ _ E) as Hr. exists d. destruct cl; vm_compute in E; injection E as <-; eexists; (split; [exact Hr|]);
    repeat (split; [first [vm_compute; discriminate|vm_compute; reflexivity]|]); vm_compute; reflexivity.
Qed.

(** ** C31
    Full statement: false for insert with one key in use in DualStringMappedVector and DualMappedPointerVector
    ([C31_dual_find_refuted]: insert reports success but find of that key denotes the old element). *)
Theorem C31_dual_insert_find_partial :
  forall (V K1 K2 : Type) `{Countable K1} `{Countable K2} P, 0 <= expo P <= 30 -> forall cl (kd1 : option K1) (kd2 : option K2) stb (d : dv V K1 K2) k1 k2 x,
  dreach P cl kd1 kd2 stb d -> (d_lk d (inl k1) = None /\ d_lk d (inr k2) = None) \/ (cl = CMap /\ ~ (used d (inl k1) /\ used d (inr k2))) ->
  exists xs d', holds P (d_st d) xs /\ dv_step P cl kd1 kd2 d (DInsert k1 k2 x) = Ok (d', MIdx (Some (zlen xs))) /\ holds P (d_st d') (xs ++ [x]) /\
    dfinds P cl kd1 kd2 d' (inl k1) x /\ dfinds P cl kd1 kd2 d' (inr k2) x /\ forall k, k <> inl k1 -> k <> inr k2 -> d_lk d' k = d_lk d k.
Proof.
  intros V K1 K2 ? ? ? ? P HP cl kd1 kd2 stb d k1 k2 x Hr Hu. destruct (dinsert_final P HP cl kd1 kd2 stb d k1 k2 x Hr) as (xs & Hx & A & B).
  destruct B as (d' & E & Hx' & Kp & L & F & _); [destruct Hu as [[U1 U2]|[_ U]]; [intros [U3 _]; contradiction|exact U]|].
  exists xs, d'. splits; try assumption; (apply F; [auto|destruct Hu as [[? ?]|[? _]]; auto]).
Qed.
Print Assumptions C31_dual_insert_find_partial.

Theorem C31_dual_assign_find :
  forall (V K1 K2 : Type) `{Countable K1} `{Countable K2} P, 0 <= expo P <= 30 -> forall cl (kd1 : option K1) (kd2 : option K2) stb (d : dv V K1 K2) k1 k2 x,
  dreach P cl kd1 kd2 stb d ->
  exists xs d' p, holds P (d_st d) xs /\ dv_step P cl kd1 kd2 d (DAssign k1 k2 x) = Ok (d', MIdx (Some p)) /\ st_kept P (d_st d) (d_st d') /\
    match asg_at cl d k1 k2 with
    | Some i => p = i /\ 0 <= i < zlen xs /\ holds P (d_st d') (<[Z.to_nat p := x]> xs)
    | None => p = zlen xs /\ holds P (d_st d') (xs ++ [x])
    end /\
    dfinds P cl kd1 kd2 d' (inl k1) x /\ dfinds P cl kd1 kd2 d' (inr k2) x /\ (forall k, k <> inl k1 -> k <> inr k2 -> d_lk d' k = d_lk d k).
Proof. intros V K1 K2 ? ? ? ? P HP cl kd1 kd2 stb d k1 k2 x. exact (dassign_final P HP cl kd1 kd2 stb d k1 k2 x). Qed.
Print Assumptions C31_dual_assign_find.

Theorem C31_dual_assign_one_find :
  forall (V K1 K2 : Type) `{Countable K1} `{Countable K2} P, 0 <= expo P <= 30 -> forall cl (kd1 : option K1) (kd2 : option K2) stb (d : dv V K1 K2) k x,
  dreach P cl kd1 kd2 stb d ->
  let o := match k with inl k1 => DAssign1 k1 x | inr k2 => DAssign2 k2 x end in
  exists xs d' p, holds P (d_st d) xs /\ dv_step P cl kd1 kd2 d o = Ok (d', MIdx (Some p)) /\ st_kept P (d_st d) (d_st d') /\
    match d_lk d k with
    | Some i => p = i /\ 0 <= i < zlen xs /\ holds P (d_st d') (<[Z.to_nat p := x]> xs)
    | None => p = zlen xs /\ holds P (d_st d') (xs ++ [x])
    end /\
    dfinds P cl kd1 kd2 d' k x /\ (forall k', k' <> k -> d_lk d' k' = d_lk d k').
Proof. intros V K1 K2 ? ? ? ? P HP cl kd1 kd2 stb d k x. exact (dassign_one_final P HP cl kd1 kd2 stb d k x). Qed.
Print Assumptions C31_dual_assign_one_find.

(** addSearchTerm(new, existing) and addSearchTermForIndex(new, index) *)
Theorem C31_dual_add_term :
  forall (V K1 K2 : Type) `{Countable K1} `{Countable K2} P cl (kd1 : option K1) (kd2 : option K2) (d : dv V K1 K2) k,
  (forall old, exists d' b, dv_step P cl kd1 kd2 d (DTerm k old) = Ok (d', MBool b) /\ d_st d' = d_st d /\
     (b = true <-> d_lk d k = None /\ used d old) /\ (b = true -> d_lk d' k = d_lk d old) /\ forall k', (b = false \/ k' <> k) -> d_lk d' k' = d_lk d k') /\
  (forall i, exists d' b, dv_step P cl kd1 kd2 d (DTermIdx k i) = Ok (d', MBool b) /\ d_st d' = d_st d /\
     (b = true <-> d_lk d k = None /\ i < st_size (d_st d)) /\ (b = true -> d_lk d' k = Some i) /\ forall k', (b = false \/ k' <> k) -> d_lk d' k' = d_lk d k').
Proof. intros V K1 K2 ? ? ? ? P cl kd1 kd2 d k. split; [intros old; exact (dterm_final P cl kd1 kd2 d k old)|intros i; exact (dterm_idx_final P cl kd1 kd2 d k i)]. Qed.
Print Assumptions C31_dual_add_term.

Theorem C31_dual_find_refuted :
  forall cl, cl <> CMap -> exists d d' : dv Z Z Z, dreach (PD 1) cl (Some 0) (Some 0) false d /\ d_lk d (inr 8) = None /\
  dv_step (PD 1) cl (Some 0) (Some 0) d (DInsert 5 8 20) = Ok (d', MIdx (Some 1)) /\ dv_step (PD 1) cl (Some 0) (Some 0) d' (DFind (inl 5)) = Ok (d', MVal (Some 10)).
Proof.
  intros cl Hc. destruct (dreach_chk (PD 1) cl (Some 0) (Some 0) (dv0 (PD 1) false) [DInsert 5 6 10]) as [d|] eqn:E; [|destruct cl; vm_compute in E; discriminate].
  pose proof (dreach_run _ _ _ _ _ _ _ E) as Hr. exists d. destruct cl; [congruence| |]; vm_compute in E; injection E as <-; eexists; (split; [exact Hr|]);
    repeat (split; [vm_compute; reflexivity|]); vm_compute; reflexivity.
Qed.
Print Assumptions C31_dual_find_refuted.

(** Reassigning with the second key of another element moves that key; the others stay. *)
Example C31_nonvacuous :
  exists d d' : dv Z Z Z, dreach (PD 1) CMap (Some 0) (Some 0) false d /\ d_lk d (inr 8) = Some 1 /\ asg_at CMap d 5 8 = Some 0 /\
  dv_step (PD 1) CMap (Some 0) (Some 0) d (DAssign 5 8 30) = Ok (d', MIdx (Some 0)) /\ d_st d' = SVec [30; 20] /\
  dv_step (PD 1) CMap (Some 0) (Some 0) d' (DFind (inr 8)) = Ok (d', MVal (Some 30)) /\ dv_step (PD 1) CMap (Some 0) (Some 0) d' (DFind (inl 7)) = Ok (d', MVal (Some 20)).
Proof.
  destruct (dreach_chk (PD 1) CMap (Some 0) (Some 0) (dv0 (PD 1) false) [DInsert 5 6 10; DInsert 7 8 20]) as [d|] eqn:E; [|vm_compute in E; discriminate].
  pose proof (dreach_run _ _ _ _ _ _ _ E) as Hr. exists d. vm_compute in E; injection E as <-; eexists; (split; [exact Hr|]);
    repeat (split; [vm_compute; reflexivity|]); vm_compute; reflexivity.
Qed.

(** ** C32
    [moved er i o]: the position [o] after removal of position [i]: none if it was [i], one less if larger and the element
    was taken out ([er]).  Full statement: DualMappedVector has it ([C32_map_removal]).  DualStringMappedVector collects the
    keys in a StableBlockVector and iterates over it, which is undefined when their number fills its table exactly
    ([C32_string_removal_refuted]); otherwise it has it. *)
Theorem C32_map_removal :
  forall (V K1 K2 : Type) `{Countable K1} `{Countable K2} P, 0 <= expo P <= 30 -> forall (kd1 : option K1) (kd2 : option K2) stb (d : dv V K1 K2) i o o1 o2,
  dreach P CMap kd1 kd2 stb d -> 0 <= i < st_size (d_st d) -> ord_ok (d_l1 d) o1 -> ord_ok (d_l2 d) o2 ->
  o = DRemoveIdx i o1 o2 \/ (exists k, o = DRemove k o1 o2 /\ d_lk d k = Some i) ->
  exists xs d', holds P (d_st d) xs /\ dv_step P CMap kd1 kd2 d o = Ok (d', MUnit) /\ holds P (d_st d') (without stb i xs) /\
    forall k, d_lk d' k = moved (erases stb (zlen xs) i) i (d_lk d k).
Proof.
  intros V K1 K2 ? ? ? ? P HP kd1 kd2 stb d i o o1 o2 Hr Hi Ho1 Ho2 Ho.
  assert (dv_step P CMap kd1 kd2 d o = dv_step P CMap kd1 kd2 d (DRemoveIdx i o1 o2)) as -> by (destruct Ho as [->|(k & -> & Ek)]; [reflexivity|apply dremove_by_key; congruence]).
  destruct (drem_final P HP CMap kd1 kd2 stb d i o1 o2) as [(_ & F & _)|(xs & d' & A & B & C & _ & _ & D)]; try assumption; [congruence|congruence|]. exists xs, d'. auto.
Qed.
Print Assumptions C32_map_removal.

(** A term that is not known, or an index past the end, removes nothing. *)
Theorem C32_removal_absent :
  forall (V K1 K2 : Type) `{Countable K1} `{Countable K2} P cl (kd1 : option K1) (kd2 : option K2) (d : dv V K1 K2) o1 o2,
  (forall k, d_lk d k = None -> dv_step P cl kd1 kd2 d (DRemove k o1 o2) = Ok (d, MUnit)) /\
  (forall i, st_size (d_st d) <= i -> dv_step P cl kd1 kd2 d (DRemoveIdx i o1 o2) = Ok (d, MUnit)).
Proof. intros V K1 K2 ? ? ? ? P cl kd1 kd2 d o1 o2. split; [intros k; apply dremove_same|intros i; apply dremove_idx_same]. Qed.
Print Assumptions C32_removal_absent.

Theorem C32_string_removal_partial :
  forall (V K1 K2 : Type) `{Countable K1} `{Countable K2} P, 0 <= expo P <= 30 -> forall (kd1 : option K1) (kd2 : option K2) (d : dv V K1 K2) i o o1 o2,
  dreach P CStr kd1 kd2 true d -> 0 <= i < st_size (d_st d) -> ord_ok (d_l1 d) o1 -> ord_ok (d_l2 d) o2 ->
  o = DRemoveIdx i o1 o2 \/ (exists k, o = DRemove k o1 o2 /\ d_lk d k = Some i) ->
  (dv_step P CStr kd1 kd2 d o = UB /\ (64 * bsz P <= terms_at (d_l1 d) i \/ 64 * bsz P <= terms_at (d_l2 d) i)) \/
  exists xs d', holds P (d_st d) xs /\ dv_step P CStr kd1 kd2 d o = Ok (d', MUnit) /\ holds P (d_st d') (without true i xs) /\
    forall k, d_lk d' k = moved (erases true (zlen xs) i) i (d_lk d k).
Proof.
  intros V K1 K2 ? ? ? ? P HP kd1 kd2 d i o o1 o2 Hr Hi Ho1 Ho2 Ho.
  assert (dv_step P CStr kd1 kd2 d o = dv_step P CStr kd1 kd2 d (DRemoveIdx i o1 o2)) as -> by (destruct Ho as [->|(k & -> & Ek)]; [reflexivity|apply dremove_by_key; congruence]).
  destruct (drem_final P HP CStr kd1 kd2 true d i o1 o2) as [(F & _ & G)|(xs & d' & A & B & C & _ & _ & D)]; try assumption; [congruence|left; auto|right; exists xs, d'; auto].
Qed.
Print Assumptions C32_string_removal_partial.

Fixpoint aliases (n : nat) : list (dop Z Z Z) := match n with O => [] | S n' => DTermIdx (inl (Z.of_nat n')) 0 :: aliases n' end.
Theorem C32_string_removal_refuted :
  exists (d : dv Z Z Z) o1, dreach (PD 0) CStr (Some 0) (Some 0) true d /\ ord_ok (d_l1 d) o1 /\ ord_ok (d_l2 d) [] /\ st_size (d_st d) = 1 /\
    dv_step (PD 0) CStr (Some 0) (Some 0) d (DRemoveIdx 0 o1 []) = UB.
Proof.
  destruct (chk_some (dreach_chk (PD 0) CStr (Some 0) (Some 0) (dv0 (PD 0) true) (DInsert0 1 :: aliases 64))
    (fun d => ordb (d_l1 d) (seqZ 0 64) && ordb (d_l2 d) [] && (st_size (d_st d) =? 1) && is_ub (dv_step (PD 0) CStr (Some 0) (Some 0) d (DRemoveIdx 0 (seqZ 0 64) []))))
    as (d & E & C); [vm_compute; reflexivity|].
  apply andb_prop in C as [C C4]. apply andb_prop in C as [C C3]. apply andb_prop in C as [C1 C2].
  exists d, (seqZ 0 64). splits; [eapply dreach_run; exact E|apply ordb_ok, C1|apply ordb_ok, C2|lia|apply is_ub_true, C4].
Qed.
Print Assumptions C32_string_removal_refuted.

(** Three elements, five terms; the second element, which has three of them, goes. *)
Definition three : list (dop Z Z Z) := [DInsert 5 6 10; DInsert 7 8 20; DTerm (inl 3) (inr 8); DInsert1 9 30].
Example C32_nonvacuous :
  (exists d d' : dv Z Z Z, dreach (PD 1) CMap (Some 0) (Some 0) false d /\ ord_ok (d_l1 d) [3; 9; 5; 7] /\ ord_ok (d_l2 d) [8; 6] /\ d_lk d (inl 3) = Some 1 /\
     dv_step (PD 1) CMap (Some 0) (Some 0) d (DRemove (inl 3) [3; 9; 5; 7] [8; 6]) = Ok (d', MUnit) /\ d_st d' = SVec [10; 30] /\
     d_lk d' (inl 3) = None /\ d_lk d' (inl 7) = None /\ d_lk d' (inr 8) = None /\ d_lk d' (inl 9) = Some 1 /\ d_lk d' (inl 5) = Some 0 /\ d_lk d' (inr 6) = Some 0) /\
  (exists d : dv Z Z Z, dreach (PD 1) CStr (Some 0) (Some 0) true d /\ ord_ok (d_l1 d) [3; 9; 5; 7] /\ ord_ok (d_l2 d) [8; 6] /\
     match dv_step (PD 1) CStr (Some 0) (Some 0) d (DRemove (inl 3) [3; 9; 5; 7] [8; 6]) with
     | Ok (d', _) => bool_decide (d_lk d' (inl 3) = None) && bool_decide (d_lk d' (inl 7) = None) && bool_decide (d_lk d' (inr 8) = None) && lkb d' (inl 9) 2 && lkb d' (inl 5) 0
     | _ => false
     end = true).
Proof.
  split.
  - destruct (dreach_chk (PD 1) CMap (Some 0) (Some 0) (dv0 (PD 1) false) three) as [d|] eqn:E; [|vm_compute in E; discriminate].
    pose proof (dreach_run _ _ _ _ _ _ _ E) as Hr. exists d. vm_compute in E; injection E as <-; eexists; (split; [exact Hr|]);
      repeat (split; [first [vm_compute; reflexivity|apply ordb_ok; vm_compute; reflexivity]|]); vm_compute; reflexivity.
  - destruct (chk_some (dreach_chk (PD 1) CStr (Some 0) (Some 0) (dv0 (PD 1) true) three)
      (fun d => ordb (d_l1 d) [3; 9; 5; 7] && ordb (d_l2 d) [8; 6] && match dv_step (PD 1) CStr (Some 0) (Some 0) d (DRemove (inl 3) [3; 9; 5; 7] [8; 6]) with
     | Ok (d', _) => bool_decide (d_lk d' (inl 3) = None) && bool_decide (d_lk d' (inl 7) = None) && bool_decide (d_lk d' (inr 8) = None) && lkb d' (inl 9) 2 && lkb d' (inl 5) 0
     | _ => false
     end)) as (d & E & C); [vm_compute; reflexivity|].
    apply andb_prop in C as [C C3]. apply andb_prop in C as [C1 C2]. exists d. splits; [eapply dreach_run; exact E|apply ordb_ok, C1|apply ordb_ok, C2|exact C3].
Qed.

(** ** C33
    Full statement: in every reachable state.  False ([C33_pointer_removal_refuted]): for an element without a key of one
    kind, the entry of the default key of that kind is erased if there is one, and for scalar keys an indeterminate value is
    read.  [has] says exactly when it is right; [C33_pointer_removal_sound]: nothing else can go wrong. *)
Theorem C33_pointer_removal_partial :
  forall (V K1 K2 : Type) `{Countable K1} `{Countable K2} P, 0 <= expo P <= 30 -> forall (kd1 : option K1) (kd2 : option K2) (d : dv V K1 K2) i o1 o2,
  dreach P CPtr kd1 kd2 false d -> 0 <= i < st_size (d_st d) -> ord_ok (d_l1 d) o1 -> ord_ok (d_l2 d) o2 ->
  (drem_right P CPtr kd1 kd2 d (DRemoveIdx i o1 o2) i <-> has kd1 (d_l1 d) i /\ has kd2 (d_l2 d) i) /\
  (forall k, d_lk d k = Some i -> drem_right P CPtr kd1 kd2 d (DRemove k o1 o2) i <-> match k with inl _ => has kd2 (d_l2 d) i | inr _ => has kd1 (d_l1 d) i end).
Proof.
  intros V K1 K2 ? ? ? ? P HP kd1 kd2 d i o1 o2 Hr Hi Ho1 Ho2. split.
  - exact (drem_ptr_final P HP CPtr kd1 kd2 false d i o1 o2 eq_refl Hr Hi Ho1 Ho2).
  - intros k Ek. exact (drem_ptr_key_final P HP CPtr kd1 kd2 false d k i o1 o2 eq_refl eq_refl Hr Ek Ho1 Ho2).
Qed.
Print Assumptions C33_pointer_removal_partial.

Theorem C33_pointer_removal_sound :
  forall (V K1 K2 : Type) `{Countable K1} `{Countable K2} P, 0 <= expo P <= 30 -> forall (kd1 : option K1) (kd2 : option K2) (d : dv V K1 K2) i o o1 o2 d' r,
  dreach P CPtr kd1 kd2 false d -> 0 <= i < st_size (d_st d) -> ord_ok (d_l1 d) o1 -> ord_ok (d_l2 d) o2 ->
  o = DRemoveIdx i o1 o2 \/ (exists k, o = DRemove k o1 o2 /\ d_lk d k = Some i) -> dv_step P CPtr kd1 kd2 d o = Ok (d', r) ->
  exists xs, holds P (d_st d) xs /\ holds P (d_st d') (delete (Z.to_nat i) xs) /\ forall k j, d_lk d' k = Some j -> moved true i (d_lk d k) = Some j.
Proof. intros V K1 K2 ? ? ? ? P HP kd1 kd2 d i o o1 o2 d' r. exact (drem_ptr_sound P HP CPtr kd1 kd2 false d i o o1 o2 d' r eq_refl eq_refl). Qed.
Print Assumptions C33_pointer_removal_sound.

(** (1) The element 20 has only a first key; removing it unlinks the second key 0 of the element 10.  (2) The same with an
    element without second key and scalar keys reads an indeterminate value. *)
Theorem C33_pointer_removal_refuted :
  (exists d d' : dv Z Z Z, dreach (PD 1) CPtr (Some 0) (Some 0) false d /\ d_st d = SVec [10; 20] /\ d_lk d (inr 0) = Some 0 /\ d_lk d (inl 7) = Some 1 /\
     ord_ok (d_l1 d) [5; 7] /\ ord_ok (d_l2 d) [0] /\
     dv_step (PD 1) CPtr (Some 0) (Some 0) d (DRemove (inl 7) [5; 7] [0]) = Ok (d', MUnit) /\ d_st d' = SVec [10] /\ d_lk d' (inr 0) = None) /\
  (exists d : dv Z Z Z, dreach (PD 1) CPtr (Some 0) None false d /\ d_st d = SVec [20] /\ d_lk d (inl 7) = Some 0 /\ ord_ok (d_l1 d) [7] /\ ord_ok (d_l2 d) [] /\
     dv_step (PD 1) CPtr (Some 0) None d (DRemove (inl 7) [7] []) = UB).
Proof.
  split.
  - destruct (dreach_chk (PD 1) CPtr (Some 0) (Some 0) (dv0 (PD 1) false) [DInsert 5 0 10; DInsert1 7 20]) as [d|] eqn:E; [|vm_compute in E; discriminate].
    pose proof (dreach_run _ _ _ _ _ _ _ E) as Hr. exists d. vm_compute in E; injection E as <-; eexists; (split; [exact Hr|]);
      repeat (split; [first [vm_compute; reflexivity|apply ordb_ok; vm_compute; reflexivity]|]); vm_compute; reflexivity.
  - destruct (dreach_chk (PD 1) CPtr (Some 0) (@None Z) (dv0 (PD 1) false) [DInsert1 7 20]) as [d|] eqn:E; [|vm_compute in E; discriminate].
    pose proof (dreach_run _ _ _ _ _ _ _ E) as Hr. exists d. vm_compute in E; injection E as <-; (split; [exact Hr|]);
      repeat (split; [first [vm_compute; reflexivity|apply ordb_ok; vm_compute; reflexivity]|]); vm_compute; reflexivity.
Qed.
Print Assumptions C33_pointer_removal_refuted.

Example C33_nonvacuous :
  exists d : dv Z Z Z, dreach (PD 1) CPtr (Some 0) (Some 0) false d /\ d_st d = SVec [10; 20; 30] /\ ord_ok (d_l1 d) [9; 5; 7] /\ ord_ok (d_l2 d) [8; 6] /\
  d_lk d (inl 7) = Some 1 /\ has (Some 0) (d_l1 d) 1 /\ has (Some 0) (d_l2 d) 1 /\ has (Some 0) (d_l2 d) 2 /\
  match dv_step (PD 1) CPtr (Some 0) (Some 0) d (DRemove (inl 7) [9; 5; 7] [8; 6]) with
  | Ok (d', _) => d_st d' = SVec [10; 30] /\ d_lk d' (inr 8) = None /\ d_lk d' (inl 9) = Some 1
  | _ => False
  end.
Proof.
  destruct (dreach_chk (PD 1) CPtr (Some 0) (Some 0) (dv0 (PD 1) false) [DInsert 5 6 10; DInsert 7 8 20; DInsert1 9 30]) as [d|] eqn:E; [|vm_compute in E; discriminate].
  pose proof (dreach_run _ _ _ _ _ _ _ E) as Hr. exists d. vm_compute in E; injection E as <-; (split; [exact Hr|]).
  split; [vm_compute; reflexivity|]. split; [apply ordb_ok; vm_compute; reflexivity|]. split; [apply ordb_ok; vm_compute; reflexivity|]. split; [vm_compute; reflexivity|].
  split; [left; exists 7; vm_compute; reflexivity|]. split; [left; exists 8; vm_compute; reflexivity|]. split; [right; exists 0; split; vm_compute; reflexivity|].
  vm_compute. split; [reflexivity|]. split; reflexivity.
Qed.

(** ** C34
    Stable storage (DualMappedPointerVector has none).  The only calls that do not run are those of C28 and C32 that read an
    indeterminate key or iterate over a full table. *)
Theorem C34_stable_removal_partial :
  forall (V K : Type) `{Countable K} P, 0 <= expo P <= 30 -> forall (kdef : option K) (m : mv V K) i k ord m' r,
  mreach P kdef true m -> mv_legal m (MRemoveIdx i ord) ->
  (mv_step P kdef m (MRemoveIdx i ord) = Ok (m', r) /\ i < st_size (m_st m)) \/
  (mv_step P kdef m (MRemove k ord) = Ok (m', r) /\ m_lk m !! k = Some i /\ i < st_size (m_st m)) ->
  exists xs, holds P (m_st m) xs /\ st_kept P (m_st m) (m_st m') /\
    (i <> zlen xs - 1 -> m_st m' = m_st m) /\ (i = zlen xs - 1 -> holds P (m_st m') (delete (Z.to_nat i) xs)).
Proof.
  intros V K ? ? P HP kdef m i k ord m' r Hr Hl Ho. destruct (remove_elems P HP kdef true m i k ord m' r Hr Hl Ho) as (xs & A & B & C & D).
  exists xs. splits; try assumption; [apply D; reflexivity|]. intros ->. unfold without, erases in B. rewrite Z.eqb_refl in B. exact B.
Qed.
Print Assumptions C34_stable_removal_partial.

Theorem C34_dual_stable_removal_partial :
  forall (V K1 K2 : Type) `{Countable K1} `{Countable K2} P, 0 <= expo P <= 30 -> forall cl (kd1 : option K1) (kd2 : option K2) (d : dv V K1 K2) i o o1 o2 d' r,
  cl <> CPtr -> dreach P cl kd1 kd2 true d -> 0 <= i < st_size (d_st d) -> ord_ok (d_l1 d) o1 -> ord_ok (d_l2 d) o2 ->
  o = DRemoveIdx i o1 o2 \/ (exists k, o = DRemove k o1 o2 /\ d_lk d k = Some i) -> dv_step P cl kd1 kd2 d o = Ok (d', r) ->
  exists xs, holds P (d_st d) xs /\ st_kept P (d_st d) (d_st d') /\
    (i <> zlen xs - 1 -> d_st d' = d_st d) /\ (i = zlen xs - 1 -> holds P (d_st d') (delete (Z.to_nat i) xs)).
Proof.
  intros V K1 K2 ? ? ? ? P HP cl kd1 kd2 d i o o1 o2 d' r Hc Hr Hi Ho1 Ho2 Ho E.
  assert (dv_step P cl kd1 kd2 d (DRemoveIdx i o1 o2) = Ok (d', r)) as E' by (destruct Ho as [->|(k & -> & Ek)]; [exact E|rewrite <- E; symmetry; apply dremove_by_key; congruence]).
  destruct (drem_final P HP cl kd1 kd2 true d i o1 o2 Hc Hr Hi Ho1 Ho2) as [(F & _)|(xs & d1 & A & B & C & D & G & _)]; [congruence|].
  rewrite E' in B. injection B as <- _. exists xs. splits; try assumption; [apply G; reflexivity|]. intros ->. unfold without, erases in C. rewrite Z.eqb_refl in C. exact C.
Qed.
Print Assumptions C34_dual_stable_removal_partial.

(** The calls that run: all of DualMappedVector's, and all of MappedVector's with keys that have a default value *)
Theorem C34_stable_removal_runs :
  (forall (V K : Type) `{Countable K} P, 0 <= expo P <= 30 -> forall (dk : K) (m : mv V K) i k ord, mreach P (Some dk) true m -> mv_legal m (MRemoveIdx i ord) ->
     (exists m' r, mv_step P (Some dk) m (MRemoveIdx i ord) = Ok (m', r)) /\ (exists m' r, mv_step P (Some dk) m (MRemove k ord) = Ok (m', r))) /\
  (forall (V K1 K2 : Type) `{Countable K1} `{Countable K2} P, 0 <= expo P <= 30 -> forall (kd1 : option K1) (kd2 : option K2) (d : dv V K1 K2) i k o1 o2,
     dreach P CMap kd1 kd2 true d -> 0 <= i -> ord_ok (d_l1 d) o1 -> ord_ok (d_l2 d) o2 ->
     (exists d' r, dv_step P CMap kd1 kd2 d (DRemoveIdx i o1 o2) = Ok (d', r)) /\ (exists d' r, dv_step P CMap kd1 kd2 d (DRemove k o1 o2) = Ok (d', r))).
Proof.
  split.
  - intros V K ? ? P HP dk m i k ord Hr [Hi Ho]. split; [apply (stable_remove_runs P HP (Some dk) dk m i ord eq_refl Hr Hi Ho)|exact (stable_remove_key_runs P HP (Some dk) m k ord Hr)].
  - intros V K1 K2 ? ? ? ? P HP kd1 kd2 d i k o1 o2 Hr Hi Ho1 Ho2.
    assert (Hx : forall j, 0 <= j -> exists d' r, dv_step P CMap kd1 kd2 d (DRemoveIdx j o1 o2) = Ok (d', r)).
    { intros j Hj. destruct (Z.le_gt_cases (st_size (d_st d)) j) as [Hge|Hlt]; [eexists _, _; apply dremove_idx_same; exact Hge|].
      destruct (drem_final P HP CMap kd1 kd2 true d j o1 o2) as [(_ & F & _)|(xs & d1 & _ & B & _)]; [congruence|exact Hr|lia|exact Ho1|exact Ho2|congruence|eauto]. }
    split; [apply Hx, Hi|]. destruct (d_lk d k) as [j|] eqn:Ek; [|eexists _, _; apply dremove_same; exact Ek].
    rewrite (dremove_by_key P CMap kd1 kd2 d o1 o2 k j); [|congruence|exact Ek]. apply Hx. apply (dreach_ok P HP CMap kd1 kd2 true d Hr) in Ek. lia.
Qed.
Print Assumptions C34_stable_removal_runs.

Example C34_nonvacuous :
  exists (m : mv Z Z) (d : dv Z Z Z), mreach (PD 0) (Some 0) true m /\ st_size (m_st m) = 3 /\ ord_ok (m_lk m) [2; 1; 0] /\
  is_ok (mv_step (PD 0) (Some 0) m (MRemoveIdx 1 [2; 1; 0])) = true /\ is_ok (mv_step (PD 0) (Some 0) m (MRemove 2 [2; 1; 0])) = true /\ m_lk m !! 2 = Some 2 /\
  dreach (PD 0) CStr (Some 0) (Some 0) true d /\ st_size (d_st d) = 3 /\ ord_ok (d_l1 d) [3; 9; 5; 7] /\ ord_ok (d_l2 d) [8; 6] /\
  is_ok (dv_step (PD 0) CStr (Some 0) (Some 0) d (DRemove (inl 3) [3; 9; 5; 7] [8; 6])) = true.
Proof.
  destruct (chk_some (reach_chk (PD 0) (Some 0) (mv0 (PD 0) true) [MInsert 0 10; MInsert 1 20; MInsert 2 30]) (fun m => (st_size (m_st m) =? 3) && ordb (m_lk m) [2; 1; 0] &&
    is_ok (mv_step (PD 0) (Some 0) m (MRemoveIdx 1 [2; 1; 0])) && is_ok (mv_step (PD 0) (Some 0) m (MRemove 2 [2; 1; 0])) && bool_decide (m_lk m !! 2 = Some 2))) as (m & E & C); [vm_compute; reflexivity|].
  apply andb_prop in C as [C C5]. apply andb_prop in C as [C C4]. apply andb_prop in C as [C C3]. apply andb_prop in C as [C1 C2]. apply bool_decide_eq_true in C5.
  destruct (chk_some (dreach_chk (PD 0) CStr (Some 0) (Some 0) (dv0 (PD 0) true) three) (fun d => (st_size (d_st d) =? 3) && ordb (d_l1 d) [3; 9; 5; 7] && ordb (d_l2 d) [8; 6] &&
    is_ok (dv_step (PD 0) CStr (Some 0) (Some 0) d (DRemove (inl 3) [3; 9; 5; 7] [8; 6])))) as (d & E' & D); [vm_compute; reflexivity|].
  apply andb_prop in D as [D D4]. apply andb_prop in D as [D D3]. apply andb_prop in D as [D1 D2].
  exists m, d. split; [eapply reach_run; exact E|]. split; [lia|]. split; [apply ordb_ok, C2|]. split; [exact C3|]. split; [exact C4|]. split; [exact C5|].
  split; [eapply dreach_run; exact E'|]. split; [lia|]. split; [apply ordb_ok, D2|]. split; [apply ordb_ok, D3|]. exact D4.
Qed.
