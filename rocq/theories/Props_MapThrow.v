(** Properties C78-C81: the mapped vectors when a call is left by an exception. *)
From stdpp Require Import gmap.
From Verif Require Import Base BlkHeap BlkIter VecModel VecSpec VecProofs VecWorld VecFinal VecThrow MapStore MapStoreProofs MapModel MapSpec MapProofs MapReach
  MapRel DualModel DualSpec DualProofs MapFinal DualReach MapCheck MapThrow MapThrow2 StrModel StrSpec StrProofs StrThrow.

Definition PT (n : Z) : params := Params n false false.
Definition is_ub {A} (o : outcome A) : bool := match o with UB => true | _ => false end.
Lemma is_ub_true {A} (o : outcome A) : is_ub o = true -> o = UB.
Proof. destruct o; cbn; congruence. Qed.
Lemma chk_some {A} (o : option A) (p : A -> bool) : match o with Some a => p a | None => false end = true -> exists a, o = Some a /\ p a = true.
Proof. destruct o; [eauto|discriminate]. Qed.

(** ** C78
    Full statement: a call of insert, insert_or_assign or addSearchTermForIndex that is left by an exception leaves the
    container as it was.  False ([C78_insert_throw_refuted]): if entering the key throws, the element stays, with no key
    ([as_fail]); and stable storage is broken by an element whose constructor throws ([C78_stable_broken]: so it is for every
    state) and by a missing first block ([st_survives] excludes the two).  In every other case the container goes on as if
    the call had not happened, or as if the element had been inserted without a key. *)
Theorem C78_insert_throw_partial :
  forall (V K : Type) `{Countable K} P, 0 <= expo P <= 30 -> forall (kdef : option K) stb (m : mv V K) a o f r,
  mgood P kdef stb m a -> st_survives P (m_st m) f -> mv_fail P m o f = Some r ->
  exists m', r = Ok m' /\ holds P (m_st m') (as_vals (as_fail a o f)) /\
    forall ops, mv_safe P kdef m' ops ->
      exists m'', mv_run P kdef m' ops = Ok (m'', (as_run stb (as_fail a o f) ops).2) /\ holds P (m_st m'') (as_vals (as_run stb (as_fail a o f) ops).1).
Proof.
  intros V K ? ? P HP kdef stb m a o f r Hg Hsv E. destruct (mgood_rel P HP kdef stb m a Hg) as [R Hb].
  destruct (mv_fail_ok P HP m a o f r R Hsv E) as (m' & -> & R' & Hb'). exists m'. split; [reflexivity|]. split; [apply ok_holds, R'; exact HP|].
  intros ops Hs. destruct (mv_run_ok P HP kdef ops m' _ R' Hs) as (m'' & E' & R'' & _). rewrite Hb', Hb in *. exists m''. split; [exact E'|]. apply ok_holds, R''; exact HP.
Qed.
Print Assumptions C78_insert_throw_partial.

(** Nothing, or the element without a key *)
Theorem C78_left_behind :
  forall (V K : Type) `{Countable K} (a : assoc V K) o f, as_fail a o f = a \/ exists x, as_fail a o f = as_add x [] a.
Proof. intros V K ? ? a o f. destruct o, f as [|p|n]; cbn; eauto. Qed.
Print Assumptions C78_left_behind.

(** When the call gets that far: the element is made and the key entered exactly if the key is not in use.  With a key in
    use insert_or_assign does not touch the storage, so whatever throws the container is as it was (stable storage
    included). *)
Theorem C78_reached :
  forall (V K : Type) `{Countable K} P, 0 <= expo P <= 30 -> forall (kdef : option K) stb (m : mv V K) a k x,
  mgood P kdef stb m a ->
  (is_Some (mv_fail P m (MInsert k x) (FPush PElem)) <-> a_tm a !! k = None) /\
  (is_Some (mv_fail P m (MInsert k x) (FKey 0)) <-> a_tm a !! k = None) /\
  (is_Some (mv_fail P m (MAssign k x) (FKey 0)) <-> a_tm a !! k = None) /\
  (a_tm a !! k <> None -> forall f r, mv_fail P m (MAssign k x) f = Some r \/ mv_fail P m (MInsert k x) f = Some r -> r = Ok m).
Proof.
  intros V K ? ? P HP kdef stb m a k x Hg. destruct (mgood_rel P HP kdef stb m a Hg) as [R _].
  pose proof (rel_lk_none P _ _ _ k R) as Hn. cbn beta in Hn. rewrite <- Hn. cbn [mv_fail]. unfold mv_push_fail, st_push_fail.
  assert (Hs : forall A (z : A), is_Some (Some z)) by (intros; eauto). assert (Hns : forall A, ~ is_Some (@None A)) by (intros A [? ?]; discriminate).
  split; [|split; [|split]].
  - destruct (m_lk m !! k); [split; [intros F; destruct (Hns _ F)|discriminate]|]. split; [reflexivity|]. intros _. destruct (m_st m); apply Hs.
  - destruct (m_lk m !! k); [split; [intros F; destruct (Hns _ F)|discriminate]|]. split; [reflexivity|]. intros _. apply Hs.
  - destruct (m_lk m !! k); [split; [intros F; destruct (Hns _ F)|discriminate]|]. split; [reflexivity|]. intros _. apply Hs.
  - destruct (m_lk m !! k) eqn:E; [|congruence]. intros _ f r Hr. destruct f as [|p|[|n]]; destruct Hr as [Hr|Hr]; congruence.
Qed.
Print Assumptions C78_reached.
(** Every call that looks a key up may be left by an exception of the hash or the comparison, and then nothing has changed. *)
Theorem C78_lookup_reached :
  forall (V K : Type) `{Countable K} P (m : mv V K) k x ord o, In o [MInsert k x; MAssign k x; MFind k; MFindP k; MRemove k ord] -> mv_fail P m o FFind = Some (Ok m).
Proof. intros V K ? ? P m k x ord o Ho. repeat (destruct Ho as [<-|Ho]; [reflexivity|]). destruct Ho. Qed.
Print Assumptions C78_lookup_reached.

Example C78_nonvacuous : forall stb,
  let ops := [MInsert 5 10; MInsert 6 20; MAlias 7 1] in
  let later := [MSize; MFind 8; MFind 6; MInsert 8 40; MFind 8; MBack] in
  exists m m', reach_chk (PT 0) (Some 0) (mv0 (PT 0) stb) ops = Some m /\ mgood (PT 0) (Some 0) stb m (as_run stb assoc0 ops).1 /\
    mv_fail (PT 0) m (MInsert 8 30) (FKey 0) = Some (Ok m') /\ mv_safe (PT 0) (Some 0) m' later /\
    map snd (as_run stb (as_fail (as_run stb assoc0 ops).1 (MInsert 8 30) (FKey 0)) later).2 =
      [MInt 3; MVal None; MVal (Some 20); MIdx (Some 3); MVal (Some 40); MVal (Some 40)] /\
    st_survives (PT 0) (m_st m) (FPush (PMem false)) /\ is_Some (mv_fail (PT 0) m (MInsert 8 30) (FPush (PMem false))).
Proof.
  intros stb. cbv zeta.
  destruct (history_final (PT 0) ltac:(cbn; lia) (Some 0) stb [MInsert 5 10; MInsert 6 20; MAlias 7 1]) as (m0 & E0 & _ & Hg); [apply mv_chk_ok; destruct stb; vm_compute; reflexivity|].
  destruct (reach_chk (PT 0) (Some 0) (mv0 (PT 0) stb) [MInsert 5 10; MInsert 6 20; MAlias 7 1]) as [m|] eqn:E; [|destruct stb; vm_compute in E; discriminate].
  assert (m0 = m) as ->.
  { destruct stb; vm_compute in E; injection E as <-; vm_compute in E0; injection E0 as <-; reflexivity. }
  exists m. destruct (chk_some (mv_fail (PT 0) m (MInsert 8 30) (FKey 0)) (fun q => match q with Ok m' => mv_chk (PT 0) (Some 0) m' [MSize; MFind 8; MFind 6; MInsert 8 40; MFind 8; MBack] | _ => false end)) as (q & Eq & Cq).
  { clear E0 Hg. destruct stb; vm_compute in E; injection E as <-; vm_compute; reflexivity. }
  destruct q as [m'| |]; try discriminate. exists m'. split; [reflexivity|]. split; [exact Hg|]. split; [exact Eq|]. split; [apply mv_chk_ok; exact Cq|].
  split; [destruct stb; vm_compute; reflexivity|]. clear - E. destruct stb; vm_compute in E; injection E as <-; (split; [|vm_compute; eauto]); cbn; [vm_compute; discriminate|exact I].
Qed.

(** Stable storage: if the constructor of the element throws, clear() afterwards destroys an element that does not exist. *)
Theorem C78_stable_broken :
  forall (V K : Type) `{Countable K} P, 0 <= expo P <= 30 -> triv P = false -> forall (kdef : option K) (m : mv V K) k x,
  mreach P kdef true m -> m_lk m !! k = None ->
  exists m', mv_fail P m (MInsert k x) (FPush PElem) = Some (Ok m') /\ mv_step P kdef m' MClear = UB.
Proof.
  intros V K ? ? P HP Ht kdef m k x Hr Hk. destruct (mreach_ok P HP kdef true m Hr) as ((xs & Hs) & _ & Hb).
  destruct m as [[ys|h v] lk]; [discriminate|]. destruct Hs as (ids & frees & Hv & _). pose proof HP as [HP0 _].
  destruct (vthrow_ok P HP0 _ _ _ _ _ Hv) as (h1 & v1 & t & ids1 & frees1 & E & Hroom & Hp & _ & Hi & _).
  exists (Mv (SBlk h1 v1) lk). cbn in Hk. cbn [mv_fail m_lk]. rewrite Hk. unfold mv_push_fail. cbn [m_st st_push_fail]. rewrite E. split; [reflexivity|].
  cbn [mv_step]. unfold mv_clear. cbn [m_st MapStore.st_step vec_step]. rewrite (vthrow_clear P _ _ _ _ _ _ Hroom Hp Hi Ht). reflexivity.
Qed.
Print Assumptions C78_stable_broken.

(** Unstable or stable: inserting key 5 into an empty container is left by an exception, and the size is 1. *)
Theorem C78_insert_throw_refuted :
  forall stb, exists m' : mv Z Z, mv_fail (PT 1) (mv0 (PT 1) stb) (MInsert 5 10) (FKey 0) = Some (Ok m') /\
    mgood (PT 1) (Some 0) stb (mv0 (PT 1) stb : mv Z Z) assoc0 /\ st_size (m_st (mv0 (PT 1) stb : mv Z Z)) = 0 /\ st_size (m_st m') = 1 /\ m_lk m' !! 5 = None.
Proof.
  intros stb. destruct (chk_some (mv_fail (PT 1) (mv0 (PT 1) stb) (MInsert 5 10) (FKey 0)) (fun q => match q with Ok m' => (st_size (m_st m') =? 1) && bool_decide (m_lk m' !! 5 = None) | _ => false end)) as (q & E & C);
    [destruct stb; vm_compute; reflexivity|]. destruct q as [m'| |]; try discriminate. apply andb_prop in C as [C1 C2]. apply bool_decide_eq_true in C2.
  exists m'. split; [exact E|]. split; [exists [], []; splits; try exact I; reflexivity|]. splits; [destruct stb; reflexivity|lia|exact C2].
Qed.
Print Assumptions C78_insert_throw_refuted.

(** ** C79
    The same for the two-key classes.  An element can be left without keys or with its first key only; insert_or_assign can
    have given an existing element its new value but not the second key ([as_dfail]). *)
Theorem C79_dual_throw_partial :
  forall (V K1 K2 : Type) `{Countable K1} `{Countable K2} P, 0 <= expo P <= 30 -> forall cl (kd1 : option K1) (kd2 : option K2) stb (d : dv V K1 K2) a o f r,
  dgood P cl kd1 kd2 stb d a -> st_survives P (d_st d) f -> dv_fail P cl d o f = Some r ->
  exists d', r = Ok d' /\ holds P (d_st d') (as_vals (as_dfail cl a o f)) /\
    forall ops, dv_safe P cl kd1 kd2 d' ops ->
      exists d'', dv_run P cl kd1 kd2 d' ops = Ok (d'', (as_drun cl stb (as_dfail cl a o f) ops).2) /\
        holds P (d_st d'') (as_vals (as_drun cl stb (as_dfail cl a o f) ops).1).
Proof.
  intros V K1 K2 ? ? ? ? P HP cl kd1 kd2 stb d a o f r Hg Hsv E. destruct (dgood_rel P HP cl kd1 kd2 stb d a Hg) as [R Hb].
  destruct (dv_fail_ok P HP cl d a o f r R Hsv E) as (d' & -> & R' & Hb'). exists d'. split; [reflexivity|]. split; [apply ok_holds, R'; exact HP|].
  intros ops Hs. destruct (dv_run_ok P HP cl kd1 kd2 ops d' _ R' Hs) as (d'' & E' & R'' & _). rewrite Hb', Hb in *. exists d''. split; [exact E'|]. apply ok_holds, R''; exact HP.
Qed.
Print Assumptions C79_dual_throw_partial.

(** When the two-key calls get that far, in terms of the keys in use *)
Theorem C79_reached :
  forall (V K1 K2 : Type) `{Countable K1} `{Countable K2} P, 0 <= expo P <= 30 -> forall cl (kd1 : option K1) (kd2 : option K2) stb (d : dv V K1 K2) a k1 k2 x,
  dgood P cl kd1 kd2 stb d a ->
  (forall n, is_Some (dv_fail P cl d (DInsert k1 k2 x) (FKey n)) <-> (n < 2)%nat /\ (a_tm a !! inl k1 = None \/ a_tm a !! inr k2 = None)) /\
  (is_Some (dv_fail P cl d (DInsert k1 k2 x) (FPush PElem)) <-> (a_tm a !! inl k1 = None \/ a_tm a !! inr k2 = None)) /\
  (forall n, is_Some (dv_fail P cl d (DInsert1 k1 x) (FKey n)) <-> n = 0%nat /\ a_tm a !! inl k1 = None) /\
  (forall n, is_Some (dv_fail P cl d (DInsert2 k2 x) (FKey n)) <-> n = 0%nat /\ a_tm a !! inr k2 = None) /\
  (forall f r, a_tm a !! inl k1 <> None -> dv_fail P cl d (DAssign1 k1 x) f = Some r \/ dv_fail P cl d (DInsert1 k1 x) f = Some r -> r = Ok d) /\
  (forall f r, a_tm a !! inr k2 <> None -> dv_fail P cl d (DAssign2 k2 x) f = Some r \/ dv_fail P cl d (DInsert2 k2 x) f = Some r -> r = Ok d).
Proof.
  intros V K1 K2 ? ? ? ? P HP cl kd1 kd2 stb d a k1 k2 x Hg. destruct (dgood_rel P HP cl kd1 kd2 stb d a Hg) as [R _].
  assert (Hn : forall k, d_lk d k = None <-> a_tm a !! k = None) by (intros k; exact (rel_lk_none P _ _ _ k R)).
  assert (Hs : forall A (z : A), is_Some (Some z)) by (intros; eauto). assert (Hns : forall A, ~ is_Some (@None A)) by (intros A [? ?]; discriminate).
  pose proof (Hn (inl k1)) as N1. pose proof (Hn (inr k2)) as N2. cbn [dv_fail]. unfold dv_insert_fail, dv_insert_one_fail, dv_assign_one_fail, dv_key_fail, dv_key_fail1, dv_push_fail, st_push_fail, d_new.
  assert (H1 : (exists i u, d_lk d (inl k1) = Some i /\ a_tm a !! inl k1 = Some u) \/ (d_lk d (inl k1) = None /\ a_tm a !! inl k1 = None)).
  { destruct (d_lk d (inl k1)) as [i|], (a_tm a !! inl k1) as [u|]; [left; eauto| | |right; auto]; exfalso; [destruct N1 as [_ N]|destruct N1 as [N _]]; discriminate (N eq_refl). }
  assert (H2 : (exists i u, d_lk d (inr k2) = Some i /\ a_tm a !! inr k2 = Some u) \/ (d_lk d (inr k2) = None /\ a_tm a !! inr k2 = None)).
  { destruct (d_lk d (inr k2)) as [i|], (a_tm a !! inr k2) as [u|]; [left; eauto| | |right; auto]; exfalso; [destruct N2 as [_ N]|destruct N2 as [N _]]; discriminate (N eq_refl). }
  clear N1 N2 Hn R Hg.
  destruct H1 as [(i1 & u1 & -> & ->)|(-> & ->)], H2 as [(i2 & u2 & -> & ->)|(-> & ->)]; cbn [negb andb];
    (split; [intros [|[|n]]; (split; [intros F; first [destruct (Hns _ F)|split; [lia|first [left; reflexivity|right; reflexivity]]]|intros [F1 F2]; first [lia|apply Hs|destruct F2; discriminate]])|]);
    (split; [split; [intros F; first [destruct (Hns _ F)|left; reflexivity|right; reflexivity]|intros F; first [destruct F; discriminate|destruct (d_st d); eexists; reflexivity]]|]);
    (split; [intros [|n]; (split; [intros F; first [destruct (Hns _ F)|split; reflexivity]|intros [F1 F2]; first [discriminate|apply Hs]])|]);
    (split; [intros [|n]; (split; [intros F; first [destruct (Hns _ F)|split; reflexivity]|intros [F1 F2]; first [discriminate|apply Hs]])|]);
    (split; intros [|p|[|n]] r Hne [Hr|Hr]; first [discriminate Hr|congruence]).
Qed.
Print Assumptions C79_reached.
Theorem C79_lookup_reached :
  forall (V K1 K2 : Type) `{Countable K1} `{Countable K2} P cl (d : dv V K1 K2) k1 k2 k old x o1 o2 i o,
  In o [DInsert k1 k2 x; DInsert1 k1 x; DInsert2 k2 x; DAssign k1 k2 x; DAssign1 k1 x; DAssign2 k2 x; DTermIdx k i; DTerm k old; DFind k; DRemove k o1 o2] ->
  dv_fail P cl d o FFind = Some (Ok d).
Proof. intros V K1 K2 ? ? ? ? P cl d k1 k2 k old x o1 o2 i o Ho. repeat (destruct Ho as [<-|Ho]; [reflexivity|]). destruct Ho. Qed.
Print Assumptions C79_lookup_reached.

Theorem C79_left_behind :
  forall (V K1 K2 : Type) `{Countable K1} `{Countable K2} cl (a : assoc V (K1 + K2)) o f,
    as_dfail cl a o f = a \/ (exists x, as_dfail cl a o f = as_add x [] a) \/
    (exists k1 k2 x, (o = DInsert k1 k2 x \/ o = DAssign k1 k2 x) /\ as_dfail cl a o f = as_add x [inl k1] a) \/
    (exists k1 k2 x u, o = DAssign k1 k2 x /\ a_tm a !! inl k1 = Some u /\ as_dfail cl a o f = as_put u x a).
Proof.
  intros V K1 K2 ? ? ? ? cl a o f. destruct o, f as [|p|[|n]]; cbn; try (left; reflexivity); try (right; left; eauto; fail).
  - destruct cl; try (right; right; left; eauto 10; fail); destruct (unused a (inl k1)); (right; right; left; eauto 10; fail) || (right; left; eauto).
  - destruct cl, (a_tm a !! inl k1) eqn:E; try (right; left; eauto; fail); right; right; right; eauto 10.
  - destruct cl, (a_tm a !! inl k1) eqn:E; try (right; right; left; eauto 10; fail); right; right; right; eauto 10.
Qed.
Print Assumptions C79_left_behind.

Example C79_nonvacuous : forall cl,
  let stb := match cl with CPtr => false | _ => true end in
  let ops := [DInsert 5 6 10; DInsert 7 8 20] in
  let later := [DSize; DFind (inl 1); DFind (inr 2); DFind (inr 8); DInsert 3 2 40; DFind (inr 2)] in
  exists d d', dreach_chk (PT 0) cl (Some 0) (Some 0) (dv0 (PT 0) stb) ops = Some d /\ dgood (PT 0) cl (Some 0) (Some 0) stb d (as_drun cl stb assoc0 ops).1 /\
    dv_fail (PT 0) cl d (DInsert 1 2 30) (FKey 1) = Some (Ok d') /\ dv_safe (PT 0) cl (Some 0) (Some 0) d' later /\
    map snd (as_drun cl stb (as_dfail cl (as_drun cl stb assoc0 ops).1 (DInsert 1 2 30) (FKey 1)) later).2 =
      [MInt 3; MVal (Some 30); MVal None; MVal (Some 20); MIdx (Some 3); MVal (Some 40)].
Proof.
  intros cl. cbv zeta.
  destruct (dhistory_final (PT 0) ltac:(cbn; lia) cl (Some 0) (Some 0) (match cl with CPtr => false | _ => true end) [DInsert 5 6 10; DInsert 7 8 20]) as (d0 & E0 & _ & Hg);
    [apply dv_chk_ok; destruct cl; vm_compute; reflexivity|].
  destruct (dreach_chk (PT 0) cl (Some 0) (Some 0) (dv0 (PT 0) (match cl with CPtr => false | _ => true end)) [DInsert 5 6 10; DInsert 7 8 20]) as [d|] eqn:E; [|destruct cl; vm_compute in E; discriminate].
  assert (d0 = d) as ->.
  { destruct cl; vm_compute in E; injection E as <-; vm_compute in E0; injection E0 as <-; reflexivity. }
  exists d. destruct (chk_some (dv_fail (PT 0) cl d (DInsert 1 2 30) (FKey 1)) (fun q => match q with Ok d' => dv_chk (PT 0) cl (Some 0) (Some 0) d' [DSize; DFind (inl 1); DFind (inr 2); DFind (inr 8); DInsert 3 2 40; DFind (inr 2)] | _ => false end)) as (q & Eq & Cq).
  { clear E0 Hg. destruct cl; vm_compute in E; injection E as <-; vm_compute; reflexivity. }
  destruct q as [d'| |]; try discriminate. exists d'. split; [reflexivity|]. split; [exact Hg|]. split; [exact Eq|]. split; [apply dv_chk_ok; exact Cq|].
  destruct cl; vm_compute; reflexivity.
Qed.

Theorem C79_stable_broken :
  forall (V K1 K2 : Type) `{Countable K1} `{Countable K2} P, 0 <= expo P <= 30 -> triv P = false -> forall cl (kd1 : option K1) (kd2 : option K2) (d : dv V K1 K2) x,
  dreach P cl kd1 kd2 true d ->
  exists d', dv_fail P cl d (DInsert0 x) (FPush PElem) = Some (Ok d') /\ dv_step P cl kd1 kd2 d' DClear = UB.
Proof.
  intros V K1 K2 ? ? ? ? P HP Ht cl kd1 kd2 d x Hr. destruct (dreach_ok P HP cl kd1 kd2 true d Hr) as ((xs & Hs) & Hb & _).
  destruct d as [[ys|h v] l1 l2]; [discriminate|]. destruct Hs as (ids & frees & Hv & _). pose proof HP as [HP0 _].
  destruct (vthrow_ok P HP0 _ _ _ _ _ Hv) as (h1 & v1 & t & ids1 & frees1 & E & Hroom & Hp & _ & Hi & _).
  exists (Dv (SBlk h1 v1) l1 l2). cbn [dv_fail]. unfold dv_push_fail. cbn [d_st st_push_fail]. rewrite E. split; [reflexivity|].
  cbn [dv_step]. unfold dv_clear. cbn [d_st MapStore.st_step vec_step]. rewrite (vthrow_clear P _ _ _ _ _ _ Hroom Hp Hi Ht). reflexivity.
Qed.
Print Assumptions C79_stable_broken.

(** The element is found under its first key only; and insert_or_assign, left by an exception, has changed the element. *)
Theorem C79_dual_throw_refuted :
  forall stb,
  (exists d' : dv Z Z Z, dv_fail (PT 1) CMap (dv0 (PT 1) stb) (DInsert 5 6 10) (FKey 1) = Some (Ok d') /\
     st_size (d_st d') = 1 /\ d_lk d' (inl 5) = Some 0 /\ d_lk d' (inr 6) = None) /\
  (exists (d d' : dv Z Z Z) s, dreach (PT 1) CMap (Some 0) (Some 0) stb d /\ d_lk d (inl 5) = Some 0 /\
     dv_fail (PT 1) CMap d (DAssign 5 7 20) (FKey 0) = Some (Ok d') /\ MapStore.st_step (PT 1) (d_st d') (VGet 0) = Ok (s, VVal 20) /\ d_lk d' (inr 7) = None).
Proof.
  intros stb. split.
  - destruct (chk_some (dv_fail (PT 1) CMap (dv0 (PT 1) stb) (DInsert 5 6 10) (FKey 1)) (fun q => match q with Ok d' => (st_size (d_st d') =? 1) && bool_decide (d_lk d' (inl 5) = Some 0) && bool_decide (d_lk d' (inr 6) = None) | _ => false end)) as (q & E & C);
      [destruct stb; vm_compute; reflexivity|]. destruct q as [d'| |]; try discriminate. apply andb_prop in C as [C C3]. apply andb_prop in C as [C1 C2].
    apply bool_decide_eq_true in C2, C3. exists d'. splits; try assumption. lia.
  - destruct (dreach_chk (PT 1) CMap (Some 0) (Some 0) (dv0 (PT 1) stb) [DInsert 5 6 10]) as [d|] eqn:E; [|destruct stb; vm_compute in E; discriminate].
    destruct (chk_some (dv_fail (PT 1) CMap d (DAssign 5 7 20) (FKey 0)) (fun q => match q with Ok d' => bool_decide (d_lk d (inl 5) = Some 0) &&
      match MapStore.st_step (PT 1) (d_st d') (VGet 0) with Ok (_, VVal 20) => true | _ => false end && bool_decide (d_lk d' (inr 7) = None) | _ => false end)) as (q & Eq & C).
    { destruct stb; vm_compute in E; injection E as <-; vm_compute; reflexivity. }
    destruct q as [d'| |]; try discriminate. apply andb_prop in C as [C C3]. apply andb_prop in C as [C1 C2]. apply bool_decide_eq_true in C1, C3.
    destruct (MapStore.st_step (PT 1) (d_st d') (VGet 0)) as [[s w]| |] eqn:Es; try discriminate. exists d, d', s. splits; try assumption; [eapply dreach_run; exact E|].
    repeat (match goal with H : context [match ?z with _ => _ end] |- _ => destruct z; try discriminate end). exact Es.
Qed.
Print Assumptions C79_dual_throw_refuted.

(** ** C80
    Full statement: a removal that is left by an exception leaves the container as it was, or has removed the element.
    Neither ([C80_removal_throw_refuted]): removeIndex takes the element out first and copies a key then.  If copying
    throws ([C80_removal_throw]), the element is gone, its key [k] is still there and denotes the element that follows, and
    the positions of all keys not yet visited are one too large.  The statement holds when the storage keeps the element
    (stable, not the last one): nothing has changed. *)
Theorem C80_removal_throw_partial :
  forall (V K : Type) `{Countable K} P (m : mv V K) i ord k r,
    takes_out (m_st m) i (st_size (m_st m)) = false -> mv_remove_throw P m i ord k = Some r -> r = Ok m.
Proof. intros V K ? ? P m i ord k r. exact (mv_remove_throw_stays P m i ord k r). Qed.
Print Assumptions C80_removal_throw_partial.

Theorem C80_dual_removal_throw_partial :
  forall (V K1 K2 : Type) `{Countable K1} `{Countable K2} P (d : dv V K1 K2) i o1 o2 k r,
    takes_out (d_st d) i (st_size (d_st d)) = false -> dv_remove_throw P d i o1 o2 k = Some r -> r = Ok d.
Proof. intros V K1 K2 ? ? ? ? P d i o1 o2 k r. exact (dv_remove_throw_stays P d i o1 o2 k r). Qed.
Print Assumptions C80_dual_removal_throw_partial.

Theorem C80_removal_throw :
  forall (V K : Type) `{Countable K} P, 0 <= expo P <= 30 -> forall (kdef : option K) stb (m : mv V K) i ord k r,
    mreach P kdef stb m -> NoDup ord -> takes_out (m_st m) i (st_size (m_st m)) = true -> mv_remove_throw P m i ord k = Some r ->
    exists m' xs, r = Ok m' /\ holds P (m_st m) xs /\ 0 <= i < zlen xs /\ holds P (m_st m') (delete (Z.to_nat i) xs) /\
      m_lk m !! k = Some i /\ m_lk m' !! k = Some i /\
      forall k', m_lk m' !! k' = if decide (k' ∈ ord) then match m_lk m !! k' with Some j => Some (if i <? j then j - 1 else j) | None => None end else m_lk m !! k'.
Proof. intros V K ? ? P HP kdef stb m i ord k r. exact (mv_remove_throw_ok P HP kdef stb m i ord k r). Qed.
Print Assumptions C80_removal_throw.

Theorem C80_dual_removal_throw :
  forall (V K1 K2 : Type) `{Countable K1} `{Countable K2} P, 0 <= expo P <= 30 -> forall cl (kd1 : option K1) (kd2 : option K2) stb (d : dv V K1 K2) i o1 o2 k r,
    dreach P cl kd1 kd2 stb d -> NoDup o1 -> NoDup o2 -> takes_out (d_st d) i (st_size (d_st d)) = true -> dv_remove_throw P d i o1 o2 k = Some r ->
    exists d' xs, r = Ok d' /\ holds P (d_st d) xs /\ 0 <= i < zlen xs /\ holds P (d_st d') (delete (Z.to_nat i) xs) /\
      d_lk d k = Some i /\ d_lk d' k = Some i /\
      forall k', d_lk d' k' = if decide (visited o1 o2 k k') then match d_lk d k' with Some j => Some (if i <? j then j - 1 else j) | None => None end else d_lk d k'.
Proof. intros V K1 K2 ? ? ? ? P HP cl kd1 kd2 stb d i o1 o2 k r. exact (dv_remove_throw_ok P HP cl kd1 kd2 stb d i o1 o2 k r). Qed.
Print Assumptions C80_dual_removal_throw.

(** DualMappedPointerVector, removal by key: the key is gone, the other key of the element is not. *)
Theorem C80_pointer_removal_throw :
  forall (V K1 K2 : Type) `{Countable K1} `{Countable K2} P, 0 <= expo P <= 30 -> forall (kd1 : option K1) (kd2 : option K2) (d : dv V K1 K2) k o1 o2 k' r,
    dreach P CPtr kd1 kd2 false d -> NoDup o1 -> NoDup o2 -> pv_remove_throw P d k o1 o2 k' = Some r ->
    exists d' xs i, r = Ok d' /\ holds P (d_st d) xs /\ 0 <= i < zlen xs /\ holds P (d_st d') (delete (Z.to_nat i) xs) /\
      d_lk d k = Some i /\ d_lk d' k = None /\ d_lk d k' = Some i /\ d_lk d' k' = Some i.
Proof.
  intros V K1 K2 ? ? ? ? P HP kd1 kd2 d k o1 o2 k' r Hr H1 H2 E.
  destruct (pv_remove_throw_ok P HP kd1 kd2 d k o1 o2 k' r Hr H1 H2 E) as (d' & xs & i & F). exists d', xs, i. tauto.
Qed.
Print Assumptions C80_pointer_removal_throw.

Example C80_partial_nonvacuous :
  match reach_chk (PT 0) (Some 0) (mv0 (PT 0) true) [MInsert 5 10; MInsert 6 20] with
  | Some m => takes_out (m_st m) 0 (st_size (m_st m)) = false /\ mv_remove_throw (PT 0) m 0 [6] 5 = Some (Ok m)
  | None => False
  end /\
  match dreach_chk (PT 0) CMap (Some 0) (Some 0) (dv0 (PT 0) true) [DInsert 5 6 10; DInsert 7 8 20] with
  | Some d => takes_out (d_st d) 0 (st_size (d_st d)) = false /\ dv_remove_throw (PT 0) d 0 [7; 5] [8] (inr 6) = Some (Ok d)
  | None => False
  end.
Proof. vm_compute. splits. Qed.

Definition lk_is (lk : gmap Z Z) (l : list (Z * Z)) : bool := bool_decide (lk = list_to_map l).

Example C80_nonvacuous :
  match dreach_chk (PT 0) CPtr (Some 0) (Some 0) (dv0 (PT 0) false) [DInsert 5 6 10; DInsert 7 8 20; DInsert 1 2 30] with
  | Some d =>
      takes_out (d_st d) 0 (st_size (d_st d)) = true /\
      match dv_remove_throw (PT 0) d 0 [7; 5; 1] [8] (inr 6), pv_remove_throw (PT 0) d (inl 5) [7; 5; 1] [] (inr 6) with
      | Some (Ok d1), Some (Ok d2) =>
          d_st d1 = MapStore.SVec [20; 30] /\ lk_is (d_l1 d1) [(5, 0); (7, 0); (1, 1)] = true /\ lk_is (d_l2 d1) [(6, 0); (8, 0); (2, 2)] = true /\
          d_st d2 = MapStore.SVec [20; 30] /\ lk_is (d_l1 d2) [(7, 0); (1, 1)] = true /\ lk_is (d_l2 d2) [(6, 0); (8, 1); (2, 2)] = true
      | _, _ => False
      end
  | None => False
  end.
Proof. vm_compute. splits. Qed.

(** Three elements 10, 20, 30 under 5, 6, 7; removeIndex(0) is left when the key 5 is copied after 7 was visited: the key of
    the removed element finds 20, and the key of 20 finds 30. *)
Theorem C80_removal_throw_refuted :
  exists m m' : mv Z Z, mreach (PT 1) (Some 0) false m /\ m_st m = MapStore.SVec [10; 20; 30] /\ m_lk m !! 5 = Some 0 /\ m_lk m !! 6 = Some 1 /\
    mv_remove_throw (PT 1) m 0 [7] 5 = Some (Ok m') /\ m_st m' = MapStore.SVec [20; 30] /\
    mv_step (PT 1) (Some 0) m' (MFind 5) = Ok (m', MVal (Some 20)) /\ mv_step (PT 1) (Some 0) m' (MFind 6) = Ok (m', MVal (Some 30)).
Proof.
  destruct (reach_chk (PT 1) (Some 0) (mv0 (PT 1) false) [MInsert 5 10; MInsert 6 20; MInsert 7 30]) as [m|] eqn:E; [|vm_compute in E; discriminate].
  destruct (mv_remove_throw (PT 1) m 0 [7] 5) as [[m'| |]|] eqn:E'.
  2-4: vm_compute in E; injection E as <-; vm_compute in E'; discriminate.
  exists m, m'. pose proof (reach_run _ _ _ _ _ E) as Hr. split; [exact Hr|]. clear Hr.
  vm_compute in E. injection E as <-. vm_compute in E'. injection E' as <-. vm_compute. splits.
Qed.
Print Assumptions C80_removal_throw_refuted.

(** ** C81
    Full statement: an exception out of storing a search term leaves a StringMappedVector or DualStringMappedVector usable.
    False ([C81_text_throw_refuted]; [C81_text_throw]: for every reachable state): [names] is a StableBlockVector, so if
    the string cannot be built (no memory for its characters) the destructor destroys a string that does not exist.  Until
    then every look-up answers as before.  If instead the table or a block of [names] (other than its very first block) or the
    entry of [lookup] cannot be allocated, the container goes on: its dictionary is what it was, and an element added by the
    call has no text. *)
Definition text_survives (P : params) (s : svec) (f : tfault) : Prop :=
  match f with TText => False | TMem false => s_names s <> vec_default P | _ => True end.

Theorem C81_text_throw_partial :
  forall (T : Type) `{Countable T} P, 0 <= expo P -> forall (empty_text : T) (dual : bool) ps,
    st_ok ∅ ps -> Forall no_copy ps ->
    exists w tr A, swrun P empty_text dual sworld0 ps = Ok (w, tr) /\ st_trace empty_text dual ∅ tr A /\
      forall o n m t added f r, A !! o = Some (Some (n, m)) ->
        (forall s, sw_objs w !! o = Some s -> text_survives P s f) -> sw_fail P w o t added f = Some r ->
        exists w', r = Ok w' /\
          forall ps', st_ok (stat A) ps' -> Forall no_copy ps' ->
            exists w'' tr' A', swrun P empty_text dual w' ps' = Ok (w'', tr') /\ map fst tr' = ps' /\
              st_trace empty_text dual (<[o := Some (if added then n + 1 else n, m)]> A) tr' A'.
Proof.
  intros T ? ? P HP et du ps Hok Hnc. rewrite <- (stat0 (T := T)) in Hok.
  destruct (sw_run_ok P HP et du ps _ _ _ (sw_inv0 P HP) Hok Hnc) as (w & tr & A & G & E & Ht & Htr & Hw).
  exists w, tr, A. splits; try assumption. intros o n m t added f r Ha Hsv Ef.
  destruct (sw_fail_ok P HP w A G o n m t added f r Hw Ha Hsv Ef) as (w' & G' & -> & Hw'). exists w'. split; [reflexivity|].
  intros ps' Hok' Hnc'. rewrite <- (stat_fail A o (if added then n + 1 else n, m) (ex_intro _ _ Ha)) in Hok'.
  destruct (sw_run_ok P HP et du ps' _ _ _ Hw' Hok' Hnc') as (w'' & tr' & A' & G'' & E' & Ht' & Htr' & _). exists w'', tr', A'. splits; assumption.
Qed.
Print Assumptions C81_text_throw_partial.

Theorem C81_text_throw :
  forall (T : Type) `{Countable T} P, 0 <= expo P -> triv P = false -> forall (empty_text : T) (dual : bool) ps,
    st_ok ∅ ps -> Forall no_copy ps ->
    exists w tr A, swrun P empty_text dual sworld0 ps = Ok (w, tr) /\ st_trace empty_text dual ∅ tr A /\
      forall o n m t added, A !! o = Some (Some (n, m)) ->
        exists w' s s', sw_fail P w o t added TText = Some (Ok w') /\ sw_objs w !! o = Some s /\ sw_objs w' !! o = Some s' /\
          (forall u, sfind (sw_heap w') (s_nodes s') u = sfind (sw_heap w) (s_nodes s) u) /\
          swstep P empty_text dual w' (SDestroy o) = UB.
Proof.
  intros T ? ? P HP Htv et du ps Hok Hnc. rewrite <- (stat0 (T := T)) in Hok.
  destruct (sw_run_ok P HP et du ps _ _ _ (sw_inv0 P HP) Hok Hnc) as (w & tr & A & G & E & Ht & Htr & Hw).
  exists w, tr, A. splits; try assumption. intros o n m t added Ha.
  destruct (sw_throw_ok P HP et du w A G o n m t added Hw Ha) as (w' & s & s' & E1 & E2 & E3 & E4 & E5 & E6). exists w', s, s'. rewrite E4. splits; auto.
Qed.
Print Assumptions C81_text_throw.

Global Instance sret_eq_dec : EqDecision sret.
Proof. solve_decision. Defined.
Definition chk {A : Type} (x : outcome A) (f : A -> bool) : bool := match x with Ok a => f a | _ => false end.
Definition chko {A : Type} (x : option (outcome A)) (f : A -> bool) : bool := match x with Some y => chk y f | _ => false end.

(** No memory for the second block of [names] when text 6 is stored; then everything goes on (and the destructor works). *)
Example C81_nonvacuous :
  let ps := [SNew 0%nat; SInsert 0%nat 5%nat] in
  let ps' := [SFind 0%nat 6%nat; SFind 0%nat 5%nat; SInsert 0%nat 6%nat; SFind 0%nat 6%nat; SDestroy 0%nat] in
  (st_ok ∅ (ps ++ ps') /\ Forall no_copy (ps ++ ps')) /\
  chk (swrun (PT 0) 0%nat false sworld0 ps) (fun '(w, _) =>
    match sw_objs w !! 0%nat with Some s => negb (v_bsize (s_names s) =? v_bsize (vec_default (PT 0)) + 1) && negb (v_slots (s_names s) =? 0) | None => false end &&
    chko (sw_fail (PT 0) w 0%nat 6%nat true (TMem false)) (fun w' =>
      chk (swrun (PT 0) 0%nat false w' ps') (fun '(_, tr) => bool_decide (map snd tr = [SNone; SIdx 0; SIdx 2; SIdx 2; SUnit]))) &&
    chko (sw_fail (PT 0) w 0%nat 6%nat true TNode) (fun w' =>
      chk (swrun (PT 0) 0%nat false w' ps') (fun '(_, tr) => bool_decide (map snd tr = [SNone; SIdx 0; SIdx 2; SIdx 2; SUnit])))) = true.
Proof.
  cbv zeta. split; [split; [apply (bool_decide_unpack _); vm_compute; exact I|repeat constructor]|vm_compute; reflexivity].
Qed.

(** The very first insert, left because the string cannot be built; then the container is destroyed. *)
Theorem C81_text_throw_refuted :
  exists w w' tr, swrun (PT 5) 0%nat false sworld0 [SNew 0%nat] = Ok (w, tr) /\ sw_fail (PT 5) w 0%nat 6%nat true TText = Some (Ok w') /\
    swstep (PT 5) 0%nat false w' (SDestroy 0%nat) = UB.
Proof.
  eexists _, _, _. split; [reflexivity|]. split; [vm_compute; reflexivity|]. vm_compute. reflexivity.
Qed.
Print Assumptions C81_text_throw_refuted.
