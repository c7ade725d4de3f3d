(** The mapped vectors when a removal is left by an exception.

    Simplifications: erasing an element of dataStorage and changing a position stored in a lookup map do not throw; what can
    throw is copying a key (ind = el2.first, ind1.push_back(searchterm.first)).  In StringMappedVector the keys copied are
    views, which does not throw.  In DualStringMappedVector the keys are collected in a local StableBlockVector; that its
    destructor can go wrong when a block cannot be allocated is C62. *)
From stdpp Require Import gmap.
From Verif Require Import Base BlkHeap BlkIter VecModel VecSpec VecProofs VecWorld VecFinal MapStore MapStoreProofs MapModel MapSpec MapRel MapProofs MapReach
  MapFinal DualModel DualSpec DualProofs DualReach.

(** ** Model *)
Section model.
Context {V : Type}.
Variable P : params.

(** removeIndex left while the key [k] is copied; the loop has visited the keys [ord] and not [k] yet.
    MV:133-145, MPV:135-147.  [None]: the key is not copied. *)
Definition mv_remove_throw `{Countable K} (m : mv V K) i (ord : list K) (k : K) : option (outcome (mv V K)) :=
  if (st_size (m_st m) <=? i) || negb (bool_decide (m_lk m !! k = Some i)) || bool_decide (k ∈ ord) then None
  else Some ('(s, er) <-! st_erase P (m_st m) i ;; Ok (Mv s (mp_shift er i ord (m_lk m) None).1)).

Section two.
Context `{Countable K1} `{Countable K2}.
Notation dv := (dv V K1 K2).
Implicit Types d : dv.

(** removeIndex left while the key [k] is copied: in the first loop, which has visited [o1]; or in the second, which has
    visited [o2] after the first went through all keys, [o1].  No entry has been deleted.
    DMV:302-324, DSMV:309-330, DMPV:250-270; remove by a key of DMV and DSMV calls removeIndex. *)
Definition dv_remove_throw d i (o1 : list K1) (o2 : list K2) (k : K1 + K2) : option (outcome dv) :=
  if (st_size (d_st d) <=? i) || negb (bool_decide (d_lk d k = Some i)) then None
  else match k with
       | inl k1 => if bool_decide (k1 ∈ o1) then None
                   else Some ('(s, er) <-! st_erase P (d_st d) i ;; Ok (Dv s (mp_shift er i o1 (d_l1 d) None).1 (d_l2 d)))
       | inr k2 => if bool_decide (k2 ∈ o2) then None
                   else Some ('(s, er) <-! st_erase P (d_st d) i ;;
                              Ok (Dv s (mp_shift er i o1 (d_l1 d) None).1 (mp_shift er i o2 (d_l2 d) None).1))
       end.

(** DualMappedPointerVector: remove by a key, left while the other key, [k'], is copied.  DMPV:280-302, 308-330 *)
Definition pv_remove_throw d (k : K1 + K2) (o1 : list K1) (o2 : list K2) (k' : K1 + K2) : option (outcome dv) :=
  match d_lk d k with
  | None => None
  | Some i =>
      if negb (bool_decide (d_lk d k' = Some i)) then None
      else match k, k' with
           | inl k1, inr k2 => if bool_decide (k2 ∈ o2) then None
                               else Some ('(s, _) <-! st_erase P (d_st d) i ;;
                                          Ok (Dv s (delete k1 (mp_dec i o1 (d_l1 d))) (mp_shift true i o2 (d_l2 d) None).1))
           | inr k2, inl k1 => if bool_decide (k1 ∈ o1) then None
                               else Some ('(s, _) <-! st_erase P (d_st d) i ;;
                                          Ok (Dv s (mp_shift true i o1 (d_l1 d) None).1 (delete k2 (mp_dec i o2 (d_l2 d)))))
           | _, _ => None
           end
  end.
End two.
End model.

(** ** Proofs *)
Section loop.
Context `{Countable K}.
Lemma mp_shift_false i ord : forall (lk : gmap K Z) ind, (mp_shift false i ord lk ind).1 = lk.
Proof.
  induction ord as [|k ord IH]; intros lk ind; cbn [mp_shift andb]; [reflexivity|]. destruct (lk !! k) as [j|]; [|apply IH].
  destruct (j =? i); apply IH.
Qed.
End loop.

(** Does removing the element at [i] of [n] take it out of the storage? *)
Definition takes_out {V} (s : store V) (i n : Z) : bool := negb (st_stable s && negb (i =? n - 1)).

Lemma st_erase_stays {V} P (s : store V) i : takes_out s i (st_size s) = false -> st_erase P s i = Ok (s, false).
Proof.
  unfold takes_out. destruct s as [xs|h v]; cbn; [discriminate|]. destruct (i =? _); [discriminate|reflexivity].
Qed.

Section one.
Context {V : Type} `{Countable K}.
Variable P : params.
Hypothesis HP : 0 <= expo P <= 30.
Variable kdef : option K.
Implicit Types (m : mv V K).

Lemma mv_remove_throw_stays m i ord k r :
  takes_out (m_st m) i (st_size (m_st m)) = false -> mv_remove_throw P m i ord k = Some r -> r = Ok m.
Proof.
  intros Hk. unfold mv_remove_throw. destruct (_ || _); [discriminate|]. intros [= <-]. rewrite st_erase_stays by exact Hk. cbn [obind].
  rewrite mp_shift_false. destruct m; reflexivity.
Qed.

Lemma mv_remove_throw_ok stb m i ord k r : mreach P kdef stb m -> NoDup ord ->
  takes_out (m_st m) i (st_size (m_st m)) = true -> mv_remove_throw P m i ord k = Some r ->
  exists m' xs, r = Ok m' /\ holds P (m_st m) xs /\ 0 <= i < zlen xs /\ holds P (m_st m') (delete (Z.to_nat i) xs) /\ m_lk m !! k = Some i /\ m_lk m' !! k = Some i /\
    forall k', m_lk m' !! k' = if decide (k' ∈ ord) then dec1 true i (m_lk m !! k') else m_lk m !! k'.
Proof.
  intros Hr Hnd Ht. destruct (mreach_ok P HP kdef stb m Hr) as ((xs & Hs) & Hn & Hb). pose proof (st_ok_size P _ _ Hs) as Hz.
  unfold mv_remove_throw. destruct (Z.leb_spec (st_size (m_st m)) i); [discriminate|]. cbn [orb].
  case_bool_decide as Hk; [|discriminate]. cbn [negb orb]. case_bool_decide as Hko; [discriminate|]. intros [= <-]. specialize (Hn _ _ Hk).
  destruct (st_erase_ok P HP _ _ i Hs) as (s' & E & Hs' & _); [lia|]. rewrite <- Hz in E. fold (takes_out (m_st m) i (st_size (m_st m))) in E.
  rewrite Ht in E. rewrite E. cbn [obind]. eexists _, xs. split; [reflexivity|]. pose proof (mp_shift_ok true i ord (m_lk m) None Hnd) as [Hlk _].
  splits; try assumption; try lia; [apply ok_holds; assumption| |].
  - cbn. apply ok_holds; [assumption|]. unfold st_erased in Hs'. unfold takes_out in Ht. rewrite Hz in Ht. destruct (_ && _); [discriminate|exact Hs'].
  - cbn. rewrite Hlk, decide_False by assumption. exact Hk.
Qed.
End one.

Section two.
Context {V : Type} `{Countable K1} `{Countable K2}.
Variable P : params.
Hypothesis HP : 0 <= expo P <= 30.
Variable cl : dcls.
Variable kd1 : option K1.
Variable kd2 : option K2.
Implicit Types (d : dv V K1 K2).

Lemma dv_remove_throw_stays d i o1 o2 k r :
  takes_out (d_st d) i (st_size (d_st d)) = false -> dv_remove_throw P d i o1 o2 k = Some r -> r = Ok d.
Proof.
  intros Hk. unfold dv_remove_throw. destruct (_ || _); [discriminate|]. rewrite st_erase_stays by exact Hk. cbn [obind]. rewrite !mp_shift_false.
  destruct k; destruct (bool_decide _); try discriminate; intros [= <-]; destruct d; reflexivity.
Qed.

(** The keys visited when the loop in which [k] stands is left *)
Definition visited (o1 : list K1) (o2 : list K2) (k k' : K1 + K2) : Prop :=
  match k, k' with
  | _, inl k1 => k1 ∈ o1
  | inl _, inr _ => False
  | inr _, inr k2 => k2 ∈ o2
  end.
Global Instance visited_dec o1 o2 k k' : Decision (visited o1 o2 k k').
Proof. destruct k, k'; cbn; apply _. Defined.

Lemma dv_remove_throw_ok stb d i o1 o2 k r : dreach P cl kd1 kd2 stb d -> NoDup o1 -> NoDup o2 ->
  takes_out (d_st d) i (st_size (d_st d)) = true -> dv_remove_throw P d i o1 o2 k = Some r ->
  exists d' xs, r = Ok d' /\ holds P (d_st d) xs /\ 0 <= i < zlen xs /\ holds P (d_st d') (delete (Z.to_nat i) xs) /\ d_lk d k = Some i /\ d_lk d' k = Some i /\
    forall k', d_lk d' k' = if decide (visited o1 o2 k k') then dec1 true i (d_lk d k') else d_lk d k'.
Proof.
  intros Hr Hnd1 Hnd2 Ht. destruct (dreach_ok P HP cl kd1 kd2 stb d Hr) as ((xs & Hs) & Hb & Hn & _). pose proof (st_ok_size P _ _ Hs) as Hz.
  unfold dv_remove_throw. destruct (Z.leb_spec (st_size (d_st d)) i); [discriminate|]. cbn [orb].
  case_bool_decide as Hk; [|discriminate]. cbn [negb]. specialize (Hn _ _ Hk).
  destruct (st_erase_ok P HP _ _ i Hs) as (s' & E & Hs' & _); [lia|]. rewrite <- Hz in E. fold (takes_out (d_st d) i (st_size (d_st d))) in E.
  rewrite Ht in E. rewrite E. cbn [obind]. pose proof (mp_shift_ok true i o1 (d_l1 d) None Hnd1) as [Hl1 _]. pose proof (mp_shift_ok true i o2 (d_l2 d) None Hnd2) as [Hl2 _].
  assert (Hh : holds P s' (delete (Z.to_nat i) xs)).
  { apply ok_holds; [assumption|]. unfold st_erased in Hs'. unfold takes_out in Ht. rewrite Hz in Ht. destruct (_ && _); [discriminate|exact Hs']. }
  pose proof (ok_holds P _ _ HP Hs) as Hh0.
  destruct k as [k|k]; case_bool_decide as Hko; try discriminate; intros [= <-]; eexists _, xs; splits; try assumption; try lia.
  - cbn. rewrite Hl1, decide_False by assumption. exact Hk.
  - intros [k'|k']; cbn; [apply Hl1|reflexivity].
  - cbn. rewrite Hl2, decide_False by assumption. exact Hk.
  - intros [k'|k']; cbn; [apply Hl1|apply Hl2].
Qed.

Global Instance mem2_dec (o1 : list K1) (o2 : list K2) (k : K1 + K2) : Decision (match k with inl u => u ∈ o1 | inr u => u ∈ o2 end).
Proof. destruct k; apply _. Defined.

Lemma pv_remove_throw_ok d k o1 o2 k' r : dreach P CPtr kd1 kd2 false d -> NoDup o1 -> NoDup o2 ->
  pv_remove_throw P d k o1 o2 k' = Some r ->
  exists d' xs i, r = Ok d' /\ holds P (d_st d) xs /\ 0 <= i < zlen xs /\ holds P (d_st d') (delete (Z.to_nat i) xs) /\
    d_lk d k = Some i /\ d_lk d' k = None /\ d_lk d k' = Some i /\ d_lk d' k' = Some i /\
    forall k'', k'' <> k -> d_lk d' k'' = if decide (match k'' with inl u => u ∈ o1 | inr u => u ∈ o2 end) then dec1 true i (d_lk d k'') else d_lk d k''.
Proof.
  intros Hr Hnd1 Hnd2. destruct (dreach_ok P HP CPtr kd1 kd2 false d Hr) as ((xs & Hs) & Hb & Hn & _). pose proof (st_ok_size P _ _ Hs) as Hz.
  unfold pv_remove_throw. destruct (d_lk d k) as [i|] eqn:Ei; [|discriminate]. case_bool_decide as Hk; [|discriminate]. cbn [negb].
  pose proof (Hn _ _ Ei) as Hi.
  destruct (st_erase_ok P HP _ _ i Hs) as (s' & E & Hs' & _); [lia|]. rewrite Hb in E. cbn [andb negb] in E. rewrite E. cbn [obind].
  unfold st_erased in Hs'. rewrite Hb in Hs'. cbn [andb] in Hs'.
  pose proof (mp_shift_ok true i o1 (d_l1 d) None Hnd1) as [Hl1 _]. pose proof (mp_shift_ok true i o2 (d_l2 d) None Hnd2) as [Hl2 _].
  pose proof (ok_holds P _ _ HP Hs') as Hh. pose proof (ok_holds P _ _ HP Hs) as Hh0.
  destruct k as [k|k], k' as [k'|k']; try discriminate; case_bool_decide as Hko; try discriminate; intros [= <-]; eexists _, xs, i; splits; try assumption; try lia.
  - cbn. apply lookup_delete.
  - cbn. rewrite Hl2, decide_False by assumption. exact Hk.
  - intros [u|u] Hne; cbn; [|apply Hl2]. rewrite lookup_delete_ne by congruence. rewrite (mp_dec_shift i o1 (d_l1 d) None). apply Hl1.
  - cbn. apply lookup_delete.
  - cbn. rewrite Hl1, decide_False by assumption. exact Hk.
  - intros [u|u] Hne; cbn; [apply Hl1|]. rewrite lookup_delete_ne by congruence. rewrite (mp_dec_shift i o2 (d_l2 d) None). apply Hl2.
Qed.
End two.
