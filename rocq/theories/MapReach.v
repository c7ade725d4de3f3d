(** States of the mapped vectors reached by any legal calls (also calls after which the search terms are wrong), and facts
    about the specification that the theorems state in terms of [as_find]. *)
From stdpp Require Import gmap.
From Verif Require Import Base BlkHeap BlkProofs BlkMore BlkRun BlkIter BlkIterProofs VecModel VecSpec VecProofs VecWorld VecFinal
  MapStore MapStoreProofs MapModel MapSpec MapRel MapProofs.

Section reach.
Context {V : Type} `{Countable K}.
Variable P : params.
Hypothesis HP : 0 <= expo P <= 30.
Variable kdef : option K.
Implicit Types (m : mv V K) (s : store V).

Lemma full_end_ub h v xs ids frees : vgood P h v xs ids frees -> vfull P v -> vec_end P (V := V) h v = UB.
Proof.
  intros [Hv _] Hf. destruct Hv as [(-> & _)|(t & Hl)]; [destruct Hf as (A & _); cbn in A; congruence|].
  pose proof HP as [HP1 HP2]. pose proof (B_pos P HP1) as HB. pose proof Hf as (_ & F1 & F2).
  assert (Hz : zlen xs = v_slots v * bsz P) by (destruct Hl as (_ & _ & _ & _ & _ & Hz & _); rewrite Hz, F1, <- F2; lia).
  rewrite (vend_pos P HP1 _ _ _ _ _ _ Hl), Hz, Z.div_mul, Z.mod_mul by lia.
  destruct Hl as (_ & Hbk & _). destruct (bk_row _ _ _ _ _ _ _ _ _ _ Hbk) as (cs & Hcs & Hlen & _ & _).
  unfold it_new, it_ptr, tget. rewrite Hcs. pose proof (zlen_nonneg cs). destruct (Z.ltb_spec (v_slots v) 0); [lia|].
  rewrite lookup_ge_None_2 by (unfold zlen in *; lia). reflexivity.
Qed.

Lemma vfull_dec v : vfull P v \/ ~ vfull P v.
Proof.
  unfold vfull. destruct (v_data v) as [t|]; [|right; intros (? & _); congruence].
  destruct (Z.eq_dec (v_bsize v) (bsz P)); [|right; tauto]. destruct (Z.eq_dec (v_idx v + 1) (v_slots v)); [|right; tauto].
  left. splits; [discriminate|assumption|assumption].
Qed.

Lemma modify_room s xs f s' l : st_ok P s xs -> st_modify P s f = Ok (s', l) -> st_room P s.
Proof.
  destruct s as [ys|h v]; [intros _ _; exact I|]. intros (ids & frees & Hg) E F. cbn in E. unfold st_modify in E.
  destruct (vec_begin P h v) as [first| |]; cbn [obind] in E; try discriminate.
  rewrite (full_end_ub _ _ _ _ _ Hg F) in E. discriminate.
Qed.

(** operator[] is only used within its contract *)
Definition in_range m (o : mop V K) : Prop :=
  match o with MAssign k _ => forall i, m_lk m !! k = Some i -> i < st_size (m_st m) | _ => True end.

Inductive mreach (stb : bool) : mv V K -> Prop :=
| mr_init : mreach stb (mv0 P stb)
| mr_step m o m' r : mreach stb m -> mv_legal m o -> in_range m o -> mv_step P kdef m o = Ok (m', r) -> mreach stb m'.

Definition lk_nonneg m : Prop := forall k i, m_lk m !! k = Some i -> 0 <= i.

Lemma dec1_nonneg er i o j : 0 <= i -> (forall j', o = Some j' -> 0 <= j') -> dec1 er i o = Some j -> 0 <= j.
Proof.
  intros Hi Ho E. destruct o as [j'|]; cbn in E; [|discriminate]. injection E as <-. specialize (Ho _ eq_refl).
  destruct er; cbn; [|assumption]. destruct (Z.ltb_spec i j'); lia.
Qed.

Lemma mreach_step m xs o m' r : st_ok P (m_st m) xs -> lk_nonneg m -> mv_legal m o -> in_range m o -> mv_step P kdef m o = Ok (m', r) ->
  (exists xs', st_ok P (m_st m') xs') /\ lk_nonneg m' /\ st_stable (m_st m') = st_stable (m_st m).
Proof.
  intros Hs Hn Hl Hr E. pose proof (st_ok_size P _ _ Hs) as Hsz. pose proof (zlen_nonneg xs) as Hz.
  assert (Hsame : m' = m -> (exists xs', st_ok P (m_st m') xs') /\ lk_nonneg m' /\ st_stable (m_st m') = st_stable (m_st m)).
  { intros ->. splits; eauto. }
  destruct o as [k x|x|k x|k|k|i|i|i| |k i|i ord|k ord|f| | |]; cbn [in_range mv_legal] in *.
  - destruct (insert_any P HP kdef m xs k x Hs) as (m1 & E1 & K1 & Hm). rewrite E in E1. injection E1 as <- _.
    destruct (m_lk m !! k) eqn:Ek; [subst m'; splits; eauto|]. destruct Hm as [Hm1 Hm2]. splits; [eauto| |apply st_kept_stable with (P := P); exact K1].
    intros k' j. rewrite Hm2. destruct (decide (k' = k)) as [->|Hne]; [rewrite lookup_insert; intros [= <-]; lia|].
    rewrite lookup_insert_ne by congruence. apply Hn.
  - destruct (insert_no_any P HP kdef m xs x Hs) as (m1 & E1 & K1 & Hm1 & Hm2). rewrite E in E1. injection E1 as <- _.
    splits; [eauto| |apply st_kept_stable with (P := P); exact K1]. intros k' j. rewrite Hm2. apply Hn.
  - destruct (assign_any P HP kdef m xs k x Hs) as (m1 & E1 & K1 & Hm).
    { intros i Ei. specialize (Hr i Ei). specialize (Hn _ _ Ei). lia. }
    rewrite E in E1. injection E1 as <- _.
    destruct (m_lk m !! k) eqn:Ek; destruct Hm as [Hm1 Hm2]; (splits; [eauto| |apply st_kept_stable with (P := P); exact K1]).
    + intros k' j. rewrite Hm2. apply Hn.
    + intros k' j. rewrite Hm2. destruct (decide (k' = k)) as [->|Hne]; [rewrite lookup_insert; intros [= <-]; lia|].
      rewrite lookup_insert_ne by congruence. apply Hn.
  - apply Hsame. cbn [mv_step] in E. unfold mv_find_use in E.
    destruct (mv_find P m k) as [it| |]; cbn [obind] in E; try discriminate.
    destruct (st_end P (m_st m)) as [last| |]; cbn [obind] in E; try discriminate.
    destruct (si_eq it last); [congruence|]. destruct (st_deref P (m_st m) it); cbn [obind] in E; congruence.
  - apply Hsame. cbn [mv_step] in E. unfold mv_findp in E. destruct (m_lk m !! k); [|congruence].
    destruct (st_step P (m_st m) (VGet z)) as [[? []]| |]; cbn [obind] in E; congruence.
  - apply Hsame. cbn [mv_step] in E. unfold mv_get in E.
    destruct (st_step P (m_st m) (VGet i)) as [[? []]| |]; cbn [obind] in E; congruence.
  - apply Hsame. cbn [mv_step] in E. unfold mv_getp, mv_get in E.
    destruct (i <? st_size (m_st m)); [|congruence]. destruct (st_step P (m_st m) (VGet i)) as [[? []]| |]; cbn [obind] in E; congruence.
  - apply Hsame. cbn [mv_step] in E. unfold mv_at in E.
    destruct (st_step P (m_st m) (VAt i)) as [[? []]| |]; cbn [obind] in E; congruence.
  - apply Hsame. cbn [mv_step] in E. unfold mv_back in E.
    destruct (st_step P (m_st m) VBack) as [[? []]| |]; cbn [obind] in E; congruence.
  - cbn [mv_step] in E. unfold mv_alias in E. destruct (i <? st_size (m_st m)); injection E as <- _; cbn [m_st m_lk]; splits; eauto.
    intros k' j. cbn [m_lk]. rewrite mp_emplace_lk. destruct (m_lk m !! k); [apply Hn|]. destruct (decide (k' = k)); [intros [= <-]; lia|apply Hn].
  - destruct Hl as [Hi Ho]. destruct (Z.le_gt_cases (zlen xs) i) as [Hge|Hlt].
    + cbn [mv_step] in E. unfold mv_remove_idx in E. rewrite Hsz in E. destruct (Z.leb_spec (zlen xs) i); [|lia]. injection E as <- _. splits; eauto.
    + destruct (remove_idx_any P HP kdef m xs i ord Hs) as [(_ & _ & E1)|(m1 & k0 & E1 & Hm & K1 & _ & Hlk)]; [lia|exact Ho| |]; [congruence|].
      rewrite E in E1. injection E1 as <- _. splits; [eauto| |apply st_kept_stable with (P := P); exact K1].
      intros k j. rewrite Hlk. destruct (decide (k = k0)); [discriminate|]. apply dec1_nonneg; [exact Hi|]. apply Hn.
  - destruct (m_lk m !! k) as [i|] eqn:Ek.
    + destruct (Z.le_gt_cases (zlen xs) i) as [Hge|Hlt].
      * cbn [mv_step] in E. unfold mv_remove in E. rewrite Ek in E. destruct (m_st m) as [ys|h v] eqn:Es; cbn [st_erase] in E.
        -- cbn in Hs. subst ys. destruct (Z.leb_spec 0 i); destruct (Z.ltb_spec i (zlen xs)); cbn in E; try discriminate; lia.
        -- cbn in Hsz. destruct (Z.eqb_spec i (v_size v - 1)); [lia|]. cbn [obind] in E. injection E as <- _. splits; eauto.
           intros k' j. cbn [m_lk]. intros E'. apply lookup_delete_Some in E' as [_ E']. eapply Hn, E'.
      * destruct (remove_any P HP kdef m xs k i ord Hs Ek) as (m1 & E1 & Hm & K1 & Hlk); [specialize (Hn _ _ Ek); lia|exact Hl|].
        rewrite E in E1. injection E1 as <- _. splits; [eauto| |apply st_kept_stable with (P := P); exact K1].
        intros k' j. rewrite Hlk. destruct (decide (k' = k)); [discriminate|]. apply dec1_nonneg; [eapply Hn, Ek|]. apply Hn.
    + cbn [mv_step] in E. unfold mv_remove in E. rewrite Ek in E. injection E as <- _. splits; eauto.
  - cbn [mv_step] in E. unfold mv_modify in E. destruct (st_modify P (m_st m) f) as [[s' l]| |] eqn:E1; cbn [obind] in E; try discriminate.
    injection E as <- _. destruct (st_modify_ok P HP (m_st m) xs f Hs (modify_room _ _ _ _ _ Hs E1)) as (s1 & E2 & Hm & K1).
    rewrite E1 in E2. injection E2 as -> ->. cbn [m_st m_lk]. splits; [eauto|exact Hn|apply st_kept_stable with (P := P); exact K1].
  - apply Hsame. cbn [mv_step] in E. unfold mv_apply in E.
    destruct (st_step P (m_st m) VWalk) as [[? []]| |]; cbn [obind] in E; congruence.
  - apply Hsame. cbn [mv_step] in E. congruence.
  - cbn [mv_step] in E. unfold mv_clear in E. destruct (st_clear_ok P HP (m_st m) xs Hs) as (s1 & E1 & Hm & K1). rewrite E1 in E. cbn [obind] in E.
    injection E as <- _. cbn [m_st m_lk]. splits; [eauto| |apply st_kept_stable with (P := P); exact K1]. intros k j. cbn [m_lk]. rewrite lookup_empty. discriminate.
Qed.

Lemma mreach_ok stb m : mreach stb m -> (exists xs, st_ok P (m_st m) xs) /\ lk_nonneg m /\ st_stable (m_st m) = stb.
Proof.
  induction 1 as [|m o m' r _ ((xs & Hs) & Hn & Hb) Hl Hr E].
  - splits.
    + exists []. apply (r_st P _ _ assoc0 (rel_empty P stb (fun _ : K => None) HP (fun _ => eq_refl))).
    + intros k i. cbn. rewrite lookup_empty. discriminate.
    + destruct stb; reflexivity.
  - destruct (mreach_step m xs o m' r Hs Hn Hl Hr E) as (A & C & D). splits; try assumption. congruence.
Qed.
End reach.

(** ** The specification in terms of [as_find] *)
Section facts.
Context {V : Type} `{Countable K}.
Implicit Types (a : assoc V K).

Record awf a : Prop := {
  aw_nd : NoDup (as_ids a);
  aw_nx : forall u, u ∈ as_ids a -> (u < a_nx a)%nat;
  aw_tm : forall k u, a_tm a !! k = Some u -> u ∈ as_ids a;
}.
Lemma rel_awf P s lkf a : rel P s lkf a -> awf a.
Proof. intros R. constructor; apply R. Qed.

Definition as_val (u : nat) (el : list (nat * V)) : option V := e ← list_find (fun e => e.1 = u) el; Some e.2.2.
Lemma as_find_val k a : as_find k a = u ← a_tm a !! k; as_val u (a_el a).
Proof. reflexivity. Qed.

Lemma as_val_app u l1 l2 : as_val u (l1 ++ l2) = match as_val u l1 with Some x => Some x | None => as_val u l2 end.
Proof.
  unfold as_val. induction l1 as [|e l1 IH]; cbn; [reflexivity|]. destruct (decide (e.1 = u)); cbn; [reflexivity|].
  destruct (list_find (fun e => e.1 = u) (l1 ++ l2)) as [[? ?]|]; destruct (list_find (fun e => e.1 = u) l1) as [[? ?]|];
    destruct (list_find (fun e => e.1 = u) l2) as [[? ?]|]; cbn in *; congruence.
Qed.
Lemma as_val_none u l : u ∉ map fst l -> as_val u l = None.
Proof.
  induction l as [|e l IH]; cbn; intros Hu; [reflexivity|]. apply not_elem_of_cons in Hu as [H1 H2]. specialize (IH H2).
  unfold as_val in *. cbn. destruct (decide (e.1 = u)); [congruence|]. destruct (list_find (fun e => e.1 = u) l) as [[? ?]|]; [discriminate|reflexivity].
Qed.
Lemma as_val_some u l : u ∈ map fst l -> is_Some (as_val u l).
Proof.
  induction l as [|e l IH]; cbn; intros Hu; [inversion Hu|]. unfold as_val in *. cbn. destruct (decide (e.1 = u)); [eexists; reflexivity|].
  apply elem_of_cons in Hu as [Hu|Hu]; [congruence|]. destruct (IH Hu) as [x Hx].
  destruct (list_find (fun e => e.1 = u) l) as [[? ?]|]; [eexists; reflexivity|discriminate].
Qed.
Lemma as_val_cons u e l : as_val u (e :: l) = if decide (e.1 = u) then Some e.2 else as_val u l.
Proof.
  unfold as_val. cbn. destruct (decide (e.1 = u)); [reflexivity|]. destruct (list_find (fun e => e.1 = u) l) as [[? ?]|]; reflexivity.
Qed.

Lemma find_add a x ks k : awf a -> as_find k (as_add x ks a) = if decide (k ∈ ks) then Some x else as_find k a.
Proof.
  intros Hw. rewrite !as_find_val. unfold as_add. cbn [a_tm a_el]. rewrite foldr_lookup. destruct (decide (k ∈ ks)).
  - cbn [mbind option_bind]. rewrite as_val_app, as_val_none, as_val_cons; [cbn; destruct (decide (a_nx a = a_nx a)); congruence|].
    intros F. apply (aw_nx _ Hw) in F. lia.
  - destruct (a_tm a !! k) as [u|] eqn:Eu; [|reflexivity]. cbn [mbind option_bind]. rewrite as_val_app.
    destruct (as_val_some u (a_el a)) as [y ->]; [|reflexivity]. exact (aw_tm _ Hw _ _ Eu).
Qed.

Lemma val_put u x v l : as_val v (map (fun e => if decide (e.1 = u) then (u, x) else e) l) =
  if decide (v = u) then (if decide (u ∈ map fst l) then Some x else None) else as_val v l.
Proof.
  induction l as [|[w y] l IH]; cbn [map]; [destruct (decide (v = u)); [destruct (decide _) as [F|]; [inversion F|]|]; reflexivity|].
  rewrite as_val_cons. cbn [fst snd]. destruct (decide (w = u)) as [->|Hne]; cbn [fst snd].
  - destruct (decide (u = v)) as [<-|Hne'].
    + destruct (decide (u = u)); [|congruence]. destruct (decide (u ∈ u :: map fst l)) as [_|F]; [reflexivity|]. exfalso. apply F. constructor.
    + rewrite IH. rewrite as_val_cons. cbn [fst snd]. destruct (decide (v = u)); [congruence|]. destruct (decide (u = v)); [congruence|]. reflexivity.
  - rewrite as_val_cons. cbn [fst snd]. destruct (decide (w = v)) as [->|Hne'].
    + destruct (decide (v = u)); [congruence|reflexivity].
    + rewrite IH. destruct (decide (v = u)) as [->|]; [|reflexivity].
      destruct (decide (u ∈ map fst l)) as [Hin|Hnin]; destruct (decide (u ∈ w :: map fst l)) as [Hin'|Hnin']; try reflexivity.
      * exfalso. apply Hnin'. constructor. exact Hin.
      * exfalso. apply elem_of_cons in Hin' as [?|?]; [congruence|contradiction].
Qed.

Lemma find_put a u x k : awf a -> as_find k (as_put u x a) =
  match a_tm a !! k with Some v => if decide (v = u) then Some x else as_find k a | None => None end.
Proof.
  intros Hw. rewrite !as_find_val. cbn [as_put a_tm a_el]. destruct (a_tm a !! k) as [v|] eqn:Ev; [|reflexivity]. cbn [mbind option_bind].
  rewrite val_put. destruct (decide (v = u)) as [->|]; [|reflexivity]. destruct (decide (u ∈ map fst (a_el a))) as [|F]; [reflexivity|].
  exfalso. apply F. exact (aw_tm _ Hw _ _ Ev).
Qed.

Lemma val_delete u v l p : NoDup (map fst l) -> map fst l !! p = Some u -> v <> u -> as_val v (delete p l) = as_val v l.
Proof.
  revert p. induction l as [|e l IH]; intros p Hnd Hp Hne; [reflexivity|]. cbn in Hnd. apply NoDup_cons in Hnd as [H1 H2].
  destruct p as [|p]; cbn in Hp.
  - injection Hp as <-. change (delete 0 (e :: l)) with l. rewrite as_val_cons. destruct (decide (e.1 = v)); [congruence|reflexivity].
  - change (delete (S p) (e :: l)) with (e :: delete p l). rewrite !as_val_cons. rewrite (IH p) by assumption. reflexivity.
Qed.

(** After a removal the terms of [u] denote nothing, all others the same element as before. *)
Lemma find_remove a stb u p k : awf a -> as_ids a !! p = Some u ->
  a_tm (as_remove stb u p a) !! k = (v ← a_tm a !! k; if decide (v = u) then None else Some v) /\
  as_find k (as_remove stb u p a) = match a_tm a !! k with Some v => if decide (v = u) then None else as_find k a | None => None end.
Proof.
  intros Hw Hp. assert (E1 : a_tm (as_remove stb u p a) !! k = (v ← a_tm a !! k; if decide (v = u) then None else Some v)).
  { cbn [as_remove a_tm]. destruct (a_tm a !! k) as [v|] eqn:Ev; cbn [mbind option_bind].
    - destruct (decide (v = u)) as [->|Hne].
      + apply map_filter_lookup_None. right. intros v Ev'. rewrite Ev in Ev'. injection Ev' as <-. cbn. congruence.
      + apply map_filter_lookup_Some. split; [exact Ev|exact Hne].
    - apply map_filter_lookup_None. left. exact Ev. }
  split; [exact E1|]. rewrite !as_find_val, E1. destruct (a_tm a !! k) as [v|] eqn:Ev; [|reflexivity]. cbn [mbind option_bind].
  destruct (decide (v = u)) as [->|Hne]; [reflexivity|]. cbn [mbind option_bind]. cbn [as_remove a_el].
  destruct (stb && _); [reflexivity|]. apply val_delete with (u := u); [apply Hw|exact Hp|exact Hne].
Qed.

Lemma find_alias a k0 u k : as_find k (Assoc (a_el a) (<[k0 := u]> (a_tm a)) (a_nx a)) =
  if decide (k = k0) then as_val u (a_el a) else as_find k a.
Proof.
  rewrite !as_find_val. cbn [a_tm a_el]. destruct (decide (k = k0)) as [->|Hne]; [rewrite lookup_insert; reflexivity|].
  rewrite lookup_insert_ne by congruence. reflexivity.
Qed.

Lemma find_term a k : awf a -> (as_find k a = None <-> a_tm a !! k = None).
Proof.
  intros Hw. rewrite as_find_val. destruct (a_tm a !! k) as [u|] eqn:Eu; cbn; [|tauto].
  destruct (as_val_some u (a_el a)) as [y ->]; [exact (aw_tm _ Hw _ _ Eu)|]. split; discriminate.
Qed.
End facts.
