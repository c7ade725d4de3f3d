(** The search terms of the string mapped vectors: proofs *)
From stdpp Require Import gmap.
From Verif Require Import Base BlkHeap BlkIter BlkProofs BlkMore BlkRun BlkWorld VecModel VecProofs VecWorld StrModel StrSpec.

Section str.
Context {T : Type} `{Countable T}.
Variable P : params.
Hypothesis HP : 0 <= expo P.
Variable empty_text : T.
Variable dual : bool.
Notation B := (bsz P).
Implicit Types (h : bheap T) (v : vec) (xs : list T) (ids frees : list nat) (l : list (T * Z)) (s : svec) (m : gmap T Z).
Notation vinv := (vinv P).

(** A stored view is one of the strings of [names], alive, with the text [fst p]. *)
Definition vok h v (len : Z) (n : node) (p : T * Z) : Prop :=
  n.2 = p.2 /\ el h !! n.1 = Some p.1 /\ exists k, 0 <= k < len /\ vec_at P h v k = Ok (Some n.1.1, n.1.2).

Lemma vok_read h v len n p : vok h v len n p -> sread h n = Ok p.1.
Proof. destruct n as [[b j] i]. intros (_ & E & _). cbn in *. rewrite E. reflexivity. Qed.

Lemma at_text h v xs ids frees k x :
  vinv h v xs ids frees -> xs !! k = Some x ->
  exists i b, vec_at P h v (Z.of_nat k) = Ok (Some b, Z.of_nat k mod B) /\ ids !! i = Some b /\ Z.of_nat i = Z.of_nat k / B /\
    el h !! (b, Z.of_nat k mod B) = Some x.
Proof.
  intros Hv Hx. pose proof (lookup_lt_Some _ _ _ Hx).
  destruct (vat_ok P HP _ _ _ _ _ (Z.of_nat k) Hv) as (i & b & E & Hi & Hq & _); [unfold zlen; lia|].
  exists i, b. splits; try assumption. pose proof (vget_ok P HP _ _ _ _ _ _ _ Hv Hx) as G. unfold vec_get in G. rewrite E in G. cbn [obind] in G.
  unfold eget, slot in G. repeat (case_match; cbn [obind] in G; try discriminate). congruence.
Qed.

Lemma push_keeps h v xs ids frees h' v' x ids' frees' n p :
  vinv h v xs ids frees -> vinv h' v' (xs ++ [x]) ids' frees' -> mono ids ids' ->
  vok h v (zlen xs) n p -> vok h' v' (zlen (xs ++ [x])) n p.
Proof.
  intros Hv Hv' [k0 ->] (E1 & E2 & k & Hk & E3).
  destruct (lookup_lt_is_Some_2 xs (Z.to_nat k)) as [t Ht]; [unfold zlen in Hk; lia|].
  destruct (at_text _ _ _ _ _ _ _ Hv Ht) as (i & b & F1 & F2 & F3 & F4). rewrite Z2Nat.id in * by lia.
  assert (Ht' : (xs ++ [x]) !! Z.to_nat k = Some t) by (apply lookup_app_l_Some; exact Ht).
  destruct (at_text _ _ _ _ _ _ _ Hv' Ht') as (i' & b' & G1 & G2 & G3 & G4). rewrite Z2Nat.id in * by lia.
  assert (i' = i) as -> by lia. rewrite (lookup_app_l_Some _ _ _ _ F2) in G2. injection G2 as <-.
  rewrite E3 in F1. destruct n as [[b0 j0] i0]. cbn in *. injection F1 as -> ->. split; [exact E1|]. split.
  - cbn. rewrite G4. congruence.
  - exists k. split; [rewrite zlen_app; unfold zlen in *; cbn; lia|exact G1].
Qed.

Lemma back_slot_ok h v xs x ids frees :
  vinv h v (xs ++ [x]) ids frees ->
  exists b j, back_slot P h v = Ok (b, j) /\ vec_at P h v (zlen xs) = Ok (Some b, j) /\ el h !! (b, j) = Some x.
Proof.
  intros Hv. pose proof Hv as Hv0. pose proof (B_pos P HP) as HB.
  assert (Hx : (xs ++ [x]) !! length xs = Some x) by (apply list_lookup_middle; reflexivity).
  destruct (at_text _ _ _ _ _ _ _ Hv Hx) as (i & b & F1 & F2 & F3 & F4). fold (zlen xs) in *.
  exists b, (zlen xs mod B). splits; try assumption.
  destruct Hv as [(_ & E & _)|(t & Ed & Hbk & Hsz & Hi & Hb & Hz & Hs)]; [destruct xs; discriminate|].
  assert (Hl : zlen (xs ++ [x]) = zlen xs + 1) by (rewrite zlen_app; unfold zlen; cbn; lia). pose proof (zlen_nonneg xs).
  unfold back_slot. rewrite Ed. destruct (Z.eqb_spec (v_bsize v) 0) as [E0|E0].
  - rewrite shiftr_bsz by assumption. rewrite Hsz, Hz, E0, Z.add_0_r, Z.div_mul by lia.
    assert (Hq : zlen xs / B = v_idx v - 1) by (symmetry; apply Z.div_unique with (B - 1); lia).
    assert (Hr : zlen xs mod B = B - 1) by (symmetry; apply Z.mod_unique with (v_idx v - 1); lia).
    rewrite (bk_get P h t (v_slots v) 0 ids 0 _ (v_fl v) frees _ b _ Hbk F2) by lia. cbn [obind]. rewrite Hr. reflexivity.
  - assert (Hq : zlen xs / B = v_idx v) by (symmetry; apply Z.div_unique with (v_bsize v - 1); lia).
    assert (Hr : zlen xs mod B = v_bsize v - 1) by (symmetry; apply Z.mod_unique with (v_idx v); lia).
    rewrite (bk_get P h t (v_slots v) 0 ids 0 _ (v_fl v) frees _ b _ Hbk F2) by lia. cbn [obind]. rewrite Hr. reflexivity.
Qed.

(** ** Look-up *)
Definition reads h (n : node) (p : T * Z) : Prop := n.2 = p.2 /\ sread h n = Ok p.1.

Lemma sfind_ok h t : forall nd l, Forall2 (reads h) nd l ->
  exists r, sfind h nd t = Ok r /\
    match r with Some k => exists i, l !! k = Some (t, i) /\ spos nd k = i | None => t ∉ l.*1 end.
Proof.
  induction 1 as [|n [u i] nd l [E1 E2] _ (r & E & IH)]; cbn [sfind].
  - exists None. split; [reflexivity|]. apply not_elem_of_nil.
  - cbn in E1, E2. rewrite E2, E. cbn [obind]. eexists. split; [reflexivity|]. case_bool_decide as D.
    + subst u. exists i. split; [reflexivity|]. destruct n as [[b j] i0]. cbn in *. congruence.
    + destruct r as [k|]; cbn [option_map]; [exact IH|]. cbn. rewrite elem_of_cons. intros [?|?]; [congruence|contradiction].
Qed.

Lemma spos_fmap nd k : spos nd k = default 0 (snd <$> nd !! k).
Proof. unfold spos. destruct (nd !! k) as [[[b j] i]|]; reflexivity. Qed.

Lemma dict_in l t i : NoDup l.*1 -> (t, i) ∈ l -> (list_to_map l : gmap T Z) !! t = Some i.
Proof. intros. apply elem_of_list_to_map_1; assumption. Qed.

Lemma dict_out l t : t ∉ l.*1 -> (list_to_map l : gmap T Z) !! t = None.
Proof. apply not_elem_of_list_to_map_1. Qed.

Lemma dict_snoc l t i : t ∉ l.*1 -> (list_to_map (l ++ [(t, i)]) : gmap T Z) = <[t := i]> (list_to_map l).
Proof.
  intros Hn. apply map_eq. intros k. rewrite list_to_map_app. cbn.
  destruct (decide (k = t)) as [->|Hk].
  - rewrite lookup_insert, lookup_union_r by (apply dict_out; exact Hn). apply lookup_insert.
  - rewrite lookup_insert_ne by congruence. destruct (list_to_map l !! k) eqn:E.
    + rewrite (lookup_union_Some_l _ _ _ _ E). reflexivity.
    + rewrite lookup_union_r by exact E. rewrite lookup_insert_ne by congruence. apply lookup_empty.
Qed.

Lemma dict_dom l l' : l'.*1 ⊆ l.*1 -> dom (list_to_map l' : gmap T Z) ⊆ dom (list_to_map l : gmap T Z).
Proof. intros Hs t. rewrite !dom_list_to_map, !elem_of_list_to_set. apply Hs. Qed.

(** ** The state of one object *)
Definition sst h s (n : Z) m bs ts : Prop :=
  s_num s = n /\ ~ phantom (s_names s) /\ exists xs ids frees l,
    vinv h (s_names s) xs ids frees /\ bs = frees ++ ids /\ ts = vts (s_names s) /\
    Forall2 (vok h (s_names s) (zlen xs)) (s_nodes s) l /\ NoDup l.*1 /\ m = list_to_map l.

Definition sobj h s (a : option (Z * gmap T Z)) bs ts : Prop :=
  match a with
  | Some (n, m) => sst h s n m bs ts
  | None => v_data (s_names s) = None /\ f_tab (v_fl (s_names s)) = None /\ bs = [] /\ ts = [] /\ hok [] [] h /\ s_nodes s = []
  end.

Lemma sobj_hok h s a bs ts : sobj h s a bs ts -> hok bs ts h.
Proof.
  destruct a as [[n m]|]; cbn.
  - intros (_ & _ & xs & ids & frees & l & Hv & -> & -> & _). eapply vinv_hok; eassumption.
  - intros (_ & _ & -> & -> & Hk & _). exact Hk.
Qed.

Lemma vok_frame h h' v xs ids frees n p :
  vinv h v xs ids frees -> (forall b, b ∈ frees ++ ids -> sameb b h h') -> (forall u, u ∈ vts v -> tb h' !! u = tb h !! u) ->
  vok h v (zlen xs) n p -> vok h' v (zlen xs) n p.
Proof.
  intros Hv Hs Ht (E1 & E2 & k & Hk & E3).
  destruct (vat_ok P HP _ _ _ _ _ k Hv Hk) as (i & b & F & Hi & _). rewrite E3 in F. destruct n as [[b0 j0] i0]. cbn in *. injection F as -> ->.
  split; [exact E1|]. cbn. split.
  - destruct (Hs b) as [_ Hj]; [apply elem_of_app; right; eapply elem_of_list_lookup_2; exact Hi|]. rewrite Hj. exact E2.
  - exists k. split; [exact Hk|]. rewrite <- E3. unfold vec_at. f_equal. unfold tget.
    destruct (v_data v) as [u|] eqn:Ed; [|reflexivity]. rewrite (Ht u); [reflexivity|]. rewrite (vts_live _ _ Ed). unfold rts. set_solver.
Qed.

Lemma sobj_frame h h' s a bs ts :
  sobj h s a bs ts -> (forall b, b ∈ bs -> sameb b h h') -> (forall u, u ∈ ts -> tb h' !! u = tb h !! u) ->
  hok bs ts h' -> sobj h' s a bs ts.
Proof.
  destruct a as [[n m]|]; cbn.
  - intros (E1 & E2 & xs & ids & frees & l & Hv & -> & -> & Hf & Hn & Hm) Hs Ht Hk. split; [exact E1|]. split; [exact E2|].
    exists xs, ids, frees, l. splits; try assumption.
    + eapply vinv_frame; eassumption.
    + eapply Forall2_impl; [exact Hf|]. intros n0 p Hp. eapply vok_frame; eassumption.
  - intros (E1 & E2 & -> & -> & _ & E3) _ _ Hk. auto 10.
Qed.

Lemma sst_reads h s xs l : Forall2 (vok h (s_names s) (zlen xs)) (s_nodes s) l -> Forall2 (reads h) (s_nodes s) l.
Proof. intros Hf. eapply Forall2_impl; [exact Hf|]. intros n p Hp. split; [apply Hp|eapply vok_read; exact Hp]. Qed.

(** Look-up in the dictionary *)
Lemma sst_find h s n m bs ts t :
  sst h s n m bs ts -> exists r, sfind h (s_nodes s) t = Ok r /\ match r with Some k => m !! t = Some (spos (s_nodes s) k) | None => m !! t = None end.
Proof.
  intros (_ & _ & xs & ids & frees & l & Hv & _ & _ & Hf & Hn & ->). destruct (sfind_ok h t _ _ (sst_reads _ _ _ _ Hf)) as (r & E & Hr).
  exists r. split; [exact E|]. destruct r as [k|].
  - destruct Hr as (i & E1 & E2). rewrite E2. apply dict_in; [exact Hn|]. eapply elem_of_list_lookup_2; exact E1.
  - apply dict_out. exact Hr.
Qed.

(** names.emplace_back and lookup.emplace *)
Lemma sadd_ok h s n m bs ts t i n' :
  sst h s n m bs ts ->
  exists h' s' b bs' ts', sadd P h s t i n' = Ok (h', s', b) /\ upd bs ts h bs' ts' h' /\
    ((m !! t = None /\ b = true /\ sst h' s' n' (<[t := i]> m) bs' ts') \/ (is_Some (m !! t) /\ b = false /\ sst h' s' n' m bs' ts')).
Proof.
  intros Hs. destruct Hs as (E1 & E2 & xs & ids & frees & l & Hv & -> & -> & Hf & Hn & ->).
  destruct (vpush_ok P HP h (s_names s) xs ids frees t Hv) as (h' & v' & ids' & frees' & E & Hv' & Hp & U & Hm).
  unfold sadd. rewrite E. cbn [obind].
  destruct (back_slot_ok _ _ _ _ _ _ Hv') as (b & j & F1 & F2 & F3). rewrite F1. cbn [obind]. cbn [sread]. rewrite F3. cbn [obind].
  assert (Hf' : Forall2 (vok h' v' (zlen (xs ++ [t]))) (s_nodes s) l).
  { eapply Forall2_impl; [exact Hf|]. intros n0 p Hn0. eapply push_keeps; eassumption. }
  destruct (sfind_ok h' t (s_nodes s) l) as (r & -> & Hr).
  { eapply Forall2_impl; [exact Hf'|]. intros n0 p Hn0. split; [apply Hn0|eapply vok_read; exact Hn0]. }
  cbn [obind]. destruct r as [k|].
  - destruct Hr as (i0 & Hr & _). eexists _, _, _, _, _. split; [reflexivity|]. split; [exact U|]. right. split; [|split; [reflexivity|]].
    + exists i0. apply dict_in; [exact Hn|eapply elem_of_list_lookup_2; exact Hr].
    + split; [reflexivity|]. split; [exact Hp|]. exists (xs ++ [t]), ids', frees', l. splits; assumption.
  - eexists _, _, _, _, _. split; [reflexivity|]. split; [exact U|]. left. split; [apply dict_out; exact Hr|]. split; [reflexivity|].
    split; [reflexivity|]. split; [exact Hp|]. exists (xs ++ [t]), ids', frees', (l ++ [(t, i)]). splits; try assumption.
    + apply Forall2_app; [exact Hf'|]. constructor; [|constructor]. split; [reflexivity|]. split; [exact F3|]. exists (zlen xs).
      split; [rewrite zlen_app; unfold zlen; cbn; lia|exact F2].
    + rewrite fmap_app. apply NoDup_app. split; [exact Hn|]. split; [|apply NoDup_singleton].
      intros u Hu. cbn. rewrite elem_of_list_singleton. congruence.
    + symmetry. apply dict_snoc. exact Hr.
Qed.

(** Removal *)
Lemma Forall2_delete {A1 A2} (R : A1 -> A2 -> Prop) (k : nat) : forall (l1 : list A1) (l2 : list A2), Forall2 R l1 l2 -> Forall2 R (delete k l1) (delete k l2).
Proof. induction k as [|k IH]; intros l1 l2 Hf; destruct Hf; cbn; try constructor; auto. Qed.

Lemma delete_fst k l : (delete k l).*1 `sublist_of` l.*1.
Proof.
  revert l. induction k as [|k IH]; intros [|p l]; cbn; [reflexivity|apply sublist_cons; reflexivity|reflexivity|apply sublist_skip, IH].
Qed.

Lemma sublist_elem {A0} (l1 l2 : list A0) x : l1 `sublist_of` l2 -> x ∈ l1 -> x ∈ l2.
Proof. induction 1 as [|y l1 l2 _ IH|y l1 l2 _ IH]; [auto| |]; rewrite ?elem_of_cons; intuition. Qed.

Lemma sublist_nodup {A0} (l1 l2 : list A0) : l1 `sublist_of` l2 -> NoDup l2 -> NoDup l1.
Proof.
  induction 1 as [|y l1 l2 Hs IH|y l1 l2 _ IH]; [auto| |]; inversion 1; subst; [|auto].
  constructor; [|auto]. intros Hy. eapply sublist_elem in Hy; [|exact Hs]. contradiction.
Qed.

Lemma shift_ok h v len erased i nd l :
  Forall2 (vok h v len) nd l ->
  exists l', Forall2 (vok h v len) (map (sshift erased i) nd) l' /\ l'.*1 = l.*1 /\
    l' = prod_map id (fun k => if erased && (i <? k) then k - 1 else k) <$> l.
Proof.
  induction 1 as [|n p nd l Hp Hf (l' & Hf' & E & El)]; cbn [map].
  - exists []. split; [constructor|split; reflexivity].
  - destruct n as [[b j] k]. destruct p as [t k']. exists ((t, if erased && (i <? k) then k - 1 else k) :: l').
    split; [|cbn; rewrite E; split; [reflexivity|]]. 2: { destruct Hp as (E1 & _). cbn in E1. subst k'. rewrite El. reflexivity. }
    constructor; [|exact Hf']. destruct Hp as (E1 & E2 & E3). cbn in *. split; [reflexivity|]. split; [exact E2|exact E3].
Qed.

Lemma dict_delete l k t i : NoDup l.*1 -> l !! k = Some (t, i) -> (list_to_map (delete k l) : gmap T Z) = delete t (list_to_map l).
Proof.
  intros Hn Hk. apply elem_of_list_split_length in Hk as (l1 & l2 & -> & ->). rewrite delete_middle.
  rewrite fmap_app, fmap_cons in Hn. apply NoDup_app in Hn as (_ & Hd & Hn). cbn in Hn, Hd. apply NoDup_cons in Hn as [Hn2 _].
  rewrite !list_to_map_app. cbn. apply map_eq. intros u. destruct (decide (u = t)) as [->|Hne].
  - rewrite lookup_delete, lookup_union_None. split; apply dict_out; [|exact Hn2]. intros Hin. apply (Hd t Hin). left.
  - rewrite lookup_delete_ne by congruence. rewrite !lookup_union, lookup_insert_ne by congruence. reflexivity.
Qed.

Lemma dict_lower l er i : (list_to_map (prod_map id (fun k => if er && (i <? k) then k - 1 else k) <$> l) : gmap T Z) =
  (fun k => if er && (i <? k) then k - 1 else k) <$> (list_to_map l : gmap T Z).
Proof. apply list_to_map_fmap. Qed.

Lemma lower_spec (n i : Z) m : (fun k => if slast n i && (i <? k) then k - 1 else k) <$> m = st_low n i m.
Proof.
  unfold st_low, slast. apply map_fmap_ext. intros u k _. destruct (Z.eqb_spec i (n - 1)), (Z.ltb_spec i k); cbn; case_decide; lia.
Qed.

Lemma num_spec (n i : Z) : (if slast n i then n - 1 else n) = st_num n i.
Proof. unfold st_num, slast. destruct (Z.eqb_spec i (n - 1)); case_decide; lia. Qed.

Lemma serase_all_ok h v len : forall ind us nd l,
  Forall2 (vok h v len) nd l -> NoDup l.*1 -> Forall2 (fun n t => sread h n = Ok t) ind us ->
  exists nd' l', serase_all h nd ind = Ok nd' /\ Forall2 (vok h v len) nd' l' /\ NoDup l'.*1 /\
    (list_to_map l' : gmap T Z) = filter (fun p => p.1 ∉ us) (list_to_map l : gmap T Z).
Proof.
  induction ind as [|n ind IH]; intros us nd l Hf Hn Hr; cbn [serase_all].
  - inversion Hr; subst. exists nd, l. splits; try assumption. symmetry. apply map_filter_id. intros u k _. apply not_elem_of_nil.
  - inversion Hr as [|? t ? us' Et Hr']; subst. rewrite Et. cbn [obind].
    destruct (sfind_ok h t nd l) as (r & -> & Hk).
    { eapply Forall2_impl; [exact Hf|]. intros n0 p Hn0. split; [apply Hn0|eapply vok_read; exact Hn0]. }
    cbn [obind]. destruct r as [k|].
    + destruct Hk as (i & Hk & _).
      destruct (IH us' (delete k nd) (delete k l) (Forall2_delete _ k _ _ Hf)) as (nd' & l' & E & Hf' & Hn' & Hs); [|exact Hr'|].
      { eapply sublist_nodup; [apply delete_fst|exact Hn]. }
      exists nd', l'. splits; try assumption. rewrite Hs, (dict_delete _ _ _ _ Hn Hk). apply map_eq. intros u. apply option_eq. intros x.
      rewrite !map_filter_lookup_Some, lookup_delete_Some. cbn. rewrite not_elem_of_cons. intuition congruence.
    + destruct (IH us' nd l Hf Hn Hr') as (nd' & l' & E & Hf' & Hn' & Hs). exists nd', l'. splits; try assumption. rewrite Hs.
      apply map_eq. intros u. apply option_eq. intros x. rewrite !map_filter_lookup_Some. cbn. rewrite not_elem_of_cons.
      assert (Hne : (list_to_map l : gmap T Z) !! u = Some x -> u <> t) by (intros F ->; rewrite (dict_out _ _ Hk) in F; discriminate). intuition.
Qed.

Lemma hits er i nd l h v len : Forall2 (vok h v len) nd l ->
  Forall2 (vok h v len) (List.filter (shit er i) nd) (List.filter (fun p : T * Z => p.2 =? i) l).
Proof.
  induction 1 as [|[[b j] k] [t k'] nd l Hp Hf IH]; cbn [List.filter]; [constructor|]. pose proof Hp as (E & _). cbn in E. subst k'.
  cbn [shit]. cbn [snd]. assert (Ek : negb (er && (i <? k)) && (k =? i) = (k =? i)).
  { destruct (Z.eqb_spec k i) as [->|]; [|apply andb_false_r]. rewrite Z.ltb_irrefl, andb_false_r. reflexivity. }
  rewrite Ek. destruct (k =? i); [constructor; assumption|exact IH].
Qed.

Lemma sremove_idx_ok h s n m bs ts i o :
  sst h s n m bs ts ->
  exists s' n' m', sremove_idx empty_text dual h s i = Ok s' /\ sst h s' n' m' bs ts /\
    st_step1 empty_text dual (n, m) (SRemoveIdx o i) SUnit (n', m') /\
    (n <= i -> n' = n /\ m' = m) /\ (dual = true -> i < n -> n' = st_num n i /\ m' = st_low n i (filter (fun p => p.2 <> i) m)).
Proof.
  intros Hs. unfold sremove_idx. destruct (Z.leb_spec (s_num s) i) as [Hle|Hlt].
  { pose proof Hs as (<- & _). exists s, (s_num s), m. split; [reflexivity|]. split; [exact Hs|]. split; [apply st_remove_idx_out; exact Hle|]. split; [auto|intros; lia]. }
  pose proof Hs as (E1 & E2 & xs & ids & frees & l & Hv & -> & -> & Hf & Hn & ->).
  set (er := slast (s_num s) i).
  destruct (shift_ok _ _ _ er i _ _ Hf) as (l1 & Hf1 & Hl1 & El1).
  assert (Hn1 : NoDup l1.*1) by (rewrite Hl1; exact Hn).
  assert (Hm1 : (list_to_map l1 : gmap T Z) = st_low n i (list_to_map l)).
  { rewrite El1. unfold er. rewrite E1, dict_lower. apply lower_spec. }
  assert (Enum : (if er then s_num s - 1 else s_num s) = st_num n i) by (unfold er; rewrite E1; apply num_spec). rewrite Enum.
  assert (Hfin : forall nd2 l2, Forall2 (vok h (s_names s) (zlen xs)) nd2 l2 -> NoDup l2.*1 ->
            sst h (SVec (st_num n i) (s_names s) nd2) (st_num n i) (list_to_map l2) (frees ++ ids) (vts (s_names s))).
  { intros nd2 l2 Hf2 Hn2. split; [reflexivity|]. split; [exact E2|]. exists xs, ids, frees, l2. splits; assumption. }
  pose proof (hits er i _ _ _ _ _ Hf) as Hh. set (hl := List.filter (fun p : T * Z => p.2 =? i) l) in *.
  assert (Hhl : forall u, u ∈ hl.*1 <-> (list_to_map l : gmap T Z) !! u = Some i).
  { intros u. rewrite <- elem_of_list_to_map by exact Hn. rewrite elem_of_list_fmap. split.
    - intros ([u' k] & -> & Hin). apply elem_of_list_In, filter_In in Hin as [Hin Hk]. apply Z.eqb_eq in Hk. cbn in Hk. subst k. apply elem_of_list_In. exact Hin.
    - intros Hin. exists (u, i). split; [reflexivity|]. apply elem_of_list_In, filter_In. split; [apply elem_of_list_In; exact Hin|apply Z.eqb_refl]. }
  destruct dual eqn:Edu.
  - destruct (serase_all_ok h _ _ (List.filter (shit er i) (s_nodes s)) hl.*1 _ _ Hf1 Hn1) as (nd2 & l2 & -> & Hf2 & Hn2 & Hm2).
    { apply Forall2_fmap_r. eapply Forall2_impl; [exact Hh|]. intros n0 p Hp. eapply vok_read; exact Hp. }
    cbn [obind].
    assert (Em : (list_to_map l2 : gmap T Z) = st_low n i (filter (fun p => p.2 <> i) (list_to_map l : gmap T Z))).
    { rewrite Hm2, Hm1. unfold st_low. apply map_eq. intros u. apply option_eq. intros x. rewrite map_filter_lookup_Some, !lookup_fmap, !fmap_Some. cbn.
      setoid_rewrite map_filter_lookup_Some. cbn. rewrite Hhl. split.
      - intros ((k & Hk & ->) & Hx). exists k. splits; try assumption. congruence.
      - intros (k & (Hk & Hki) & ->). split; [eauto|]. congruence. }
    eexists _, _, _. split; [reflexivity|]. split; [apply Hfin; eassumption|]. rewrite Em. split; [apply st_remove_idx_all; [reflexivity|lia]|].
    split; [lia|auto].
  - assert (exists t, match last (List.filter (shit er i) (s_nodes s)) with Some n0 => sread h n0 | None => Ok empty_text end = Ok t /\
        ((list_to_map l : gmap T Z) !! t = Some i \/ (t = empty_text /\ forall u, (list_to_map l : gmap T Z) !! u <> Some i))) as (t & -> & Ht).
    { destruct (last _) as [n0|] eqn:El.
      - apply last_Some_elem_of, elem_of_list_lookup_1 in El as [k Hk]. destruct (Forall2_lookup_l _ _ _ _ _ Hh Hk) as (p & Hpk & Hp).
        exists p.1. split; [eapply vok_read; exact Hp|]. left. apply Hhl. apply elem_of_list_fmap_1. eapply elem_of_list_lookup_2; exact Hpk.
      - exists empty_text. split; [reflexivity|]. right. split; [reflexivity|]. intros u Hu. apply Hhl in Hu.
        apply last_None in El. rewrite El in Hh. apply Forall2_nil_inv_l in Hh. rewrite Hh in Hu. inversion Hu. }
    cbn [obind]. destruct (sfind_ok h t (map (sshift er i) (s_nodes s)) l1) as (r & -> & Hr).
    { eapply Forall2_impl; [exact Hf1|]. intros n0 p Hn0. split; [apply Hn0|eapply vok_read; exact Hn0]. }
    cbn [obind]. assert (exists l2, Forall2 (vok h (s_names s) (zlen xs)) (match r with Some k => delete k (map (sshift er i) (s_nodes s)) | None => map (sshift er i) (s_nodes s) end) l2 /\
        NoDup l2.*1 /\ (list_to_map l2 : gmap T Z) = delete t (list_to_map l1)) as (l2 & Hf2 & Hn2 & Em2).
    { destruct r as [k|].
      - destruct Hr as (i' & Hk & _). exists (delete k l1). split; [apply Forall2_delete; exact Hf1|]. split; [eapply sublist_nodup; [apply delete_fst|exact Hn1]|].
        apply (dict_delete _ _ _ _ Hn1 Hk).
      - exists l1. splits; try assumption. symmetry. apply delete_notin. apply dict_out. exact Hr. }
    eexists _, _, _. split; [reflexivity|]. split; [apply Hfin; eassumption|]. rewrite Em2, Hm1. unfold st_low. rewrite <- fmap_delete. fold (st_low n i (delete t (list_to_map l))).
    split; [apply st_remove_idx_one; [reflexivity|lia|exact Ht]|]. split; [lia|discriminate].
Qed.

Lemma sremove_ok h s n m bs ts t o :
  sst h s n m bs ts ->
  exists s' n' m', sremove empty_text dual h s t = Ok s' /\ sst h s' n' m' bs ts /\ st_step1 empty_text dual (n, m) (SRemove o t) SUnit (n', m').
Proof.
  intros Hs. unfold sremove. destruct (sst_find _ _ _ _ _ _ t Hs) as (r & Er & Hr). rewrite Er. cbn [obind]. destruct r as [k|].
  2: { exists s, n, m. splits; try assumption. apply st_remove_none. exact Hr. }
  destruct dual eqn:Edu.
  { rewrite <- Edu. destruct (sremove_idx_ok h s n m bs ts (spos (s_nodes s) k) o Hs) as (s' & n' & m' & -> & Hs' & _ & H1 & H2).
    exists s', n', m'. splits; try assumption. destruct (Z.le_gt_cases n (spos (s_nodes s) k)) as [Hle|Hgt].
    - destruct (H1 Hle) as [-> ->]. eapply st_remove_out; eassumption.
    - destruct (H2 Edu Hgt) as [-> ->]. eapply st_remove_all; try eassumption. }
  pose proof Hs as (E1 & E2 & xs & ids & frees & l & Hv & -> & -> & Hf & Hn & ->).
  set (i := spos (s_nodes s) k) in *. set (er := slast (s_num s) i).
  destruct (shift_ok _ _ _ er i _ _ Hf) as (l1 & Hf1 & Hl1 & El1).
  destruct (sfind_ok h t (s_nodes s) l) as (r' & Er' & Hr').
  { eapply Forall2_impl; [exact Hf|]. intros n0 p Hn0. split; [apply Hn0|eapply vok_read; exact Hn0]. }
  rewrite Er in Er'. injection Er' as <-. destruct Hr' as (i' & Hk & _).
  assert (Hk1 : exists i2, l1 !! k = Some (t, i2)) by (rewrite El1, list_lookup_fmap, Hk; eauto). destruct Hk1 as [i2 Hk1].
  assert (Hn1 : NoDup l1.*1) by (rewrite Hl1; exact Hn).
  assert (Em : (list_to_map (delete k l1) : gmap T Z) = st_low n i (delete t (list_to_map l))).
  { rewrite (dict_delete _ _ _ _ Hn1 Hk1), El1. unfold er. rewrite E1, dict_lower, lower_spec. unfold st_low. rewrite fmap_delete. reflexivity. }
  assert (Enum : (if er then s_num s - 1 else s_num s) = st_num n i) by (unfold er; rewrite E1; apply num_spec). rewrite Enum.
  eexists _, (st_num n i), (list_to_map (delete k l1)). split; [reflexivity|]. split.
  - split; [reflexivity|]. split; [exact E2|]. exists xs, ids, frees, (delete k l1). splits; try assumption; [apply Forall2_delete; exact Hf1|].
    eapply sublist_nodup; [apply delete_fst|exact Hn1].
  - rewrite Em. eapply st_remove_one; [reflexivity|exact Hr].
Qed.

Lemma swap_at_perm k : forall nd, nd ≡ₚ swap_at k nd.
Proof. induction k as [|k IH]; intros [|n1 nd]; cbn; [reflexivity| |reflexivity|apply perm_skip, IH]. destruct nd; [reflexivity|constructor]. Qed.

Definition is_call (p : sop T) : Prop :=
  match p with SNew _ | SCopy _ _ | SMove _ _ | SCopyAssign _ _ | SMoveAssign _ _ | SDestroy _ => False | _ => True end.

Lemma sstep1_ok h s n m bs ts p :
  is_call p -> sst h s n m bs ts ->
  exists h' s' r n' m' bs' ts', sstep1 P empty_text dual h s p = Ok (h', s', r) /\ st_step1 empty_text dual (n, m) p r (n', m') /\
    sst h' s' n' m' bs' ts' /\ upd bs ts h bs' ts' h'.
Proof.
  intros Hc Hs. pose proof Hs as (En & _). assert (U0 : upd bs ts h bs ts h) by (apply upd_refl; eapply sobj_hok with (a := Some (n, m)); exact Hs).
  destruct p as [o|o src|o src|o src|o src|o|o t|o t b|o|o t|o t i|o t t'|o t r|o t|o i|o t|o|o k]; try contradiction; cbn [sstep1].
  - destruct (sst_find _ _ _ _ _ _ t Hs) as ([k|] & -> & Hr); cbn [obind].
    + eexists h, s, _, n, m, bs, ts. split; [reflexivity|]. split; [apply st_insert_used; eauto|auto].
    + destruct (sadd_ok h s n m bs ts t (s_num s) (s_num s + 1) Hs) as (h' & s' & b & bs' & ts' & -> & U & [(E & -> & Hs')|([? E] & _)]); [|congruence].
      cbn [obind]. rewrite En in *. eexists _, _, _, _, _, _, _. split; [reflexivity|]. split; [apply st_insert; exact Hr|eauto].
  - destruct (sst_find _ _ _ _ _ _ t Hs) as ([k|] & -> & Hr); cbn [obind]; [destruct b|].
    + eexists h, s, _, n, m, bs, ts. split; [reflexivity|]. split; [apply st_both_used; eauto|auto].
    + destruct (sadd_ok h s n m bs ts t (s_num s) (s_num s + 1) Hs) as (h' & s' & b & bs' & ts' & -> & U & [(E & -> & Hs')|(E & -> & Hs')]); [congruence|].
      cbn [obind]. rewrite En in *. eexists _, _, _, _, _, _, _. split; [reflexivity|]. split; [apply st_both_one; exact E|eauto].
    + destruct (sadd_ok h s n m bs ts t (s_num s) (s_num s + 1) Hs) as (h' & s' & b' & bs' & ts' & -> & U & [(E & -> & Hs')|([? E] & _)]); [|congruence].
      cbn [obind]. rewrite En in *. eexists _, _, _, _, _, _, _. split; [destruct b; reflexivity|]. split; [apply st_both; exact Hr|eauto].
  - destruct Hs as (E1 & E2 & E3). eexists _, _, _, _, _, _, _. split; [reflexivity|]. rewrite E1. split; [apply st_no|]. split; [|exact U0].
    split; [reflexivity|]. split; [exact E2|exact E3].
  - destruct (sst_find _ _ _ _ _ _ t Hs) as ([k|] & -> & Hr); cbn [obind].
    + eexists h, s, _, n, m, bs, ts. split; [reflexivity|]. split; [apply st_assign_used; eauto|auto].
    + destruct (sadd_ok h s n m bs ts t (s_num s) (s_num s + 1) Hs) as (h' & s' & b & bs' & ts' & -> & U & [(E & -> & Hs')|([? E] & _)]); [|congruence].
      cbn [obind]. rewrite En in *. eexists _, _, _, _, _, _, _. split; [reflexivity|]. split; [apply st_assign; exact Hr|eauto].
  - destruct (Z.ltb_spec i (s_num s)) as [Hi|Hi].
    + destruct (sadd_ok h s n m bs ts t i (s_num s) Hs) as (h' & s' & b & bs' & ts' & -> & U & [(E & -> & Hs')|(E & -> & Hs')]); cbn [obind]; rewrite En in *;
        (eexists _, _, _, _, _, _, _; split; [reflexivity|]); (split; [|eauto]); [apply st_term_idx; assumption|apply st_term_idx_no; auto].
    + eexists h, s, _, n, m, bs, ts. split; [reflexivity|]. split; [apply st_term_idx_no; left; lia|auto].
  - destruct (sst_find _ _ _ _ _ _ t' Hs) as ([k|] & -> & Hr); cbn [obind].
    + destruct (sadd_ok h s n m bs ts t (spos (s_nodes s) k) (s_num s) Hs) as (h' & s' & b & bs' & ts' & -> & U & [(E & -> & Hs')|(E & -> & Hs')]); cbn [obind]; rewrite En in *;
        (eexists _, _, _, _, _, _, _; split; [reflexivity|]); (split; [|eauto]); [apply st_term; assumption|apply st_term_no; auto].
    + eexists h, s, _, n, m, bs, ts. split; [reflexivity|]. split; [apply st_term_no; left; exact Hr|auto].
  - destruct r as [i|].
    + destruct (sadd_ok h s n m bs ts t i (s_num s) Hs) as (h' & s' & b & bs' & ts' & -> & U & [(E & -> & Hs')|(E & -> & Hs')]); cbn [obind]; rewrite En in *;
        (eexists _, _, _, _, _, _, _; split; [reflexivity|]); (split; [|eauto]); [apply st_key; assumption|apply st_key_no; auto].
    + eexists h, s, _, n, m, bs, ts. split; [reflexivity|]. split; [apply st_key_no; auto|auto].
  - destruct (sst_find _ _ _ _ _ _ t Hs) as ([k|] & -> & Hr); cbn [obind]; eexists h, s, _, n, m, bs, ts; (split; [reflexivity|]); (split; [|auto]);
      [apply st_find; exact Hr|apply st_find_no; exact Hr].
  - destruct (sremove_idx_ok h s n m bs ts i o Hs) as (s' & n' & m' & -> & Hs' & Hd & _). cbn [obind].
    eexists _, _, _, _, _, _, _. split; [reflexivity|]. split; [exact Hd|eauto].
  - destruct (sremove_ok h s n m bs ts t o Hs) as (s' & n' & m' & -> & Hs' & Hd). cbn [obind].
    eexists _, _, _, _, _, _, _. split; [reflexivity|]. split; [exact Hd|eauto].
  - destruct Hs as (E1 & E2 & xs & ids & frees & l & Hv & Eb & Et & _). eexists _, _, _, _, _, _, _. split; [reflexivity|]. split; [apply st_clear|]. split; [|exact U0].
    split; [reflexivity|]. split; [exact E2|]. exists xs, ids, frees, []. splits; try assumption; constructor.
  - destruct Hs as (E1 & E2 & xs & ids & frees & l & Hv & Eb & Et & Hf & Hn & Em). pose proof (swap_at_perm k (s_nodes s)) as Hsh.
    destruct (Permutation_Forall2 Hsh Hf) as (l' & Hp & Hf').
    eexists _, _, _, _, _, _, _. split; [reflexivity|]. split; [apply st_shuffle|]. split; [|exact U0].
    split; [exact E1|]. split; [exact E2|]. exists xs, ids, frees, l'. splits; try assumption.
    + rewrite <- Hp. exact Hn.
    + subst m. apply list_to_map_proper; [exact Hn|exact Hp].
Qed.

(** ** Several objects *)
Notation own := (gmap nat (list nat * list nat)).
Definition sw_inv (w : sworld T) A (G : own) : Prop := winv sobj (sw_heap w) (sw_objs w) A G.

Lemma sobj_free h s a bs ts :
  sobj h s a bs ts -> exists h', vec_free_all P h (s_names s) = Ok h' /\ upd bs ts h [] [] h'.
Proof.
  destruct a as [[n m]|]; cbn.
  - intros (_ & Hp & xs & ids & frees & l & Hv & -> & -> & _). eapply vfree_ok; eassumption.
  - intros (E & _ & -> & -> & Hok & _). exists h. unfold vec_free_all. rewrite E. split; [reflexivity|apply upd_refl; assumption].
Qed.

Lemma husk_sobj h s : hok [] [] h -> v_data (s_names s) = None -> f_tab (v_fl (s_names s)) = None -> s_nodes s = [] -> sobj h s None [] [].
Proof. cbn. auto 10. Qed.

(** The objects of [A], as the caller sees them *)
Definition stat (A : gmap nat (option (Z * gmap T Z))) : gmap nat bool := (fun a => match a with Some _ => true | None => false end) <$> A.

Lemma stat0 : stat ∅ = ∅.
Proof. unfold stat. apply fmap_empty. Qed.
Lemma stat_none A o : stat A !! o = None <-> A !! o = None.
Proof. unfold stat. rewrite lookup_fmap. destruct (A !! o); cbn; split; congruence. Qed.
Lemma stat_true A o : stat A !! o = Some true -> exists a, A !! o = Some (Some a).
Proof. unfold stat. rewrite lookup_fmap. destruct (A !! o) as [[a|]|]; cbn; [eauto|discriminate..]. Qed.
Lemma stat_some A o : stat A !! o <> None -> is_Some (A !! o).
Proof. rewrite stat_none. destruct (A !! o); [eauto|congruence]. Qed.

Lemma stat_step A p r A' : st_legal (stat A) p -> st_step empty_text dual A p r A' -> stat A' = st_next (stat A) p.
Proof.
  intros Hl Hs. destruct Hs as [A o|A o src a E|A o src a E|A o src a E|A o src a E|A o|A p a r a' E Hs1]; cbn [st_next]; unfold stat.
  - apply fmap_insert.
  - apply fmap_insert.
  - apply fmap_insert.
  - rewrite !fmap_insert, lookup_fmap, E. destruct a; reflexivity.
  - rewrite !fmap_insert, lookup_fmap, E. destruct Hl as (Hne & _). rewrite insert_commute by congruence. destruct a; reflexivity.
  - apply fmap_delete.
  - rewrite fmap_insert. destruct Hs1; cbn [st_next sobj_of] in *; apply insert_id; rewrite lookup_fmap, E; reflexivity.
Qed.

Lemma sw_step_ok w A G p :
  sw_inv w A G -> st_legal (stat A) p -> no_copy p ->
  exists w' r A' G', swstep P empty_text dual w p = Ok (w', r) /\ st_step empty_text dual A p r A' /\ sw_inv w' A' G'.
Proof.
  intros Hw Hl Hnc. pose proof (hok_nil _ (wi_new _ _ _ _ _ Hw)) as Hok.
  assert (Hhusk : exists x0 a0, sobj (sw_heap w) x0 a0 [] []).
  { exists (SVec 0 (vec_default P) []), None. apply husk_sobj; [assumption|reflexivity..]. }
  destruct w as [h objs]. unfold sw_inv in *. cbn [sw_heap sw_objs] in *.
  assert (Hcall : forall q, is_call q -> (exists a, A !! sobj_of q = Some (Some a)) ->
    exists w' r A' G', (s <-! sget (SWorld h objs) (sobj_of q) ;; '(h1, s1, r) <-! sstep1 P empty_text dual h s q ;; Ok (SWorld h1 (<[sobj_of q := s1]> objs), r)) = Ok (w', r) /\
      st_step empty_text dual A q r A' /\ winv sobj (sw_heap w') (sw_objs w') A' G').
  { intros q Hq [[n m] Ha]. destruct (wi_lookup _ _ _ _ _ _ _ Hw Ha) as (s & bs & ts & Es & Eg & Hs). unfold sget. cbn [sw_objs]. rewrite Es. cbn [obind].
    destruct (sstep1_ok h s n m bs ts q Hq Hs) as (h' & s' & r & n' & m' & bs' & ts' & -> & Hst & Hs' & U). cbn [obind].
    eexists _, _, _, _. split; [reflexivity|]. split; [eapply st_call; eassumption|]. cbn [sw_heap sw_objs].
    eapply w_upd; [exact sobj_frame|exact sobj_hok|exact Hw|exact Eg|exact U|exact Hs']. }
  destruct p as [o|o src|o src|o src|o src|o|o t|o t b|o|o t|o t i|o t t'|o t r|o t|o i|o t|o|o k]; try contradiction;
    try (apply Hcall; [exact I|apply stat_true; exact Hl]); cbn [st_legal swstep sw_heap sw_objs] in *; unfold sget; cbn [sw_objs].
  - eexists _, _, _, _. split; [reflexivity|]. split; [constructor|]. cbn [sw_heap sw_objs].
    apply w_add; [exact Hw|apply (wi_dom _ _ _ _ _ Hw), stat_none; exact Hl|]. split; [reflexivity|]. split; [intros [E _]; apply E; reflexivity|].
    exists [], [], [], []. splits; try constructor; auto.
  - destruct Hl as [Ho Ha]. apply stat_none in Ho. apply stat_some in Ha as [a Ha]. destruct (wi_lookup _ _ _ _ _ _ _ Hw Ha) as (s & bs & ts & Es & Eg & Hs). rewrite Es. cbn [obind vec_move].
    assert (Hne : o <> src) by congruence. destruct Hhusk as (x0 & a0 & H0').
    pose proof (w_add sobj h objs A G o x0 a0 Hw (proj2 (wi_dom _ _ _ _ _ Hw o) Ho) H0') as Hw1.
    eexists _, _, _, _. split; [reflexivity|]. split; [apply st_move; eassumption|]. cbn [sw_heap sw_objs].
    eapply (w_transfer sobj) with (o := o) (src := src) (x' := SVec (s_num s) (s_names s) (s_nodes s)) (a' := a) (a0 := None) in Hw1; try assumption.
    + rewrite !insert_insert in Hw1. rewrite (insert_commute _ o src), (insert_commute A o src) by assumption. exact Hw1.
    + rewrite lookup_insert_ne by assumption. exact Eg.
    + apply lookup_insert.
    + destruct s; exact Hs.
    + apply husk_sobj; [assumption|reflexivity..].
  - destruct Hl as (Hne & Had & Ha). apply stat_some in Had as [ad Had]. apply stat_some in Ha as [a Ha].
    destruct (wi_lookup _ _ _ _ _ _ _ Hw Had) as (d & bsd & tsd & Ed & Egd & Hd). rewrite Ed. cbn [obind].
    destruct (wi_lookup _ _ _ _ _ _ _ Hw Ha) as (s & bs & ts & Es & Eg & Hs). rewrite Es. cbn [obind].
    unfold vec_move_assign. destruct (sobj_free h d ad bsd tsd Hd) as (h' & -> & U). cbn [obind].
    pose proof (upd_hok _ _ _ _ _ _ (sobj_hok _ _ _ _ _ Hd) U) as Hok'.
    set (v' := Vec (v_size (s_names s)) None 0 (v_idx (s_names s)) (v_bsize (s_names s)) (FList 0 (f_idx (v_fl (s_names s))) None)).
    assert (Hs' : sobj h' (SVec (s_num s) v' []) None [] []) by (apply husk_sobj; [assumption|reflexivity..]).
    pose proof (w_upd sobj sobj_frame sobj_hok _ _ _ _ o (SVec (s_num s) v' []) None _ _ _ _ h' Hw Egd U Hs') as Hw1.
    eexists _, _, _, _. split; [reflexivity|]. split; [apply st_move_assign; eassumption|]. cbn [sw_heap sw_objs].
    eapply (w_transfer sobj) with (o := o) (src := src) (x' := SVec (s_num s) (s_names s) (s_nodes s)) (a' := a) (y' := SVec (s_num s) v' []) (a0 := None) (bs := bs) (ts := ts) in Hw1; try assumption.
    + rewrite !insert_insert in Hw1. exact Hw1.
    + rewrite lookup_insert_ne by assumption. exact Eg.
    + apply lookup_insert.
    + pose proof (wi_obj _ _ _ _ _ Hw1 src) as X. rewrite !lookup_insert_ne in X by assumption. specialize (X _ _ _ _ Es Ha Eg). destruct s; exact X.
  - apply stat_some in Hl as [a Ha]. destruct (wi_lookup _ _ _ _ _ _ _ Hw Ha) as (s & bs & ts & Es & Eg & Hs). rewrite Es. cbn [obind].
    destruct (sobj_free h s a bs ts Hs) as (h' & -> & U). cbn [obind].
    eexists _, _, _, _. split; [reflexivity|]. split; [constructor|]. cbn [sw_heap sw_objs].
    eapply w_del with (x0 := SVec 0 (vec_default P) []) (a0 := None); [exact sobj_frame|exact sobj_hok|exact Hw|exact Eg|exact U|].
    apply husk_sobj; [|reflexivity..]. eapply upd_hok; [exact (sobj_hok _ _ _ _ _ Hs)|exact U].
Qed.

Lemma sw_run_ok ps : forall w A G, sw_inv w A G -> st_ok (stat A) ps -> Forall no_copy ps ->
  exists w' tr A' G', swrun P empty_text dual w ps = Ok (w', tr) /\ map fst tr = ps /\ st_trace empty_text dual A tr A' /\ sw_inv w' A' G'.
Proof.
  induction ps as [|p ps IH]; intros w A G Hw Hok Hnc; cbn [swrun].
  - exists w, [], A, G. splits; try assumption. constructor.
  - destruct Hok as (Hl & Hn). inversion Hnc; subst.
    destruct (sw_step_ok w A G p Hw Hl) as (w1 & r & A1 & G1 & E & Hs & Hw1); [assumption|]. rewrite E. cbn [obind].
    destruct (IH w1 A1 G1 Hw1 (eq_ind_r (fun S => st_ok S ps) Hn (stat_step _ _ _ _ Hl Hs))) as (w2 & tr & A2 & G2 & -> & Ht & Htr & Hw2); [assumption|]. cbn [obind].
    exists w2, ((p, r) :: tr), A2, G2. splits; try assumption; [cbn; congruence|econstructor; eassumption].
Qed.

Lemma sw_inv0 : sw_inv sworld0 ∅ ∅.
Proof.
  constructor; cbn; intros; try (rewrite lookup_empty in *; discriminate); try (split; intros; apply lookup_empty).
  - split; [split; [set_solver|intros; apply lookup_empty]|apply lookup_empty].
  - split; [set_solver|intros; apply lookup_empty].
Qed.

(** Every stored view of every object is a string of its own [names], alive. *)
Definition own_text (w : sworld T) (o : nat) : Prop :=
  forall s, sw_objs w !! o = Some s -> forall b j i, (b, j, i) ∈ s_nodes s ->
    (exists t, el (sw_heap w) !! (b, j) = Some t) /\
    exists k, 0 <= k < v_size (s_names s) /\ vec_at P (sw_heap w) (s_names s) k = Ok (Some b, j).

Lemma inv_own w A G o : sw_inv w A G -> own_text w o.
Proof.
  intros Hw s Es b j i Hin. destruct (A !! o) as [a|] eqn:Ea; [|apply (wi_dom _ _ _ _ _ Hw) in Ea; congruence].
  destruct (wi_lookup _ _ _ _ _ _ _ Hw Ea) as (s' & bs & ts & Es' & Eg & Hs). assert (s' = s) as -> by congruence.
  destruct a as [[n m]|]; cbn in Hs.
  - destruct Hs as (_ & _ & xs & ids & frees & l & Hv & _ & _ & Hf & _). apply elem_of_list_lookup_1 in Hin as [q Hq].
    destruct (Forall2_lookup_l _ _ _ _ _ Hf Hq) as (p & _ & (_ & E & k & Hk & E')). split; [exists p.1; exact E|]. exists k. split; [|exact E'].
    destruct Hv as [(-> & -> & _)|(t & _ & _ & -> & _)]; exact Hk.
  - destruct Hs as (_ & _ & _ & _ & _ & E). rewrite E in Hin. inversion Hin.
Qed.

(** ** Copies *)
Lemma copy_foreign w A G o src s s' :
  sw_inv w A G -> A !! o = None -> sw_objs w !! src = Some s -> ~ vfull P (s_names s) -> expo P <= 30 ->
  forall w1 r, swstep P empty_text dual w (SCopy o src) = Ok (w1, r) -> sw_objs w1 !! o = Some s' ->
    s_nodes s' = s_nodes s /\
    forall b j i, (b, j, i) ∈ s_nodes s' -> forall k j', 0 <= k < v_size (s_names s') -> vec_at P (sw_heap w1) (s_names s') k <> Ok (Some b, j').
Proof.
  intros Hw Ho Es Hnf HN w1 r E Es'. destruct w as [h objs]. cbn [sw_heap sw_objs swstep] in *. unfold sget in E; cbn [sw_objs] in E.
  rewrite Es in E. cbn [obind] in E.
  destruct (A !! src) as [a|] eqn:Ea; [|apply (wi_dom _ _ _ _ _ Hw) in Ea; cbn in Ea; congruence].
  destruct (wi_lookup _ _ _ _ _ _ _ Hw Ea) as (s0 & bs & ts & Es0 & Eg & Hs). cbn in Es0, Hs. assert (s0 = s) as -> by congruence.
  destruct a as [[n m]|]; cbn in Hs.
  2: { destruct Hs as (Ed & _ & _ & _ & _ & En). unfold vec_copy in E. rewrite Ed in E. cbn [obind] in E. injection E as <- <-. cbn [sw_objs sw_heap] in *.
       rewrite lookup_insert in Es'. injection Es' as <-. cbn. split; [reflexivity|]. intros b j i Hin k j' Hk. lia. }
  destruct Hs as (_ & _ & xs & ids & frees & l & Hv & -> & -> & Hf & _).
  destruct (vcopy_ok P HP h (s_names s) xs ids frees HN Hv Hnf) as (h' & v' & ids' & frees' & Ec & Hv' & U & _). rewrite Ec in E. cbn [obind] in E.
  injection E as <- <-. cbn [sw_objs sw_heap] in *. rewrite lookup_insert in Es'. injection Es' as <-. cbn [s_nodes s_names]. split; [reflexivity|].
  intros b j i Hin k j' Hk Hat. apply elem_of_list_lookup_1 in Hin as [q Hq].
  destruct (Forall2_lookup_l _ _ _ _ _ Hf Hq) as (p & _ & (_ & _ & k0 & Hk0 & E0)). cbn in E0.
  destruct (vat_ok P HP _ _ _ _ _ k0 Hv Hk0) as (i1 & b1 & F1 & F2 & _). rewrite E0 in F1. injection F1 as -> _.
  assert (Hz : v_size v' = zlen xs) by (destruct Hv' as [(-> & -> & _)|(t & _ & _ & E3 & _)]; [reflexivity|exact E3]). rewrite Hz in Hk.
  destruct (vat_ok P HP _ _ _ _ _ k Hv' Hk) as (i2 & b2 & G1 & G2 & _). rewrite Hat in G1. injection G1 as -> _.
  destruct (u_bnew _ _ _ _ _ _ U b2) as [_ [Hin|Hge]]; [apply elem_of_app; right; eapply elem_of_list_lookup_2; exact G2|inversion Hin|].
  destruct (vinv_hok _ _ _ _ _ _ Hv) as (_ & Hb & _). specialize (Hb b2). enough (b2 < nx h)%nat by lia. apply Hb, elem_of_app. right.
  eapply elem_of_list_lookup_2; exact F2.
Qed.

End str.

Section share.
Context {T : Type} `{Countable T}.
Variable P : params.
Hypothesis HP : 0 <= expo P <= 30.

Lemma st_ok_snoc (ps : list (sop T)) p : forall S, st_ok S (ps ++ [p]) -> st_ok S ps /\ st_legal (fold_left st_next ps S) p.
Proof. induction ps as [|q ps IH]; intros S; cbn; [tauto|]. intros (H1 & H2). destruct (IH _ H2). tauto. Qed.

Lemma stat_trace (empty_text : T) (dual : bool) (A : gmap nat (option (Z * gmap T Z))) tr A' :
  st_trace empty_text dual A tr A' -> st_ok (stat A) (map fst tr) -> stat A' = fold_left st_next (map fst tr) (stat A).
Proof.
  induction 1 as [|A p r A1 tr A2 Hs Ht IH]; [reflexivity|]. cbn. intros (Hl & Hn). rewrite <- (stat_step _ _ _ _ _ _ Hl Hs) in *. auto.
Qed.

Lemma copies_share (empty_text : T) (dual : bool) ps w tr o src s :
  st_ok ∅ (ps ++ [SCopy o src]) -> Forall no_copy ps -> swrun P empty_text dual sworld0 ps = Ok (w, tr) ->
  sw_objs w !! src = Some s -> ~ vfull P (s_names s) ->
  forall w1 r s1, swstep P empty_text dual w (SCopy o src) = Ok (w1, r) -> sw_objs w1 !! o = Some s1 ->
    s_nodes s1 = s_nodes s /\
    forall b j i, (b, j, i) ∈ s_nodes s1 ->
      forall k j', 0 <= k < v_size (s_names s1) -> vec_at P (sw_heap w1) (s_names s1) k <> Ok (Some b, j').
Proof.
  intros Hok Hnc E Es Hnf w1 r s1 E1 Es1. destruct (st_ok_snoc _ _ _ Hok) as (Hok1 & Hl).
  rewrite <- (stat0 (T := T)) in Hok1, Hl.
  destruct (sw_run_ok P ltac:(lia) empty_text dual ps _ _ _ (sw_inv0 P ltac:(lia)) Hok1 Hnc) as (w' & tr' & A & G & E' & Ht & Htr & Hw).
  rewrite E in E'. injection E' as <- <-. subst ps. rewrite <- (stat_trace _ _ _ _ _ Htr Hok1) in Hl. destruct Hl as (Ho & _). apply stat_none in Ho.
  exact (copy_foreign P ltac:(lia) empty_text dual w A G o src s s1 Hw Ho Es Hnf ltac:(lia) w1 r E1 Es1).
Qed.

End share.
