(** The storage behaves as a list. *)
From stdpp Require Import gmap.
From Verif Require Import Base BlkHeap BlkProofs BlkMore BlkRun BlkIter BlkIterProofs BlkWorld VecModel VecSpec VecProofs VecWorld VecFinal MapStore.

Section store.
Context {V : Type}.
Variable P : params.
Hypothesis HP : 0 <= expo P <= 30.
Notation B := (bsz P).
Implicit Types (s : store V) (xs : list V).

Definition st_ok s xs : Prop :=
  match s with SVec ys => ys = xs | SBlk h v => exists ids frees, vgood P h v xs ids frees end.

(** end() may be called: the table of blocks is not exactly full *)
Definition st_room s : Prop := match s with SVec _ => True | SBlk _ v => ~ vfull P v end.

Definition st_guard s (o : vop V) : Prop := match o with VWalk => st_room s | _ => True end.
Definition lst_legal xs (o : vop V) : Prop := seq_legal xs o /\ (o = VPop -> xs <> []).

(** Elements that stay are not moved (stable storage only). *)
Definition st_kept s s' : Prop :=
  match s, s' with
  | SBlk h v, SBlk h' v' => forall n, 0 <= n < v_size v -> n < v_size v' -> vec_at P h' v' n = vec_at P h v n
  | SVec _, SVec _ => True
  | _, _ => False
  end.

Lemma st_kept_stable s s' : st_kept s s' -> st_stable s' = st_stable s.
Proof. destruct s, s'; cbn; try reflexivity; contradiction. Qed.

Lemma st_kept_refl s : st_kept s s.
Proof. destruct s; cbn; auto. Qed.

Lemma st_ok_size s xs : st_ok s xs -> st_size s = zlen xs.
Proof. destruct s as [ys|h v]; cbn; [intros ->; reflexivity|]. intros (ids & frees & [Hv _]). eapply vinv_size; eassumption. Qed.

Lemma st_step_ok s xs o :
  st_ok s xs -> lst_legal xs o -> st_guard s o ->
  exists s' r, st_step P s o = Ok (s', r) /\ seq_step xs o r (seq_next xs o) /\ st_ok s' (seq_next xs o) /\ st_kept s s'.
Proof.
  destruct HP as [HP1 HP2]. destruct s as [ys|h v]; cbn [st_ok st_step].
  - intros -> [Hl Hp] _. destruct o; cbn [lst_step seq_legal] in *.
    + eexists _, _; splits. constructor.
    + destruct xs as [|x xs' _] using rev_ind; [exfalso; apply Hp; reflexivity|]. cbn [seq_next].
      destruct (xs' ++ [x]) as [|a l] eqn:E; [destruct xs'; discriminate|]. rewrite <- E. cbn [obind].
      eexists _, _; splits. rewrite removelast_last. constructor.
    + eexists _, _; splits. constructor.
    + eexists _, _; splits. constructor.
    + eexists _, _; splits. constructor.
    + destruct (Z.leb_spec 0 n); [|lia]. destruct (Z.ltb_spec n (zlen xs)); [|lia]. cbn. eexists _, _; splits.
      replace n with (Z.of_nat (Z.to_nat n)) at 1 by lia. constructor. unfold zlen in *; lia.
    + destruct (Z.ltb_spec n 0); [lia|]. destruct (lookup_lt_is_Some_2 xs (Z.to_nat n)) as [x Hx]; [unfold zlen in *; lia|]. rewrite Hx. cbn.
      eexists _, _; splits. replace n with (Z.of_nat (Z.to_nat n)) at 1 by lia. constructor. exact Hx.
    + destruct (xs !! Z.to_nat n) as [x|] eqn:Hx; cbn; eexists _, _; splits.
      * replace n with (Z.of_nat (Z.to_nat n)) at 1 by lia. constructor. exact Hx.
      * constructor. apply lookup_ge_None in Hx. unfold zlen; lia.
    + destruct xs as [|x xs' _] using rev_ind; [congruence|]. rewrite last_snoc. cbn. eexists _, _; splits. constructor.
    + destruct xs as [|x xs']; [congruence|]. cbn. eexists _, _; splits. constructor.
    + eexists _, _; splits. constructor.
    + eexists _, _; splits. constructor.
    + eexists _, _; splits. constructor.
  - intros (ids & frees & [Hv Hp]) [Hl _] Hg.
    destruct (vstep_ok P HP1 h v xs ids frees o HP2 Hv Hl) as (h' & v' & r & xs' & ids' & frees' & E & S & Hv' & _ & Hp' & M).
    { destruct o; cbn in *; tauto. }
    pose proof (seq_next_ok _ _ _ _ S). subst xs'. rewrite E. cbn [obind]. eexists _, _; splits; [exact S| |].
    + exists ids', frees'. split; tauto.
    + intros n Hn Hn'. rewrite (vinv_size _ _ _ _ _ _ Hv) in Hn. rewrite (vinv_size _ _ _ _ _ _ Hv') in Hn'.
      destruct (vat_ok P HP1 h v xs ids frees n Hv Hn) as (i & b & E1 & Hi & Ei & _).
      destruct (vat_ok P HP1 h' v' _ ids' frees' n Hv' ltac:(lia)) as (i' & b' & E1' & Hi' & Ei' & _).
      replace i' with i in * by lia. rewrite E1, E1'. destruct M as [M|[M|M]].
      * apply (mono_lookup _ _ _ _ M) in Hi. congruence.
      * apply (mono_lookup _ _ _ _ M) in Hi'. congruence.
      * rewrite M in Hn'. unfold zlen in Hn'; cbn in Hn'. lia.
Qed.

Lemma st_push_ok s xs x : st_ok s xs ->
  exists s', st_step P s (VPush x) = Ok (s', VUnit) /\ st_ok s' (xs ++ [x]) /\ st_kept s s'.
Proof.
  intros Hs. destruct (st_step_ok s xs (VPush x) Hs) as (s' & r & E & S & Hs' & K); [split; [exact I|discriminate]|exact I|].
  assert (r = VUnit) as -> by (inversion S; reflexivity). exists s'. auto.
Qed.
Lemma st_set_ok s xs i x : st_ok s xs -> 0 <= i < zlen xs ->
  exists s', st_step P s (VSet i x) = Ok (s', VUnit) /\ st_ok s' (<[Z.to_nat i := x]> xs) /\ st_kept s s'.
Proof.
  intros Hs Hi. destruct (st_step_ok s xs (VSet i x) Hs) as (s' & r & E & S & Hs' & K); [split; [exact Hi|discriminate]|exact I|].
  assert (r = VUnit) as -> by (inversion S; reflexivity). exists s'. auto.
Qed.
Lemma st_clear_ok s xs : st_ok s xs -> exists s', st_step P s VClear = Ok (s', VUnit) /\ st_ok s' [] /\ st_kept s s'.
Proof.
  intros Hs. destruct (st_step_ok s xs VClear Hs) as (s' & r & E & S & Hs' & K); [split; [exact I|discriminate]|exact I|].
  assert (r = VUnit) as -> by (inversion S; reflexivity). exists s'. auto.
Qed.

Definition st_erased s xs (i : Z) : list V :=
  if st_stable s && negb (i =? zlen xs - 1) then xs else delete (Z.to_nat i) xs.

Lemma st_erase_ok s xs i : st_ok s xs -> 0 <= i < zlen xs ->
  exists s', st_erase P s i = Ok (s', negb (st_stable s && negb (i =? zlen xs - 1))) /\ st_ok s' (st_erased s xs i) /\ st_kept s s'.
Proof.
  intros Hs Hi. pose proof (st_ok_size _ _ Hs) as Hz. unfold st_erased. destruct s as [ys|h v]; cbn in *.
  - subst ys. destruct (Z.leb_spec 0 i); [|lia]. destruct (Z.ltb_spec i (zlen xs)); [|lia]. cbn. eexists; splits.
  - rewrite Hz. destruct (Z.eqb_spec i (zlen xs - 1)) as [E|Hne]; cbn [negb].
    + destruct xs as [|x xs' _] using rev_ind; [unfold zlen in Hi; cbn in Hi; lia|].
      destruct (st_step_ok (SBlk h v) (xs' ++ [x]) VPop Hs) as (s' & r & E' & S & Hs' & K); [split; [exact I|intros _ F; destruct xs'; discriminate]|exact I|].
      cbn [st_step vec_step seq_next] in *. rewrite removelast_last in *.
      destruct (vec_pop P h v) as [[h1 v1]| |]; cbn [obind] in E'; try discriminate. injection E' as <- <-. cbn [obind]. eexists; splits; [|rewrite <- Hz; exact K].
      replace (delete (Z.to_nat i) (xs' ++ [x])) with xs'; [exact Hs'|]. replace (Z.to_nat i) with (length xs').
      2:{ rewrite zlen_app in E. unfold zlen in E. cbn in E. lia. }
      rewrite delete_middle. rewrite app_nil_r. reflexivity.
    + eexists; splits; [exact Hs|]. intros n _ _. reflexivity.
Qed.

(** Iterators *)
Lemma st_iters s xs : st_ok s xs -> st_room s ->
  exists pos : Z -> siter,
    st_end P s = Ok (pos (zlen xs)) /\
    (forall i, 0 <= i <= zlen xs -> (st_stable s = true -> i <= 2147483648 - B) -> st_iter P s i = Ok (pos i)) /\
    (forall i k, 0 <= i <= zlen xs -> 0 <= k <= zlen xs -> si_eq (pos i) (pos k) = (i =? k)) /\
    (forall i x, xs !! Z.to_nat i = Some x -> 0 <= i -> st_deref P s (pos i) = Ok x).
Proof.
  pose proof HP as [HP1 HP2]. destruct s as [ys|h v]; cbn [st_ok st_room].
  - intros -> _. exists IVec. splits; cbn.
    + intros i Hi _. destruct (Z.leb_spec 0 i); [|lia]. destruct (Z.leb_spec i (zlen xs)); [|lia]. reflexivity.
    + intros i x -> _. reflexivity.
  - intros (ids & frees & [Hv Hp]) Hf.
    assert (exists first last pos, vec_begin P h v = Ok first /\ vec_end P h v = Ok last /\ iters P h xs first last pos) as (first & last & pos & E1 & E2 & Hi).
    { destruct Hv as [(-> & Ex & _)|(t & Hl)].
      - rewrite Ex. eexists _, _, _. splits; [..|apply (iters_empty P HP)]; unfold vec_begin, vec_end; cbn; rewrite Z.eqb_refl; reflexivity.
      - destruct (vbegin_ok P HP1 _ _ _ _ _ _ Hl Hf) as (first & E1 & H1). destruct (vend_ok P HP1 _ _ _ _ _ _ Hl Hf) as (last & E2 & H2).
        pose proof (vlen_ids P HP1 _ _ _ _ _ _ Hl) as Hlen.
        destruct (iters_ex P HP h t (v_slots v) 0 ids 0 xs (v_fl v) frees first last) as [pos Hpos]; try assumption; try lia; try apply Hl.
        exists first, last, pos. auto. }
    exists (fun i => IBlk (pos i)). cbn. rewrite E1, E2. cbn. splits.
    + rewrite (is_last _ _ _ _ _ _ Hi). reflexivity.
    + intros i H1 H2. specialize (H2 eq_refl). rewrite <- (is_first _ _ _ _ _ _ Hi). rewrite (is_add _ _ _ _ _ _ Hi) by lia. reflexivity.
    + apply (is_eq _ _ _ _ _ _ Hi).
    + intros i x Hx H0. rewrite <- (is_read _ _ _ _ _ _ Hi _ _ Hx). rewrite Z2Nat.id by lia. reflexivity.
Qed.

(** find on a present term needs no end(): it works with a full table too *)
Lemma st_iter_read s xs i x : st_ok s xs -> xs !! Z.to_nat i = Some x -> 0 <= i -> (st_stable s = true -> i <= 2147483647) ->
  exists it, st_iter P s i = Ok it /\ st_deref P s it = Ok x.
Proof.
  pose proof HP as [HP1 HP2]. intros Hs Hx H0 Hm. pose proof (lookup_lt_Some _ _ _ Hx) as Hlt. destruct s as [ys|h v]; cbn [st_ok] in Hs.
  - subst ys. exists (IVec i). cbn. rewrite Hx. split; [|reflexivity]. destruct (Z.leb_spec 0 i); [|lia]. destruct (Z.leb_spec i (zlen xs)); [reflexivity|unfold zlen in *; lia].
  - destruct Hs as (ids & frees & [[(_ & -> & _)|(t & Hl)] _]); [rewrite lookup_nil in Hx; discriminate|].
    cbn. pose proof (vlen_ids P HP1 _ _ _ _ _ _ Hl) as Hlen. destruct Hl as (Ed & Hbk & Hsz & Hi & Hb & Hz & Hs).
    unfold vec_begin. destruct (Z.eqb_spec (v_size v) 0) as [E0|_]; [unfold zlen in *; lia|]. rewrite Ed. pose proof (B_pos P HP1).
    destruct (row_entry h t (v_slots v) 0 ids 0) as [c Ec]; [apply Hbk|lia|].
    assert (H1 : it_at P h t 0 (BIter (Some t) 0 (match c with Some b => PSlot b 0 | None => PJunk end) 0)).
    { unfold it_at, it_new, it_ptr. rewrite Z.div_0_l, Z.mod_0_l by lia. rewrite Ec. reflexivity. }
    replace (it_new h (Some t) 0 0) with (Ok (BIter (Some t) 0 (match c with Some b => PSlot b 0 | None => PJunk end) 0)).
    cbn [obind]. destruct (it_add_within P HP1 h t 0 _ i H1) as (it & -> & Hit); [lia|rewrite Z.mod_0_l by lia; specialize (Hm eq_refl); lia| |].
    { rewrite Z.add_0_l. destruct (bk_locate P HP1 h t (v_slots v) 0 ids 0 xs (v_fl v) frees i Hbk) as (j & b & _ & _ & _ & _ & E5); try (unfold zlen in *; lia).
      rewrite !Z.add_0_l in E5. eexists; exact E5. }
    cbn [obind]. exists (IBlk it). split; [reflexivity|]. cbn.
    apply (it_read_ok P HP1 h t (v_slots v) 0 ids 0 xs (v_fl v) frees i it x); try assumption; try lia.
    + unfold zl. destruct (Z.ltb_spec i 0); [lia|exact Hx].
Qed.

(** Past position 2^31 - 1 the iterator of stable storage is one to no element. *)
Lemma st_iter_far s xs : st_ok s xs -> st_stable s = true -> xs <> [] -> exists it, st_iter P s 2147483648 = Ok it /\ st_deref P s it = UB.
Proof.
  pose proof HP as [HP1 HP2]. intros Hs Hb Hx. destruct s as [ys|h v]; [discriminate|]. cbn [st_iter st_ok] in *.
  assert (0 < zlen xs) by (destruct xs; [congruence|unfold zlen; cbn; lia]).
  destruct Hs as (ids & frees & [[(_ & -> & _)|(t & Hl)] _]); [congruence|].
  pose proof (vlen_ids P HP1 _ _ _ _ _ _ Hl) as Hlen. destruct Hl as (Ed & Hbk & Hsz & Hi & Hb' & Hz & Hs).
  unfold vec_begin. destruct (Z.eqb_spec (v_size v) 0) as [E0|_]; [unfold zlen in *; lia|]. rewrite Ed. pose proof (B_pos P HP1). pose proof (B_int P HP).
  destruct (row_entry h t (v_slots v) 0 ids 0) as [c Ec]; [apply Hbk|lia|].
  replace (it_new h (Some t) 0 0) with (Ok (BIter (Some t) 0 (match c with Some b => PSlot b 0 | None => PJunk end) 0)) by (unfold it_new, it_ptr; rewrite Ec; reflexivity).
  cbn [obind]. unfold it_add. cbn [i_off]. change (0 + wrap32 2147483648) with (-2147483648). change (negb (int_ok (-2147483648))) with false. cbn [obind].
  destruct (Z.leb_spec B (-2147483648)); [lia|]. cbn [obind]. eexists. split; [reflexivity|]. cbn. unfold it_read. cbn.
  destruct c as [b|]; cbn; [|reflexivity]. unfold eget, slot. destruct (Z.ltb_spec 2147483648 B); [lia|].
  repeat (case_match; try reflexivity); cbn in *; try lia; try congruence.
Qed.

(** *** modify / transform *)
Lemma eset_tb (h : bheap V) c j x h' : eset P h c j x = Ok h' -> tb h' = tb h.
Proof.
  unfold eset. intros E. apply obind_ok in E as (b & E & E'). destruct (el h !! (b, j)); [|discriminate]. injection E' as <-. reflexivity.
Qed.

Lemma it_at_tb (h h' : bheap V) t q it : tb h' = tb h -> it_at P h t q it -> it_at P h' t q it.
Proof. intros E. unfold it_at, it_new, it_ptr, tget. rewrite E. auto. Qed.

Lemma it_map_ok f t v ids frees last : forall k n h it xs,
  vlive P h v t xs ids frees -> entry h t (zlen xs / B) -> (n + k = length xs)%nat ->
  it_at P h t (Z.of_nat n) it -> it_at P h t (zlen xs) last ->
  exists h', it_map P h it last k f = Ok (h', drop n xs) /\ vlive P h' v t (take n xs ++ map f (drop n xs)) ids frees.
Proof.
  destruct HP as [HP1 HP2]. induction k as [|k IH]; intros n h it xs Hl He Hk Hit Hlast; cbn [it_map]; rewrite (it_at_eq P HP1 _ _ _ _ _ _ Hit Hlast).
  - replace n with (length xs) by lia. rewrite drop_all, firstn_all. cbn [map]. rewrite app_nil_r.
    destruct (Z.eqb_spec (Z.of_nat (length xs)) (zlen xs)); [|unfold zlen in *; lia]. eauto.
  - destruct (Z.eqb_spec (Z.of_nat n) (zlen xs)); [unfold zlen in *; lia|].
    destruct (lookup_lt_is_Some_2 xs n) as [x Hx]; [lia|]. pose proof (vlen_ids P HP1 _ _ _ _ _ _ Hl) as Hlen.
    assert (Hv : vinv P h v xs ids frees) by (right; eauto).
    rewrite (it_read_ok P HP1 h t (v_slots v) 0 ids 0 xs (v_fl v) frees (Z.of_nat n) it x); try assumption; try lia; try apply Hl.
    2:{ rewrite zl_nat. exact Hx. }
    cbn [obind]. destruct (vset_ok P HP1 h v xs ids frees n (f x) Hv ltac:(lia)) as (h1 & E1 & Hv1 & _).
    unfold vec_set in E1. destruct (vat_ok P HP1 h v xs ids frees (Z.of_nat n) Hv) as (i & b & E2 & Hb & Ei & Hj & _); [unfold zlen; lia|].
    rewrite E2 in E1. cbn [obind] in E1.
    assert (Hptr : i_ptr it = PSlot b (Z.of_nat n mod B)).
    { apply it_at_inv in Hit as (c & Ec & ->). unfold vec_at in E2. assert (v_data v = Some t) as Ed by apply Hl. rewrite Ed, shiftr_bsz, land_bsz in E2 by assumption.
      rewrite Ec in E2. cbn [obind] in E2. injection E2 as ->. reflexivity. }
    rewrite Hptr, E1. cbn [obind]. pose proof (eset_tb _ _ _ _ _ E1) as Htb.
    assert (Hl1 : vlive P h1 v t (<[n := f x]> xs) ids frees).
    { destruct Hv1 as [(-> & _)|(t' & Hl1)]; [assert (v_data (vec_default P) = Some t) as F by apply Hl; discriminate|].
      assert (v_data v = Some t) as F by apply Hl. assert (v_data v = Some t') as F' by apply Hl1. assert (t' = t) as -> by congruence. exact Hl1. }
    assert (He1 : forall q, entry h t q -> entry h1 t q) by (intros q [c Ec]; exists c; unfold tget in *; rewrite Htb; exact Ec).
    assert (Hz1 : zlen (<[n := f x]> xs) = zlen xs) by (unfold zlen; rewrite insert_length; reflexivity).
    destruct (it_add_ok P HP1 h1 t (Z.of_nat n) it 1 (it_at_tb _ _ _ _ _ Htb Hit)) as (it' & -> & Hit'); [pose proof (B_int P HP); lia| |].
    { apply He1. destruct (decide (S n = length xs)) as [E|Hne].
      - replace (Z.of_nat n + 1) with (zlen xs) by (unfold zlen; lia). assumption.
      - destruct (bk_locate P HP1 h t (v_slots v) 0 ids 0 xs (v_fl v) frees (Z.of_nat n + 1)) as (i' & b' & _ & _ & _ & _ & E5); try lia; [apply Hl|unfold zlen; lia|].
        rewrite !Z.add_0_l in E5. eexists. exact E5. }
    cbn [obind]. destruct (IH (S n) h1 it' (<[n := f x]> xs) Hl1) as (h2 & -> & Hl2).
    + rewrite Hz1. apply He1. exact He.
    + rewrite insert_length. lia.
    + replace (Z.of_nat (S n)) with (Z.of_nat n + 1) by lia. exact Hit'.
    + rewrite Hz1. eapply it_at_tb; eassumption.
    + cbn [obind]. exists h2. rewrite drop_insert_gt by lia. rewrite (drop_S _ _ _ Hx). split; [reflexivity|].
      rewrite drop_insert_gt in Hl2 by lia. rewrite (take_S_r _ _ (f x)) in Hl2 by (apply list_lookup_insert; lia).
      rewrite take_insert in Hl2 by lia. rewrite <- app_assoc in Hl2. exact Hl2.
Qed.

Lemma st_modify_ok s xs f : st_ok s xs -> st_room s ->
  exists s', st_modify P s f = Ok (s', xs) /\ st_ok s' (map f xs) /\ st_kept s s'.
Proof.
  pose proof HP as [HP1 HP2]. destruct s as [ys|h v]; cbn [st_ok st_room st_modify].
  - intros -> _. eexists; splits.
  - intros (ids & frees & [Hv Hp]) Hf. destruct Hv as [(-> & -> & -> & -> & H)|(t & Hl)].
    + unfold vec_begin, vec_end; cbn. rewrite Z.eqb_refl. cbn. eexists; splits.
      exists [], []. split; [left; auto|exact Hp].
      intros n _ _. reflexivity.
    + destruct (vbegin_ok P HP1 _ _ _ _ _ _ Hl Hf) as (first & -> & H1). destruct (vend_ok P HP1 _ _ _ _ _ _ Hl Hf) as (last & -> & H2). cbn [obind].
      pose proof (vend_entry P HP1 _ _ _ _ _ _ Hl Hf) as He.
      destruct (it_map_ok f t v ids frees last (length xs) 0 h first xs Hl He eq_refl H1 H2) as (h' & E & Hl').
      assert (v_size v = zlen xs) as Hsz by apply Hl. rewrite Hsz. unfold zlen. rewrite Nat2Z.id, E. cbn [obind]. rewrite drop_0 in *. cbn [take app] in Hl'.
      eexists; splits.
      * exists ids, frees. split; [right; eauto|exact Hp].
      * intros n Hn _. fold (zlen xs) in *. rewrite Hsz in Hn. assert (zlen (map f xs) = zlen xs) as Hm by (unfold zlen; rewrite map_length; reflexivity).
        destruct (vat_ok P HP1 h v xs ids frees n ltac:(right; eauto) Hn) as (i & b & E1 & Hi & Ei & _).
        destruct (vat_ok P HP1 h' v (map f xs) ids frees n (or_intror (ex_intro _ t Hl')) ltac:(rewrite Hm; exact Hn)) as (i' & b' & E1' & Hi' & Ei' & _).
        replace i' with i in * by lia. congruence.
Qed.

End store.
