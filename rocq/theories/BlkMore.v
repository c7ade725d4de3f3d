(** Loops over blocks and the list of spare blocks. *)
From stdpp Require Import gmap.
From Verif Require Import Base BlkHeap BlkProofs.

Section more.
Context {V : Type}.
Variable P : params.
Hypothesis HP : 0 <= expo P.
Notation B := (bsz P).
Implicit Types (h : bheap V) (bs ts ids frees : list nat) (b : nat).

Lemma split_last (xs ys : list V) k : zlen ys = Z.of_nat (S k) -> exists ys' v, ys = ys' ++ [v] /\ zlen ys' = Z.of_nat k.
Proof.
  intros Hl. destruct ys as [|y ys _] using rev_ind; [unfold zlen in Hl; cbn in Hl; lia|].
  exists ys, y. rewrite zlen_app in Hl. unfold zlen in *; cbn in *. split; [reflexivity|lia].
Qed.

Lemma kill_down_ok bs ts ids off t slots lo (i : nat) b lo' k : forall h xs ys,
  hok bs ts h -> b ∈ bs -> ids !! i = Some b -> row h t slots lo ids -> area P h ids off (xs ++ ys) ->
  zlen ys = Z.of_nat k -> 0 <= lo' -> lo' + Z.of_nat k <= B -> Z.of_nat i * B + lo' = off + zlen xs ->
  exists h', kill_down P h (Some t) (lo + Z.of_nat i) lo' k = Ok h' /\ area P h' ids off xs /\
    upd bs ts h bs ts h' /\ tb h' = tb h /\ (forall b', b' <> b -> sameb b' h h').
Proof.
  induction k as [|k IH]; intros h xs ys Hok Hb Hi Hrow Ha Hl H0 Hk Hp.
  - assert (ys = []) as -> by (apply zlen_0; lia). rewrite app_nil_r in Ha. exists h. splits; try assumption.
    + apply upd_refl. assumption.
    + intros. apply sameb_refl.
  - destruct (split_last xs ys k Hl) as (ys' & v & -> & Hl').
    cbn [kill_down]. rewrite (row_get h t slots lo ids i b) by (auto; lia). cbn [obind].
    rewrite app_assoc in Ha.
    destruct (area_pop P h ids off (xs ++ ys') v i b (lo' + Z.of_nat k)) as (e & E & Ha' & Hs);
      [assumption|assumption|lia|rewrite zlen_app; lia|].
    rewrite E; cbn [obind]. set (h1 := BHeap e (bl h) (tb h) (nx h)) in *.
    assert (U1 : upd bs ts h bs ts h1) by (eapply upd_el; eassumption).
    destruct (IH h1 xs ys') as (h' & E' & Ha2 & U2 & Ht & Hs2); try assumption; try lia.
    { eapply upd_hok; eassumption. }
    exists h'. splits; try assumption.
    + eapply upd_trans; eassumption.
    + intros b' Hb'. eapply sameb_trans; [|apply Hs2; assumption]. split; cbn; [tauto|]. intros j. apply Hs. assumption.
Qed.

Lemma make_up_ok bs ts ids off t slots lo (i : nat) b v k : forall h xs lo',
  hok bs ts h -> b ∈ bs -> ids !! i = Some b -> row h t slots lo ids -> area P h ids off xs ->
  0 <= lo' -> lo' + Z.of_nat k <= B -> Z.of_nat i * B + lo' = off + zlen xs ->
  exists h', make_up P h (Some t) (lo + Z.of_nat i) lo' k v = Ok h' /\ area P h' ids off (xs ++ replicate k v) /\
    upd bs ts h bs ts h' /\ tb h' = tb h /\ (forall b', b' <> b -> sameb b' h h').
Proof.
  induction k as [|k IH]; intros h xs lo' Hok Hb Hi Hrow Ha H0 Hk Hp.
  - exists h. cbn [replicate]. rewrite app_nil_r. splits; try assumption.
    + apply upd_refl. assumption.
    + intros. apply sameb_refl.
  - cbn [make_up]. rewrite (row_get h t slots lo ids i b) by (auto; lia). cbn [obind].
    destruct (area_push P h ids off xs i b lo' v) as (e & E & Ha' & Hs); [assumption|assumption|lia|lia|].
    rewrite E; cbn [obind]. set (h1 := BHeap e (bl h) (tb h) (nx h)) in *.
    assert (U1 : upd bs ts h bs ts h1) by (eapply upd_el; eassumption).
    destruct (IH h1 (xs ++ [v]) (lo' + 1)) as (h' & E' & Ha2 & U2 & Ht & Hs2); try assumption; try lia.
    { eapply upd_hok; eassumption. }
    { rewrite zlen_app, zlen_cons. unfold zlen in *; cbn. lia. }
    exists h'. cbn [replicate]. rewrite <- app_assoc in Ha2. splits; try assumption.
    + eapply upd_trans; eassumption.
    + intros b' Hb'. eapply sameb_trans; [|apply Hs2; assumption]. split; cbn; [tauto|]. intros j. apply Hs. assumption.
Qed.

(** ** Spare blocks *)
Definition otl (o : option nat) : list nat := match o with Some t => [t] | None => [] end.

Definition finv h (f : flist) frees : Prop :=
  f_idx f = zlen frees /\ area P h frees 0 [] /\
  ((f_tab f = None /\ f_slots f = 0 /\ frees = []) \/
   (exists t, f_tab f = Some t /\ 0 < f_slots f /\ row h t (f_slots f) 0 frees)).

Lemma finv0 h : finv h flist0 [].
Proof. split; [reflexivity|]. split; [apply area_nil|]. left. auto. Qed.

Lemma finv_frame h h' f frees :
  finv h f frees -> (forall b, b ∈ frees -> sameb b h h') -> (forall t, f_tab f = Some t -> tb h' !! t = tb h !! t) ->
  finv h' f frees.
Proof.
  intros (H1 & H2 & H3) Hs Ht. split; [assumption|]. split; [eapply area_frame; eassumption|].
  destruct H3 as [H3|(t & E & Hp & Hr)]; [left; assumption|right]. exists t. splits; try assumption.
  eapply row_frame; [eassumption|auto].
Qed.

Lemma fl_put_ok bs ts h f frees b :
  hok bs (otl (f_tab f) ++ ts) h -> NoDup (otl (f_tab f) ++ ts) -> finv h f frees -> empty_block h b -> b ∉ frees ->
  exists h' f', fl_put h f (Some b) = Ok (h', f') /\ finv h' f' (frees ++ [b]) /\
    upd bs (otl (f_tab f) ++ ts) h bs (otl (f_tab f') ++ ts) h' /\ NoDup (otl (f_tab f') ++ ts) /\
    (forall b', sameb b' h h') /\ (forall t, t ∈ ts -> tb h' !! t = tb h !! t).
Proof.
  intros Hok Hnd (Hi & Ha & Hf) Hb Hbn. unfold fl_put. pose proof (zlen_nonneg frees) as Hz.
  (* room for one more *)
  assert (Hroom : exists h1 f1 t, (if f_slots f <=? f_idx f
      then if f_slots f =? 0 then let '(h', t) := talloc h 64 in Ok (h', FList 64 (f_idx f) t)
      else let '(h', t) := talloc h (f_slots f * 2) in
           h2 <-! tcopy h' (f_tab f) 0 (f_slots f) t 0;;
           h3 <-! tdelete h2 (f_tab f);; Ok (h3, FList (f_slots f * 2) (f_idx f) t)
      else Ok (h, f)) = Ok (h1, f1) /\ f_tab f1 = Some t /\ f_idx f1 = f_idx f /\ f_idx f < f_slots f1 /\
      row h1 t (f_slots f1) 0 frees /\ upd bs (otl (f_tab f) ++ ts) h bs (t :: ts) h1 /\ t ∉ ts /\
      (forall b', sameb b' h h1) /\ (forall t, t ∈ ts -> tb h1 !! t = tb h !! t)).
  { destruct Hf as [(Et & Es & ->)|(t & Et & Es & Hr)].
    - rewrite Es, Hi. cbn [Z.leb]. replace (0 <=? zlen []) with true by reflexivity. cbn [Z.eqb].
      rewrite Et in *. cbn [otl app] in *. destruct (talloc h 64) as [h1 u] eqn:Ea.
      destruct (upd_talloc _ _ _ _ _ _ Hok Ea) as (-> & U1 & Hu & Hub & Hold & Hsame).
      eexists h1, _, (nx h). split; [reflexivity|]. cbn. splits; try assumption.
      + eapply row_nil; [exact Hub|reflexivity|lia].
      + intros t Ht. apply Hold. apply Hok. assumption.
    - destruct (Z.leb_spec (f_slots f) (f_idx f)).
      + destruct (Z.eqb_spec (f_slots f) 0); [lia|]. rewrite Et in *. cbn [otl app] in *.
        assert (Hnt : t ∉ ts) by (apply NoDup_cons in Hnd; tauto).
        pose proof (row_lo_nonneg _ _ _ _ _ Hr) as Hrb.
        destruct (row_grow h t (f_slots f) 0 frees (f_slots f * 2) 0 (f_slots f) 0 bs ts) as
          (h1 & u & h2 & h3 & -> & -> & E3 & Hu & Hr' & U & Hs & Ht); try assumption; try lia.
        cbn [obind]. rewrite E3. cbn [obind]. eexists h3, _, u. split; [reflexivity|]. cbn. splits; try assumption; try lia.
        * set_solver.
        * intros t' Ht'. apply Ht; [intros ->; contradiction|]. apply Hok. set_solver.
      + eexists h, f, t. splits; try assumption.
        * rewrite Et in *. apply upd_refl. exact Hok.
        * rewrite Et in Hnd. apply NoDup_cons in Hnd; tauto.
        * intros. apply sameb_refl. }
  destruct Hroom as (h1 & f1 & t & -> & Et1 & Ei1 & Hlt & Hr1 & U1 & Hnt & Hs1 & Ht1). cbn [obind].
  rewrite Et1. pose proof (upd_hok _ _ _ _ _ _ Hok U1) as Hok1.
  destruct (row_snoc h1 t (f_slots f1) 0 frees b (f_idx f1) bs (t :: ts)) as (h2 & E2 & Hr2 & U2 & Hs2 & Ht2);
    [assumption|set_solver|assumption|lia|lia|].
  rewrite E2; cbn [obind]. eexists h2, _. split; [reflexivity|]. cbn.
  assert (Hs : forall b', sameb b' h h2) by (intros b'; eapply sameb_trans; [apply Hs1|apply Hs2]).
  splits.
  - split; cbn; [rewrite zlen_app; unfold zlen in *; cbn; lia|]. split; [|right; exists t; splits; try assumption; lia].
    apply area_snoc; [assumption|eapply area_frame; [exact Ha|auto]| |assumption|pose proof (B_pos P HP); unfold zlen in *; cbn; nia].
    destruct Hb as [Hb1 Hb2]. destruct (Hs b) as [S1 S2]. split; [tauto|]. intros j. rewrite S2. apply Hb2.
  - eapply upd_trans; eassumption.
  - constructor; [assumption|]. destruct (f_tab f); cbn in Hnd; [apply NoDup_cons in Hnd; tauto|assumption].
  - exact Hs.
  - intros t' Ht'. rewrite Ht2 by (intros ->; contradiction). apply Ht1. assumption.
Qed.

Lemma fl_get_ok rest ts h f frees :
  hok (frees ++ rest) ts h -> NoDup (frees ++ rest) -> finv h f frees ->
  exists h' f' b frees', fl_get h f = Ok (h', f', Some b) /\ finv h' f' frees' /\ empty_block h' b /\
    NoDup (b :: frees' ++ rest) /\ upd (frees ++ rest) ts h (b :: frees' ++ rest) ts h' /\ f_tab f' = f_tab f /\
    tb h' = tb h /\ (forall b', b' ∈ rest -> sameb b' h h').
Proof.
  intros Hok Hnd (Hi & Ha & Hf). unfold fl_get. destruct (Z.eqb_spec (f_idx f) 0) as [E0|E0].
  - assert (frees = []) as -> by (apply zlen_0; lia). cbn [app] in *.
    destruct (balloc h) as [h1 c] eqn:Eb. destruct (upd_balloc _ _ _ _ _ Hok Eb) as (-> & U & Hn & Hb & He & Ht & Hel & Hbl).
    exists h1, f, (nx h), []. splits; try assumption.
    + split; [assumption|]. split; [apply area_nil|]. destruct Hf as [Hf|(t & E & Hp & Hr)]; [left; assumption|right].
      exists t. splits; try assumption. eapply row_frame; [eassumption|]. rewrite Ht. reflexivity.
    + split; assumption.
    + constructor; assumption.
    + intros b' Hb'. split; [|intros j; rewrite Hel; reflexivity]. split; [|auto].
      injection Eb as <-. cbn. rewrite elem_of_union, elem_of_singleton. intros [->|?]; [contradiction|assumption].
  - destruct Hf as [(_ & _ & ->)|(t & Et & Hp & Hr)]; [unfold zlen in Hi; cbn in Hi; lia|].
    destruct frees as [|b frees _] using rev_ind; [unfold zlen in Hi; cbn in Hi; lia|].
    rewrite zlen_app in Hi. unfold zlen in Hi; cbn in Hi.
    rewrite Et. rewrite (row_get h t (f_slots f) 0 (frees ++ [b]) (length frees) b);
      [|assumption|apply list_lookup_middle; reflexivity|unfold zlen; lia]. cbn [obind].
    assert (Hnd2 : NoDup (b :: frees ++ rest)).
    { rewrite <- app_assoc in Hnd. cbn in Hnd. rewrite Permutation_middle. exact Hnd. }
    destruct (area_unsnoc P HP h frees 0 [] b) as (Ha' & He & Hb); [assumption|pose proof (zlen_nonneg frees); pose proof (B_pos P HP); unfold zlen in *; cbn; nia|].
    eexists h, _, b, frees. split; [reflexivity|]. cbn. splits; try assumption.
    + split; cbn; [unfold zlen; lia|]. split; [assumption|]. right. exists t. splits; try assumption.
      eapply row_prefix. exact Hr.
    + eapply upd_eqv; [apply upd_refl; exact Hok|tauto|tauto|set_solver|tauto].
    + intros. apply sameb_refl.
Qed.

Lemma fl_free_ok rest ts t slots f k : forall h frees lo,
  hok (frees ++ rest) ts h -> NoDup (frees ++ rest) -> area P h frees 0 [] ->
  f_tab f = Some t -> row h t slots lo frees -> zlen frees = Z.of_nat k ->
  exists h', fl_free h f lo k = Ok h' /\ upd (frees ++ rest) ts h rest ts h' /\ tb h' = tb h /\
    (forall b', b' ∈ rest -> sameb b' h h').
Proof.
  induction k as [|k IH]; intros h frees lo Hok Hnd Ha Et Hr Hl.
  - assert (frees = []) as -> by (apply zlen_0; lia). exists h. splits.
    + apply upd_refl. exact Hok.
    + intros. apply sameb_refl.
  - destruct frees as [|b frees]; [unfold zlen in Hl; cbn in Hl; lia|]. rewrite zlen_cons in Hl.
    cbn [fl_free]. rewrite Et. rewrite (row_get h t slots lo (b :: frees) 0 b) by (auto; lia). cbn [obind app] in *.
    apply NoDup_cons in Hnd as [Hnb Hnd].
    destruct (area_empty_block P h (b :: frees) b Ha) as [Eb1 Eb2]; [set_solver|].
    destruct (upd_bfree (frees ++ rest) ts h b Hok Hnb Eb1 Eb2) as (h1 & -> & U & Hs & Ht). cbn [obind].
    destruct (IH h1 frees (lo + 1)) as (h' & E & U' & Ht' & Hs'); try assumption; try lia.
    + eapply upd_hok; eassumption.
    + apply area_frame with (h := h).
      * destruct (area_uncons P h frees B [] b) as (Hx & _); [eapply area_nil_off; exact Ha|lia|].
        eapply area_nil_off; exact Hx.
      * intros b' Hb'. apply Hs. intros ->. set_solver.
    + eapply row_frame; [eapply row_tail; exact Hr|]. rewrite Ht. reflexivity.
    + exists h'. splits; [assumption|eapply upd_trans; eassumption|congruence|].
      intros b' Hb'. eapply sameb_trans; [apply Hs; intros ->; set_solver|apply Hs'; assumption].
Qed.

Lemma fl_free_all rest ts h f frees :
  hok (frees ++ rest) ts h -> NoDup (frees ++ rest) -> finv h f frees ->
  exists h', fl_free h f 0 (Z.to_nat (f_idx f)) = Ok h' /\ upd (frees ++ rest) ts h rest ts h' /\ tb h' = tb h /\
    (forall b', b' ∈ rest -> sameb b' h h').
Proof.
  intros Hok Hnd (Hi & Ha & Hf). destruct Hf as [(Et & Es & ->)|(t & Et & Hp & Hr)].
  - rewrite Hi. cbn. exists h. splits; [apply upd_refl; exact Hok|intros; apply sameb_refl].
  - eapply fl_free_ok; try eassumption. unfold zlen in *; lia.
Qed.

Lemma fl_shrink_ok rest ts h f frees :
  hok (frees ++ rest) ts h -> NoDup (frees ++ rest) -> finv h f frees ->
  exists h' f', fl_shrink h f = Ok (h', f') /\ upd (frees ++ rest) ts h rest ts h' /\ tb h' = tb h /\ finv h' f' [] /\
    f_tab f' = f_tab f /\ (forall b', b' ∈ rest -> sameb b' h h').
Proof.
  intros Hok Hnd Hfi. unfold fl_shrink. destruct (fl_free_all _ _ _ _ _ Hok Hnd Hfi) as (h' & -> & U & Ht & Hs). cbn [obind].
  eexists h', _. split; [reflexivity|]. splits; try assumption.
  destruct Hfi as (Hi & Ha & Hf). split; [reflexivity|]. split; [apply area_nil|].
  destruct Hf as [(Et & Es & ->)|(t & Et & Hp & Hr)]; cbn; [left; auto|right].
  exists t. splits; try assumption. apply (row_prefix h' t (f_slots f) 0 [] frees). cbn.
  eapply row_frame; [exact Hr|]. rewrite Ht. reflexivity.
Qed.

End more.
