(** The state shared by vector and deque: a table row of blocks holding a run of elements, and spare blocks. *)
From stdpp Require Import gmap.
From Verif Require Import Base BlkHeap BlkProofs BlkMore.

Section run.
Context {V : Type}.
Variable P : params.
Hypothesis HP : 0 <= expo P.
Notation B := (bsz P).
Implicit Types (h : bheap V) (bs ts ids frees : list nat) (b : nat) (f : flist) (xs : list V).

Definition rts f (t : nat) : list nat := otl (f_tab f) ++ [t].

Record blocks h (t : nat) (slots lo : Z) ids (off : Z) xs f frees : Prop := {
  bk_row : row h t slots lo ids;
  bk_area : area P h ids off xs;
  bk_free : finv P h f frees;
  bk_nd : NoDup (frees ++ ids);
  bk_nt : NoDup (rts f t);
  bk_ok : hok (frees ++ ids) (rts f t) h;
}.

Lemma bk_last_sep h t slots lo ids off xs f frees b : blocks h t slots lo ids off xs f frees -> b ∈ ids -> b ∉ frees.
Proof. intros [_ _ _ Hn _ _] Hb. apply NoDup_app in Hn. set_solver. Qed.

Lemma tab_sep f t t' : NoDup (rts f t) -> f_tab f = Some t' -> t' <> t.
Proof. intros Hn E. unfold rts in Hn. rewrite E in Hn. cbn in Hn. apply NoDup_cons in Hn. set_solver. Qed.

Lemma bk_frame h h' t slots lo ids off xs f frees :
  blocks h t slots lo ids off xs f frees -> (forall b, b ∈ frees ++ ids -> sameb b h h') ->
  (forall u, u ∈ rts f t -> tb h' !! u = tb h !! u) -> hok (frees ++ ids) (rts f t) h' ->
  blocks h' t slots lo ids off xs f frees.
Proof.
  intros [H1 H2 H3 H4 H5 H6] Hs Ht Hok. constructor; try assumption.
  - eapply row_frame; [eassumption|]. apply Ht. unfold rts. set_solver.
  - eapply area_frame; [eassumption|]. intros b Hb. apply Hs. set_solver.
  - eapply finv_frame; [eassumption| |].
    + intros b Hb. apply Hs. set_solver.
    + intros u Hu. apply Ht. unfold rts. rewrite Hu. set_solver.
Qed.

(** A change of the elements only *)
Lemma bk_el h e t slots lo ids off xs off' xs' f frees b :
  blocks h t slots lo ids off xs f frees -> b ∈ ids ->
  area P (BHeap e (bl h) (tb h) (nx h)) ids off' xs' ->
  (forall b' k, b' <> b -> e !! (b', k) = el h !! (b', k)) ->
  blocks (BHeap e (bl h) (tb h) (nx h)) t slots lo ids off' xs' f frees /\
  upd (frees ++ ids) (rts f t) h (frees ++ ids) (rts f t) (BHeap e (bl h) (tb h) (nx h)).
Proof.
  intros Hbk Hb Ha He. pose proof (bk_last_sep _ _ _ _ _ _ _ _ _ _ Hbk Hb) as Hsep.
  destruct Hbk as [H1 H2 H3 H4 H5 H6].
  assert (U : upd (frees ++ ids) (rts f t) h (frees ++ ids) (rts f t) (BHeap e (bl h) (tb h) (nx h))).
  { eapply upd_el; [exact H6| |exact He]. set_solver. }
  split; [|exact U]. constructor; try assumption.
  - eapply finv_frame; [exact H3| |reflexivity]. intros b' Hb'. split; cbn; [tauto|]. intros j. apply He. intros ->. contradiction.
  - eapply upd_hok; eassumption.
Qed.

Lemma bk_get h t slots lo ids off xs f frees (i : nat) b k :
  blocks h t slots lo ids off xs f frees -> ids !! i = Some b -> k = lo + Z.of_nat i -> tget h (Some t) k = Ok (Some b).
Proof. intros [H1 _ _ _ _ _] Hi Hk. eapply row_get; eassumption. Qed.

Lemma bk_push h t slots lo ids off xs f frees (i : nat) b j v :
  blocks h t slots lo ids off xs f frees -> ids !! i = Some b -> 0 <= j < B -> Z.of_nat i * B + j = off + zlen xs ->
  exists h', emake P h (Some b) j v = Ok h' /\ blocks h' t slots lo ids off (xs ++ [v]) f frees /\
    upd (frees ++ ids) (rts f t) h (frees ++ ids) (rts f t) h'.
Proof.
  intros Hbk Hi Hj Hp. destruct (area_push P h ids off xs i b j v (bk_area _ _ _ _ _ _ _ _ _ Hbk) Hi Hj Hp) as (e & E & Ha & He).
  eexists. split; [exact E|]. eapply bk_el; try eassumption. eapply elem_of_list_lookup_2; eassumption.
Qed.

Lemma bk_pop h t slots lo ids off xs v f frees (i : nat) b j :
  blocks h t slots lo ids off (xs ++ [v]) f frees -> ids !! i = Some b -> 0 <= j < B -> Z.of_nat i * B + j = off + zlen xs ->
  exists h', ekill P h (Some b) j = Ok h' /\ blocks h' t slots lo ids off xs f frees /\
    upd (frees ++ ids) (rts f t) h (frees ++ ids) (rts f t) h'.
Proof.
  intros Hbk Hi Hj Hp. destruct (area_pop P h ids off xs v i b j (bk_area _ _ _ _ _ _ _ _ _ Hbk) Hi Hj Hp) as (e & E & Ha & He).
  eexists. split; [exact E|]. eapply bk_el; try eassumption. eapply elem_of_list_lookup_2; eassumption.
Qed.

Lemma bk_push_front h t slots lo ids off xs f frees (i : nat) b j v :
  blocks h t slots lo ids off xs f frees -> ids !! i = Some b -> 0 <= j < B -> Z.of_nat i * B + j = off - 1 ->
  exists h', emake P h (Some b) j v = Ok h' /\ blocks h' t slots lo ids (off - 1) (v :: xs) f frees /\
    upd (frees ++ ids) (rts f t) h (frees ++ ids) (rts f t) h'.
Proof.
  intros Hbk Hi Hj Hp. destruct (area_push_front P h ids off xs i b j v (bk_area _ _ _ _ _ _ _ _ _ Hbk) Hi Hj Hp) as (e & E & Ha & He).
  eexists. split; [exact E|]. eapply bk_el; try eassumption. eapply elem_of_list_lookup_2; eassumption.
Qed.

Lemma bk_pop_front h t slots lo ids off xs v f frees (i : nat) b j :
  blocks h t slots lo ids off (v :: xs) f frees -> ids !! i = Some b -> 0 <= j < B -> Z.of_nat i * B + j = off ->
  exists h', ekill P h (Some b) j = Ok h' /\ blocks h' t slots lo ids (off + 1) xs f frees /\
    upd (frees ++ ids) (rts f t) h (frees ++ ids) (rts f t) h'.
Proof.
  intros Hbk Hi Hj Hp. destruct (area_pop_front P h ids off xs v i b j (bk_area _ _ _ _ _ _ _ _ _ Hbk) Hi Hj Hp) as (e & E & Ha & He).
  eexists. split; [exact E|]. eapply bk_el; try eassumption. eapply elem_of_list_lookup_2; eassumption.
Qed.

(** The block and slot of element [n] *)
Lemma bk_locate h t slots lo ids off xs f frees n :
  blocks h t slots lo ids off xs f frees -> 0 <= off -> off + zlen xs <= B * zlen ids -> 0 <= n < zlen xs ->
  exists (i : nat) b, ids !! i = Some b /\ Z.of_nat i = (off + n) / B /\ 0 <= (off + n) mod B < B /\
    Z.of_nat i * B + (off + n) mod B = off + n /\ tget h (Some t) (lo + (off + n) / B) = Ok (Some b).
Proof.
  intros Hbk Ho Hl Hn. destruct (pos_split P HP (off + n)) as (H1 & H2 & H3); [lia|]. pose proof (B_pos P HP).
  assert (Hi : (off + n) / B < zlen ids) by (apply Z.div_lt_upper_bound; lia).
  destruct (lookup_lt_is_Some_2 ids (Z.to_nat ((off + n) / B))) as [b Hb]; [unfold zlen in Hi; lia|].
  exists (Z.to_nat ((off + n) / B)), b. splits; try assumption; try lia.
  eapply bk_get; [eassumption|eassumption|lia].
Qed.

Lemma bk_read h t slots lo ids off xs f frees (i : nat) b j n x :
  blocks h t slots lo ids off xs f frees -> ids !! i = Some b -> 0 <= j < B -> Z.of_nat i * B + j = off + n ->
  zl xs n = Some x -> eget P h (Some b) j = Ok x.
Proof.
  intros Hbk Hi Hj Hp Hx. eapply area_get; [apply (bk_area _ _ _ _ _ _ _ _ _ Hbk)|exact Hi|exact Hj|].
  rewrite Hp. replace (off + n - off) with n by lia. exact Hx.
Qed.

Lemma bk_set h t slots lo ids off xs f frees (i : nat) b j n x :
  blocks h t slots lo ids off xs f frees -> ids !! i = Some b -> 0 <= j < B -> Z.of_nat i * B + j = off + n ->
  0 <= n < zlen xs ->
  exists h', eset P h (Some b) j x = Ok h' /\ blocks h' t slots lo ids off (<[Z.to_nat n := x]> xs) f frees /\
    upd (frees ++ ids) (rts f t) h (frees ++ ids) (rts f t) h'.
Proof.
  intros Hbk Hi Hj Hp Hn.
  destruct (area_set P h ids off xs i b j (Z.to_nat n) x (bk_area _ _ _ _ _ _ _ _ _ Hbk) Hi Hj) as (e & E & Ha & He);
    [lia|unfold zlen in Hn; lia|].
  eexists. split; [exact E|]. eapply bk_el; try eassumption. eapply elem_of_list_lookup_2; eassumption.
Qed.

Lemma bk_kill_down h t slots lo ids off xs ys f frees (i : nat) b lo' k :
  blocks h t slots lo ids off (xs ++ ys) f frees -> ids !! i = Some b -> zlen ys = Z.of_nat k ->
  0 <= lo' -> lo' + Z.of_nat k <= B -> Z.of_nat i * B + lo' = off + zlen xs ->
  exists h', kill_down P h (Some t) (lo + Z.of_nat i) lo' k = Ok h' /\ blocks h' t slots lo ids off xs f frees /\
    upd (frees ++ ids) (rts f t) h (frees ++ ids) (rts f t) h'.
Proof.
  intros Hbk Hi Hy Hl Hk Hp. assert (Hb : b ∈ ids) by (eapply elem_of_list_lookup_2; eassumption).
  pose proof (bk_last_sep _ _ _ _ _ _ _ _ _ _ Hbk Hb) as Hsep. destruct Hbk as [H1 H2 H3 H4 H5 H6].
  destruct (kill_down_ok P (frees ++ ids) (rts f t) ids off t slots lo i b lo' k h xs ys) as (h' & E & Ha & U & Ht & Hs);
    try assumption; [set_solver|].
  exists h'. splits; try assumption. constructor; try assumption.
  - eapply row_frame; [eassumption|rewrite Ht; reflexivity].
  - eapply finv_frame; [eassumption| |intros; rewrite Ht; reflexivity]. intros b' Hb'. apply Hs. intros ->. contradiction.
  - eapply upd_hok; eassumption.
Qed.

Lemma bk_make_up h t slots lo ids off xs f frees (i : nat) b lo' k v :
  blocks h t slots lo ids off xs f frees -> ids !! i = Some b ->
  0 <= lo' -> lo' + Z.of_nat k <= B -> Z.of_nat i * B + lo' = off + zlen xs ->
  exists h', make_up P h (Some t) (lo + Z.of_nat i) lo' k v = Ok h' /\ blocks h' t slots lo ids off (xs ++ replicate k v) f frees /\
    upd (frees ++ ids) (rts f t) h (frees ++ ids) (rts f t) h'.
Proof.
  intros Hbk Hi Hl Hk Hp. assert (Hb : b ∈ ids) by (eapply elem_of_list_lookup_2; eassumption).
  pose proof (bk_last_sep _ _ _ _ _ _ _ _ _ _ Hbk Hb) as Hsep. destruct Hbk as [H1 H2 H3 H4 H5 H6].
  destruct (make_up_ok P (frees ++ ids) (rts f t) ids off t slots lo i b v k h xs lo') as (h' & E & Ha & U & Ht & Hs);
    try assumption; [set_solver|].
  exists h'. splits; try assumption. constructor; try assumption.
  - eapply row_frame; [eassumption|rewrite Ht; reflexivity].
  - eapply finv_frame; [eassumption| |intros; rewrite Ht; reflexivity]. intros b' Hb'. apply Hs. intros ->. contradiction.
  - eapply upd_hok; eassumption.
Qed.

(** getNewBlock and store it behind the row *)
Lemma bk_add_back h t slots lo ids off xs f frees k :
  blocks h t slots lo ids off xs f frees -> off + zlen xs <= B * zlen ids -> k = lo + zlen ids -> k < slots ->
  exists h1 f' b h2 frees', fl_get h f = Ok (h1, f', Some b) /\ tset h1 (Some t) k (Some b) = Ok h2 /\
    blocks h2 t slots lo (ids ++ [b]) off xs f' frees' /\ f_tab f' = f_tab f /\
    upd (frees ++ ids) (rts f t) h (frees' ++ ids ++ [b]) (rts f' t) h2.
Proof.
  intros [H1 H2 H3 H4 H5 H6] Hl Hk Hs.
  destruct (fl_get_ok P HP ids (rts f t) h f frees H6 H4 H3) as (h1 & f' & b & frees' & E & Hf & He & Hn & U & Et & Htb & Hsame).
  pose proof (upd_hok _ _ _ _ _ _ H6 U) as Hok1.
  assert (Hr1 : row h1 t slots lo ids) by (eapply row_frame; [exact H1|rewrite Htb; reflexivity]).
  destruct (row_snoc h1 t slots lo ids b k (b :: frees' ++ ids) (rts f t)) as (h2 & E2 & Hr2 & U2 & Hs2 & Ht2);
    try assumption; [unfold rts; set_solver|].
  assert (Ert : rts f' t = rts f t) by (unfold rts; rewrite Et; reflexivity).
  exists h1, f', b, h2, frees'. rewrite Ert. apply NoDup_cons in Hn as [Hnb Hn].
  assert (U' : upd (frees ++ ids) (rts f t) h (frees' ++ ids ++ [b]) (rts f t) h2).
  { eapply upd_eqv; [eapply upd_trans; [exact U|exact U2]|tauto|tauto|set_solver|tauto]. }
  splits; try assumption. constructor.
  - assumption.
  - apply area_snoc; [assumption| | |set_solver|assumption].
    + eapply area_frame; [exact H2|]. intros b' Hb'. eapply sameb_trans; [apply Hsame; assumption|apply Hs2].
    + destruct (Hs2 b) as [S1 S2]. destruct He as [E1' E2']. split; [tauto|]. intros j. rewrite S2. apply E2'.
  - eapply finv_frame; [exact Hf| |].
    + intros b' _. apply Hs2.
    + intros u Hu. apply Ht2. rewrite Et in Hu. eapply tab_sep; eassumption.
  - apply NoDup_app in Hn as (N1 & N2 & N3). rewrite app_assoc. apply NoDup_app. splits.
    + apply NoDup_app. auto.
    + set_solver.
    + apply NoDup_singleton.
  - rewrite Ert. assumption.
  - rewrite Ert. exact (upd_hok _ _ _ _ _ _ H6 U').
Qed.

(** getNewBlock and store it before the row *)
Lemma bk_add_front h t slots lo ids off xs f frees :
  blocks h t slots lo ids off xs f frees -> 0 <= off -> 0 < lo ->
  exists h1 f' b h2 frees', fl_get h f = Ok (h1, f', Some b) /\ tset h1 (Some t) (lo - 1) (Some b) = Ok h2 /\
    blocks h2 t slots (lo - 1) (b :: ids) (off + B) xs f' frees' /\ f_tab f' = f_tab f /\
    upd (frees ++ ids) (rts f t) h (frees' ++ b :: ids) (rts f' t) h2.
Proof.
  intros [H1 H2 H3 H4 H5 H6] Hl Hs.
  destruct (fl_get_ok P HP ids (rts f t) h f frees H6 H4 H3) as (h1 & f' & b & frees' & E & Hf & He & Hn & U & Et & Htb & Hsame).
  pose proof (upd_hok _ _ _ _ _ _ H6 U) as Hok1.
  assert (Hr1 : row h1 t slots lo ids) by (eapply row_frame; [exact H1|rewrite Htb; reflexivity]).
  destruct (row_cons h1 t slots lo ids b (b :: frees' ++ ids) (rts f t)) as (h2 & E2 & Hr2 & U2 & Hs2 & Ht2);
    try assumption; [unfold rts; set_solver|].
  assert (Ert : rts f' t = rts f t) by (unfold rts; rewrite Et; reflexivity).
  exists h1, f', b, h2, frees'. rewrite Ert. apply NoDup_cons in Hn as [Hnb Hn].
  assert (U' : upd (frees ++ ids) (rts f t) h (frees' ++ b :: ids) (rts f t) h2).
  { eapply upd_eqv; [eapply upd_trans; [exact U|exact U2]|tauto|tauto|set_solver|tauto]. }
  splits; try assumption. constructor.
  - assumption.
  - apply area_cons; [| |set_solver|assumption].
    + eapply area_frame; [exact H2|]. intros b' Hb'. eapply sameb_trans; [apply Hsame; assumption|apply Hs2].
    + destruct (Hs2 b) as [S1 S2]. destruct He as [E1' E2']. split; [tauto|]. intros j. rewrite S2. apply E2'.
  - eapply finv_frame; [exact Hf| |].
    + intros b' _. apply Hs2.
    + intros u Hu. apply Ht2. rewrite Et in Hu. eapply tab_sep; eassumption.
  - apply NoDup_app in Hn as (N1 & N2 & N3). apply NoDup_app. splits; [assumption|set_solver|].
    constructor; [set_solver|assumption].
  - rewrite Ert. assumption.
  - rewrite Ert. exact (upd_hok _ _ _ _ _ _ H6 U').
Qed.

(** moveBlocktoAvailable of the (empty) last or first block *)
Lemma bk_drop_back h t slots lo ids off xs f frees b :
  blocks h t slots lo (ids ++ [b]) off xs f frees -> off + zlen xs <= B * zlen ids ->
  exists h' f', fl_put h f (Some b) = Ok (h', f') /\ blocks h' t slots lo ids off xs f' (frees ++ [b]) /\
    upd (frees ++ ids ++ [b]) (rts f t) h ((frees ++ [b]) ++ ids) (rts f' t) h'.
Proof.
  intros [H1 H2 H3 H4 H5 H6] Hl.
  destruct (area_unsnoc P HP h ids off xs b H2 Hl) as (Ha & He & Hb).
  assert (Hbf : b ∉ frees) by (apply NoDup_app in H4; set_solver).
  destruct (fl_put_ok P HP (frees ++ ids ++ [b]) [t] h f frees b) as (h' & f' & E & Hf & U & Hn & Hs & Ht); try assumption.
  assert (U' : upd (frees ++ ids ++ [b]) (rts f t) h ((frees ++ [b]) ++ ids) (rts f' t) h').
  { eapply upd_eqv; [exact U|tauto|tauto|set_solver|tauto]. }
  exists h', f'. splits; try assumption. constructor; try assumption.
  - eapply row_frame; [eapply row_prefix; exact H1|]. apply Ht. set_solver.
  - eapply area_frame; [exact Ha|]. intros; apply Hs.
  - rewrite <- app_assoc. rewrite (Permutation_app_comm [b] ids). exact H4.
  - eapply upd_hok; eassumption.
Qed.

Lemma bk_drop_front h t slots lo ids off xs f frees b :
  blocks h t slots lo (b :: ids) off xs f frees -> B <= off ->
  exists h' f', fl_put h f (Some b) = Ok (h', f') /\ blocks h' t slots (lo + 1) ids (off - B) xs f' (frees ++ [b]) /\
    upd (frees ++ b :: ids) (rts f t) h ((frees ++ [b]) ++ ids) (rts f' t) h'.
Proof.
  intros [H1 H2 H3 H4 H5 H6] Hl.
  destruct (area_uncons P h ids off xs b H2 Hl) as (Ha & He & Hb).
  assert (Hbf : b ∉ frees) by (apply NoDup_app in H4; set_solver).
  destruct (fl_put_ok P HP (frees ++ b :: ids) [t] h f frees b) as (h' & f' & E & Hf & U & Hn & Hs & Ht); try assumption.
  assert (U' : upd (frees ++ b :: ids) (rts f t) h ((frees ++ [b]) ++ ids) (rts f' t) h').
  { eapply upd_eqv; [exact U|tauto|tauto|set_solver|tauto]. }
  exists h', f'. splits; try assumption. constructor; try assumption.
  - eapply row_frame; [eapply row_tail; exact H1|]. apply Ht. set_solver.
  - eapply area_frame; [exact Ha|]. intros; apply Hs.
  - rewrite <- app_assoc. exact H4.
  - eapply upd_hok; eassumption.
Qed.

(** Deallocate the (empty) last block. *)
Lemma bk_free_back h t slots lo ids off xs f frees b :
  blocks h t slots lo (ids ++ [b]) off xs f frees -> off + zlen xs <= B * zlen ids ->
  exists h', bfree h (Some b) = Ok h' /\ blocks h' t slots lo ids off xs f frees /\
    upd (frees ++ ids ++ [b]) (rts f t) h (frees ++ ids) (rts f t) h'.
Proof.
  intros [H1 H2 H3 H4 H5 H6] Hl.
  destruct (area_unsnoc P HP h ids off xs b H2 Hl) as (Ha & [He1 He2] & Hb).
  assert (Hbf : b ∉ frees) by (apply NoDup_app in H4; set_solver).
  destruct (upd_bfree (frees ++ ids) (rts f t) h b) as (h' & E & U & Hs & Ht); try assumption.
  { eapply hok_eqv; [exact H6|set_solver|tauto]. }
  { set_solver. }
  assert (U' : upd (frees ++ ids ++ [b]) (rts f t) h (frees ++ ids) (rts f t) h').
  { eapply upd_eqv; [exact U|set_solver|tauto|tauto|tauto]. }
  exists h'. splits; try assumption. constructor; try assumption.
  - eapply row_frame; [eapply row_prefix; exact H1|]. rewrite Ht. reflexivity.
  - eapply area_frame; [exact Ha|]. intros b' Hb'. apply Hs. intros ->. contradiction.
  - eapply finv_frame; [exact H3| |intros; rewrite Ht; reflexivity]. intros b' Hb'. apply Hs. intros ->. contradiction.
  - rewrite app_assoc in H4. apply NoDup_app in H4. tauto.
  - eapply upd_hok; eassumption.
Qed.

(** Replace the table by a larger one. *)
Lemma bk_grow h t slots lo ids off xs f frees n i m k :
  blocks h t slots lo ids off xs f frees ->
  0 <= i -> i <= lo -> lo + zlen ids <= i + m -> i + m <= slots -> 0 <= k -> k + m <= n ->
  exists h1 u h2 h3, talloc h n = (h1, Some u) /\ tcopy h1 (Some t) i m (Some u) k = Ok h2 /\
    tdelete h2 (Some t) = Ok h3 /\ blocks h3 u n (lo - i + k) ids off xs f frees /\
    upd (frees ++ ids) (rts f t) h (frees ++ ids) (rts f u) h3.
Proof.
  intros [H1 H2 H3 H4 H5 H6] Hi Hil Him Hms Hk Hkn.
  assert (Hnt : t ∉ otl (f_tab f)) by (unfold rts in H5; apply NoDup_app in H5; set_solver).
  destruct (row_grow h t slots lo ids n i m k (frees ++ ids) (otl (f_tab f))) as
    (h1 & u & h2 & h3 & E1 & E2 & E3 & Hu & Hr & U & Hs & Ht); try assumption.
  { eapply hok_eqv; [exact H6|tauto|unfold rts; set_solver]. }
  exists h1, u, h2, h3.
  assert (U' : upd (frees ++ ids) (rts f t) h (frees ++ ids) (rts f u) h3).
  { eapply upd_eqv; [exact U|tauto|unfold rts; set_solver|tauto|unfold rts; set_solver]. }
  splits; try assumption. constructor; try assumption.
  - eapply area_frame; [exact H2|]. intros; apply Hs.
  - eapply finv_frame; [exact H3|intros; apply Hs|]. intros t' Et. apply Ht.
    + eapply tab_sep; eassumption.
    + apply H6. unfold rts. rewrite Et. set_solver.
  - unfold rts in *. apply NoDup_app in H5 as (N1 & N2 & N3). apply NoDup_app. splits; [assumption|set_solver|apply NoDup_singleton].
  - eapply upd_hok; eassumption.
Qed.

(** Release everything: the spare blocks, their table, the block table. *)
Lemma bk_release h t slots lo off f frees :
  blocks h t slots lo [] off [] f frees ->
  exists h1 h2 h3, fl_free h f 0 (Z.to_nat (f_idx f)) = Ok h1 /\ tdelete h1 (f_tab f) = Ok h2 /\ tdelete h2 (Some t) = Ok h3 /\
    upd (frees ++ []) (rts f t) h [] [] h3.
Proof.
  intros [H1 H2 H3 H4 H5 H6].
  destruct (fl_free_all P HP [] (rts f t) h f frees H6 H4 H3) as (h1 & E1 & U1 & Ht1 & _).
  pose proof (upd_hok _ _ _ _ _ _ H6 U1) as Hok1. destruct H1 as (cs & Hcs & _).
  assert (exists h2, tdelete h1 (f_tab f) = Ok h2 /\ upd [] (rts f t) h1 [] [t] h2 /\ tb h2 !! t = Some cs) as (h2 & E2 & U2 & Hc2).
  { destruct (f_tab f) as [u|] eqn:Eu.
    - pose proof (tab_sep _ _ _ H5 Eu) as Hne. unfold rts in *. rewrite Eu in *. cbn [otl app] in *.
      destruct H3 as (_ & _ & [(E & _)|(u' & E & _ & (cs' & Hcs' & _))]); [congruence|]. assert (u' = u) as -> by congruence.
      destruct (upd_tdelete [] [t] h1 u cs') as (h2 & E2 & U2 & Ho & _); [assumption|set_solver|rewrite Ht1; assumption|].
      exists h2. splits; try assumption. rewrite Ho by congruence. rewrite Ht1. assumption.
    - exists h1. cbn. unfold rts in *. rewrite Eu in *. cbn [otl app] in *. splits; [apply upd_refl; assumption|rewrite Ht1; assumption]. }
  pose proof (upd_hok _ _ _ _ _ _ Hok1 U2) as Hok2.
  destruct (upd_tdelete [] [] h2 t cs) as (h3 & E3 & U3 & _); [assumption|set_solver|assumption|].
  exists h1, h2, h3. splits; try assumption.
  eapply upd_trans; [exact U1|]. eapply upd_trans; eassumption.
Qed.

(** A fresh table *)
Lemma bk_fresh h n lo h1 t :
  hok [] [] h -> 0 <= lo <= n -> talloc h n = (h1, t) ->
  exists u, t = Some u /\ blocks h1 u n lo [] 0 [] flist0 [] /\ upd [] [] h [] [u] h1.
Proof.
  intros Hok Hlo Ea. destruct (upd_talloc _ _ _ _ _ _ Hok Ea) as (-> & U & Hu & Hub & Hold & Hs).
  exists (nx h). splits; [|exact U]. constructor.
  - eapply row_nil; [exact Hub|unfold zlen; rewrite replicate_length; lia|lia].
  - apply area_nil.
  - apply finv0.
  - constructor.
  - apply NoDup_singleton.
  - eapply upd_hok; eassumption.
Qed.

Lemma bk_nil_off h t slots lo ids off off' f frees :
  blocks h t slots lo ids off [] f frees -> blocks h t slots lo ids off' [] f frees.
Proof. intros [H1 H2 H3 H4 H5 H6]. constructor; try assumption. eapply area_nil_off; eassumption. Qed.

Lemma bk_shrink h t slots lo ids off xs f frees :
  blocks h t slots lo ids off xs f frees ->
  exists h' f', fl_shrink h f = Ok (h', f') /\ blocks h' t slots lo ids off xs f' [] /\
    upd (frees ++ ids) (rts f t) h ([] ++ ids) (rts f' t) h'.
Proof.
  intros [H1 H2 H3 H4 H5 H6].
  destruct (fl_shrink_ok P HP ids (rts f t) h f frees H6 H4 H3) as (h' & f' & E & U & Ht & Hf & Et & Hs).
  assert (Ert : rts f' t = rts f t) by (unfold rts; rewrite Et; reflexivity).
  exists h', f'. rewrite Ert. splits; try assumption. constructor; rewrite ?Ert; try assumption.
  - eapply row_frame; [exact H1|rewrite Ht; reflexivity].
  - eapply area_frame; [exact H2|assumption].
  - apply NoDup_app in H4; cbn; tauto.
  - cbn. eapply upd_hok; eassumption.
Qed.

End run.
