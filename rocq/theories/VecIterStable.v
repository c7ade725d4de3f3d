(** Iterators of StableBlockVector held while the vector changes: when the table of blocks is replaced, and what an iterator
    made before can still do. *)
From stdpp Require Import gmap.
From Verif Require Import Base BlkHeap BlkIter BlkProofs BlkMore BlkRun BlkIterProofs VecModel VecSpec VecProofs VecWorld VecFinal.

Section nx.
Context {V : Type}.
Implicit Types (h : bheap V).
Variable P : params.
Ltac hd E := repeat match type of E with
  | Ok _ = Ok _ => injection E as <-
  | UB = Ok _ => discriminate E
  | Throw = Ok _ => discriminate E
  | (match ?x with _ => _ end) = Ok _ => destruct x
  | (if ?x then _ else _) = Ok _ => destruct x
  end; reflexivity.
Lemma tset_nx h p i c h' : tset h p i c = Ok h' -> nx h' = nx h.
Proof. unfold tset. intros E. hd E. Qed.
Lemma tdelete_nx h p h' : tdelete h p = Ok h' -> nx h' = nx h.
Proof. unfold tdelete. intros E. hd E. Qed.
Lemma tcopy_nx h p i n q k h' : tcopy h p i n q k = Ok h' -> nx h' = nx h.
Proof. unfold tcopy. intros E. destruct p, q; try discriminate E. hd E. Qed.
Lemma emake_nx h c j x h' : emake P h c j x = Ok h' -> nx h' = nx h.
Proof. unfold emake. intros (b & _ & E)%obind_ok. hd E. Qed.
Lemma ekill_nx h c j h' : ekill P h c j = Ok h' -> nx h' = nx h.
Proof. unfold ekill. intros (b & _ & E)%obind_ok. hd E. Qed.
Lemma eset_nx h c j x h' : eset P h c j x = Ok h' -> nx h' = nx h.
Proof. unfold eset. intros (b & _ & E)%obind_ok. hd E. Qed.
Lemma bfree_nx h c h' : bfree h c = Ok h' -> nx h' = nx h.
Proof. unfold bfree. intros E. hd E. Qed.
Lemma kill_down_nx k : forall h t i lo h', kill_down P h t i lo k = Ok h' -> nx h' = nx h.
Proof.
  induction k as [|k IH]; intros h t i lo h' E; cbn [kill_down] in E; [injection E as <-; reflexivity|].
  apply obind_ok in E as (c & _ & E). apply obind_ok in E as (h1 & E1 & E). rewrite (IH _ _ _ _ _ E). eapply ekill_nx; exact E1.
Qed.
Lemma fl_free_nx k : forall h f i h', fl_free h f i k = Ok h' -> nx h' = nx h.
Proof.
  induction k as [|k IH]; intros h f i h' E; cbn [fl_free] in E; [injection E as <-; reflexivity|].
  apply obind_ok in E as (c & _ & E). apply obind_ok in E as (h1 & E1 & E). rewrite (IH _ _ _ _ E). eapply bfree_nx; exact E1.
Qed.

(** The table of spare blocks is the old one or new. *)
Definition fgrow h (f : flist) h' f' : Prop := (nx h <= nx h')%nat /\ (f_tab f' = f_tab f \/ exists t, f_tab f' = Some t /\ (nx h <= t)%nat).
Lemma fgrow_refl h f : fgrow h f h f.
Proof. split; [lia|auto]. Qed.
Lemma fgrow_trans h f h1 f1 h2 f2 : fgrow h f h1 f1 -> fgrow h1 f1 h2 f2 -> fgrow h f h2 f2.
Proof.
  intros [H1 H2] [H3 H4]. split; [lia|]. destruct H4 as [E|(t & E & Ht)]; [rewrite E; exact H2|]. right. exists t. split; [assumption|lia].
Qed.
Lemma fl_put_grow h f c h' f' : fl_put h f c = Ok (h', f') -> fgrow h f h' f'.
Proof.
  unfold fl_put. intros ([h1 f1] & E1 & E)%obind_ok. apply obind_ok in E as (h4 & E4 & [= <- <-]). apply tset_nx in E4.
  destruct (_ <=? _).
  - destruct (_ =? _); cbn [talloc] in E1.
    + injection E1 as <- <-. cbn in *. split; [cbn; lia|right; eexists; split; [reflexivity|lia]].
    + apply obind_ok in E1 as (h2 & E2 & E1). apply obind_ok in E1 as (h3 & E3 & [= <- <-]). apply tcopy_nx in E2. apply tdelete_nx in E3. cbn in *.
      split; [lia|right; eexists; split; [reflexivity|lia]].
  - injection E1 as <- <-. split; [cbn; lia|left; reflexivity].
Qed.
Lemma fl_get_grow h f h' f' c : fl_get h f = Ok (h', f', c) -> fgrow h f h' f'.
Proof.
  unfold fl_get. destruct (_ =? _).
  - cbn. intros [= <- <- <-]. split; [cbn; lia|auto].
  - intros (x & _ & [= <- <- <-])%obind_ok. split; [lia|auto].
Qed.
Lemma fl_shrink_grow h f h' f' : fl_shrink h f = Ok (h', f') -> fgrow h f h' f'.
Proof. unfold fl_shrink. intros (h1 & E1 & [= <- <-])%obind_ok. apply fl_free_nx in E1. split; [lia|auto]. Qed.
End nx.

Section vec.
Context {V : Type}.
Variable P : params.
Hypothesis HP : 0 <= expo P <= 30.
Notation B := (bsz P).
Implicit Types (h : bheap V) (v : vec) (ids frees : list nat) (xs : list V).
Ltac fl := cbn [v_size v_data v_slots v_idx v_bsize v_fl f_slots f_idx f_tab] in *.

Definition vcount v : Prop :=
  (v_slots v = 0 /\ v_size v = 0 /\ v_bsize v = B) \/
  (64 <= v_slots v /\ 0 <= v_idx v /\ v_size v = v_idx v * B + v_bsize v /\ 0 <= v_bsize v <= B).

(** The table is the old one, or a new and larger one because there was no room for [q] elements. *)
Definition dgrow h v v' (q : Z) : Prop :=
  (v_data v' = v_data v /\ v_slots v' = v_slots v) \/
  (exists t, v_data v' = Some t /\ (nx h <= t)%nat /\ v_slots v < v_slots v' /\ v_slots v * B < q).
Definition vgrow h v h' v' q : Prop := vcount v' /\ fgrow h (v_fl v) h' (v_fl v') /\ dgrow h v v' q.

Lemma vgrow_refl h v q : vcount v -> vgrow h v h v q.
Proof. intros H. split; [exact H|]. split; [apply fgrow_refl|left; auto]. Qed.
Lemma vgrow_le h v h' v' q q' : q <= q' -> vgrow h v h' v' q -> vgrow h v h' v' q'.
Proof.
  intros Hq (H1 & H2 & H3). split; [exact H1|]. split; [exact H2|]. destruct H3 as [H3|(t & E & H4 & H5 & H6)]; [left; exact H3|right].
  exists t. splits; try assumption. lia.
Qed.
Lemma vgrow_trans h v h1 v1 h2 v2 q : vgrow h v h1 v1 q -> vgrow h1 v1 h2 v2 q -> vgrow h v h2 v2 q.
Proof.
  intros (_ & F1 & D1) (C2 & F2 & D2). split; [exact C2|]. split; [eapply fgrow_trans; eassumption|]. destruct F1 as [Hn _].
  destruct D2 as [[E2 S2]|(t & E2 & H4 & H5 & H6)].
  - destruct D1 as [[E1 S1]|(t & E1 & H4 & H5 & H6)]; [left; split; congruence|]. right. exists t. splits; try congruence; lia.
  - right. exists t. destruct D1 as [[E1 S1]|(t' & E1 & H7 & H8 & H9)]; splits; try congruence; try lia.
Qed.

Lemma vcheck_grow h v h' v' : vec_block_check P h v = Ok (h', v') -> vcount v ->
  vgrow h v h' v' (v_size v + 1) /\ v_size v' = v_size v /\ v_bsize v' < B /\ v_slots v' <> 0.
Proof.
  pose proof (bsz_pos P ltac:(lia)) as HB. unfold vec_block_check. intros E Hc. destruct (Z.leb_spec B (v_bsize v)) as [Hb|Hb].
  2:{ injection E as <- <-. splits; [apply vgrow_refl; exact Hc|lia|unfold vcount in Hc; lia]. }
  apply obind_ok in E as ([h1 v1] & E1 & E). apply obind_ok in E as ([[h4 f] c] & Eg & E). apply obind_ok in E as (h5 & E5 & [= <- <-]).
  assert (H1 : v_fl v1 = v_fl v /\ v_size v1 = v_size v /\ 64 <= v_slots v1 /\ 0 <= v_idx v1 + 1 /\ v_size v = (v_idx v1 + 1) * B /\ (nx h <= nx h1)%nat /\ dgrow h v v1 (v_size v + 1)).
  { destruct (Z.eqb_spec (v_slots v) 0) as [Hz|Hz].
    - cbn in E1. injection E1 as <- <-. fl. destruct Hc as [Hc|Hc]; [|lia]. splits; cbn; try lia. right. fl. eexists. splits; lia.
    - destruct Hc as [Hc|(Hc1 & Hc2 & Hc3 & Hc4)]; [lia|]. assert (v_bsize v = B) as Hbb by lia. destruct (Z.leb_spec (v_slots v - 1) (v_idx v)).
      + cbn in E1. apply obind_ok in E1 as (h2 & E2 & E1). apply obind_ok in E1 as (h3 & E3 & [= <- <-]). apply tcopy_nx in E2. apply tdelete_nx in E3. fl. cbn in E2.
        splits; try lia. right. fl. eexists. splits; try lia. nia.
      + injection E1 as <- <-. splits; try lia. left. auto. }
  destruct H1 as (Ef & Es & Hsl & Hi & Hsz & Hn & Hd). rewrite Ef in Eg. apply fl_get_grow in Eg as [Hg1 Hg2]. apply tset_nx in E5.
  splits; fl; try lia. split; [right; fl; lia|]. split; [|exact Hd]. split; [lia|]. fl. destruct Hg2 as [Hg2|(t & Hg2 & Hg3)]; [auto|]. right. exists t. split; [assumption|lia].
Qed.
Lemma vpush_grow h v x h' v' : vec_push P h v x = Ok (h', v') -> vcount v -> vgrow h v h' v' (v_size v + 1) /\ v_size v' = v_size v + 1.
Proof.
  unfold vec_push. intros ([h1 v1] & E1 & E)%obind_ok Hv. apply obind_ok in E as (c & _ & E). apply obind_ok in E as (h2 & E2 & [= <- <-]). apply emake_nx in E2.
  destruct (vcheck_grow _ _ _ _ E1 Hv) as ((Hc & [Hf1 Hf2] & Hd) & Es & Hb & Hz). fl. split; [|lia]. unfold vcount in Hc.
  split; [right; fl; lia|]. split; [split; [lia|exact Hf2]|exact Hd].
Qed.
Lemma vpop_grow h v h' v' q : vec_pop P h v = Ok (h', v') -> vcount v -> vgrow h v h' v' q.
Proof.
  pose proof (bsz_pos P ltac:(lia)) as HB. unfold vec_pop. destruct (Z.eqb_spec (v_size v) 0) as [|Hne]; [intros [= <- <-]; apply vgrow_refl|]. intros ([h1 v1] & E1 & E)%obind_ok Hc.
  apply obind_ok in E as (c & _ & E). apply obind_ok in E as (h2 & E2 & [= <- <-]). apply ekill_nx in E2. destruct Hc as [Hc|(Hc1 & Hc2 & Hc3 & Hc4)]; [lia|].
  destruct (Z.ltb_spec 0 (v_bsize v)).
  - injection E1 as <- <-. split; [right; fl; lia|]. split; [split; [lia|left; reflexivity]|left; auto].
  - apply obind_ok in E1 as (c1 & _ & E1). apply obind_ok in E1 as ([h3 f] & Ef & [= <- <-]). apply fl_put_grow in Ef as [Hf1 Hf2].
    split; [right; fl; nia|]. split; [split; [lia|exact Hf2]|left; auto].
Qed.
Lemma vpops_grow q k : forall h v h' v', vec_pops P h v k = Ok (h', v') -> vcount v -> vgrow h v h' v' q.
Proof.
  induction k as [|k IH]; intros h v h' v' E Hv; cbn in E; [injection E as <- <-; apply vgrow_refl; exact Hv|]. apply obind_ok in E as ([h1 v1] & E1 & E).
  pose proof (vpop_grow _ _ _ _ q E1 Hv) as H1. eapply vgrow_trans; [exact H1|]. eapply IH; [exact E|apply H1].
Qed.
Lemma vpushes_grow q xs : forall h v h' v', vec_pushes P h v xs = Ok (h', v') -> vcount v -> v_size v + zlen xs <= q -> vgrow h v h' v' q.
Proof.
  induction xs as [|x xs IH]; intros h v h' v' E Hv Hq; cbn in E; [injection E as <- <-; apply vgrow_refl; exact Hv|]. apply obind_ok in E as ([h1 v1] & E1 & E).
  rewrite zlen_cons in Hq. pose proof (zlen_nonneg xs). destruct (vpush_grow _ _ _ _ _ E1 Hv) as [H1 Hs]. eapply vgrow_trans; [eapply vgrow_le; [|exact H1]; lia|].
  eapply IH; [exact E|apply H1|lia].
Qed.
Lemma vset_nx h v n x h' : vec_set P h v n x = Ok h' -> nx h' = nx h.
Proof. unfold vec_set. intros ([c j] & _ & E)%obind_ok. eapply eset_nx; exact E. Qed.
Lemma vassign_grow q xs : forall h v i h' v', vec_assign P h v i xs = Ok (h', v') -> vcount v -> i <= v_size v -> i + zlen xs <= q -> vgrow h v h' v' q.
Proof.
  induction xs as [|x xs IH]; intros h v i h' v' E Hv Hi Hq; cbn [vec_assign] in E; [eapply vpops_grow; eauto|]. destruct (Z.ltb_spec i (v_size v)).
  - apply obind_ok in E as (h1 & E1 & E). apply vset_nx in E1. eapply vgrow_trans with (h1 := h1) (v1 := v).
    + split; [exact Hv|]. split; [split; [lia|auto]|left; auto].
    + eapply IH; [exact E|exact Hv|lia|]. rewrite zlen_cons in Hq. lia.
  - eapply vpushes_grow; [exact E|exact Hv|]. lia.
Qed.
Lemma vclear_mid_grow k : forall h v h' f', vec_clear_mid P h v k = Ok (h', f') -> fgrow h (v_fl v) h' f'.
Proof.
  induction k as [|k IH]; intros h v h' f' E; cbn [vec_clear_mid] in E; [injection E as <- <-; apply fgrow_refl|].
  apply obind_ok in E as (h1 & E1 & E). apply obind_ok in E as (c & _ & E). apply obind_ok in E as ([h2 f] & Ef & E). apply kill_down_nx in E1. apply fl_put_grow in Ef.
  apply IH in E. cbn [v_fl] in E. eapply fgrow_trans; [|exact E]. destruct Ef as [H1 H2]. split; [lia|]. destruct H2 as [H2|(t & H2 & H3)]; [auto|]. right. exists t. split; [assumption|lia].
Qed.
Lemma vclear_grow q h v h' v' : vec_clear P h v = Ok (h', v') -> vcount v -> vgrow h v h' v' q.
Proof.
  pose proof (bsz_pos P ltac:(lia)) as HB. unfold vec_clear. intros E Hv. destruct (Z.leb_spec (v_slots v) 0); [injection E as <- <-; apply vgrow_refl; exact Hv|]. destruct Hv as [Hc|Hc]; [lia|].
  apply obind_ok in E as (h1 & E1 & E). apply kill_down_nx in E1. destruct (Z.ltb_spec 0 (v_idx v)).
  - apply obind_ok in E as (c & _ & E). apply obind_ok in E as ([h2 f] & Ef & E). apply obind_ok in E as ([h3 f3] & Em & E). apply obind_ok in E as (h4 & E4 & [= <- <-]).
    apply kill_down_nx in E4. apply fl_put_grow in Ef. apply vclear_mid_grow in Em. cbn [v_fl] in Em. destruct (fgrow_trans _ _ _ _ _ _ Ef Em) as [H1 H2].
    split; [right; fl; lia|]. split; [|left; auto]. split; [lia|]. fl. destruct H2 as [H2|(t & H2 & H3)]; [auto|]. right. exists t. split; [assumption|lia].
  - injection E as <- <-. split; [right; fl; lia|]. split; [split; [lia|auto]|left; auto].
Qed.

Lemma vstep_grow h v o h' v' r q : vec_step P h v o = Ok (h', v', r) -> vcount v -> 0 <= v_size v ->
  match o with VPush _ => v_size v + 1 <= q | VAssign ys => zlen ys <= q | _ => True end -> vgrow h v h' v' q.
Proof.
  intros E Hv H0 Hq. destruct o as [x| | | |ys|n x|n|n| | | | |]; cbn [vec_step] in E.
  - apply obind_ok in E as ([h1 v1] & E & [= <- <- <-]). eapply vgrow_le; [exact Hq|]. eapply vpush_grow; eassumption.
  - apply obind_ok in E as ([h1 v1] & E & [= <- <- <-]). eapply vpop_grow; eauto.
  - apply obind_ok in E as ([h1 v1] & E & [= <- <- <-]). eapply vclear_grow; eauto.
  - apply obind_ok in E as ([h1 f] & E & [= <- <- <-]). apply fl_shrink_grow in E. split; [exact Hv|]. split; [exact E|left; auto].
  - apply obind_ok in E as ([h1 v1] & E & [= <- <- <-]). eapply vassign_grow; [exact E|exact Hv|lia|lia].
  - apply obind_ok in E as (h1 & E1 & [= <- <- <-]). apply vset_nx in E1. split; [exact Hv|]. split; [split; [lia|auto]|left; auto].
  - apply obind_ok in E as (y & _ & [= <- <- <-]). apply vgrow_refl; exact Hv.
  - destruct (_ <=? _); [injection E as <- <- <-; apply vgrow_refl; exact Hv|]. apply obind_ok in E as (y & _ & [= <- <- <-]). apply vgrow_refl; exact Hv.
  - apply obind_ok in E as (y & _ & [= <- <- <-]). apply vgrow_refl; exact Hv.
  - apply obind_ok in E as (y & _ & [= <- <- <-]). apply vgrow_refl; exact Hv.
  - injection E as <- <- <-. apply vgrow_refl; exact Hv.
  - injection E as <- <- <-. apply vgrow_refl; exact Hv.
  - apply obind_ok in E as (y & _ & [= <- <- <-]). apply vgrow_refl; exact Hv.
Qed.

(** ** Runs *)
Definition gone (t : nat) h v : Prop := (t < nx h)%nat /\ t ∉ vts v /\ tb h !! t = None.

Lemma vts_in v t : t ∈ vts v <-> f_tab (v_fl v) = Some t \/ v_data v = Some t.
Proof.
  unfold vts, otl. destruct (f_tab (v_fl v)) as [a|], (v_data v) as [b|]; cbn; rewrite ?elem_of_cons, ?elem_of_nil; split; intros H;
    repeat match goal with H : _ \/ _ |- _ => destruct H as [H|H] | H : Some _ = Some _ |- _ => injection H as -> end; subst; auto; try discriminate; try contradiction.
Qed.

Lemma gone_upd t h v h' v' bs bs' : gone t h v -> upd bs (vts v) h bs' (vts v') h' -> gone t h' v'.
Proof.
  intros (H1 & H2 & H3) U. pose proof (u_nx _ _ _ _ _ _ U). split; [lia|]. split.
  - intros Hin. destruct (u_tnew _ _ _ _ _ _ U _ Hin) as [_ [Hin'|Hge]]; [contradiction|lia].
  - rewrite (u_tsame _ _ _ _ _ _ U _ H2 H1). exact H3.
Qed.

Lemma vcount_slots v : vcount v -> 0 <= v_slots v.
Proof. unfold vcount. lia. Qed.

Lemma vsize_slots h v xs ids frees : vinv P h v xs ids frees -> zlen xs <= v_slots v * B.
Proof.
  pose proof (bsz_pos P ltac:(lia)) as HB. destruct HP as [HP1 HP2]. intros [(-> & -> & _)|(t & Hl)]; [unfold zlen; cbn; lia|].
  pose proof (vlive_idx P _ _ _ _ _ _ Hl). destruct Hl as (_ & _ & _ & _ & Hb & Hz & _). rewrite Hz. nia.
Qed.

Lemma dgrow_slots h v v' q : dgrow h v v' q -> v_slots v <= v_slots v'.
Proof. intros [[_ E]|(t & _ & _ & H & _)]; lia. Qed.

Lemma vdata_gone h v xs ids frees h' v' q t bs' :
  vinv P h v xs ids frees -> fgrow h (v_fl v) h' (v_fl v') -> dgrow h v v' q -> upd (frees ++ ids) (vts v) h bs' (vts v') h' ->
  v_data v = Some t -> v_data v' <> Some t -> gone t h' v'.
Proof.
  intros Hv [Hn Hf] Hd U Et Hne. pose proof (vinv_hok _ _ _ _ _ _ Hv) as (_ & _ & Hlt). assert (Hin : t ∈ vts v) by (apply vts_in; auto).
  assert (Hlt' : (t < nx h)%nat) by (apply Hlt; exact Hin).
  assert (Hnot : t ∉ vts v').
  { rewrite vts_in. intros [E|E]; [|contradiction]. destruct Hf as [Hf|(u & Hf & Hu)]; [|rewrite E in Hf; injection Hf as ->; lia].
    rewrite E in Hf. symmetry in Hf. destruct Hv as [(-> & _)|(t' & Ed & Hbk & _)]; [cbn in Et; discriminate|]. rewrite Et in Ed. injection Ed as <-.
    destruct HP as [HP1 _]. eapply (tab_sep P HP1); [apply (bk_nt _ _ _ _ _ _ _ _ _ _ Hbk)|exact Hf|reflexivity]. }
  split; [lia|]. split; [exact Hnot|]. apply (u_tabs _ _ _ _ _ _ U); [left; exact Hin|exact Hnot].
Qed.

Lemma vrun_grow q ops : forall h v xs ids frees h' v' tr,
  vgood P h v xs ids frees -> vcount v -> seq_ok xs ops -> Forall no_walk ops -> vec_run P h v ops = Ok (h', v', tr) ->
  (forall k, (k <= length ops)%nat -> zlen (seq_after xs (take k ops)) <= q) ->
  (exists ids' frees', vgood P h' v' (seq_after xs ops) ids' frees') /\ vgrow h v h' v' q /\
  (forall t, v_data v = Some t -> v_data v' <> Some t -> gone t h' v') /\ (forall t, gone t h v -> gone t h' v') /\
  (forall k, (k <= length ops)%nat -> zlen (seq_after xs (take k ops)) <= v_slots v' * B).
Proof.
  pose proof (bsz_pos P ltac:(lia)) as HB. destruct HP as [HP1 HP2].
  induction ops as [|o ops IH]; intros h v xs ids frees h' v' tr Hg Hc Hok Hnw E Hq; cbn [vec_run] in E.
  - injection E as <- <- <-. splits; try tauto; [exists ids, frees; exact Hg|apply vgrow_refl; exact Hc|].
    intros k _. rewrite take_nil. eapply vsize_slots. apply Hg.
  - destruct Hok as [Hl Hok]. inversion Hnw as [|? ? Hn1 Hnw']; subst.
    apply obind_ok in E as ([[h1 v1] r] & E1 & E). apply obind_ok in E as ([[h2 v2] tr2] & E2 & E). injection E as <- <- <-.
    destruct Hg as [Hv Hp]. pose proof (vsize_slots _ _ _ _ _ Hv) as Hss. pose proof (vinv_size _ _ _ _ _ _ Hv) as Hsz. pose proof (zlen_nonneg xs) as Hz.
    assert (Hstep : vgrow h v h1 v1 q).
    { eapply vstep_grow; [exact E1|exact Hc|lia|]. pose proof (Hq 1%nat ltac:(cbn; lia)) as H1. unfold seq_after in H1. cbn [take] in H1. rewrite take_0 in H1. cbn [fold_left] in H1.
      destruct o; cbn [seq_next] in H1; try exact I; [|exact H1]. rewrite zlen_app in H1. unfold zlen at 2 in H1. cbn in H1. lia. }
    destruct (vstep_ok P HP1 h v xs ids frees o HP2 Hv Hl) as (h1' & v1' & r' & xs1 & ids1 & frees1 & E' & Hs & Hv1 & U & Hp1 & _).
    { destruct o; cbn in *; tauto. }
    rewrite E1 in E'. injection E' as <- <- <-. pose proof (seq_next_ok _ _ _ _ Hs). subst xs1.
    destruct (IH h1 v1 _ ids1 frees1 h2 v2 tr2 (conj Hv1 (fun X => Hp (Hp1 X)))) as (Hg2 & Hgr & Hgo & Hstay & Hsl); try assumption; [apply Hstep|intros k Hk; apply (Hq (S k)); cbn; lia|].
    splits.
    + exact Hg2.
    + eapply vgrow_trans; eassumption.
    + intros t Et Hne. destruct (decide (v_data v1 = Some t)) as [E3|E3]; [apply Hgo; assumption|]. apply Hstay.
      destruct Hstep as (_ & Hf & Hd). exact (vdata_gone _ _ _ _ _ _ _ _ _ _ Hv Hf Hd U Et E3).
    + intros t Ht. apply Hstay. eapply gone_upd; eassumption.
    + intros [|k] Hk; [|apply Hsl; cbn in Hk; lia]. cbn [take seq_after fold_left]. unfold seq_after; cbn [fold_left].
      destruct Hstep as (_ & _ & Hd1). destruct Hgr as (_ & _ & Hd2). apply dgrow_slots in Hd1, Hd2. nia.
Qed.

Lemma vstart_count h v xs : vstart P h v xs -> vcount v.
Proof.
  pose proof (bsz_pos P ltac:(lia)) as HB. destruct 1 as [|n x h v Hn E]; [left; auto|]. unfold vec_sized in E. cbn [talloc] in E. apply obind_ok in E as (h2 & _ & E). injection E as <- <-. right. fl.
  rewrite shiftr_bsz, land_bsz by lia. pose proof (Z.div_pos n B Hn HB). pose proof (Z.mod_pos_bound n B HB). pose proof (Z.div_mod n B ltac:(lia)). lia.
Qed.

(** ** Iterators made before and used after *)
Lemma viter_make h v xs ids frees (n : nat) : vinv P h v xs ids frees -> (n < length xs)%nat ->
  exists t first it b, v_data v = Some t /\ vec_begin P h v = Ok first /\ it_steps P h first n = Ok it /\ it_at P h t (Z.of_nat n) it /\
    ids !! Z.to_nat (Z.of_nat n / B) = Some b /\ it = BIter (Some t) (Z.of_nat n / B) (PSlot b (Z.of_nat n mod B)) (Z.of_nat n mod B).
Proof.
  pose proof (bsz_pos P ltac:(lia)) as HB. pose proof (B_int P HP) as HBi. destruct HP as [HP1 HP2]. intros [(_ & -> & _)|(t & Hl)] Hn; [cbn in Hn; lia|].
  pose proof (vlen_ids P HP1 _ _ _ _ _ _ Hl) as Hlen. pose proof Hl as (Ed & Hbk & Hsz & _).
  assert (Hent : forall p, 0 <= p < zlen xs -> exists b, ids !! Z.to_nat (p / B) = Some b /\ tget h (Some t) (p / B) = Ok (Some b)).
  { intros p Hp. destruct (bk_locate P HP1 h t (v_slots v) 0 ids 0 xs (v_fl v) frees p Hbk ltac:(lia) Hlen Hp) as (i & b & E1 & E2 & _ & _ & E5).
    exists b. rewrite !Z.add_0_l in *. replace (Z.to_nat (p / B)) with i by lia. auto. }
  assert (Hnz : 0 <= Z.of_nat n < zlen xs) by (unfold zlen; lia).
  destruct (it_at_ex P h t 0) as [first Hf].
  { destruct (Hent 0 ltac:(lia)) as (b & _ & E). eexists; exact E. }
  destruct (it_steps_ok P HP1 h t n 0 first Hf) as (it & E & Hit); [lia| |].
  { intros p Hp. destruct (Hent p ltac:(lia)) as (b & _ & E). eexists; exact E. }
  rewrite Z.add_0_l in Hit. destruct (Hent (Z.of_nat n) Hnz) as (b & Hb & Ht).
  exists t, first, it, b. splits; try assumption.
  - unfold vec_begin. rewrite Hsz. destruct (Z.eqb_spec (zlen xs) 0); [lia|]. rewrite Ed. unfold it_at in Hf. rewrite Zdiv_0_l, Zmod_0_l in Hf. exact Hf.
  - apply it_at_inv in Hit as (c & E' & ->). rewrite Ht in E'. injection E' as <-. reflexivity.
Qed.

Lemma it_add_tab h it k it' : it_add P h it k = Ok it' -> i_tab it' = i_tab it.
Proof.
  unfold it_add. destruct (negb _); [discriminate|]. destruct (_ <=? _).
  - intros (p & _ & [= <-])%obind_ok. reflexivity.
  - intros [= <-]. reflexivity.
Qed.
Lemma it_steps_tab h n : forall it it', it_steps P h it n = Ok it' -> i_tab it' = i_tab it.
Proof.
  induction n as [|n IH]; intros it it' E; cbn [it_steps] in E; [congruence|]. apply obind_ok in E as (it1 & E1 & E). rewrite (IH _ _ E). eapply it_add_tab; exact E1.
Qed.
Lemma it_new_tab h t pos off it : it_new h t pos off = Ok it -> i_tab it = t.
Proof. unfold it_new. intros (p & _ & [= <-])%obind_ok. reflexivity. Qed.
Lemma vend_tab h v it : v_data v <> None -> vec_end P h v = Ok it -> i_tab it = v_data v.
Proof.
  intros Hd. unfold vec_end. destruct (v_data v) as [t|]; [|contradiction]. destruct (_ =? _); intros E; eapply it_new_tab; exact E.
Qed.
Lemma vbegin_tab h v it : v_data v <> None -> vec_begin P h v = Ok it -> i_tab it = v_data v.
Proof. intros Hd. unfold vec_begin. destruct (_ =? _); [apply vend_tab; exact Hd|apply it_new_tab]. Qed.

(** The situation: [n] is the position of an element that is never removed from [ops1] on. *)
Section held.
Variables (h0 : bheap V) (v0 : vec) (xs0 : list V) (ops1 ops2 : list (vop V)).
Variables (h1 : bheap V) (v1 : vec) (tr1 : list (vop V * vret V)) (h2 : bheap V) (v2 : vec) (tr2 : list (vop V * vret V)).
Variables (n : nat) (first it : biter).
Hypothesis H0 : vstart P h0 v0 xs0.
Hypothesis Hok : seq_ok xs0 (ops1 ++ ops2).
Hypothesis Hnw : Forall no_walk (ops1 ++ ops2).
Hypothesis E1 : vec_run P h0 v0 ops1 = Ok (h1, v1, tr1).
Hypothesis E2 : vec_run P h1 v1 ops2 = Ok (h2, v2, tr2).
Hypothesis Hlen : forall k, (n < length (seq_after xs0 (ops1 ++ take k ops2)))%nat.
Hypothesis Ef : vec_begin P h1 v1 = Ok first.
Hypothesis Ei : it_steps P h1 first n = Ok it.
Notation xs1 := (seq_after xs0 ops1).
Notation xs2 := (seq_after xs0 (ops1 ++ ops2)).
Notation nz := (Z.of_nat n).

Lemma held_facts :
  exists ids1 frees1 ids2 frees2 t1 b,
    vgood P h1 v1 xs1 ids1 frees1 /\ vcount v1 /\ vgood P h2 v2 xs2 ids2 frees2 /\
    v_data v1 = Some t1 /\ it = BIter (Some t1) (nz / B) (PSlot b (nz mod B)) (nz mod B) /\ ids2 !! Z.to_nat (nz / B) = Some b /\
    (v_data v2 = v_data v1 \/ gone t1 h2 v2) /\
    ((v_data v2 = v_data v1 /\ v_slots v2 = v_slots v1) \/ (v_data v2 <> v_data v1 /\ v_data v2 <> None /\ v_slots v1 < v_slots v2)) /\
    (v_data v2 = v_data v1 <-> forall k, zlen (seq_after xs0 (ops1 ++ take k ops2)) <= v_slots v1 * B).
Proof.
  pose proof (bsz_pos P ltac:(lia)) as HB. destruct (vstart_good P HP _ _ _ H0) as (ids & frees & Hg). pose proof (vstart_count _ _ _ H0) as Hc0.
  assert (Hok1 : seq_ok xs0 ops1 /\ seq_ok xs1 ops2).
  { clear -Hok. revert xs0 Hok. induction ops1 as [|o ops IH]; intros xs0 Hok; [split; [exact I|exact Hok]|].
    destruct Hok as [Ha Hb]. destruct (IH _ Hb) as [Hc Hd]. split; [split; assumption|exact Hd]. }
  pose proof Hnw as Hnw'. apply Forall_app in Hnw' as [Hn1 Hn2]. clear Hnw.
  assert (Happ : forall k, seq_after xs0 (ops1 ++ take k ops2) = seq_after xs1 (take k ops2)) by (intros k; unfold seq_after; apply fold_left_app).
  assert (Hx2 : xs2 = seq_after xs1 ops2) by (unfold seq_after; apply fold_left_app).
  assert (Hq1 : exists q, forall k, (k <= length ops1)%nat -> zlen (seq_after xs0 (take k ops1)) <= q).
  { clear. induction ops1 as [|o ops IH] using rev_ind; [exists (zlen xs0); intros k _; rewrite take_nil; cbn; lia|]. destruct IH as [q IH].
    exists (Z.max q (zlen (seq_after xs0 (ops ++ [o])))). intros k Hk. rewrite app_length in Hk. cbn in Hk. destruct (Nat.eq_dec k (length ops + 1)%nat) as [->|Hne].
    - rewrite take_ge by (rewrite app_length; cbn; lia). lia.
    - rewrite take_app_le by lia. specialize (IH k ltac:(lia)). lia. }
  destruct Hq1 as [q1 Hq1]. destruct (vrun_grow q1 ops1 _ _ _ _ _ _ _ _ Hg Hc0 (proj1 Hok1) Hn1 E1 Hq1) as ((ids1 & frees1 & Hg1) & (Hc1 & _) & _).
  assert (Hq2 : exists q, forall k, (k <= length ops2)%nat -> zlen (seq_after xs1 (take k ops2)) <= q).
  { clear. generalize xs1. intros xs. clear. induction ops2 as [|o ops IH] using rev_ind; [exists (zlen xs); intros k _; rewrite take_nil; cbn; lia|]. destruct IH as [q IH].
    exists (Z.max q (zlen (seq_after xs (ops ++ [o])))). intros k Hk. rewrite app_length in Hk. cbn in Hk. destruct (Nat.eq_dec k (length ops + 1)%nat) as [->|Hne].
    - rewrite take_ge by (rewrite app_length; cbn; lia). lia.
    - rewrite take_app_le by lia. specialize (IH k ltac:(lia)). lia. }
  destruct Hq2 as [q2 Hq2].
  destruct (vrun_grow q2 ops2 _ _ _ _ _ _ _ _ Hg1 Hc1 (proj2 Hok1) Hn2 E2 Hq2) as ((ids2 & frees2 & Hg2) & (_ & _ & Hd) & Hgo & _ & Hsl).
  rewrite <- Hx2 in Hg2.
  pose proof (Hlen 0%nat) as L1. rewrite take_0, app_nil_r in L1.
  destruct (viter_make _ _ _ _ _ n (proj1 Hg1) L1) as (t1 & first' & it' & b & Hd1 & Ef' & Ei' & _ & Hb & Eit).
  rewrite Ef in Ef'. injection Ef' as <-. rewrite Ei in Ei'. injection Ei' as <-.
  assert (Ht1 : (t1 < nx h1)%nat).
  { pose proof (vinv_hok _ _ _ _ _ _ (proj1 Hg1)) as (_ & _ & Hlt). apply Hlt. apply vts_in. auto. }
  pose proof (Hlen (length ops2)) as L2. rewrite firstn_all in L2.
  assert (Hb2 : ids2 !! Z.to_nat (nz / B) = Some b).
  { destruct (viter_make _ _ _ _ _ n (proj1 Hg2) L2) as (t2 & _ & _ & b2 & _ & _ & _ & _ & Hb2 & _). rewrite Hb2. f_equal.
    assert (Z1 : 0 <= nz < zlen xs1) by (unfold zlen; lia). assert (Z2 : 0 <= nz < zlen xs2) by (unfold zlen; lia).
    pose proof (vat_loc P HP _ _ _ _ _ nz b2 (proj1 Hg2) Z2 Hb2) as A2. pose proof (vat_loc P HP _ _ _ _ _ nz b (proj1 Hg1) Z1 Hb) as A1.
    rewrite (vrun_stable P HP ops2 h1 v1 _ ids1 frees1 h2 v2 tr2 nz Hg1 (proj2 Hok1) Hn2 E2) in A2; [congruence|lia|].
    intros k _. specialize (Hlen k). rewrite Happ in Hlen. unfold zlen. lia. }
  assert (Hdd : (v_data v2 = v_data v1 /\ v_slots v2 = v_slots v1) \/ (v_data v2 <> v_data v1 /\ v_data v2 <> None /\ v_slots v1 < v_slots v2)).
  { destruct Hd as [Hd|(t & Hd & Ht & Hs & _)]; [left; exact Hd|right]. rewrite Hd, Hd1. splits; [intros [= ->]; lia|discriminate|exact Hs]. }
  exists ids1, frees1, ids2, frees2, t1, b. splits; try assumption.
  - destruct (decide (v_data v2 = Some t1)) as [Hs|Hs]; [left; congruence|right]. apply Hgo; assumption.
  - split.
    + intros Hs k. destruct Hdd as [[_ Hdd]|[Hdd _]]; [|contradiction]. rewrite <- Hdd, Happ.
      destruct (le_lt_dec k (length ops2)) as [Hk|Hk]; [apply Hsl; exact Hk|]. rewrite take_ge by lia. rewrite <- (firstn_all ops2). apply Hsl. lia.
    + intros Hk. destruct (vrun_grow (v_slots v1 * B) ops2 _ _ _ _ _ _ _ _ Hg1 Hc1 (proj2 Hok1) Hn2 E2) as (_ & (_ & _ & Hd') & _); [intros k _; rewrite <- Happ; apply Hk|].
      destruct Hd' as [[Hd' _]|(t & _ & _ & _ & Hd')]; [exact Hd'|lia].
Qed.

Lemma held_room : 64 <= v_slots v1.
Proof.
  destruct held_facts as (ids1 & frees1 & ids2 & frees2 & t1 & b & [Hv _] & Hc & _ & Hd & _). destruct Hc as [(Hz & _)|Hc]; [|lia].
  destruct Hv as [(-> & _)|(t & _ & _ & _ & _ & _ & _ & Hs)]; [cbn in Hd; discriminate|lia].
Qed.

Lemma held_at (m : nat) x : xs2 !! m = Some x -> Z.of_nat m / B = nz / B ->
  exists it', (if (n <=? m)%nat then it_add P h2 it (Z.of_nat (m - n)) else it_sub P h2 it (Z.of_nat (n - m))) = Ok it' /\ it_read P h2 it' = Ok x.
Proof.
  pose proof (bsz_pos P ltac:(lia)) as HB. pose proof (B_int P HP) as HBi.
  intros Hx Hdiv. destruct held_facts as (ids1 & frees1 & ids2 & frees2 & t1 & b & _ & _ & [Hv2 _] & _ & -> & Hb & _).
  pose proof (Z.div_mod (Z.of_nat m) B ltac:(lia)) as Dm. pose proof (Z.div_mod nz B ltac:(lia)) as Dn. pose proof (Z.mod_pos_bound nz B HB). pose proof (Z.mod_pos_bound (Z.of_nat m) B HB). rewrite Hdiv in Dm.
  assert (Hr : eget P h2 (Some b) (Z.of_nat m mod B) = Ok x).
  { pose proof (vget_ok P ltac:(lia) h2 v2 _ ids2 frees2 m x Hv2 Hx) as G. unfold vec_get in G. pose proof (lookup_lt_Some _ _ _ Hx).
    assert (Zm : 0 <= Z.of_nat m < zlen xs2) by (unfold zlen; lia).
    rewrite (vat_loc P HP _ _ _ _ _ (Z.of_nat m) b Hv2 Zm) in G; [exact G|]. rewrite Hdiv. exact Hb. }
  destruct (Nat.leb_spec n m).
  - unfold it_add; cbn [i_off i_pos i_tab i_ptr]. rewrite wrap32_id by lia. unfold int_ok, int_max.
    assert (Hio : negb ((-2147483648 <=? nz mod B + Z.of_nat (m - n)) && (nz mod B + Z.of_nat (m - n) <=? 2147483647)) = false) by lia. rewrite Hio.
    destruct (Z.leb_spec B (nz mod B + Z.of_nat (m - n))); [lia|]. eexists. split; [reflexivity|]. cbn. replace (nz mod B + Z.of_nat (m - n)) with (Z.of_nat m mod B) by lia. exact Hr.
  - unfold it_sub; cbn [i_off i_pos i_tab i_ptr]. rewrite wrap32_id by lia. unfold int_ok, int_max.
    assert (Hio : negb ((-2147483648 <=? nz mod B - Z.of_nat (n - m)) && (nz mod B - Z.of_nat (n - m) <=? 2147483647)) = false) by lia. rewrite Hio.
    destruct (Z.ltb_spec (nz mod B - Z.of_nat (n - m)) 0); [lia|]. eexists. split; [reflexivity|]. cbn. replace (nz mod B + - Z.of_nat (n - m)) with (Z.of_nat m mod B) by lia. exact Hr.
Qed.

Lemma held_read x : xs2 !! n = Some x -> it_read P h2 it = Ok x.
Proof.
  intros Hx. destruct (held_at n x Hx eq_refl) as (it' & E & R). rewrite Nat.leb_refl, Nat.sub_diag in E.
  destruct held_facts as (ids1 & frees1 & ids2 & frees2 & t1 & b & _ & _ & _ & _ & Eit & _). rewrite <- R. pose proof (bsz_pos P ltac:(lia)) as HB. pose proof (Z.mod_pos_bound nz B HB). pose proof (B_int P HP) as HBi.
  subst it. unfold it_add in E; cbn [i_off i_pos i_tab i_ptr] in E. change (wrap32 0) with 0 in E. rewrite Z.add_0_r in E.
  destruct (negb _); [discriminate|]. destruct (Z.leb_spec B (nz mod B)); [lia|]. injection E as <-. cbn. rewrite Z.add_0_r. reflexivity.
Qed.

(** The table has not been replaced: the iterator is the one begin() and [n] increments give now. *)
Lemma held_same : (forall k, zlen (seq_after xs0 (ops1 ++ take k ops2)) <= v_slots v1 * B) ->
  exists first2, vec_begin P h2 v2 = Ok first2 /\ it_steps P h2 first2 n = Ok it /\
    forall m : nat, (m < length xs2)%nat ->
      exists it2, it_steps P h2 first2 m = Ok it2 /\
        ((n <= m)%nat -> Z.of_nat (m - n) <= 2147483648 - B -> it_add P h2 it (Z.of_nat (m - n)) = Ok it2) /\
        ((m <= n)%nat -> Z.of_nat (n - m) <= 2147483647 -> it_sub P h2 it (Z.of_nat (n - m)) = Ok it2).
Proof.
  pose proof (bsz_pos P ltac:(lia)) as HB. pose proof (B_int P HP) as HBi.
  intros Hk. destruct held_facts as (ids1 & frees1 & ids2 & frees2 & t1 & b & _ & _ & [Hv2 _] & Hd1 & Eit & Hb & _ & _ & Hiff). apply Hiff in Hk.
  pose proof (Hlen (length ops2)) as L2. rewrite firstn_all in L2.
  destruct (viter_make _ _ _ _ _ n Hv2 L2) as (t2 & first2 & it2 & b2 & Hd2 & Ef2 & Ei2 & Hat & Hb2 & Eit2).
  assert (t2 = t1) as -> by congruence. assert (b2 = b) as -> by congruence. rewrite <- Eit in Eit2. subst it2.
  exists first2. splits; try assumption. intros m Hm.
  destruct (viter_make _ _ _ _ _ m Hv2 Hm) as (t3 & first3 & it3 & b3 & Hd3 & Ef3 & Ei3 & Hat3 & Hb3 & Eit3).
  assert (t3 = t1) as -> by congruence. assert (first3 = first2) as -> by congruence.
  assert (He : entry h2 t1 (Z.of_nat m / B)) by (apply it_at_inv in Hat3 as (c & Hc & _); eexists; exact Hc).
  exists it3. splits; [exact Ei3| |].
  - intros Hle Hd. destruct (it_add_ok P ltac:(lia) h2 t1 nz it (Z.of_nat (m - n)) Hat) as (it4 & E4 & Hat4); [lia|replace (nz + Z.of_nat (m - n)) with (Z.of_nat m) by lia; exact He|].
    rewrite E4. f_equal. eapply it_at_fun; [exact Hat4|]. replace (nz + Z.of_nat (m - n)) with (Z.of_nat m) by lia. exact Hat3.
  - intros Hle Hd. destruct (it_sub_ok P ltac:(lia) h2 t1 nz it (Z.of_nat (n - m)) Hat) as (it4 & E4 & Hat4); [lia|replace (nz - Z.of_nat (n - m)) with (Z.of_nat m) by lia; exact He|lia|].
    rewrite E4. f_equal. eapply it_at_fun; [exact Hat4|]. replace (nz - Z.of_nat (n - m)) with (Z.of_nat m) by lia. exact Hat3.
Qed.

(** It has been replaced: leaving the block is undefined, and the iterator differs from all iterators made afterwards. *)
Lemma held_lost : (exists k, v_slots v1 * B < zlen (seq_after xs0 (ops1 ++ take k ops2))) ->
  (forall k, 0 <= k <= 2147483647 -> B <= nz mod B + k -> it_add P h2 it k = UB) /\
  (forall k, 0 <= k <= 2147483647 -> nz mod B < k -> it_sub P h2 it k = UB) /\
  (forall first2 m it2, vec_begin P h2 v2 = Ok first2 -> it_steps P h2 first2 m = Ok it2 -> it_eq it it2 = false) /\
  (forall last, vec_end P h2 v2 = Ok last -> it_eq it last = false).
Proof.
  pose proof (bsz_pos P ltac:(lia)) as HB. pose proof (B_int P HP) as HBi. pose proof (Z.mod_pos_bound nz B HB) as Hm.
  intros [k Hk]. destruct held_facts as (ids1 & frees1 & ids2 & frees2 & t1 & b & _ & _ & [Hv2 _] & Hd1 & -> & Hb & Hgone & Hdd & Hiff).
  assert (Hne : v_data v2 <> v_data v1) by (intros E; pose proof (proj1 Hiff E k); lia).
  destruct Hgone as [?|(_ & _ & Hgone)]; [contradiction|]. destruct Hdd as [[? _]|(_ & Hnn & _)]; [contradiction|].
  assert (Htg : forall i, tget h2 (Some t1) i = UB) by (intros i; unfold tget; rewrite Hgone; reflexivity).
  splits.
  - intros j Hj Hc. unfold it_add; cbn [i_off i_pos i_tab i_ptr]. rewrite wrap32_id by lia. destruct (negb _); [reflexivity|].
    destruct (Z.leb_spec B (nz mod B + j)); [|lia]. unfold it_ptr. rewrite Htg. reflexivity.
  - intros j Hj Hc. unfold it_sub; cbn [i_off i_pos i_tab i_ptr]. rewrite wrap32_id by lia. destruct (negb _); [reflexivity|].
    destruct (Z.ltb_spec (nz mod B - j) 0); [|lia]. unfold it_ptr. rewrite Htg. reflexivity.
  - intros first2 m it2 E3 E4. unfold it_eq; cbn [i_tab]. rewrite bool_decide_eq_false_2; [reflexivity|].
    rewrite (it_steps_tab _ _ _ _ E4), (vbegin_tab _ _ _ Hnn E3). congruence.
  - intros last E3. unfold it_eq; cbn [i_tab]. rewrite bool_decide_eq_false_2; [reflexivity|]. rewrite (vend_tab _ _ _ Hnn E3). congruence.
Qed.
End held.
End vec.
