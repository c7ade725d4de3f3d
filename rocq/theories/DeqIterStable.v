(** Iterators of StableBlockDeque held while the deque changes. *)
From stdpp Require Import gmap.
From Verif Require Import Base BlkHeap BlkIter BlkProofs BlkMore BlkRun BlkIterProofs VecModel VecSpec VecProofs VecWorld VecFinal VecIterStable
  DeqModel DeqSpec DeqProofs DeqMore DeqWorld DeqFinal.

Section deq.
Context {V : Type}.
Variable P : params.
Hypothesis HP : 0 <= expo P <= 30.
Notation B := (bsz P).
Implicit Types (h : bheap V) (d : deq) (ids frees : list nat) (xs : list V).
Ltac fl := cbn [d_size d_data d_slots d_back d_front d_bsize d_fsize d_fl f_slots f_idx f_tab] in *.

(** ** The tables of a deque are the old ones or new *)
Definition ddata h d d' : Prop := d_data d' = d_data d \/ exists t, d_data d' = Some t /\ (nx h <= t)%nat.
Definition dgr h d h' d' : Prop := fgrow h (d_fl d) h' (d_fl d') /\ ddata h d d'.

Lemma dgr_refl h d : dgr h d h d.
Proof. split; [apply fgrow_refl|left; auto]. Qed.
Lemma dgr_trans h d h1 d1 h2 d2 : dgr h d h1 d1 -> dgr h1 d1 h2 d2 -> dgr h d h2 d2.
Proof.
  intros (F1 & D1) (F2 & D2). split; [eapply fgrow_trans; eassumption|]. destruct F1 as [Hn _].
  destruct D2 as [E2|(t & E2 & H4)]; [destruct D1 as [E1|(t & E1 & H4)]; [left; congruence|right; exists t; split; [congruence|lia]]|right; exists t; split; [assumption|lia]].
Qed.
Lemma fgrow_nx h h1 (f : flist) h2 f2 : nx h1 = nx h -> fgrow h1 f h2 f2 -> fgrow h f h2 f2.
Proof. intros E [H1 H2]. unfold fgrow. rewrite <- E. auto. Qed.
Lemma fgrow_nx2 h (f : flist) h2 f2 h3 : nx h3 = nx h2 -> fgrow h f h2 f2 -> fgrow h f h3 f2.
Proof. intros E [H1 H2]. unfold fgrow. rewrite E. auto. Qed.
Lemma fgrow_le h h1 (f : flist) h2 f2 : (nx h <= nx h1)%nat -> fgrow h1 f h2 f2 -> fgrow h f h2 f2.
Proof. intros E [H1 H2]. split; [lia|]. destruct H2 as [H2|(t & H2 & H3)]; [auto|right; exists t; split; [assumption|lia]]. Qed.

Lemma tshift_nx h p i n k h' : tshift P h p i n k = Ok h' -> nx h' = nx h.
Proof. unfold tshift. destruct p as [t|]; [|discriminate]. destruct (tb h !! t); [|discriminate]. destruct (_ && _); [|discriminate]. intros [= <-]. reflexivity. Qed.

Lemma dfirst_grow h d h' d' : deq_first_block P h d = Ok (h', d') -> dgr h d h' d'.
Proof.
  unfold deq_first_block. cbn [talloc]. intros ([[h2 f] c] & Eg & E)%obind_ok. apply obind_ok in E as (h3 & E3 & [= <- <-]). apply tset_nx in E3. apply fl_get_grow in Eg.
  split; fl; [eapply fgrow_nx2; [exact E3|]; eapply fgrow_le; [|exact Eg]; cbn; lia|right; eexists; split; [reflexivity|lia]].
Qed.
Lemma dcheck_grow h d h' d' : deq_check P h d = Ok (h', d') -> dgr h d h' d'.
Proof.
  unfold deq_check. destruct (_ <=? _); [|intros [= <- <-]; apply dgr_refl]. destruct (_ =? _); [apply dfirst_grow|].
  intros ([h1 d1] & E1 & E)%obind_ok. apply obind_ok in E as ([[h4 f] c] & Eg & E). apply obind_ok in E as (h5 & E5 & [= <- <-]). apply tset_nx in E5. apply fl_get_grow in Eg.
  assert (H1 : (nx h <= nx h1)%nat /\ d_fl d1 = d_fl d /\ ddata h d d1).
  { destruct (_ <=? _); [|injection E1 as <- <-; split; [lia|split; [reflexivity|left; reflexivity]]]. destruct (_ <? _).
    - apply obind_ok in E1 as (h2 & E2 & [= <- <-]). apply tshift_nx in E2. split; [lia|split; [reflexivity|left; reflexivity]].
    - cbn [talloc] in E1. apply obind_ok in E1 as (h2 & E2 & E1). apply obind_ok in E1 as (h3 & E3 & [= <- <-]). apply tcopy_nx in E2. apply tdelete_nx in E3. cbn in *.
      split; [lia|split; [reflexivity|right; eexists; split; [reflexivity|lia]]]. }
  destruct H1 as (H1 & H2 & H3). rewrite H2 in Eg. split; fl; [|exact H3]. eapply fgrow_nx2; [exact E5|]. eapply fgrow_le; eassumption.
Qed.
Lemma dcheckf_grow h d h' d' : deq_check_front P h d = Ok (h', d') -> dgr h d h' d'.
Proof.
  unfold deq_check_front. destruct (_ <? _); [|intros [= <- <-]; apply dgr_refl]. destruct (_ =? _); [apply dfirst_grow|].
  intros ([h1 d1] & E1 & E)%obind_ok. apply obind_ok in E as ([[h4 f] c] & Eg & E). apply obind_ok in E as (h5 & E5 & [= <- <-]). apply tset_nx in E5. apply fl_get_grow in Eg.
  assert (H1 : (nx h <= nx h1)%nat /\ d_fl d1 = d_fl d /\ ddata h d d1).
  { destruct (_ =? _); [|injection E1 as <- <-; split; [lia|split; [reflexivity|left; reflexivity]]]. destruct (_ <? _).
    - apply obind_ok in E1 as (h2 & E2 & [= <- <-]). apply tshift_nx in E2. split; [lia|split; [reflexivity|left; reflexivity]].
    - cbn [talloc] in E1. apply obind_ok in E1 as (h2 & E2 & E1). apply obind_ok in E1 as (h3 & E3 & [= <- <-]). apply tcopy_nx in E2. apply tdelete_nx in E3. cbn in *.
      split; [lia|split; [reflexivity|right; eexists; split; [reflexivity|lia]]]. }
  destruct H1 as (H1 & H2 & H3). rewrite H2 in Eg. split; fl; [|exact H3]. eapply fgrow_nx2; [exact E5|]. eapply fgrow_le; eassumption.
Qed.
Lemma dpush_grow h d x h' d' : deq_push P h d x = Ok (h', d') -> dgr h d h' d'.
Proof.
  unfold deq_push. intros ([h1 d1] & E1 & E)%obind_ok. apply obind_ok in E as (c & _ & E). apply obind_ok in E as (h2 & E2 & [= <- <-]). apply emake_nx in E2. apply dcheck_grow in E1 as [H1 H2].
  split; fl; [|exact H2]. eapply fgrow_nx2; eassumption.
Qed.
Lemma dpushf_grow h d x h' d' : deq_push_front P h d x = Ok (h', d') -> dgr h d h' d'.
Proof.
  unfold deq_push_front. intros ([h1 d1] & E1 & E)%obind_ok. apply obind_ok in E as (c & _ & E). apply obind_ok in E as (h2 & E2 & [= <- <-]). apply emake_nx in E2. apply dcheckf_grow in E1 as [H1 H2].
  split; fl; [|exact H2]. eapply fgrow_nx2; eassumption.
Qed.
Lemma dpop_grow h d h' d' : deq_pop P h d = Ok (h', d') -> dgr h d h' d'.
Proof.
  unfold deq_pop. destruct (_ =? _); [intros [= <- <-]; apply dgr_refl|]. intros ([h1 d1] & E1 & E)%obind_ok.
  apply obind_ok in E as (c & _ & E). apply obind_ok in E as (h2 & E2 & [= <- <-]). apply ekill_nx in E2. destruct (_ <? _).
  - injection E1 as <- <-. split; [fl; eapply fgrow_nx2; [exact E2|apply fgrow_refl]|left; reflexivity].
  - apply obind_ok in E1 as (c1 & _ & E1). apply obind_ok in E1 as ([h3 f] & Ef & [= <- <-]). apply fl_put_grow in Ef. split; [fl; eapply fgrow_nx2; eassumption|left; reflexivity].
Qed.
Lemma dpopf_grow h d h' d' : deq_pop_front P h d = Ok (h', d') -> dgr h d h' d'.
Proof.
  unfold deq_pop_front. destruct (_ =? _); [intros [= <- <-]; apply dgr_refl|]. intros ([h1 d1] & E1 & E)%obind_ok.
  apply obind_ok in E as (c & _ & E). apply obind_ok in E as (h2 & E2 & [= <- <-]). apply ekill_nx in E2. destruct (negb _).
  - injection E1 as <- <-. split; [fl; eapply fgrow_nx2; [exact E2|apply fgrow_refl]|left; reflexivity].
  - apply obind_ok in E1 as (c1 & _ & E1). apply obind_ok in E1 as ([h3 f] & Ef & [= <- <-]). apply fl_put_grow in Ef. split; [fl; eapply fgrow_nx2; eassumption|left; reflexivity].
Qed.
Lemma dpops_grow k : forall h d h' d', deq_pops P h d k = Ok (h', d') -> dgr h d h' d'.
Proof.
  induction k as [|k IH]; intros h d h' d' E; cbn in E; [injection E as <- <-; apply dgr_refl|]. apply obind_ok in E as ([h1 d1] & E1 & E). eapply dgr_trans; [eapply dpop_grow; exact E1|apply IH; exact E].
Qed.
Lemma dpushes_grow xs : forall h d h' d', deq_pushes P h d xs = Ok (h', d') -> dgr h d h' d'.
Proof.
  induction xs as [|x xs IH]; intros h d h' d' E; cbn in E; [injection E as <- <-; apply dgr_refl|]. apply obind_ok in E as ([h1 d1] & E1 & E). eapply dgr_trans; [eapply dpush_grow; exact E1|apply IH; exact E].
Qed.
Lemma assign_over_nx xs : forall h it last h' it' rest, assign_over P h it last xs = Ok (h', it', rest) -> nx h' = nx h.
Proof.
  induction xs as [|x xs IH]; intros h it last h' it' rest E; cbn in E; [injection E as <- <- <-; reflexivity|]. destruct (it_eq _ _); [injection E as <- <- <-; reflexivity|].
  apply obind_ok in E as (h1 & E1 & E). apply obind_ok in E as (it1 & _ & E). rewrite (IH _ _ _ _ _ _ E). unfold it_write in E1. destruct (i_ptr it); try discriminate. eapply eset_nx; exact E1.
Qed.
Lemma dassign_grow xs h d h' d' : deq_assign P h d xs = Ok (h', d') -> dgr h d h' d'.
Proof.
  unfold deq_assign. intros ([[h1 d1] rest] & E1 & E)%obind_ok. eapply dgr_trans; [|eapply dpushes_grow; exact E]. clear E.
  destruct (_ =? _); [injection E1 as <- <- <-; apply dgr_refl|]. apply obind_ok in E1 as (a & _ & E1). apply obind_ok in E1 as (b & _ & E1). apply obind_ok in E1 as ([[h2 it] r] & E2 & E1).
  apply assign_over_nx in E2. assert (H2 : dgr h d h2 d) by (split; [eapply fgrow_nx2; [exact E2|apply fgrow_refl]|left; reflexivity]).
  destruct r; [|injection E1 as <- <- <-; exact H2]. apply obind_ok in E1 as (n & _ & E1). apply obind_ok in E1 as ([h3 d3] & E3 & [= <- <- <-]). eapply dgr_trans; [exact H2|]. eapply dpops_grow; exact E3.
Qed.
Lemma dclear_mid_grow k : forall h t i f h' f', deq_clear_mid P h t i f k = Ok (h', f') -> fgrow h f h' f'.
Proof.
  induction k as [|k IH]; intros h t i f h' f' E; cbn [deq_clear_mid] in E; [injection E as <- <-; apply fgrow_refl|].
  apply obind_ok in E as (h1 & E1 & E). apply obind_ok in E as (c & _ & E). apply obind_ok in E as ([h2 f2] & Ef & E). apply kill_down_nx in E1. apply fl_put_grow in Ef.
  eapply fgrow_trans; [eapply fgrow_nx; eassumption|]. eapply IH; exact E.
Qed.
Lemma dclear_grow h d h' d' : deq_clear P h d = Ok (h', d') -> dgr h d h' d'.
Proof.
  unfold deq_clear. destruct (_ || _); [intros [= <- <-]; apply dgr_refl|]. intros (h1 & E1 & E)%obind_ok. apply obind_ok in E as ([h2 f2] & Em & E). apply obind_ok in E as ([h3 f3] & E3 & E).
  apply obind_ok in E as (c & _ & E). apply obind_ok in E as (h4 & E4 & [= <- <-]). apply kill_down_nx in E1. apply dclear_mid_grow in Em. apply tset_nx in E4.
  split; [fl|left; reflexivity]. eapply fgrow_nx2; [exact E4|]. eapply fgrow_nx; [exact E1|]. eapply fgrow_trans; [exact Em|].
  destruct (_ <? _); [|injection E3 as <- <-; apply fgrow_refl].
  apply obind_ok in E3 as (c3 & _ & E3). apply obind_ok in E3 as ([h5 f5] & Ef & E3). apply obind_ok in E3 as (h6 & E6 & [= <- <-]). apply kill_down_nx in E6. apply fl_put_grow in Ef. eapply fgrow_nx2; eassumption.
Qed.
Lemma dset_nx h d n x h' : deq_set P h d n x = Ok h' -> nx h' = nx h.
Proof. unfold deq_set. intros ([c j] & _ & E)%obind_ok. eapply eset_nx; exact E. Qed.
Lemma dstep_grow h d o h' d' r : deq_step P h d o = Ok (h', d', r) -> dgr h d h' d'.
Proof.
  intros E. destruct o as [[x| | | |ys|n x|n|n| | | | |]|x|]; cbn [deq_step] in E.
  - apply obind_ok in E as ([h1 d1] & E & [= <- <- <-]). eapply dpush_grow; eauto.
  - apply obind_ok in E as ([h1 d1] & E & [= <- <- <-]). eapply dpop_grow; eauto.
  - apply obind_ok in E as ([h1 d1] & E & [= <- <- <-]). eapply dclear_grow; eauto.
  - apply obind_ok in E as ([h1 f] & E & [= <- <- <-]). apply fl_shrink_grow in E. split; [exact E|left; reflexivity].
  - apply obind_ok in E as ([h1 d1] & E & [= <- <- <-]). eapply dassign_grow; eauto.
  - apply obind_ok in E as (h1 & E & [= <- <- <-]). apply dset_nx in E. split; [eapply fgrow_nx2; [exact E|apply fgrow_refl]|left; reflexivity].
  - apply obind_ok in E as (y & _ & [= <- <- <-]). apply dgr_refl.
  - destruct (_ <=? _); [injection E as <- <- <-; apply dgr_refl|]. apply obind_ok in E as (y & _ & [= <- <- <-]). apply dgr_refl.
  - apply obind_ok in E as (y & _ & [= <- <- <-]). apply dgr_refl.
  - apply obind_ok in E as (y & _ & [= <- <- <-]). apply dgr_refl.
  - injection E as <- <- <-. apply dgr_refl.
  - injection E as <- <- <-. apply dgr_refl.
  - apply obind_ok in E as (y & _ & [= <- <- <-]). apply dgr_refl.
  - apply obind_ok in E as ([h1 d1] & E & [= <- <- <-]). eapply dpushf_grow; eauto.
  - apply obind_ok in E as ([h1 d1] & E & [= <- <- <-]). eapply dpopf_grow; eauto.
Qed.

(** ** Where an element is in the table *)

(** The call finds room in the table, or needs none. *)
Definition roomy d (o : dop V) : Prop :=
  match o with
  | DV (VPush _) => d_bsize d < B \/ d_back d < d_slots d - 1
  | DPushF _ => 0 <= d_fsize d \/ 0 < d_front d
  | DV (VAssign _) => False
  | _ => True
  end.

Lemma dstep_slot h d xs ids frees o h' d' r n m :
  dinv P h d xs ids frees -> deq_step P h d o = Ok (h', d', r) -> roomy d o -> 0 <= n < zlen xs -> dq_track xs n o = Some m ->
  d_data d' = d_data d /\ dq0 P d' + m = dq0 P d + n.
Proof.
  pose proof (bsz_pos P ltac:(lia)) as HB. intros Hd E Hr Hn Ht. destruct Hd as [(_ & -> & _)|(t & Hl)]; [change (zlen []) with 0 in Hn; lia|].
  destruct Hl as (Ed & _ & Hsz & _ & _ & Hfs & Hbs & _ & Hsl). unfold dq0.
  assert (Hv : forall c, o = DV c -> m = n) by (intros c ->; unfold dq_track in Ht; destruct (_ <? _); congruence).
  destruct o as [[x| | | |ys|k x|k|k| | | | |]|x|]; cbn [deq_step roomy] in *; try (rewrite (Hv _ eq_refl) in *); clear Hv.
  - apply obind_ok in E as ([h1 d1] & E & [= <- <- <-]). unfold deq_push in E. apply obind_ok in E as ([h2 d2] & E & E2). apply obind_ok in E2 as (c & _ & E2). apply obind_ok in E2 as (h3 & _ & [= <- <-]). fl.
    unfold deq_check in E. destruct (Z.leb_spec B (d_bsize d)); [|injection E as <- <-; split; [reflexivity|lia]].
    destruct (Z.eqb_spec (d_slots d) 0); [lia|]. destruct (Z.leb_spec (d_slots d - 1) (d_back d)); [lia|]. cbn [obind] in E.
    apply obind_ok in E as ([[h4 f] c4] & _ & E). apply obind_ok in E as (h5 & _ & [= <- <-]). fl. split; [reflexivity|lia].
  - apply obind_ok in E as ([h1 d1] & E & [= <- <- <-]). unfold deq_pop in E. destruct (_ =? _); [injection E as <- <-; split; [reflexivity|lia]|].
    apply obind_ok in E as ([h2 d2] & E & E2). apply obind_ok in E2 as (c & _ & E2). apply obind_ok in E2 as (h3 & _ & [= <- <-]). destruct (_ <? _).
    + injection E as <- <-. fl. split; [reflexivity|lia].
    + apply obind_ok in E as (c1 & _ & E). apply obind_ok in E as ([h5 f] & _ & [= <- <-]). fl. split; [reflexivity|lia].
  - exfalso. unfold dq_track in Ht. cbn [dq_next seq_next] in Ht. change (zlen (@nil V)) with 0 in Ht. destruct (Z.ltb_spec n 0); [lia|discriminate].
  - apply obind_ok in E as ([h1 f] & _ & [= <- <- <-]). fl. split; [reflexivity|lia].
  - contradiction.
  - apply obind_ok in E as (h1 & _ & [= <- <- <-]). split; [reflexivity|lia].
  - apply obind_ok in E as (y & _ & [= <- <- <-]). split; [reflexivity|lia].
  - destruct (_ <=? _); [injection E as <- <- <-; split; [reflexivity|lia]|]. apply obind_ok in E as (y & _ & [= <- <- <-]). split; [reflexivity|lia].
  - apply obind_ok in E as (y & _ & [= <- <- <-]). split; [reflexivity|lia].
  - apply obind_ok in E as (y & _ & [= <- <- <-]). split; [reflexivity|lia].
  - injection E as <- <- <-. split; [reflexivity|lia].
  - injection E as <- <- <-. split; [reflexivity|lia].
  - apply obind_ok in E as (y & _ & [= <- <- <-]). split; [reflexivity|lia].
  - cbn in Ht. injection Ht as <-. apply obind_ok in E as ([h1 d1] & E & [= <- <- <-]). unfold deq_push_front in E. apply obind_ok in E as ([h2 d2] & E & E2). apply obind_ok in E2 as (c & _ & E2). apply obind_ok in E2 as (h3 & _ & [= <- <-]). fl.
    unfold deq_check_front in E. destruct (Z.ltb_spec (d_fsize d) 0); [|injection E as <- <-; split; [reflexivity|lia]].
    destruct (Z.eqb_spec (d_slots d) 0); [lia|]. destruct (Z.eqb_spec (d_front d) 0); [lia|]. cbn [obind] in E.
    apply obind_ok in E as ([[h4 f] c4] & _ & E). apply obind_ok in E as (h5 & _ & [= <- <-]). fl. split; [reflexivity|lia].
  - cbn in Ht. destruct (Z.eqb_spec n 0); [discriminate|]. injection Ht as <-. apply obind_ok in E as ([h1 d1] & E & [= <- <- <-]). unfold deq_pop_front in E. destruct (Z.eqb_spec (d_size d) 0); [lia|].
    apply obind_ok in E as ([h2 d2] & E & E2). apply obind_ok in E2 as (c & _ & E2). apply obind_ok in E2 as (h3 & _ & [= <- <-]). destruct (Z.eqb_spec (d_fsize d) (B - 1)); cbn [negb] in E.
    + apply obind_ok in E as (c1 & _ & E). apply obind_ok in E as ([h5 f] & _ & [= <- <-]). fl. split; [reflexivity|lia].
    + injection E as <- <-. fl. split; [reflexivity|lia].
Qed.

(** ** Runs *)
Fixpoint roomy_run h d (ops : list (dop V)) : Prop :=
  match ops with
  | [] => True
  | o :: ops' => roomy d o /\ forall h1 d1 r, deq_step P h d o = Ok (h1, d1, r) -> roomy_run h1 d1 ops'
  end.
Definition dgone (t : nat) h d : Prop := (t < nx h)%nat /\ t ∉ dts d /\ tb h !! t = None.

Lemma dts_in d t : t ∈ dts d <-> f_tab (d_fl d) = Some t \/ d_data d = Some t.
Proof.
  unfold dts, otl. destruct (f_tab (d_fl d)) as [a|], (d_data d) as [b|]; cbn; rewrite ?elem_of_cons, ?elem_of_nil; split; intros H;
    repeat match goal with H : _ \/ _ |- _ => destruct H as [H|H] | H : Some _ = Some _ |- _ => injection H as -> end; subst; auto; try discriminate; try contradiction.
Qed.
Lemma dgone_upd t h d h' d' bs bs' : dgone t h d -> upd bs (dts d) h bs' (dts d') h' -> dgone t h' d'.
Proof.
  intros (H1 & H2 & H3) U. pose proof (u_nx _ _ _ _ _ _ U). split; [lia|]. split.
  - intros Hin. destruct (u_tnew _ _ _ _ _ _ U _ Hin) as [_ [Hin'|Hge]]; [contradiction|lia].
  - rewrite (u_tsame _ _ _ _ _ _ U _ H2 H1). exact H3.
Qed.
Lemma ddata_gone h d xs ids frees h' d' t bs' :
  dinv P h d xs ids frees -> dgr h d h' d' -> upd (frees ++ ids) (dts d) h bs' (dts d') h' ->
  d_data d = Some t -> d_data d' <> Some t -> dgone t h' d'.
Proof.
  intros Hv [[Hn Hf] Hd] U Et Hne. pose proof (dinv_hok _ _ _ _ _ _ Hv) as (_ & _ & Hlt). assert (Hin : t ∈ dts d) by (apply dts_in; auto).
  assert (Hlt' : (t < nx h)%nat) by (apply Hlt; exact Hin).
  assert (Hnot : t ∉ dts d').
  { rewrite dts_in. intros [E|E]; [|contradiction]. destruct Hf as [Hf|(u & Hf & Hu)]; [|rewrite E in Hf; injection Hf as ->; lia].
    rewrite E in Hf. symmetry in Hf. destruct Hv as [(-> & _)|(t' & Ed & Hbk & _)]; [cbn in Et; discriminate|]. rewrite Et in Ed. injection Ed as <-.
    destruct HP as [HP1 _]. eapply (tab_sep P HP1); [apply (bk_nt _ _ _ _ _ _ _ _ _ _ Hbk)|exact Hf|reflexivity]. }
  split; [lia|]. split; [exact Hnot|]. apply (u_tabs _ _ _ _ _ _ U); [left; exact Hin|exact Hnot].
Qed.

Lemma drun_held ops : forall h d xs ids frees h' d' tr,
  dinv P h d xs ids frees -> dok P h d xs ops -> deq_run P h d ops = Ok (h', d', tr) ->
  (forall t, d_data d = Some t -> d_data d' <> Some t -> dgone t h' d') /\ (forall t, dgone t h d -> dgone t h' d') /\
  (roomy_run h d ops -> forall n m, 0 <= n < zlen xs -> dq_tracks xs n ops = Some m -> d_data d' = d_data d /\ dq0 P d' + m = dq0 P d + n).
Proof.
  pose proof HP as [HP1 HP2]. induction ops as [|o ops IH]; intros h d xs ids frees h' d' tr Hd Hok E; cbn [deq_run] in E.
  - injection E as <- <- <-. splits; [intros; contradiction|tauto|]. intros _ n m _ [= <-]. auto.
  - destruct Hok as (Hl & Hg & Hok).
    destruct (dstep_ok P HP1 h d xs ids frees o HP2 Hd Hl Hg) as (h1 & d1 & r & xs1 & ids1 & frees1 & E1 & Hs & Hd1 & U & Ex & K).
    rewrite E1 in E. cbn [obind] in E. apply obind_ok in E as ([[h2 d2] tr2] & E2 & E). injection E as <- <- <-. subst xs1.
    destruct (IH h1 d1 _ ids1 frees1 h2 d2 tr2 Hd1 (Hok _ _ _ E1) E2) as (G1 & G2 & G3). pose proof (dstep_grow _ _ _ _ _ _ E1) as Hgr.
    splits.
    + intros t Et Hne. destruct (decide (d_data d1 = Some t)) as [E3|E3]; [apply G1; assumption|]. apply G2. exact (ddata_gone _ _ _ _ _ _ _ _ _ Hd Hgr U Et E3).
    + intros t Hgo. apply G2. exact (dgone_upd _ _ _ _ _ _ _ Hgo U).
    + intros [Hr Hrs] n m Hn Ht. cbn [dq_tracks] in Ht. destruct (dq_track xs n o) as [k|] eqn:Ek; [|discriminate].
      destruct (dstep_slot _ _ _ _ _ _ _ _ _ _ _ Hd E1 Hr Hn Ek) as [F1 F2].
      destruct (G3 (Hrs _ _ _ E1) k m (track_range _ _ _ _ _ _ Hs Hn Ek eq_refl) Ht) as [F3 F4]. split; [congruence|lia].
Qed.

(** ** Iterators made before and used after *)
Lemma diter_make h d xs ids frees (n : nat) : dinv P h d xs ids frees -> (n < length xs)%nat ->
  exists t first it b, d_data d = Some t /\ deq_begin P h d = Ok first /\ it_steps P h first n = Ok it /\ it_at P h t (dq0 P d + Z.of_nat n) it /\
    deq_at P h d (Z.of_nat n) = Ok (Some b, (dq0 P d + Z.of_nat n) mod B) /\
    it = BIter (Some t) ((dq0 P d + Z.of_nat n) / B) (PSlot b ((dq0 P d + Z.of_nat n) mod B)) ((dq0 P d + Z.of_nat n) mod B).
Proof.
  pose proof (bsz_pos P ltac:(lia)) as HB. pose proof (B_int P HP) as HBi. pose proof HP as [HP1 HP2]. intros Hd Hn. pose proof Hd as [(_ & -> & _)|(t & Hl)]; [cbn in Hn; lia|].
  pose proof (dlen_ids P _ _ _ _ _ _ Hl) as [Ho Hlen]. pose proof Hl as (Ed & Hbk & Hsz & _).
  assert (Hent : forall p, 0 <= p < zlen xs -> exists b, ids !! Z.to_nat ((d_fsize d + 1 + p) / B) = Some b /\ tget h (Some t) ((dq0 P d + p) / B) = Ok (Some b)).
  { intros p Hp. destruct (bk_locate P HP1 h t (d_slots d) (d_front d) ids (d_fsize d + 1) xs (d_fl d) frees p Hbk Ho Hlen Hp) as (i & b & E1 & E2 & _ & _ & E5).
    exists b. split; [rewrite <- E2, Nat2Z.id; exact E1|]. unfold dq0. replace (d_front d * B + (d_fsize d + 1) + p) with ((d_fsize d + 1 + p) + d_front d * B) by lia. rewrite Z.div_add by lia. rewrite Z.add_comm. exact E5. }
  assert (Hnz : 0 <= Z.of_nat n < zlen xs) by (unfold zlen; lia).
  destruct (dbegin_some P HP1 _ _ _ _ _ _ Hl) as (first & Ef & Hf); [intros ->; cbn in Hn; lia|].
  destruct (it_steps_ok P HP1 h t n (dq0 P d) first Hf) as (it & E & Hit); [lia| |].
  { intros p Hp. destruct (Hent (p - dq0 P d) ltac:(lia)) as (b & _ & E). replace (dq0 P d + (p - dq0 P d)) with p in E by lia. eexists; exact E. }
  destruct (Hent (Z.of_nat n) Hnz) as (b & Hb & Ht).
  exists t, first, it, b. splits; try assumption.
  - destruct (dat_ok P HP1 h d xs ids frees (Z.of_nat n) Hd Hnz) as (i & b' & E' & Hi & Ei & _). rewrite E'.
    rewrite <- Ei, Nat2Z.id in Hb. assert (b' = b) as -> by congruence. do 2 f_equal. unfold dq0. replace (d_front d * B + (d_fsize d + 1) + Z.of_nat n) with ((d_fsize d + 1 + Z.of_nat n) + d_front d * B) by lia. rewrite Z.mod_add by lia. reflexivity.
  - apply it_at_inv in Hit as (c & E' & ->). rewrite Ht in E'. injection E' as <-. reflexivity.
Qed.

Lemma dend_tab h d it : d_data d <> None -> deq_end P h d = Ok it -> i_tab it = d_data d.
Proof. intros Hd. unfold deq_end. destruct (d_data d) as [t|]; [|contradiction]. destruct (_ =? _); intros E; eapply it_new_tab; exact E. Qed.
Lemma dbegin_tab h d it : d_data d <> None -> deq_begin P h d = Ok it -> i_tab it = d_data d.
Proof. intros Hd. unfold deq_begin. destruct (_ =? _); [apply dend_tab; exact Hd|]. destruct (_ =? _); apply it_new_tab. Qed.

Section held.
Variables (h0 : bheap V) (d0 : deq) (xs0 : list V) (ops1 ops2 : list (dop V)).
Variables (h1 : bheap V) (d1 : deq) (tr1 : list (dop V * vret V)) (h2 : bheap V) (d2 : deq) (tr2 : list (dop V * vret V)).
Variables (n m : nat) (first it : biter).
Hypothesis H0 : dstart P h0 d0 xs0.
Hypothesis Hok : dq_ok xs0 (ops1 ++ ops2).
Hypothesis E1 : deq_run P h0 d0 ops1 = Ok (h1, d1, tr1).
Hypothesis E2 : deq_run P h1 d1 ops2 = Ok (h2, d2, tr2).
Notation xs1 := (dq_after xs0 ops1).
Notation xs2 := (dq_after xs0 (ops1 ++ ops2)).
Hypothesis Hn : (n < length xs1)%nat.
Hypothesis Ht : dq_tracks xs1 (Z.of_nat n) ops2 = Some (Z.of_nat m).
Hypothesis Ef : deq_begin P h1 d1 = Ok first.
Hypothesis Ei : it_steps P h1 first n = Ok it.
Notation q1 := (dq0 P d1 + Z.of_nat n).
Notation q2 := (dq0 P d2 + Z.of_nat m).

Lemma dheld_facts :
  exists ids2 frees2 t1 b,
    dinv P h2 d2 xs2 ids2 frees2 /\ (m < length xs2)%nat /\
    d_data d1 = Some t1 /\ it = BIter (Some t1) (q1 / B) (PSlot b (q1 mod B)) (q1 mod B) /\
    deq_at P h2 d2 (Z.of_nat m) = Ok (Some b, q1 mod B) /\ q1 mod B = q2 mod B /\
    (d_data d2 = d_data d1 \/ dgone t1 h2 d2) /\ (roomy_run h1 d1 ops2 -> d_data d2 = d_data d1 /\ q2 = q1).
Proof.
  pose proof (bsz_pos P ltac:(lia)) as HB. pose proof HP as [HP1 HP2].
  assert (Hq : dq_ok xs0 ops1 /\ dq_ok xs1 ops2).
  { clear -Hok. revert xs0 Hok. induction ops1 as [|o ops IH]; intros xs0 Hok; [split; [exact I|exact Hok]|].
    destruct Hok as [Ha Hb]. destruct (IH _ Hb) as [Hc Hd]. split; [split; assumption|exact Hd]. }
  destruct Hq as [Hq1 Hq2]. pose proof (start_dok P HP _ _ _ _ _ _ _ H0 Hq1 E1) as Hok1. destruct (dstart_inv P HP _ _ _ H0) as (ids & frees & Hd).
  destruct (drun_ok P HP ops1 h0 d0 xs0 ids frees Hd Hok1) as (h1' & d1' & tr1' & ids1 & frees1 & E1' & _ & _ & Hd1).
  rewrite E1 in E1'. injection E1' as <- <- <-. pose proof (run_dok P HP _ _ _ _ _ _ _ _ _ Hd1 Hq2 E2) as Hok2.
  assert (Hnz : 0 <= Z.of_nat n < zlen xs1) by (unfold zlen; lia).
  destruct (drun_kept P HP ops2 h1 d1 _ ids1 frees1 h2 d2 tr2 (Z.of_nat n) (Z.of_nat m) Hd1 Hok2 E2 Hnz Ht) as [K Hm].
  destruct (drun_ok P HP ops2 h1 d1 _ ids1 frees1 Hd1 Hok2) as (h2' & d2' & tr2' & ids2 & frees2 & E2' & _ & _ & Hd2).
  rewrite E2 in E2'. injection E2' as <- <- <-. assert (Hx2 : xs2 = dq_after xs1 ops2) by (unfold dq_after; apply fold_left_app). rewrite <- Hx2 in *.
  destruct (drun_held ops2 h1 d1 _ ids1 frees1 h2 d2 tr2 Hd1 Hok2 E2) as (G1 & _ & G3).
  destruct (diter_make _ _ _ _ _ n Hd1 Hn) as (t1 & first' & it' & b & Ed1 & Ef' & Ei' & _ & Eat & Eit). rewrite Ef in Ef'. injection Ef' as <-. rewrite Ei in Ei'. injection Ei' as <-.
  assert (Hml : (m < length xs2)%nat) by (unfold zlen in Hm; lia).
  destruct (diter_make _ _ _ _ _ m Hd2 Hml) as (t2 & _ & _ & b2 & _ & _ & _ & _ & Eat2 & _).
  rewrite Eat in K. rewrite K in Eat2. injection Eat2 as <- Emod.
  exists ids2, frees2, t1, b. splits; try assumption.
  - destruct (decide (d_data d2 = Some t1)) as [Hs|Hs]; [left; congruence|right]. apply G1; assumption.
  - intros Hr. destruct (G3 Hr _ _ Hnz Ht) as [F1 F2]. auto.
Qed.

Lemma dheld_at (p : nat) x c j i : xs2 !! p = Some x -> deq_at P h2 d2 (Z.of_nat m) = Ok (c, i) -> deq_at P h2 d2 (Z.of_nat p) = Ok (c, j) ->
  exists it', (if i <=? j then it_add P h2 it (j - i) else it_sub P h2 it (i - j)) = Ok it' /\ it_read P h2 it' = Ok x.
Proof.
  pose proof (bsz_pos P ltac:(lia)) as HB. pose proof (B_int P HP) as HBi. pose proof HP as [HP1 HP2].
  destruct dheld_facts as (ids2 & frees2 & t1 & b & Hd2 & _ & _ & -> & Eat & _). intros Hx Ea Eb. rewrite Eat in Ea. injection Ea as <- <-.
  pose proof (dget_ok P HP1 h2 d2 _ ids2 frees2 p x Hd2 Hx) as G. unfold deq_get in G. rewrite Eb in G. cbn [obind] in G.
  assert (Hj : 0 <= j < B). { unfold eget in G. apply obind_ok in G as (b' & G & _). unfold slot in G. destruct (bool_decide _ && _ && _) eqn:Ej; [|discriminate]. lia. }
  pose proof (Z.mod_pos_bound q1 B HB). destruct (Z.leb_spec (q1 mod B) j).
  - unfold it_add; cbn [i_off i_pos i_tab i_ptr]. rewrite wrap32_id by lia. unfold int_ok, int_max. replace (q1 mod B + (j - q1 mod B)) with j by lia.
    assert (Hio : negb ((-2147483648 <=? j) && (j <=? 2147483647)) = false) by lia. rewrite Hio.
    destruct (Z.leb_spec B j); [lia|]. eexists. split; [reflexivity|]. cbn. replace (q1 mod B + (j - q1 mod B)) with j by lia. exact G.
  - unfold it_sub; cbn [i_off i_pos i_tab i_ptr]. rewrite wrap32_id by lia. unfold int_ok, int_max. replace (q1 mod B - (q1 mod B - j)) with j by lia.
    assert (Hio : negb ((-2147483648 <=? j) && (j <=? 2147483647)) = false) by lia. rewrite Hio.
    destruct (Z.ltb_spec j 0); [lia|]. eexists. split; [reflexivity|]. cbn. replace (q1 mod B + - (q1 mod B - j)) with j by lia. exact G.
Qed.
Lemma dheld_read x : xs2 !! m = Some x -> it_read P h2 it = Ok x.
Proof.
  destruct dheld_facts as (ids2 & frees2 & t1 & b & Hd2 & _ & _ & -> & Eat & _). intros Hx. pose proof HP as [HP1 HP2].
  pose proof (dget_ok P HP1 h2 d2 _ ids2 frees2 m x Hd2 Hx) as G. unfold deq_get in G. rewrite Eat in G. exact G.
Qed.

(** The table is the same one: the iterator has the slot number that it had. *)
Lemma dheld_same : d_data d2 = d_data d1 ->
  exists first2, deq_begin P h2 d2 = Ok first2 /\
    forall p : nat, (p < length xs2)%nat ->
      exists it2, it_steps P h2 first2 p = Ok it2 /\
        (forall k, 0 <= k <= 2147483648 - B -> Z.of_nat p = Z.of_nat m + k + (q1 - q2) -> (q1 = q2 \/ B <= q1 mod B + k) -> it_add P h2 it k = Ok it2) /\
        (forall k, 0 <= k <= 2147483647 -> Z.of_nat p = Z.of_nat m - k + (q1 - q2) -> (q1 = q2 \/ q1 mod B < k) -> it_sub P h2 it k = Ok it2).
Proof.
  pose proof (bsz_pos P ltac:(lia)) as HB. pose proof (B_int P HP) as HBi. pose proof HP as [HP1 HP2].
  intros Hs. destruct dheld_facts as (ids2 & frees2 & t1 & b & Hd2 & Hm & Ed1 & Eit & Eat & Emod & _).
  destruct (diter_make _ _ _ _ _ m Hd2 Hm) as (t2 & first2 & itm & bm & Ed2 & Ef2 & Ei2 & Hat2 & Eat2 & Eitm). assert (t2 = t1) as -> by congruence.
  rewrite Eat in Eat2. injection Eat2 as <- _.
  exists first2. split; [exact Ef2|]. intros p Hp.
  destruct (diter_make _ _ _ _ _ p Hd2 Hp) as (t3 & first3 & it3 & b3 & Ed3 & Ef3 & Ei3 & Hat3 & Eat3 & Eit3). assert (t3 = t1) as -> by congruence. assert (first3 = first2) as -> by congruence.
  assert (He : entry h2 t1 ((dq0 P d2 + Z.of_nat p) / B)) by (apply it_at_inv in Hat3 as (c & Hc & _); eexists; exact Hc).
  assert (Hit : q1 = q2 -> it = itm) by (intros Hq; rewrite Eit, Eitm, Hq; reflexivity).
  pose proof (Z.mod_pos_bound q1 B HB) as Hmb. pose proof (Z.div_mod q1 B ltac:(lia)) as Hdm.
  exists it3. splits; [exact Ei3| |].
  - intros k Hk Hpk [Hq|Hc].
    + rewrite (Hit Hq). destruct (it_add_ok P HP1 h2 t1 q2 itm k Hat2) as (it4 & E4 & Hat4); [lia|replace (q2 + k) with (dq0 P d2 + Z.of_nat p) by lia; exact He|].
      rewrite E4. f_equal. eapply it_at_fun; [exact Hat4|]. replace (q2 + k) with (dq0 P d2 + Z.of_nat p) by lia. exact Hat3.
    + subst it. unfold it_add; cbn [i_off i_pos i_tab i_ptr]. rewrite wrap32_id by lia. unfold int_ok, int_max.
      assert (Hio : negb ((-2147483648 <=? q1 mod B + k) && (q1 mod B + k <=? 2147483647)) = false) by lia. rewrite Hio. destruct (Z.leb_spec B (q1 mod B + k)); [|lia].
      pose proof (Z.div_mod (q1 mod B + k - B) B ltac:(lia)) as Hd3. pose proof (Z.mod_pos_bound (q1 mod B + k - B) B HB) as Hm3.
      assert (Eq : (dq0 P d2 + Z.of_nat p) / B = q1 / B + 1 + (q1 mod B + k - B) / B /\ (dq0 P d2 + Z.of_nat p) mod B = (q1 mod B + k - B) mod B).
      { replace (dq0 P d2 + Z.of_nat p) with (q1 + k) by lia. split; symmetry.
        - eapply Z.div_unique_pos with (r := (q1 mod B + k - B) mod B); [lia|]. lia.
        - eapply Z.mod_unique_pos with (q := q1 / B + 1 + (q1 mod B + k - B) / B); [lia|]. lia. }
      destruct Eq as [Eq Er]. rewrite <- Eq, <- Er. exact Hat3.
  - intros k Hk Hpk [Hq|Hc].
    + rewrite (Hit Hq). destruct (it_sub_ok P HP1 h2 t1 q2 itm k Hat2) as (it4 & E4 & Hat4); [lia|replace (q2 - k) with (dq0 P d2 + Z.of_nat p) by lia; exact He|lia|].
      rewrite E4. f_equal. eapply it_at_fun; [exact Hat4|]. replace (q2 - k) with (dq0 P d2 + Z.of_nat p) by lia. exact Hat3.
    + subst it. unfold it_sub; cbn [i_off i_pos i_tab i_ptr]. rewrite wrap32_id by lia. unfold int_ok, int_max.
      assert (Hio : negb ((-2147483648 <=? q1 mod B - k) && (q1 mod B - k <=? 2147483647)) = false) by lia. rewrite Hio. destruct (Z.ltb_spec (q1 mod B - k) 0); [|lia].
      pose proof (Z.div_mod (- (q1 mod B - k) - 1) B ltac:(lia)) as Hd3. pose proof (Z.mod_pos_bound (- (q1 mod B - k) - 1) B HB) as Hm3.
      assert (Eq : (dq0 P d2 + Z.of_nat p) / B = q1 / B - (1 + (- (q1 mod B - k) - 1) / B) /\ (dq0 P d2 + Z.of_nat p) mod B = B - 1 - (- (q1 mod B - k) - 1) mod B).
      { replace (dq0 P d2 + Z.of_nat p) with (q1 - k) by lia. split; symmetry.
        - eapply Z.div_unique_pos with (r := B - 1 - (- (q1 mod B - k) - 1) mod B); [lia|]. lia.
        - eapply Z.mod_unique_pos with (q := q1 / B - (1 + (- (q1 mod B - k) - 1) / B)); [lia|]. lia. }
      destruct Eq as [Eq Er]. rewrite <- Eq, <- Er. exact Hat3.
Qed.

Lemma dheld_lost : d_data d2 <> d_data d1 ->
  (forall k, 0 <= k <= 2147483647 -> B <= q1 mod B + k -> it_add P h2 it k = UB) /\
  (forall k, 0 <= k <= 2147483647 -> q1 mod B < k -> it_sub P h2 it k = UB) /\
  (forall first2 p it2, deq_begin P h2 d2 = Ok first2 -> it_steps P h2 first2 p = Ok it2 -> it_eq it it2 = false) /\
  (forall last, deq_end P h2 d2 = Ok last -> it_eq it last = false).
Proof.
  pose proof (bsz_pos P ltac:(lia)) as HB. pose proof (B_int P HP) as HBi. pose proof (Z.mod_pos_bound q1 B HB) as Hmb.
  intros Hne. destruct dheld_facts as (ids2 & frees2 & t1 & b & Hd2 & Hm & Ed1 & -> & Eat & Emod & Hgone & _).
  destruct Hgone as [?|(_ & _ & Hgone)]; [contradiction|].
  assert (Hnn : d_data d2 <> None). { destruct (diter_make _ _ _ _ _ m Hd2 Hm) as (t2 & _ & _ & _ & Ed2 & _). congruence. }
  assert (Htg : forall i, tget h2 (Some t1) i = UB) by (intros i; unfold tget; rewrite Hgone; reflexivity).
  splits.
  - intros j Hj Hc. unfold it_add; cbn [i_off i_pos i_tab i_ptr]. rewrite wrap32_id by lia. destruct (negb _); [reflexivity|].
    destruct (Z.leb_spec B (q1 mod B + j)); [|lia]. unfold it_ptr. rewrite Htg. reflexivity.
  - intros j Hj Hc. unfold it_sub; cbn [i_off i_pos i_tab i_ptr]. rewrite wrap32_id by lia. destruct (negb _); [reflexivity|].
    destruct (Z.ltb_spec (q1 mod B - j) 0); [|lia]. unfold it_ptr. rewrite Htg. reflexivity.
  - intros first2 p it2 E3 E4. unfold it_eq; cbn [i_tab]. rewrite bool_decide_eq_false_2; [reflexivity|].
    rewrite (it_steps_tab _ _ _ _ _ E4), (dbegin_tab _ _ _ Hnn E3). congruence.
  - intros last E3. unfold it_eq; cbn [i_tab]. rewrite bool_decide_eq_false_2; [reflexivity|]. rewrite (dend_tab _ _ _ Hnn E3). congruence.
Qed.
End held.
End deq.
