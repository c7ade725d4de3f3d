(** StableBlockDeque: one call, locations of elements, and programs over several deques. *)
From stdpp Require Import gmap.
From Verif Require Import Base BlkHeap BlkProofs BlkMore BlkRun BlkIter BlkIterProofs BlkWorld VecModel VecSpec VecProofs VecWorld VecFinal
  DeqModel DeqSpec DeqProofs DeqMore.

Section deq.
Context {V : Type}.
Variable P : params.
Hypothesis HP : 0 <= expo P.
Notation B := (bsz P).
Implicit Types (h : bheap V) (d : deq) (ids frees : list nat) (xs : list V).
Notation dinv := (dinv P).
Notation dlive := (dlive P).

(** The states in which a call is defective *)
Definition dguard d (o : dop V) : Prop :=
  match o with
  | DPushF _ => front_guard P d
  | DV VClear => clear_guard P d
  | DV VWalk => ~ dfull P d
  | DV (VAssign _) => d_size d <> 0 -> ~ dfull P d
  | _ => True
  end.

(** Every element that stays is at the same place. *)
Definition kept h d xs h' d' (o : dop V) : Prop :=
  forall n m, 0 <= n < zlen xs -> dq_track xs n o = Some m -> deq_at P h' d' m = deq_at P h d n.

Lemma dinv_ids h d xs ids frees n : dinv h d xs ids frees -> 0 <= n < zlen xs -> ids <> [].
Proof.
  intros [(_ & -> & _)|(t & Hl)] Hn; [change (zlen []) with 0 in Hn; lia|]. destruct Hl as (_ & _ & _ & _ & H & _).
  intros ->. change (zlen []) with 0 in H. lia.
Qed.

Lemma loc_same h d xs ids frees h' d' xs' ids' frees' n :
  dinv h d xs ids frees -> dinv h' d' xs' ids' frees' -> (mono ids ids' \/ mono ids' ids) -> (ids <> [] -> d_fsize d' = d_fsize d) ->
  0 <= n < zlen xs -> n < zlen xs' -> deq_at P h' d' n = deq_at P h d n.
Proof.
  intros Hd Hd' M F Hn Hn'. specialize (F (dinv_ids _ _ _ _ _ _ Hd Hn)).
  destruct (dat_ok P HP h d xs ids frees n Hd Hn) as (i & b & E & Hi & Ei & _).
  destruct (dat_ok P HP h' d' xs' ids' frees' n Hd' ltac:(lia)) as (i' & b' & E' & Hi' & Ei' & _).
  rewrite F in *. replace i' with i in * by lia. rewrite E, E'.
  destruct M as [M|M]; [apply (mono_lookup _ _ _ _ M) in Hi|apply (mono_lookup _ _ _ _ M) in Hi']; congruence.
Qed.

(** The front of [d'] is one element further than that of [d]. *)
Lemma loc_grown h d xs ids frees h' d' xs' ids' frees' n :
  dinv h d xs ids frees -> dinv h' d' xs' ids' frees' -> grown P ids (d_fsize d + 1) ids' (d_fsize d' + 1 + 1) ->
  0 <= n < zlen xs -> n + 1 < zlen xs' -> deq_at P h' d' (n + 1) = deq_at P h d n.
Proof.
  intros Hd Hd' Hg Hn Hn'. pose proof (B_pos P HP) as HB.
  destruct (dat_ok P HP h d xs ids frees n Hd Hn) as (i & b & E & Hi & Ei & _).
  destruct (dat_ok P HP h' d' xs' ids' frees' (n + 1) Hd' ltac:(lia)) as (i' & b' & E' & Hi' & Ei' & _).
  rewrite E, E'. destruct Hg as [[-> Hf]|(b0 & -> & Hf)].
  - replace (d_fsize d' + 1 + (n + 1)) with (d_fsize d + 1 + n) in * by lia. replace i' with i in * by lia. congruence.
  - replace (d_fsize d' + 1 + (n + 1)) with ((d_fsize d + 1 + n) + 1 * B) in * by lia. rewrite Z.mod_add by lia. rewrite Z.div_add in Ei' by lia.
    replace i' with (S i) in * by lia. cbn in Hi'. pose proof (eq_trans (eq_sym Hi) Hi') as X. injection X as ->. reflexivity.
Qed.

Lemma dstep_ok h d xs ids frees o :
  expo P <= 30 -> dinv h d xs ids frees -> dq_legal xs o -> dguard d o ->
  exists h' d' r xs' ids' frees', deq_step P h d o = Ok (h', d', r) /\ dq_step xs o r xs' /\ dinv h' d' xs' ids' frees' /\
    upd (frees ++ ids) (dts d) h (frees' ++ ids') (dts d') h' /\ xs' = dq_next xs o /\ kept h d xs h' d' o.
Proof.
  intros HN Hd Hl Hg. assert (Hsame : upd (frees ++ ids) (dts d) h (frees ++ ids) (dts d) h).
  { apply upd_refl. eapply dinv_hok; eassumption. }
  pose proof (dinv_size P _ _ _ _ _ Hd) as Hsz. pose proof (mono_refl ids) as Hrefl.
  assert (Hkeep : forall o', (forall n m, dq_track xs n (DV o') = Some m -> m = n) -> kept h d xs h d (DV o')).
  { intros o' Ht n m Hn E. apply Ht in E. subst m. reflexivity. }
  assert (Htrk : forall o' n m, dq_track xs n (DV o') = Some m -> m = n /\ n < zlen (dq_next xs (DV o'))).
  { intros o' n m. unfold dq_track. destruct (Z.ltb_spec n (zlen (dq_next xs (DV o')))); intros [= <-]. split; [reflexivity|assumption]. }
  assert (Hstay : forall o' h' d' xs' ids' frees', dinv h' d' xs' ids' frees' -> xs' = dq_next xs (DV o') -> (mono ids ids' \/ mono ids' ids) ->
    (ids <> [] -> d_fsize d' = d_fsize d) -> kept h d xs h' d' (DV o')).
  { intros o' h' d' xs' ids' frees' Hd' -> M F n m Hn Et. apply Htrk in Et as [-> Hn']. eapply loc_same; eassumption. }
  assert (Hsame' : forall o' r, deq_step P h d (DV o') = Ok (h, d, r) -> seq_step xs o' r xs -> xs = seq_next xs o' ->
    exists h' d' r xs' ids' frees', deq_step P h d (DV o') = Ok (h', d', r) /\ dq_step xs (DV o') r xs' /\ dinv h' d' xs' ids' frees' /\
    upd (frees ++ ids) (dts d) h (frees' ++ ids') (dts d') h' /\ xs' = dq_next xs (DV o') /\ kept h d xs h' d' (DV o')).
  { intros o' r E S En. exists h, d, r, xs, ids, frees. split; [exact E|]. split; [constructor; exact S|]. split; [exact Hd|]. split; [exact Hsame|].
    split; [exact En|]. apply Hkeep. intros n m Et. apply Htrk in Et. tauto. }
  destruct o as [o|x|].
  2:{ cbn [deq_step dguard] in *. destruct (dpush_front_ok P HP h d xs ids frees x Hd Hg) as (h' & d' & ids' & frees' & -> & Hd' & U & G). cbn [obind].
      eexists h', d', _, _, ids', frees'. split; [reflexivity|]. split; [constructor|]. split; [exact Hd'|]. split; [exact U|]. split; [reflexivity|].
      intros n m Hn [= <-]. eapply loc_grown; try eassumption; [apply G; eapply dinv_ids; eassumption|]. rewrite zlen_cons. lia. }
  2:{ cbn [deq_step] in *. destruct xs as [|x xs].
      - rewrite (proj2 (dpop_empty P h d ids frees Hd)). cbn [obind]. eexists h, d, _, _, ids, frees. split; [reflexivity|]. split; [constructor|].
        split; [exact Hd|]. split; [exact Hsame|]. split; [reflexivity|]. intros n m Hn _. change (zlen []) with 0 in Hn. lia.
      - destruct (dpop_front_ok P HP h d xs x ids frees Hd) as (h' & d' & ids' & frees' & -> & Hd' & U & G). cbn [obind].
        eexists h', d', _, _, ids', frees'. split; [reflexivity|]. split; [constructor|]. split; [exact Hd'|]. split; [exact U|]. split; [reflexivity|].
        intros n m Hn. unfold dq_track. destruct (Z.eqb_spec n 0); [discriminate|]. intros [= <-]. symmetry. rewrite zlen_cons in Hn.
        replace n with (n - 1 + 1) at 1 by lia. eapply loc_grown; try eassumption; try lia. rewrite zlen_cons. lia. }
  destruct o as [x| | | |ys|n x|n|n| | | | |]; cbn [deq_step dq_legal seq_legal dguard] in *.
  - destruct (dpush_ok P HP h d xs ids frees x Hd) as (h' & d' & ids' & frees' & -> & Hd' & U & M & F). cbn [obind].
    eexists h', d', _, _, ids', frees'. split; [reflexivity|]. split; [constructor; constructor|]. split; [exact Hd'|]. split; [exact U|]. split; [reflexivity|].
    eapply Hstay; try eassumption; [reflexivity|tauto].
  - destruct xs as [|x xs' _] using rev_ind.
    + rewrite (proj1 (dpop_empty P h d ids frees Hd)). cbn [obind]. eexists h, d, _, _, ids, frees. split; [reflexivity|]. split; [constructor; constructor|].
      split; [exact Hd|]. split; [exact Hsame|]. split; [reflexivity|]. intros n m Hn _. change (zlen []) with 0 in Hn. lia.
    + destruct (dpop_ok P HP h d xs' x ids frees Hd) as (h' & d' & ids' & frees' & -> & Hd' & U & M & F). cbn [obind].
      eexists h', d', _, _, ids', frees'. split; [reflexivity|]. split; [constructor; constructor|]. split; [exact Hd'|]. split; [exact U|].
      assert (E : xs' = dq_next (xs' ++ [x]) (DV VPop)) by (cbn; rewrite removelast_last; reflexivity). split; [exact E|].
      eapply Hstay; try eassumption; [tauto|intros _; exact F].
  - destruct (dclear_ok P HP h d xs ids frees Hd Hg) as (h' & d' & ids' & frees' & -> & Hd' & U). cbn [obind].
    eexists h', d', _, _, ids', frees'. split; [reflexivity|]. split; [constructor; constructor|]. split; [exact Hd'|]. split; [exact U|]. split; [reflexivity|].
    intros n m Hn Et. apply Htrk in Et as [_ Et]. cbn in Et. change (zlen []) with 0 in Et. lia.
  - destruct (dshrink_ok P HP h d xs ids frees Hd) as (h' & f & -> & Hd' & U). cbn [obind].
    eexists h', _, _, _, ids, []. split; [reflexivity|]. split; [constructor; constructor|]. split; [exact Hd'|]. split; [exact U|]. split; [reflexivity|].
    eapply Hstay; try eassumption; [reflexivity|tauto|reflexivity].
  - destruct (dassign_ok P HP h d xs ys ids frees HN Hd) as (h' & d' & ids' & frees' & -> & Hd' & U & M & F).
    { intros Hne. apply Hg. rewrite Hsz. destruct xs; [congruence|rewrite zlen_cons; pose proof (zlen_nonneg xs); lia]. }
    cbn [obind]. eexists h', d', _, _, ids', frees'. split; [reflexivity|]. split; [constructor; constructor|]. split; [exact Hd'|]. split; [exact U|]. split; [reflexivity|].
    eapply Hstay; try eassumption. reflexivity.
  - destruct (dset_ok P HP h d xs ids frees (Z.to_nat n) x Hd) as (h' & E & Hd' & U); [unfold zlen in Hl; lia|].
    rewrite Z2Nat.id in E by lia. rewrite E. cbn [obind].
    eexists h', d, _, _, ids, frees. split; [reflexivity|]. split.
    { constructor. replace n with (Z.of_nat (Z.to_nat n)) at 1 by lia. constructor. unfold zlen in Hl; lia. }
    split; [exact Hd'|]. split; [exact U|]. split; [reflexivity|]. eapply Hstay; try eassumption; [reflexivity|tauto|reflexivity].
  - destruct (lookup_lt_is_Some_2 xs (Z.to_nat n)) as [x Hx]; [unfold zlen in Hl; lia|].
    pose proof (dget_ok P HP h d xs ids frees (Z.to_nat n) x Hd Hx) as E. rewrite Z2Nat.id in E by lia.
    eapply (Hsame' (VGet n)); [cbn; rewrite E; reflexivity| |reflexivity].
    replace n with (Z.of_nat (Z.to_nat n)) at 1 by lia. constructor. exact Hx.
  - destruct (Z.le_gt_cases (zlen xs) n) as [H|H].
    + eapply (Hsame' (VAt n)); [cbn; rewrite Hsz; rewrite (proj2 (Z.leb_le _ _) H); reflexivity| |reflexivity]. constructor. lia.
    + destruct (lookup_lt_is_Some_2 xs (Z.to_nat n)) as [x Hx]; [unfold zlen in *; lia|].
      pose proof (dget_ok P HP h d xs ids frees (Z.to_nat n) x Hd Hx) as E. rewrite Z2Nat.id in E by lia.
      eapply (Hsame' (VAt n)); [cbn; rewrite Hsz; rewrite (proj2 (Z.leb_gt _ _) H), E; reflexivity| |reflexivity].
      replace n with (Z.of_nat (Z.to_nat n)) at 1 by lia. constructor. exact Hx.
  - destruct xs as [|x xs' _] using rev_ind; [congruence|]. eapply (Hsame' VBack); [cbn; rewrite (dback_ok P HP h d xs' x ids frees Hd); reflexivity|constructor|reflexivity].
  - destruct xs as [|x xs']; [congruence|]. eapply (Hsame' VFront); [cbn; rewrite (dfront_ok P HP h d x xs' ids frees Hd); reflexivity|constructor|reflexivity].
  - eapply (Hsame' VSize); [cbn; rewrite Hsz; reflexivity|constructor|reflexivity].
  - eapply (Hsame' VEmpty); [cbn; rewrite Hsz; reflexivity| |reflexivity].
    replace (zlen xs =? 0) with (match xs with [] => true | _ => false end); [constructor|].
    destruct xs; [reflexivity|]. rewrite zlen_cons. pose proof (zlen_nonneg xs). destruct (Z.eqb_spec (1 + zlen xs) 0); [lia|reflexivity].
  - eapply (Hsame' VWalk); [cbn; rewrite (dwalk_ok P HP h d xs ids frees HN Hd Hg); reflexivity|constructor|reflexivity].
Qed.

(** ** Several deques *)
Definition dobj h d (a : option (list V)) bs ts : Prop :=
  match a with
  | Some xs => exists ids frees, dinv h d xs ids frees /\ bs = frees ++ ids /\ ts = dts d
  | None => d_data d = None /\ f_tab (d_fl d) = None /\ bs = [] /\ ts = [] /\ hok [] [] h
  end.

Lemma dobj_frame h h' d a bs ts :
  dobj h d a bs ts -> (forall b, b ∈ bs -> sameb b h h') -> (forall u, u ∈ ts -> tb h' !! u = tb h !! u) ->
  hok bs ts h' -> dobj h' d a bs ts.
Proof.
  destruct a as [xs|]; cbn.
  - intros (ids & frees & Hd & -> & ->) Hs Ht Hok. exists ids, frees. splits. eapply dinv_frame; eassumption.
  - intros (E1 & E2 & -> & -> & _) _ _ Hok. auto.
Qed.

Lemma dobj_hok h d a bs ts : dobj h d a bs ts -> hok bs ts h.
Proof.
  destruct a as [xs|]; cbn.
  - intros (ids & frees & Hd & -> & ->). eapply dinv_hok; eassumption.
  - intros (_ & _ & -> & -> & H). exact H.
Qed.

Definition dw_inv (w : dworld V) A G : Prop := winv dobj (dw_heap w) (dw_deqs w) A G.

(** What the caller must respect: lifetimes, and no call on a deque that was moved from (other than destroying it,
    moving from it again or assigning to it by move). *)
Definition dw_legal (A : gmap nat (option (list V))) (p : dwop V) : Prop :=
  match p with
  | DDefault o => A !! o = None
  | DSized o n _ => A !! o = None /\ 0 <= n
  | DCopy o src => A !! o = None /\ exists xs, A !! src = Some (Some xs)
  | DMove o src => A !! o = None /\ is_Some (A !! src)
  | DCopyAssign o src => (exists xs, A !! o = Some (Some xs)) /\ (exists xs, A !! src = Some (Some xs))
  | DMoveAssign o src => is_Some (A !! o) /\ is_Some (A !! src)
  | DCall o c => exists xs, A !! o = Some (Some xs) /\ dq_legal xs c
  | DDestroy o => is_Some (A !! o)
  end.

(** The defects that must be avoided: the sized constructor with 0, copying a deque that never held an element,
    end() of a full table, and those of single calls. *)
Definition dw_guard (w : dworld V) (p : dwop V) : Prop :=
  match p with
  | DSized _ n _ => n <> 0
  | DCopy _ src => forall d, dw_deqs w !! src = Some d -> d_data d <> None /\ ~ dfull P d
  | DCopyAssign o src =>
      (forall d, dw_deqs w !! src = Some d -> ~ dfull P d) /\ (forall d, dw_deqs w !! o = Some d -> d_size d <> 0 -> ~ dfull P d)
  | DCall o c => forall d, dw_deqs w !! o = Some d -> dguard d c
  | _ => True
  end.

Lemma dhusk_obj h d : hok [] [] h -> d_data d = None -> f_tab (d_fl d) = None -> dobj h d None [] [].
Proof. cbn. auto. Qed.

Lemma dobj_free h d a bs ts :
  dobj h d a bs ts -> exists h', deq_free_all P h d = Ok h' /\ upd bs ts h [] [] h'.
Proof.
  destruct a as [xs|]; cbn.
  - intros (ids & frees & Hd & -> & ->). eapply dfree_ok; eassumption.
  - intros (E & _ & -> & -> & Hok). exists h. unfold deq_free_all. rewrite E. split; [reflexivity|apply upd_refl; assumption].
Qed.

Lemma dw_step_ok w A G p :
  expo P <= 30 -> dw_inv w A G -> dw_legal A p -> dw_guard w p ->
  exists w' r A' G', dwstep P w p = Ok (w', r) /\ dw_step A p r A' /\ dw_inv w' A' G'.
Proof.
  intros HN Hw Hl Hg. pose proof (hok_nil _ (wi_new _ _ _ _ _ Hw)) as Hok.
  assert (Hhusk : exists x0 a0, dobj (dw_heap w) x0 a0 [] []).
  { exists (deq_default P), None. apply dhusk_obj; [assumption|reflexivity|reflexivity]. }
  destruct w as [h objs]. unfold dw_inv in *. cbn [dw_heap dw_deqs] in *.
  destruct p as [o|o n x|o src|o src|o src|o src|o c|o]; cbn [dw_legal dw_guard dwstep dw_heap dw_deqs] in *; unfold dget; cbn [dw_deqs].
  - eexists _, _, _, _. split; [reflexivity|]. split; [constructor|]. cbn [dw_heap dw_deqs].
    apply w_add; [exact Hw|apply (wi_dom _ _ _ _ _ Hw); exact Hl|]. cbn. exists [], []. splits. left. auto.
  - destruct Hl as [Ho Hn]. destruct (dsized_ok P HP h n x Hok ltac:(lia)) as (h' & d & ids & -> & Hd & U). cbn [obind].
    eexists _, _, _, _. split; [reflexivity|]. split; [constructor|]. cbn [dw_heap dw_deqs].
    eapply w_new; [exact dobj_frame|exact dobj_hok|exact Hw|apply (wi_dom _ _ _ _ _ Hw); exact Ho|exact U| |exact Hhusk].
    cbn. exists ids, []. auto.
  - destruct Hl as [Ho [xs Ha]]. destruct (wi_lookup _ _ _ _ _ _ _ Hw Ha) as (d & bs & ts & Ev & Eg & Hd). rewrite Ev. cbn [obind].
    destruct Hd as (ids & frees & Hd & -> & ->). destruct (Hg _ Ev) as [Hg1 Hg2].
    destruct (dcopy_ok P HP h d xs ids frees HN Hd Hg1 Hg2) as (h' & d' & ids' & frees' & -> & Hd' & U). cbn [obind].
    eexists _, _, _, _. split; [reflexivity|]. split; [constructor; eassumption|]. cbn [dw_heap dw_deqs].
    eapply w_new; [exact dobj_frame|exact dobj_hok|exact Hw|apply (wi_dom _ _ _ _ _ Hw); exact Ho|exact U| |exact Hhusk].
    cbn. eauto.
  - destruct Hl as [Ho [a Ha]]. destruct (wi_lookup _ _ _ _ _ _ _ Hw Ha) as (d & bs & ts & Ev & Eg & Hd). rewrite Ev. cbn [obind].
    assert (Hne : o <> src) by congruence.
    destruct Hhusk as (x0 & a0 & H0).
    pose proof (w_add dobj h objs A G o x0 a0 Hw (proj2 (wi_dom _ _ _ _ _ Hw o) Ho) H0) as Hw1.
    eexists _, _, _, _. split; [reflexivity|]. split; [apply dws_move; eassumption|]. cbn [dw_heap dw_deqs].
    eapply (w_transfer dobj) with (o := o) (src := src) (x' := d) (a' := a) (a0 := None) in Hw1; try assumption.
    + rewrite !insert_insert in Hw1. rewrite (insert_commute _ o src), (insert_commute A o src) by assumption. exact Hw1.
    + rewrite lookup_insert_ne by assumption. exact Eg.
    + apply lookup_insert.
    + exact Hd.
    + apply dhusk_obj; [assumption|reflexivity|reflexivity].
  - destruct Hl as [[ys Hys] [xs Hxs]]. destruct Hg as [Hg1 Hg2].
    destruct (wi_lookup _ _ _ _ _ _ _ Hw Hys) as (d & bsd & tsd & Ed & Egd & (idsd & freesd & Hd & -> & ->)). rewrite Ed. cbn [obind].
    destruct (wi_lookup _ _ _ _ _ _ _ Hw Hxs) as (s & bs & ts & Es & Eg & (ids & frees & Hs & -> & ->)). rewrite Es. cbn [obind].
    unfold deq_copy_assign. rewrite (dwalk_ok P HP h s xs ids frees HN Hs (Hg1 _ Es)). cbn [obind].
    destruct (dassign_ok P HP h d ys xs idsd freesd HN Hd) as (h' & d' & ids' & frees' & E & Hd' & U & _).
    { intros Hne. apply (Hg2 _ Ed). rewrite (dinv_size P _ _ _ _ _ Hd). destruct ys; [congruence|rewrite zlen_cons; pose proof (zlen_nonneg ys); lia]. }
    rewrite E. cbn [obind].
    eexists _, _, _, _. split; [reflexivity|]. split; [constructor; [eassumption|eauto]|]. cbn [dw_heap dw_deqs].
    eapply w_upd; [exact dobj_frame|exact dobj_hok|exact Hw|exact Egd|exact U|]. cbn. eauto.
  - destruct Hl as [[ad Had] [a Ha]].
    destruct (wi_lookup _ _ _ _ _ _ _ Hw Had) as (d & bsd & tsd & Ed & Egd & Hd). rewrite Ed. cbn [obind].
    destruct (wi_lookup _ _ _ _ _ _ _ Hw Ha) as (s & bs & ts & Es & Eg & Hs). rewrite Es. cbn [obind].
    unfold deq_move_assign. destruct (dobj_free h d ad bsd tsd Hd) as (h' & -> & U). cbn [obind].
    pose proof (upd_hok _ _ _ _ _ _ (dobj_hok _ _ _ _ _ Hd) U) as Hok'.
    assert (Hs' : dobj h' (deq_husk s) None [] []) by (apply dhusk_obj; [assumption|reflexivity|reflexivity]).
    pose proof (w_upd dobj dobj_frame dobj_hok _ _ _ _ o (deq_husk s) None _ _ _ _ h' Hw Egd U Hs') as Hw1.
    destruct (decide (o = src)) as [->|Hne].
    + eexists _, _, _, _. split; [reflexivity|]. split; [apply dws_move_assign; eassumption|]. cbn [dw_heap dw_deqs].
      rewrite !insert_insert. exact Hw1.
    + eexists _, _, _, _. split; [reflexivity|]. split; [apply dws_move_assign; eassumption|]. cbn [dw_heap dw_deqs].
      eapply (w_transfer dobj) with (o := o) (src := src) (x' := s) (a' := a) (y' := deq_husk s) (a0 := None) (bs := bs) (ts := ts) in Hw1; try assumption.
      * rewrite !insert_insert in Hw1. exact Hw1.
      * rewrite lookup_insert_ne by assumption. exact Eg.
      * apply lookup_insert.
      * eapply (wi_obj _ _ _ _ _ Hw1 src); rewrite lookup_insert_ne by assumption; assumption.
  - destruct Hl as (xs & Hxs & Hlc). destruct (wi_lookup _ _ _ _ _ _ _ Hw Hxs) as (d & bs & ts & Ev & Eg & (ids & frees & Hd & -> & ->)).
    rewrite Ev. cbn [obind].
    destruct (dstep_ok h d xs ids frees c HN Hd Hlc (Hg _ Ev)) as (h' & d' & r & xs' & ids' & frees' & -> & Hs & Hd' & U & _). cbn [obind].
    eexists _, _, _, _. split; [reflexivity|]. split; [econstructor; eassumption|]. cbn [dw_heap dw_deqs].
    eapply w_upd; [exact dobj_frame|exact dobj_hok|exact Hw|exact Eg|exact U|]. cbn. eauto.
  - destruct Hl as [a Ha]. destruct (wi_lookup _ _ _ _ _ _ _ Hw Ha) as (d & bs & ts & Ev & Eg & Hd). rewrite Ev. cbn [obind].
    destruct (dobj_free h d a bs ts Hd) as (h' & -> & U). cbn [obind].
    eexists _, _, _, _. split; [reflexivity|]. split; [constructor; eauto|]. cbn [dw_heap dw_deqs].
    eapply w_del with (x0 := deq_default P) (a0 := None); [exact dobj_frame|exact dobj_hok|exact Hw|exact Eg|exact U|].
    apply dhusk_obj; [|reflexivity|reflexivity]. eapply upd_hok; [exact (dobj_hok _ _ _ _ _ Hd)|exact U].
Qed.

(** A program every step of which respects [dw_legal] and [dw_guard] *)
Fixpoint dw_ok (w : dworld V) A (ps : list (dwop V)) : Prop :=
  match ps with
  | [] => True
  | p :: ps' => dw_legal A p /\ dw_guard w p /\
      forall w' r A', dwstep P w p = Ok (w', r) -> dw_step A p r A' -> dw_ok w' A' ps'
  end.

Lemma dw_run_ok ps : expo P <= 30 -> forall w A G, dw_inv w A G -> dw_ok w A ps ->
  exists w' tr A' G', dwrun P w ps = Ok (w', tr) /\ map fst tr = ps /\ dw_trace A tr A' /\ dw_inv w' A' G'.
Proof.
  intros HN. induction ps as [|p ps IH]; intros w A G Hw Hok; cbn [dwrun].
  - exists w, [], A, G. splits; try assumption. constructor.
  - destruct Hok as (Hl & Hg & Hn). destruct (dw_step_ok w A G p HN Hw Hl Hg) as (w1 & r & A1 & G1 & E & Hs & Hw1). rewrite E. cbn [obind].
    destruct (IH w1 A1 G1 Hw1 (Hn _ _ _ E Hs)) as (w2 & tr & A2 & G2 & -> & Ht & Htr & Hw2). cbn [obind].
    exists w2, ((p, r) :: tr), A2, G2. splits; try assumption; [cbn; congruence|econstructor; eassumption].
Qed.

End deq.
