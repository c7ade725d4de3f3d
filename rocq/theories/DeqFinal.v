(** Final forms of the StableBlockDeque results. *)
From stdpp Require Import gmap.
From Verif Require Import Base BlkHeap BlkProofs BlkMore BlkRun BlkIter BlkIterProofs BlkWorld VecModel VecSpec VecProofs VecWorld VecFinal
  DeqModel DeqSpec DeqProofs DeqMore DeqWorld.

Section deq.
Context {V : Type}.
Variable P : params.
Hypothesis HP : 0 <= expo P <= 30.
Notation B := (bsz P).
Implicit Types (h : bheap V) (d : deq) (xs : list V).

(** A start state: default constructed, or sized with at least one element. *)
Inductive dstart : bheap V -> deq -> list V -> Prop :=
| dst_default : dstart bheap0 (deq_default P) []
| dst_sized n x h d : 0 < n -> deq_sized P bheap0 n x = Ok (h, d) -> dstart h d (replicate (Z.to_nat n) x).

Lemma dstart_inv h d xs : dstart h d xs -> exists ids frees, dinv P h d xs ids frees.
Proof.
  pose proof HP as [HP1 HP2]. assert (Hok : hok [] [] (@bheap0 V)) by apply (vinv_hok P _ _ _ _ _ (proj1 (default_good P HP))).
  destruct 1 as [|n x h d Hn E].
  - exists [], []. left. auto.
  - destruct (dsized_ok P HP1 bheap0 n x Hok Hn) as (h' & d' & ids & E' & Hd & _). rewrite E in E'. injection E' as <- <-. eauto.
Qed.

Lemma dsized_start n x : 0 < n -> exists h d, deq_sized P (@bheap0 V) n x = Ok (h, d).
Proof.
  pose proof HP as [HP1 HP2]. intros Hn. assert (Hok : hok [] [] (@bheap0 V)) by apply (vinv_hok P _ _ _ _ _ (proj1 (default_good P HP))).
  destruct (dsized_ok P HP1 bheap0 n x Hok Hn) as (h' & d' & ids & E' & _). eauto.
Qed.

(** Histories that avoid the defective states *)
Fixpoint dok h d xs (ops : list (dop V)) : Prop :=
  match ops with
  | [] => True
  | o :: ops' => dq_legal xs o /\ dguard P d o /\ forall h1 d1 r, deq_step P h d o = Ok (h1, d1, r) -> dok h1 d1 (dq_next xs o) ops'
  end.

Lemma drun_ok ops : forall h d xs ids frees,
  dinv P h d xs ids frees -> dok h d xs ops ->
  exists h' d' tr ids' frees', deq_run P h d ops = Ok (h', d', tr) /\ map fst tr = ops /\ dq_trace xs tr (dq_after xs ops) /\
    dinv P h' d' (dq_after xs ops) ids' frees'.
Proof.
  destruct HP as [HP1 HP2]. induction ops as [|o ops IH]; intros h d xs ids frees Hd Hok; cbn [deq_run].
  - exists h, d, [], ids, frees. splits; [constructor|exact Hd].
  - destruct Hok as (Hl & Hg & Hok).
    destruct (dstep_ok P HP1 h d xs ids frees o HP2 Hd Hl Hg) as (h1 & d1 & r & xs1 & ids1 & frees1 & E & Hs & Hd1 & U & Ex & K).
    rewrite E. cbn [obind]. subst xs1.
    destruct (IH h1 d1 _ ids1 frees1 Hd1 (Hok _ _ _ E)) as (h2 & d2 & tr & ids2 & frees2 & -> & Em & Ht & Hd2).
    cbn [obind]. exists h2, d2, ((o, r) :: tr), ids2, frees2. splits; [cbn; congruence| |exact Hd2]. eapply dqt_cons; [exact Hs|exact Ht].
Qed.

Lemma deq_sequence h0 d0 xs0 ops :
  dstart h0 d0 xs0 -> dok h0 d0 xs0 ops ->
  exists h d tr, deq_run P h0 d0 ops = Ok (h, d, tr) /\ map fst tr = ops /\ dq_trace xs0 tr (dq_after xs0 ops).
Proof.
  intros H0 Hok. destruct (dstart_inv _ _ _ H0) as (ids & frees & Hd).
  destruct (drun_ok ops h0 d0 xs0 ids frees Hd Hok) as (h & d & tr & ids' & frees' & H1 & H2 & H3 & _). exists h, d, tr. auto.
Qed.

(** Calls that need no guard (given N >= 1 and memmove semantics for the table) *)
Definition plain (o : dop V) : Prop :=
  match o with
  | DV VWalk | DV (VAssign _) => False
  | DV VClear => triv P = true
  | _ => True
  end.

Lemma plain_guard d o : 1 <= expo P -> overlap_ok P = true -> plain o -> dguard P d o.
Proof.
  intros H1 H2. destruct o as [[]|x|]; cbn; try tauto.
  - unfold clear_guard. tauto.
  - intros _. unfold front_guard. tauto.
Qed.

Lemma plain_dok ops : 1 <= expo P -> overlap_ok P = true -> forall h d xs, dq_ok xs ops -> Forall plain ops -> dok h d xs ops.
Proof.
  intros H1 H2. induction ops as [|o ops IH]; intros h d xs Hok Hp; cbn [dok]; [exact I|]. destruct Hok as [Hl Hok].
  inversion Hp; subst. split; [exact Hl|]. split; [apply plain_guard; assumption|]. intros. apply IH; assumption.
Qed.

(** ** The guards are exact: without them the call is undefined. *)
Lemma end_full h d xs ids frees : dinv P h d xs ids frees -> dfull P d -> deq_end P h d = UB.
Proof.
  destruct HP as [HP1 HP2]. pose proof (B_pos P HP1) as HB. intros [(-> & _)|(t & Hl)] (F0 & F1 & F2); [cbn in F0; congruence|].
  rewrite (dend_pos P HP1 _ _ _ _ _ _ Hl). rewrite (dend_eq P _ _ _ _ _ _ Hl).
  replace (d_back d * B + d_bsize d) with (d_slots d * B) by (rewrite F1, <- F2; lia). rewrite Z.div_mul, Z.mod_mul by lia.
  destruct Hl as (_ & Hbk & _). destruct (bk_row _ _ _ _ _ _ _ _ _ _ Hbk) as (cs & Hcs & Hlen & _ & _).
  unfold it_new, it_ptr, tget. rewrite Hcs. pose proof (zlen_nonneg cs). destruct (Z.ltb_spec (d_slots d) 0); [lia|].
  rewrite lookup_ge_None_2 by (unfold zlen in *; lia). reflexivity.
Qed.

Lemma walk_full h d xs ids frees : dinv P h d xs ids frees -> dfull P d -> deq_walk P h d = UB.
Proof.
  destruct HP as [HP1 HP2]. intros Hd F. pose proof (end_full _ _ _ _ _ Hd F) as E. unfold deq_walk.
  destruct Hd as [(-> & _)|(t & Hl)]; [destruct F as (F & _); cbn in F; congruence|].
  destruct (decide (xs = [])) as [->|Hne].
  - unfold deq_begin. assert (d_size d = zlen (@nil V)) as -> by apply Hl. change (zlen (@nil V) =? 0) with true. cbn iota. rewrite E. reflexivity.
  - destruct (dbegin_some P HP1 _ _ _ _ _ _ Hl Hne) as (it & -> & _). cbn [obind]. rewrite E. reflexivity.
Qed.

Lemma assign_full h d xs ids frees ys : dinv P h d xs ids frees -> dfull P d -> d_size d <> 0 -> deq_assign P h d ys = UB.
Proof.
  destruct HP as [HP1 HP2]. intros Hd F Hs. pose proof (end_full _ _ _ _ _ Hd F) as E. unfold deq_assign.
  destruct (Z.eqb_spec (d_size d) 0); [contradiction|]. destruct Hd as [(-> & _)|(t & Hl)]; [destruct F as (F & _); cbn in F; congruence|].
  assert (Hne : xs <> []) by (intros ->; apply Hs; destruct Hl as (_ & _ & -> & _); reflexivity).
  destruct (dbegin_some P HP1 _ _ _ _ _ _ Hl Hne) as (it & -> & _). cbn [obind]. rewrite E. reflexivity.
Qed.

Lemma clear_bad h d xs ids frees : dinv P h d xs ids frees ->
  d_size d <> 0 -> triv P = false -> d_front d = d_back d -> d_fsize d <> -1 -> deq_clear P h d = UB.
Proof.
  destruct HP as [HP1 HP2]. pose proof (B_pos P HP1) as HB. intros [(-> & _)|(t & Hl)] H1 H2 H3 H4; [cbn in H1; congruence|].
  unfold deq_clear. destruct Hl as (Ed & Hbk & Hsz & Hi & Hn & Hfs & Hb & Hz & Hs). destruct (Z.eqb_spec (d_slots d) 0); [lia|].
  destruct (Z.eqb_spec (d_size d) 0); [contradiction|]. cbn [orb]. rewrite Ed. pose proof (zlen_nonneg xs).
  destruct ids as [|b0 [|b1 ids]]; [change (zlen []) with 0 in *; lia| |rewrite !zlen_cons in Hi; pose proof (zlen_nonneg ids); lia].
  change (zlen [b0]) with 1 in *.
  destruct (bk_kill_down P HP1 h t _ _ [b0] _ [] xs (d_fl d) frees 0 b0 (d_fsize d + 1) (Z.to_nat (zlen xs)) Hbk eq_refl) as (h1 & E1 & Hbk1 & U1);
    try lia; try (change (zlen []) with 0; lia).
  rewrite Z.add_0_r in E1. rewrite <- H3.
  replace (Z.to_nat (d_bsize d)) with (Z.to_nat (zlen xs) + Z.to_nat (d_fsize d + 1))%nat by lia.
  rewrite (kill_down_split P _ _ 0 (Z.to_nat (d_fsize d + 1)) (Z.to_nat (zlen xs)) h h1) by (replace (0 + Z.of_nat (Z.to_nat (d_fsize d + 1))) with (d_fsize d + 1) by lia; exact E1).
  replace (Z.to_nat (d_fsize d + 1)) with (S (Z.to_nat (d_fsize d))) by lia. cbn [kill_down].
  rewrite (bk_get P h1 t _ _ [b0] _ [] _ frees 0 b0 _ Hbk1) by (reflexivity || lia). cbn [obind].
  unfold ekill. rewrite slot_ok; [|eapply (ar_bl _ _ _ _ _ (bk_area _ _ _ _ _ _ _ _ _ _ Hbk1) 0%nat); reflexivity|lia]. cbn [obind].
  rewrite (ar_el _ _ _ _ _ (bk_area _ _ _ _ _ _ _ _ _ _ Hbk1) 0%nat b0 _ eq_refl). unfold sl. rewrite zl_nil.
  destruct (_ && _); rewrite H2; reflexivity.
Qed.

Lemma pushf_overlap h d xs ids frees x : dinv P h d xs ids frees ->
  overlap_ok P = false -> d_fsize d < 0 -> d_front d = 0 -> d_back d < d_slots d - 5 -> (d_slots d - d_back d) / 2 <= d_back d -> d_slots d <> 0 ->
  deq_push_front P h d x = UB.
Proof.
  intros [(-> & _)|(t & Hl)] H1 H2 H3 H4 H5 H6; [cbn in H6; congruence|].
  unfold deq_push_front, deq_check_front. rewrite (proj2 (Z.ltb_lt _ _) H2). rewrite (proj2 (Z.eqb_neq _ _) H6).
  rewrite (proj2 (Z.eqb_eq _ _) H3). rewrite (proj2 (Z.ltb_lt _ _) H4). destruct Hl as (Ed & Hbk & _). unfold tshift. rewrite Ed.
  destruct (bk_row _ _ _ _ _ _ _ _ _ _ Hbk) as (cs & Hcs & _). rewrite Hcs. rewrite H1.
  assert (0 <= (d_slots d - d_back d) / 2) by (apply Z.div_pos; lia).
  rewrite (proj2 (Z.ltb_ge ((d_slots d - d_back d) / 2) 0)) by lia. rewrite (proj2 (Z.leb_gt (0 + (d_back d + 1)) ((d_slots d - d_back d) / 2))) by lia.
  cbn [orb]. rewrite andb_false_r. reflexivity.
Qed.

Lemma pushf_tiny h x : expo P = 0 -> deq_push_front P h (deq_default P) x = @UB (bheap V * deq).
Proof.
  intros E. unfold deq_push_front, deq_check_front, deq_default, deq_first_block. cbn -[tset].
  assert (EB : B = 1) by (unfold bsz; rewrite E; reflexivity). rewrite EB. cbn -[tset].
  unfold tset. cbn [tb]. rewrite lookup_insert. change ((30 <? 0) || (zlen (replicate (Z.to_nat 64) (@None nat)) <=? 30)) with false. cbn [obind d_data d_front d_fsize].
  unfold tget. cbn [tb]. rewrite lookup_insert. change (30 <? 0) with false. cbn iota.
  rewrite list_lookup_insert by (rewrite replicate_length; lia). cbn [obind].
  unfold emake, slot. change (0 <=? 1 / 2 - 1) with false. rewrite andb_false_r. reflexivity.
Qed.

Lemma guard_exact h d xs ids frees o : dinv P h d xs ids frees -> ~ dguard P d o -> deq_step P h d o = UB.
Proof.
  destruct HP as [HP1 HP2]. intros Hd Hg. destruct o as [o|x|]; cbn [dguard deq_step] in *; [|unfold front_guard in Hg|tauto].
  - destruct o; cbn [deq_step]; try tauto.
    + unfold clear_guard in Hg. rewrite (clear_bad h d xs ids frees Hd); [reflexivity|tauto| |lia|tauto]. destruct (triv P); [tauto|reflexivity].
    + destruct (decide (d_data d <> None /\ d_bsize d = B /\ d_back d + 1 = d_slots d)) as [F|F]; [|exfalso; apply Hg; intros _; exact F].
      destruct (Z.eq_dec (d_size d) 0) as [E0|E0]; [exfalso; apply Hg; congruence|]. rewrite (assign_full h d xs ids frees _ Hd F E0). reflexivity.
    + destruct (decide (d_data d <> None /\ d_bsize d = B /\ d_back d + 1 = d_slots d)) as [F|F]; [|exfalso; apply Hg; exact F].
      rewrite (walk_full h d xs ids frees Hd F). reflexivity.
  - destruct (Z.eq_dec (d_slots d) 0) as [E0|E0].
    + destruct Hd as [(-> & Hd)|(t & Hl)]; [|destruct Hl as (_ & _ & _ & _ & _ & _ & _ & _ & Hs); lia].
      rewrite pushf_tiny; [reflexivity|]. destruct (Z.eq_dec (expo P) 0) as [E|E]; [exact E|]. exfalso. apply Hg. split; [intros _; lia|].
      right. cbn [deq_default d_fsize d_front d_back d_slots]. intros (_ & _ & F & _). lia.
    + assert (Hx : ~ (overlap_ok P = true \/ ~ (d_fsize d < 0 /\ d_front d = 0 /\ d_back d < d_slots d - 5 /\ (d_slots d - d_back d) / 2 <= d_back d))).
      { intros X. apply Hg. split; [lia|exact X]. }
      rewrite (pushf_overlap h d xs ids frees x Hd); [reflexivity|..]; try lia.
Qed.

Lemma deq_exact h0 d0 xs0 ops h d tr o :
  dstart h0 d0 xs0 -> dok h0 d0 xs0 ops -> deq_run P h0 d0 ops = Ok (h, d, tr) -> dq_legal (dq_after xs0 ops) o ->
  (deq_step P h d o = UB <-> ~ dguard P d o).
Proof.
  destruct HP as [HP1 HP2]. intros H0 Hok E Hl. destruct (dstart_inv _ _ _ H0) as (ids & frees & Hd).
  destruct (drun_ok ops h0 d0 xs0 ids frees Hd Hok) as (h' & d' & tr' & ids' & frees' & E' & _ & _ & Hd').
  rewrite E in E'. injection E' as <- <- <-. split; [|eapply guard_exact; exact Hd'].
  intros Eu Hg. destruct (dstep_ok P HP1 h d _ ids' frees' o HP2 Hd' Hl Hg) as (h1 & d1 & r & xs1 & ids1 & frees1 & E1 & _). congruence.
Qed.

(** So every history that runs at all avoided the defective states. *)
Lemma run_dok ops : forall h d xs ids frees h' d' tr,
  dinv P h d xs ids frees -> dq_ok xs ops -> deq_run P h d ops = Ok (h', d', tr) -> dok h d xs ops.
Proof.
  destruct HP as [HP1 HP2]. induction ops as [|o ops IH]; intros h d xs ids frees h' d' tr Hd Hok E; cbn [dok deq_run] in *; [exact I|].
  destruct Hok as [Hl Hok]. split; [exact Hl|].
  assert (Hdec : dguard P d o \/ ~ dguard P d o).
  { assert (Hf : dfull P d \/ ~ dfull P d).
    { destruct (decide (d_data d <> None /\ d_bsize d = B /\ d_back d + 1 = d_slots d)) as [F|F]; [left|right]; exact F. }
    destruct o as [[]|x|]; cbn; try tauto.
    - unfold clear_guard. destruct (triv P); [tauto|]. lia.
    - destruct (Z.eq_dec (d_size d) 0); tauto.
    - unfold front_guard. destruct (overlap_ok P); lia. }
  destruct Hdec as [Hg|Hg]; [|rewrite (guard_exact _ _ _ _ _ _ Hd Hg) in E; discriminate]. split; [exact Hg|].
  intros h1 d1 r E1. rewrite E1 in E. cbn [obind] in E. apply obind_ok in E as ([[h2 d2] tr2] & E2 & _).
  destruct (dstep_ok P HP1 h d xs ids frees o HP2 Hd Hl Hg) as (h1' & d1' & r' & xs1 & ids1 & frees1 & E1' & Hs & Hd1 & U & Ex & K).
  rewrite E1 in E1'. injection E1' as <- <- <-. subst xs1. eapply IH; [exact Hd1|exact Hok|exact E2].
Qed.

Lemma start_dok h0 d0 xs0 ops h d tr : dstart h0 d0 xs0 -> dq_ok xs0 ops -> deq_run P h0 d0 ops = Ok (h, d, tr) -> dok h0 d0 xs0 ops.
Proof. intros H0 Hok E. destruct (dstart_inv _ _ _ H0) as (ids & frees & Hd). eapply run_dok; eassumption. Qed.

(** A history either runs and gives the results of the list, or meets a defect. *)
Lemma deq_sequence_ran h0 d0 xs0 ops h d tr :
  dstart h0 d0 xs0 -> dq_ok xs0 ops -> deq_run P h0 d0 ops = Ok (h, d, tr) -> map fst tr = ops /\ dq_trace xs0 tr (dq_after xs0 ops).
Proof.
  intros H0 Hok E. destruct (deq_sequence _ _ _ _ H0 (start_dok _ _ _ _ _ _ _ H0 Hok E)) as (h' & d' & tr' & E' & E1 & E2).
  rewrite E in E'. injection E' as <- <- <-. auto.
Qed.

Lemma deq_exact_ran h0 d0 xs0 ops h d tr o :
  dstart h0 d0 xs0 -> dq_ok xs0 ops -> deq_run P h0 d0 ops = Ok (h, d, tr) -> dq_legal (dq_after xs0 ops) o ->
  (deq_step P h d o = UB <-> ~ dguard P d o).
Proof. intros H0 Hok E. apply deq_exact with (1 := H0) (3 := E). eapply start_dok; eassumption. Qed.

(** ** Stability *)
Lemma track_range xs n o m r xs' : dq_step xs o r xs' -> 0 <= n < zlen xs -> dq_track xs n o = Some m -> xs' = dq_next xs o -> 0 <= m < zlen xs'.
Proof.
  intros S Hn E ->. destruct o as [o|x|]; unfold dq_track in E.
  - destruct (Z.ltb_spec n (zlen (dq_next xs (DV o)))); [|discriminate]. injection E as <-. lia.
  - injection E as <-. cbn. rewrite zlen_cons. lia.
  - destruct (Z.eqb_spec n 0); [discriminate|]. injection E as <-. destruct xs; [change (zlen []) with 0 in Hn; lia|]. cbn. rewrite zlen_cons in Hn. lia.
Qed.

Lemma drun_kept ops : forall h d xs ids frees h' d' tr n m,
  dinv P h d xs ids frees -> dok h d xs ops -> deq_run P h d ops = Ok (h', d', tr) ->
  0 <= n < zlen xs -> dq_tracks xs n ops = Some m -> deq_at P h' d' m = deq_at P h d n /\ 0 <= m < zlen (dq_after xs ops).
Proof.
  destruct HP as [HP1 HP2].
  induction ops as [|o ops IH]; intros h d xs ids frees h' d' tr n m Hd Hok E Hn Ht; cbn [deq_run dq_tracks] in *.
  - injection E as <- <- <-. injection Ht as <-. split; [reflexivity|exact Hn].
  - destruct Hok as (Hl & Hg & Hok). destruct (dq_track xs n o) as [k|] eqn:Ek; [|discriminate].
    destruct (dstep_ok P HP1 h d xs ids frees o HP2 Hd Hl Hg) as (h1 & d1 & r & xs1 & ids1 & frees1 & E1 & Hs & Hd1 & U & Ex & K).
    rewrite E1 in E. cbn [obind] in E. apply obind_ok in E as ([[h2 d2] tr2] & E2 & E). injection E as <- <- <-.
    pose proof (track_range _ _ _ _ _ _ Hs Hn Ek Ex) as Hk. subst xs1.
    destruct (IH h1 d1 _ ids1 frees1 h2 d2 tr2 k m Hd1 (Hok _ _ _ E1) E2 Hk Ht) as [IH1 IH2]. split; [|exact IH2].
    rewrite IH1. apply (K n k Hn Ek).
Qed.

Lemma deq_stable h0 d0 xs0 ops1 ops2 h1 d1 tr1 h2 d2 tr2 n m :
  dstart h0 d0 xs0 -> dq_ok xs0 (ops1 ++ ops2) -> deq_run P h0 d0 ops1 = Ok (h1, d1, tr1) -> deq_run P h1 d1 ops2 = Ok (h2, d2, tr2) ->
  0 <= n < zlen (dq_after xs0 ops1) -> dq_tracks (dq_after xs0 ops1) n ops2 = Some m ->
  exists b j, deq_at P h1 d1 n = Ok (Some b, j) /\ deq_at P h2 d2 m = Ok (Some b, j).
Proof.
  pose proof HP as [HP1 HP2]. intros H0 Hok E1 E2 Hn Ht.
  assert (Hq : dq_ok xs0 ops1 /\ dq_ok (dq_after xs0 ops1) ops2).
  { clear -Hok. revert xs0 Hok. induction ops1 as [|o ops1 IH]; intros xs0 Hok; [split; [exact I|exact Hok]|].
    destruct Hok as [H1 H2]. destruct (IH _ H2) as [H3 H4]. split; [split; assumption|exact H4]. }
  destruct Hq as [Hq1 Hq2]. pose proof (start_dok _ _ _ _ _ _ _ H0 Hq1 E1) as Hok1. destruct (dstart_inv _ _ _ H0) as (ids & frees & Hd).
  destruct (drun_ok ops1 h0 d0 xs0 ids frees Hd Hok1) as (h1' & d1' & tr1' & ids1 & frees1 & E1' & _ & _ & Hd1).
  rewrite E1 in E1'. injection E1' as <- <- <-.
  pose proof (run_dok _ _ _ _ _ _ _ _ _ Hd1 Hq2 E2) as Hok2.
  destruct (drun_kept ops2 h1 d1 _ ids1 frees1 h2 d2 tr2 n m Hd1 Hok2 E2 Hn Ht) as [K _].
  destruct (dat_ok P HP1 h1 d1 _ ids1 frees1 n Hd1 Hn) as (i & b & E & _). eexists b, _. split; [exact E|congruence].
Qed.

Lemma deq_distinct h0 d0 xs0 ops h d tr n m :
  dstart h0 d0 xs0 -> dq_ok xs0 ops -> deq_run P h0 d0 ops = Ok (h, d, tr) ->
  0 <= n < zlen (dq_after xs0 ops) -> 0 <= m < zlen (dq_after xs0 ops) -> n <> m -> deq_at P h d n <> deq_at P h d m.
Proof.
  pose proof HP as [HP1 HP2]. intros H0 Hok E Hn Hm Hne. pose proof (start_dok _ _ _ _ _ _ _ H0 Hok E) as Hok'. clear Hok. rename Hok' into Hok. destruct (dstart_inv _ _ _ H0) as (ids & frees & Hd).
  destruct (drun_ok ops h0 d0 xs0 ids frees Hd Hok) as (h' & d' & tr' & ids' & frees' & E' & _ & _ & Hd').
  rewrite E in E'. injection E' as <- <- <-.
  destruct (dat_ok P HP1 h d _ ids' frees' n Hd' Hn) as (i & b & E1 & Hi & Ei & Hj & Hs).
  destruct (dat_ok P HP1 h d _ ids' frees' m Hd' Hm) as (i' & b' & E1' & Hi' & Ei' & Hj' & Hs').
  rewrite E1, E1'. intros [= -> Hmod].
  assert (Hnd : NoDup ids').
  { destruct Hd' as [(_ & _ & -> & _)|(t & _ & Hbk & _)]; [constructor|]. pose proof (bk_nd _ _ _ _ _ _ _ _ _ _ Hbk) as Hx. apply NoDup_app in Hx. tauto. }
  assert (i = i') by (eapply NoDup_lookup; eassumption). subst i'. lia.
Qed.

(** The contents at the fixed location are those of the list. *)
Lemma deq_contents h0 d0 xs0 ops h d tr n x :
  dstart h0 d0 xs0 -> dq_ok xs0 ops -> deq_run P h0 d0 ops = Ok (h, d, tr) ->
  dq_after xs0 ops !! n = Some x -> exists b j, deq_at P h d (Z.of_nat n) = Ok (Some b, j) /\ eget P h (Some b) j = Ok x /\ b ∈ bl h /\ 0 <= j < B.
Proof.
  pose proof HP as [HP1 HP2]. intros H0 Hok E Hx. pose proof (start_dok _ _ _ _ _ _ _ H0 Hok E) as Hok'. clear Hok. rename Hok' into Hok. destruct (dstart_inv _ _ _ H0) as (ids & frees & Hd).
  destruct (drun_ok ops h0 d0 xs0 ids frees Hd Hok) as (h' & d' & tr' & ids' & frees' & E' & _ & _ & Hd').
  rewrite E in E'. injection E' as <- <- <-.
  pose proof (dget_ok P HP1 h d _ ids' frees' n x Hd' Hx) as G. unfold deq_get in G. apply obind_ok in G as ([c j] & G1 & G2).
  pose proof (lookup_lt_Some _ _ _ Hx). destruct (dat_ok P HP1 h d _ ids' frees' (Z.of_nat n) Hd') as (i & b & E1 & Hi & _ & Hj & _); [unfold zlen; lia|].
  rewrite E1 in G1. injection G1 as <- <-. exists b, ((d_fsize d + 1 + Z.of_nat n) mod B). split; [exact E1|]. split; [exact G2|]. split; [|exact Hj].
  destruct Hd' as [(_ & _ & -> & _)|(t & _ & Hbk & _)]; [discriminate|]. eapply (ar_bl _ _ _ _ _ (bk_area _ _ _ _ _ _ _ _ _ _ Hbk)). exact Hi.
Qed.

(** ** at() *)
Lemma deq_at_checked h0 d0 xs0 ops h d tr n :
  dstart h0 d0 xs0 -> dq_ok xs0 ops -> deq_run P h0 d0 ops = Ok (h, d, tr) -> 0 <= n ->
  (d_size d <= n /\ deq_step P h d (DV (VAt n)) = Ok (h, d, VOutOfRange)) \/
  (n < d_size d /\ exists x, dq_after xs0 ops !! Z.to_nat n = Some x /\ deq_step P h d (DV (VAt n)) = Ok (h, d, VVal x) /\
     deq_step P h d (DV (VGet n)) = Ok (h, d, VVal x)).
Proof.
  pose proof HP as [HP1 HP2]. intros H0 Hok E Hn. pose proof (start_dok _ _ _ _ _ _ _ H0 Hok E) as Hok'. clear Hok. rename Hok' into Hok. destruct (dstart_inv _ _ _ H0) as (ids & frees & Hd).
  destruct (drun_ok ops h0 d0 xs0 ids frees Hd Hok) as (h' & d' & tr' & ids' & frees' & E' & _ & _ & Hd').
  rewrite E in E'. injection E' as <- <- <-. cbn [deq_step]. pose proof (dinv_size P _ _ _ _ _ Hd') as Hsz.
  destruct (Z.leb_spec (d_size d) n) as [Hle|Hlt]; [left; auto|right]. split; [assumption|].
  destruct (lookup_lt_is_Some_2 (dq_after xs0 ops) (Z.to_nat n)) as [x Hx]; [unfold zlen in *; lia|].
  pose proof (dget_ok P HP1 h d _ ids' frees' (Z.to_nat n) x Hd' Hx) as G. rewrite Z2Nat.id in G by lia. rewrite G. cbn [obind]. eauto.
Qed.

(** ** Iterators *)
Lemma deq_iterators h0 d0 xs0 ops h d tr :
  dstart h0 d0 xs0 -> dq_ok xs0 ops -> deq_run P h0 d0 ops = Ok (h, d, tr) -> ~ dfull P d ->
  exists first last pos, deq_begin P h d = Ok first /\ deq_end P h d = Ok last /\ iters P h (dq_after xs0 ops) first last pos /\
    (forall n, (n <= length (dq_after xs0 ops))%nat -> it_steps P h first n = Ok (pos (Z.of_nat n))) /\
    it_walk P h first last (length (dq_after xs0 ops)) = Ok (dq_after xs0 ops).
Proof.
  pose proof HP as [HP1 HP2]. intros H0 Hok E Hf. pose proof (start_dok _ _ _ _ _ _ _ H0 Hok E) as Hok'. clear Hok. rename Hok' into Hok. destruct (dstart_inv _ _ _ H0) as (ids & frees & Hd0).
  destruct (drun_ok ops h0 d0 xs0 ids frees Hd0 Hok) as (h' & d' & tr' & ids' & frees' & E' & _ & _ & Hd).
  rewrite E in E'. injection E' as <- <- <-. set (xs := dq_after xs0 ops) in *.
  pose proof (dwalk_ok P HP1 h d xs ids' frees' HP2 Hd Hf) as Hwalk. pose proof (dinv_size P _ _ _ _ _ Hd) as Hsz.
  assert (exists first last pos, deq_begin P h d = Ok first /\ deq_end P h d = Ok last /\ iters P h xs first last pos) as (first & last & pos & E1 & E2 & Hi).
  { destruct Hd as [(-> & Ex & _)|(t & Hl)].
    - rewrite Ex. eexists _, _, _. splits; [..|apply iters_empty; exact HP]; unfold deq_begin, deq_end; cbn; rewrite Z.eqb_refl; reflexivity.
    - destruct (dbegin_ok P HP1 _ _ _ _ _ _ Hl Hf) as (first & E1 & H1). destruct (dend_ok P HP1 _ _ _ _ _ _ Hl Hf) as (last & E2 & H2).
      pose proof (dlen_ids P _ _ _ _ _ _ Hl) as [Ho Hlen].
      destruct (iters_ex P HP h t (d_slots d) (d_front d) ids' (d_fsize d + 1) xs (d_fl d) frees' first last) as [pos Hpos]; try assumption; try lia; try apply Hl.
      exists first, last, pos. auto. }
  exists first, last, pos. splits; try assumption.
  - intros n Hn. rewrite <- (is_first _ _ _ _ _ _ Hi). rewrite (iters_steps P HP _ _ _ _ _ Hi n 0) by (unfold zlen; lia). reflexivity.
  - unfold deq_walk in Hwalk. rewrite E1, E2 in Hwalk. cbn [obind] in Hwalk. rewrite Hsz in Hwalk. unfold zlen in Hwalk. rewrite Nat2Z.id in Hwalk. exact Hwalk.
Qed.

Lemma deq_begin_end h0 d0 xs0 ops h d tr :
  dstart h0 d0 xs0 -> dq_ok xs0 ops -> deq_run P h0 d0 ops = Ok (h, d, tr) ->
  (dfull P d -> deq_end P h d = UB) /\ (~ dfull P d -> exists it, deq_end P h d = Ok it) /\
  (dfull P d /\ dq_after xs0 ops = [] -> deq_begin P h d = UB) /\
  (~ dfull P d \/ dq_after xs0 ops <> [] -> exists it, deq_begin P h d = Ok it).
Proof.
  pose proof HP as [HP1 HP2]. intros H0 Hok E. pose proof (start_dok _ _ _ _ _ _ _ H0 Hok E) as Hok'. clear Hok. rename Hok' into Hok. destruct (dstart_inv _ _ _ H0) as (ids & frees & Hd0).
  destruct (drun_ok ops h0 d0 xs0 ids frees Hd0 Hok) as (h' & d' & tr' & ids' & frees' & E' & _ & _ & Hd).
  rewrite E in E'. injection E' as <- <- <-. set (xs := dq_after xs0 ops) in *.
  pose proof (end_full h d xs ids' frees' Hd) as Hfull. pose proof (dinv_size P _ _ _ _ _ Hd) as Hsz.
  split; [exact Hfull|]. destruct Hd as [(-> & Ex & _)|(t & Hl)].
  - assert (Hnf : ~ dfull P (deq_default P)) by (intros (A & _); cbn in A; congruence).
    splits; try tauto; unfold deq_begin, deq_end; cbn; rewrite ?Z.eqb_refl; eauto.
  - splits.
    + intros F. destruct (dend_ok P HP1 _ _ _ _ _ _ Hl F) as (it & E1 & _). eauto.
    + intros [F Ex]. unfold deq_begin. rewrite Hsz, Ex. change (zlen (@nil V) =? 0) with true. auto.
    + intros [F|F]; [destruct (dbegin_ok P HP1 _ _ _ _ _ _ Hl F) as (it & E1 & _)|destruct (dbegin_some P HP1 _ _ _ _ _ _ Hl F) as (it & E1 & _)]; eauto.
Qed.

(** ** Front growth *)
Lemma deq_front_growth h0 d0 xs0 ops h d tr x :
  dstart h0 d0 xs0 -> dq_ok xs0 ops -> deq_run P h0 d0 ops = Ok (h, d, tr) -> d_fsize d < 0 -> d_slots d <> 0 -> d_front d = 0 ->
  (overlap_ok P = true \/ ~ (d_back d < d_slots d - 5 /\ (d_slots d - d_back d) / 2 <= d_back d)) ->
  exists h' d', deq_push_front P h d x = Ok (h', d') /\ 
    (forall n, 0 <= n < zlen (dq_after xs0 ops) -> deq_at P h' d' (n + 1) = deq_at P h d n) /\
    (forall n y, (x :: dq_after xs0 ops) !! n = Some y -> deq_get P h' d' (Z.of_nat n) = Ok y).
Proof.
  pose proof HP as [HP1 HP2]. intros H0 Hok E F1 F2 F3 F4. pose proof (start_dok _ _ _ _ _ _ _ H0 Hok E) as Hok'. clear Hok. rename Hok' into Hok. destruct (dstart_inv _ _ _ H0) as (ids & frees & Hd0).
  destruct (drun_ok ops h0 d0 xs0 ids frees Hd0 Hok) as (h' & d' & tr' & ids' & frees' & E' & _ & _ & Hd).
  rewrite E in E'. injection E' as <- <- <-.
  destruct (dstep_ok P HP1 h d _ ids' frees' (DPushF x) HP2 Hd I) as (h1 & d1 & r & xs1 & ids1 & frees1 & E1 & Hs & Hd1 & U & Ex & K).
  { cbn. unfold front_guard. split; [congruence|]. destruct F4 as [F4|F4]; [left; exact F4|right]. tauto. }
  cbn [deq_step] in E1. apply obind_ok in E1 as ([h2 d2] & E1 & E2). injection E2 as <- <- <-. exists h2, d2. splits; [exact E1| |].
  - intros n Hn. apply (K n (n + 1) Hn). reflexivity.
  - intros n y Hy. rewrite Ex in Hd1. eapply dget_ok; [exact HP1|exact Hd1|exact Hy].
Qed.

(** ** Lifetimes over several deques *)
Lemma deq_world ps :
  dw_ok P dworld0 ∅ ps ->
  exists w tr A, dwrun P (@dworld0 V) ps = Ok (w, tr) /\ map fst tr = ps /\ dw_trace ∅ tr A /\
    (forall o, dw_deqs w !! o = None <-> A !! o = None) /\
    (dw_deqs w = ∅ -> el (dw_heap w) = ∅ /\ bl (dw_heap w) = ∅ /\ tb (dw_heap w) = ∅).
Proof.
  destruct HP as [HP1 HP2]. intros Hok.
  destruct (dw_run_ok P HP1 ps HP2 dworld0 ∅ ∅ (w_init _) Hok) as (w & tr & A & G & E & Ht & Htr & Hw).
  exists w, tr, A. splits; try assumption; [apply (wi_dom _ _ _ _ _ Hw)|].
  intros He. destruct w as [h objs]. cbn in *. subst objs. eapply w_empty. exact Hw.
Qed.

End deq.
