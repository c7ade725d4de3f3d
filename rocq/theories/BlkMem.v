(** How much memory the block containers hold: blocks and tables, against the largest size the container has had. *)
From stdpp Require Import gmap.
From Verif Require Import Base BlkHeap BlkIter BlkProofs BlkMore BlkRun VecModel VecSpec VecProofs VecWorld VecFinal DeqModel DeqSpec DeqProofs DeqMore DeqWorld DeqFinal.

(** ** The spare blocks, of [N] blocks at most *)
Section spare.
Context {V : Type}.
Implicit Types (h : bheap V) (f : flist).
Variable N : Z.
Ltac fl := cbn [f_slots f_idx f_tab] in *.
Definition flfit (f : flist) : Prop := 0 <= f_idx f <= f_slots f /\ f_slots f <= Z.max 64 (2 * N).
Lemma fl_put_fit h f c h' f' : fl_put h f c = Ok (h', f') -> flfit f -> f_idx f <= N -> flfit f' /\ f_idx f' = f_idx f + 1.
Proof.
  unfold fl_put. intros ([h1 f1] & E1 & E)%obind_ok. apply obind_ok in E as (h4 & E4 & [= <- <-]). intros [Hi Hs] Hle. cbn [f_idx f_slots]. unfold flfit; cbn [f_idx f_slots].
  destruct (Z.leb_spec (f_slots f) (f_idx f)).
  - destruct (Z.eqb_spec (f_slots f) 0); cbn [talloc] in E1.
    + injection E1 as <- <-. fl. lia.
    + apply obind_ok in E1 as (h2 & _ & E1). apply obind_ok in E1 as (h3 & _ & [= <- <-]). fl. lia.
  - injection E1 as <- <-. lia.
Qed.
Lemma fl_get_fit h f h' f' c : fl_get h f = Ok (h', f', c) -> flfit f ->
  flfit f' /\ ((f_idx f = 0 /\ f_idx f' = 0) \/ f_idx f' = f_idx f - 1).
Proof.
  unfold fl_get, flfit. destruct (Z.eqb_spec (f_idx f) 0).
  - cbn. intros [= <- <- <-] H. lia.
  - intros (x & _ & [= <- <- <-])%obind_ok [Hi Hs]. fl. lia.
Qed.

Lemma fl_shrink_fit h f h' f' : fl_shrink h f = Ok (h', f') -> flfit f -> flfit f' /\ f_idx f' = 0.
Proof. unfold fl_shrink, flfit. intros (h1 & _ & [= <- <-])%obind_ok H. fl. lia. Qed.
End spare.

Section only.
Context {V : Type}.
Implicit Types (h : bheap V) (bs ts : list nat).
(** ** What is allocated *)
Definition only h bs ts : Prop := (forall b, b ∈ bl h -> b ∈ bs) /\ (forall t, is_Some (tb h !! t) -> t ∈ ts).

Lemma only_upd h h' bs ts bs' ts' : only h bs ts -> upd bs ts h bs' ts' h' -> only h' bs' ts'.
Proof.
  intros [Hb Ht] U. split.
  - intros b Hin. destruct (decide (b ∈ bs')) as [|Hn]; [assumption|]. exfalso.
    destruct (decide (b ∈ bs \/ (nx h <= b)%nat)) as [Hc|Hc]; [destruct (u_babs _ _ _ _ _ _ U b Hc Hn); contradiction|].
    destruct (u_bsame _ _ _ _ _ _ U b) as [Hs _]; [tauto|lia|]. apply Hs in Hin. apply Hb in Hin. tauto.
  - intros t Hin. destruct (decide (t ∈ ts')) as [|Hn]; [assumption|]. exfalso.
    destruct (decide (t ∈ ts \/ (nx h <= t)%nat)) as [Hc|Hc]; [rewrite (u_tabs _ _ _ _ _ _ U t Hc Hn) in Hin; destruct Hin; discriminate|].
    rewrite (u_tsame _ _ _ _ _ _ U t) in Hin; [|tauto|lia]. apply Ht in Hin. tauto.
Qed.

Lemma only_count h bs ts : only h bs ts -> NoDup bs -> NoDup ts -> Z.of_nat (size (bl h)) <= zlen bs /\ (size (tb h) <= length ts)%nat.
Proof.
  intros [Hb Ht] Nb Nt. split.
  - unfold zlen. apply inj_le. rewrite <- (size_list_to_set (C := gset nat) bs Nb). apply subseteq_size. intros b. rewrite elem_of_list_to_set. apply Hb.
  - rewrite <- (size_dom (D := gset nat)), <- (size_list_to_set (C := gset nat) ts Nt). apply subseteq_size. intros t. rewrite elem_of_dom, elem_of_list_to_set. apply Ht.
Qed.

End only.

Section mem.
Context {V : Type}.
Variable P : params.
Hypothesis HP : 0 <= expo P <= 30.
Notation B := (bsz P).
Implicit Types (h : bheap V) (v : vec) (d : deq) (ids frees bs ts : list nat) (xs : list V).

Lemma BP : 0 < B.
Proof. apply bsz_pos. lia. Qed.

Ltac fl := cbn [v_size v_data v_slots v_idx v_bsize v_fl d_size d_data d_slots d_back d_front d_bsize d_fsize d_fl f_slots f_idx f_tab] in *.

(** ** The counters of the vector *)
Variables p N : Z.
Hypothesis HN : forall k, 0 <= k -> k * B <= p -> k + 1 <= N.

Definition vfit v : Prop :=
  flfit N (v_fl v) /\ v_size v <= p /\
  ((v_slots v = 0 /\ v_bsize v = B /\ v_size v = 0 /\ f_idx (v_fl v) = 0) \/
   (64 <= v_slots v <= Z.max 64 (2 * N) /\ 0 <= v_idx v /\ 0 <= v_bsize v <= B /\ v_size v = v_idx v * B + v_bsize v /\ v_idx v + 1 + f_idx (v_fl v) <= N)).

Lemma vcheck_fit h v h' v' : vec_block_check P h v = Ok (h', v') -> vfit v -> v_size v + 1 <= p ->
  vfit v' /\ v_size v' = v_size v /\ v_bsize v' < B /\ v_slots v' <> 0.
Proof.
  pose proof BP as HB. unfold vec_block_check. intros E (Hf & Hs & Hc) Hp. destruct (Z.leb_spec B (v_bsize v)) as [Hb|Hb].
  2:{ injection E as <- <-. unfold vfit. splits; try assumption; try lia. }
  apply obind_ok in E as ([h1 v1] & E1 & E). apply obind_ok in E as ([[h4 f] c] & Eg & E). apply obind_ok in E as (h5 & _ & [= <- <-]).
  assert (H1 : v_fl v1 = v_fl v /\ v_size v1 = v_size v /\ 64 <= v_slots v1 <= Z.max 64 (2 * N) /\ 0 <= v_idx v1 + 1 /\ v_size v = (v_idx v1 + 1) * B /\ (f_idx (v_fl v) = 0 \/ v_idx v1 + 1 + f_idx (v_fl v) <= N)).
  { destruct (Z.eqb_spec (v_slots v) 0) as [Hz|Hz].
    - cbn in E1. injection E1 as <- <-. fl. destruct Hc as [Hc|Hc]; splits; lia.
    - destruct Hc as [Hc|Hc]; [lia|]. assert (v_bsize v = B) as Hbb by lia. destruct (Z.leb_spec (v_slots v - 1) (v_idx v)).
      + cbn in E1. apply obind_ok in E1 as (h2 & _ & E1). apply obind_ok in E1 as (h3 & _ & [= <- <-]). fl. assert (0 <= f_idx (v_fl v)) by apply Hf. splits; try lia; nia.
      + injection E1 as <- <-. splits; try lia; nia. }
  destruct H1 as (Ef & Es & Hsl & Hi & Hsz & Hn). rewrite Ef in Eg. destruct (fl_get_fit N _ _ _ _ _ Eg Hf) as [Hf' Hg]. unfold vfit; cbn.
  splits; try assumption; try lia. right. splits; try lia.
  specialize (HN (v_idx v1 + 1) ltac:(lia) ltac:(lia)). lia.
Qed.
Lemma vpush_fit h v x h' v' : vec_push P h v x = Ok (h', v') -> vfit v -> v_size v + 1 <= p -> vfit v' /\ v_size v' = v_size v + 1.
Proof.
  unfold vec_push. intros ([h1 v1] & E1 & E)%obind_ok Hv Hp. apply obind_ok in E as (c & _ & E). apply obind_ok in E as (h2 & _ & [= <- <-]).
  destruct (vcheck_fit _ _ _ _ E1 Hv Hp) as ((Hf & Hs & Hc) & Es & Hb & Hz). fl. split; [|lia]. unfold vfit; fl. splits; try assumption; try lia.
Qed.
Lemma vpop_fit h v h' v' : vec_pop P h v = Ok (h', v') -> vfit v -> vfit v' /\ (v_size v <> 0 -> v_size v' = v_size v - 1).
Proof.
  pose proof BP as HB. unfold vec_pop. destruct (Z.eqb_spec (v_size v) 0); [intros [= <- <-]; tauto|]. intros ([h1 v1] & E1 & E)%obind_ok (Hf & Hs & Hc).
  apply obind_ok in E as (c & _ & E). apply obind_ok in E as (h2 & _ & [= <- <-]). destruct Hc as [Hc|Hc]; [lia|].
  destruct (Z.ltb_spec 0 (v_bsize v)).
  - injection E1 as <- <-. unfold vfit; fl. splits; try assumption; try lia.
  - apply obind_ok in E1 as (c1 & _ & E1). apply obind_ok in E1 as ([h3 f] & Ef & [= <- <-]).
    destruct (fl_put_fit N _ _ _ _ _ Ef Hf) as [Hf' Ei]; [lia|]. unfold vfit; fl. splits; try assumption; try lia.
Qed.
Lemma vpops_fit k : forall h v h' v', vec_pops P h v k = Ok (h', v') -> vfit v -> vfit v'.
Proof.
  induction k as [|k IH]; intros h v h' v' E Hv; cbn in E; [injection E as <- <-; exact Hv|]. apply obind_ok in E as ([h1 v1] & E1 & E). eapply IH; [exact E|]. eapply vpop_fit; eauto.
Qed.
Lemma vpushes_fit xs : forall h v h' v', vec_pushes P h v xs = Ok (h', v') -> vfit v -> v_size v + zlen xs <= p -> vfit v'.
Proof.
  induction xs as [|x xs IH]; intros h v h' v' E Hv Hp; cbn in E; [injection E as <- <-; exact Hv|]. apply obind_ok in E as ([h1 v1] & E1 & E). rewrite zlen_cons in Hp. pose proof (zlen_nonneg xs).
  destruct (vpush_fit _ _ _ _ _ E1 Hv) as [H1 Hs]; [lia|]. eapply IH; [exact E|exact H1|lia].
Qed.
Lemma vassign_fit xs : forall h v i h' v', vec_assign P h v i xs = Ok (h', v') -> vfit v -> i <= v_size v -> i + zlen xs <= p -> vfit v'.
Proof.
  induction xs as [|x xs IH]; intros h v i h' v' E Hv Hi Hp; cbn [vec_assign] in E; [eapply vpops_fit; eauto|]. destruct (Z.ltb_spec i (v_size v)).
  - apply obind_ok in E as (h1 & _ & E). eapply IH; [exact E|exact Hv|lia|]. rewrite zlen_cons in Hp. lia.
  - eapply vpushes_fit; [exact E|exact Hv|]. lia.
Qed.
Lemma vclear_mid_fit k : forall h v h' f', vec_clear_mid P h v k = Ok (h', f') -> flfit N (v_fl v) -> f_idx (v_fl v) + Z.of_nat k <= N -> flfit N f' /\ f_idx f' = f_idx (v_fl v) + Z.of_nat k.
Proof.
  induction k as [|k IH]; intros h v h' f' E Hf Hk; cbn [vec_clear_mid] in E; [injection E as <- <-; split; [exact Hf|lia]|].
  apply obind_ok in E as (h1 & _ & E). apply obind_ok in E as (c & _ & E). apply obind_ok in E as ([h2 f] & Ef & E). destruct (fl_put_fit N _ _ _ _ _ Ef Hf) as [Hf' Ei]; [lia|].
  destruct (IH _ _ _ _ E) as [H1 H2]; cbn [v_fl] in *; [exact Hf'|lia|]. split; [exact H1|lia].
Qed.
Lemma vclear_fit h v h' v' : vec_clear P h v = Ok (h', v') -> vfit v -> vfit v'.
Proof.
  pose proof BP as HB. unfold vec_clear. intros E Hv. destruct (Z.leb_spec (v_slots v) 0); [injection E as <- <-; exact Hv|]. destruct Hv as (Hf & Hs & [Hc|Hc]); [lia|].
  apply obind_ok in E as (h1 & _ & E). destruct (Z.ltb_spec 0 (v_idx v)).
  - apply obind_ok in E as (c & _ & E). apply obind_ok in E as ([h2 f] & Ef & E). apply obind_ok in E as ([h3 f3] & Em & E). apply obind_ok in E as (h4 & _ & [= <- <-]).
    destruct (fl_put_fit N _ _ _ _ _ Ef Hf) as [Hf' Ei]; [lia|]. destruct (vclear_mid_fit _ _ _ _ _ Em) as [H1 H2]; cbn [v_fl] in *; [exact Hf'|lia|].
    unfold vfit; fl. splits; try assumption; try lia; try nia.
  - injection E as <- <-. unfold vfit; fl. splits; try assumption; try lia; try nia.
Qed.

Lemma vstep_fit h v o h' v' r : vec_step P h v o = Ok (h', v', r) -> vfit v -> 0 <= v_size v -> match o with VPush _ => v_size v + 1 <= p | VAssign ys => zlen ys <= p | _ => True end -> vfit v'.
Proof.
  intros E Hv H0 Hp. destruct o as [x| | | |ys|n x|n|n| | | | |]; cbn [vec_step] in E.
  - apply obind_ok in E as ([h1 v1] & E & [= <- <- <-]).
    eapply vpush_fit; [exact E|exact Hv|lia].
  - apply obind_ok in E as ([h1 v1] & E & [= <- <- <-]). eapply vpop_fit; eauto.
  - apply obind_ok in E as ([h1 v1] & E & [= <- <- <-]). eapply vclear_fit; eauto.
  - apply obind_ok in E as ([h1 f] & E & [= <- <- <-]). destruct Hv as (Hf & Hs & Hc). destruct (fl_shrink_fit N _ _ _ _ E Hf) as [Hf' Hi]. unfold vfit; fl. splits; try assumption.
    destruct Hc as [Hc|Hc]; [left; lia|right]. assert (0 <= f_idx (v_fl v)) by apply Hf. splits; try lia; tauto.
  - apply obind_ok in E as ([h1 v1] & E & [= <- <- <-]). eapply vassign_fit; [exact E|exact Hv|lia|lia].
  - apply obind_ok in E as (h1 & _ & [= <- <- <-]). exact Hv.
  - apply obind_ok in E as (y & _ & [= <- <- <-]). exact Hv.
  - destruct (_ <=? _); [injection E as <- <- <-; exact Hv|]. apply obind_ok in E as (y & _ & [= <- <- <-]). exact Hv.
  - apply obind_ok in E as (y & _ & [= <- <- <-]). exact Hv.
  - apply obind_ok in E as (y & _ & [= <- <- <-]). exact Hv.
  - injection E as <- <- <-. exact Hv.
  - injection E as <- <- <-. exact Hv.
  - apply obind_ok in E as (y & _ & [= <- <- <-]). exact Hv.
Qed.
End mem.

(** ** The counters of the deque *)
Section deq.
Context {V : Type}.
Variable P : params.
Hypothesis HP : 0 <= expo P <= 30.
Notation B := (bsz P).
Implicit Types (h : bheap V) (d : deq) (xs : list V).
Variables p N : Z.
Hypothesis HN : forall k, 0 <= k -> k * B <= p -> k + 2 <= N.

Ltac fl := cbn [d_size d_data d_slots d_back d_front d_bsize d_fsize d_fl f_slots f_idx f_tab] in *.
Ltac fin := splits; try assumption; try lia.

Definition dfit d : Prop :=
  flfit N (d_fl d) /\ 0 <= d_size d <= p /\
  ((d_slots d = 0 /\ d_bsize d = B /\ d_fsize d = -1 /\ d_size d = 0 /\ f_idx (d_fl d) = 0) \/
   (64 <= d_slots d <= Z.max 64 (2 * (N + 5)) /\ d_front d <= d_back d /\ 0 <= d_bsize d <= B /\ -1 <= d_fsize d < B /\
    d_size d = (d_back d - d_front d) * B + d_bsize d - d_fsize d - 1 /\ d_back d - d_front d + 1 + f_idx (d_fl d) <= N)).

Lemma half : 0 <= B / 2 /\ B / 2 < B.
Proof. pose proof (BP P HP). split; [apply Z.div_pos; lia|apply Z.div_lt; lia]. Qed.

Lemma dfirst_fit h d h' d' : deq_first_block P h d = Ok (h', d') -> dfit d -> d_slots d = 0 -> d_size d + 1 <= p ->
  dfit d' /\ d_size d' = d_size d /\ d_bsize d' < B /\ d_slots d' <> 0.
Proof.
  pose proof (BP P HP) as HB. pose proof half as Hh. unfold deq_first_block. cbn [talloc]. intros ([[h2 f] c] & Eg & E)%obind_ok (Hf & Hs & [Hc|Hc]) Hz Hp; [|lia].
  apply obind_ok in E as (h3 & _ & [= <- <-]). destruct (fl_get_fit N _ _ _ _ _ Eg Hf) as [Hf' Hg]. fl. pose proof (HN 0 ltac:(lia) ltac:(lia)).
  assert (f_idx f = 0) by (destruct Hf'; lia). unfold dfit; fl. fin.
Qed.

Lemma dcheck_fit h d h' d' : deq_check P h d = Ok (h', d') -> dfit d -> d_size d + 1 <= p -> dfit d' /\ d_size d' = d_size d /\ d_bsize d' < B /\ d_slots d' <> 0.
Proof.
  pose proof (BP P HP) as HB. unfold deq_check. intros E Hd Hp. destruct (Z.leb_spec B (d_bsize d)) as [Hb|Hb].
  2:{ injection E as <- <-. fin. destruct Hd as (_ & _ & [Hc|Hc]); lia. }
  destruct (Z.eqb_spec (d_slots d) 0) as [Hz|Hz]; [eapply dfirst_fit; eauto|]. destruct Hd as (Hf & Hs & [Hc|Hc]); [lia|]. assert (Hfi : 0 <= f_idx (d_fl d)) by apply Hf.
  apply obind_ok in E as ([h1 d1] & E1 & E). apply obind_ok in E as ([[h4 f] c] & Eg & E). apply obind_ok in E as (h5 & _ & [= <- <-]).
  assert (H1 : d_fl d1 = d_fl d /\ d_size d1 = d_size d /\ 64 <= d_slots d1 <= Z.max 64 (2 * (N + 5)) /\ d_back d1 - d_front d1 = d_back d - d_front d /\ d_fsize d1 = d_fsize d).
  { destruct (Z.leb_spec (d_slots d - 1) (d_back d)); [|injection E1 as <- <-; fin]. destruct (Z.ltb_spec 5 (d_front d)).
    - apply obind_ok in E1 as (h2 & _ & [= <- <-]). fl. fin.
    - cbn [talloc] in E1. apply obind_ok in E1 as (h2 & _ & E1). apply obind_ok in E1 as (h3 & _ & [= <- <-]). fl. fin. }
  destruct H1 as (Ef & Es & Hsl & Hu & Hfs). rewrite Ef in Eg. destruct (fl_get_fit N _ _ _ _ _ Eg Hf) as [Hf' Hg]. unfold dfit; fl. fin. right. fin.
  specialize (HN (d_back d - d_front d) ltac:(lia) ltac:(lia)). lia.
Qed.
Lemma dcheckf_fit h d h' d' : deq_check_front P h d = Ok (h', d') -> dfit d -> d_size d + 1 <= p -> dfit d' /\ d_size d' = d_size d /\ (d_slots d' <> 0 -> 0 <= d_fsize d' \/ B = 1) /\ d_slots d' <> 0.
Proof.
  pose proof (BP P HP) as HB. unfold deq_check_front. intros E Hd Hp. destruct (Z.ltb_spec (d_fsize d) 0) as [Hb|Hb].
  2:{ injection E as <- <-. fin. destruct Hd as (_ & _ & [Hc|Hc]); lia. }
  destruct (Z.eqb_spec (d_slots d) 0) as [Hz|Hz].
  { destruct (dfirst_fit _ _ _ _ E Hd Hz Hp) as (H1 & H2 & H3 & H4). fin. intros _. revert E. unfold deq_first_block. cbn [talloc]. intros ([[h2 f] c] & Eg & E)%obind_ok.
    apply obind_ok in E as (h3 & _ & [= <- <-]). fl. destruct (decide (B = 1)); [auto|]. assert (1 <= B / 2) by (apply Z.div_le_lower_bound; lia). lia. }
  destruct Hd as (Hf & Hs & [Hc|Hc]); [lia|]. assert (Hfi : 0 <= f_idx (d_fl d)) by apply Hf.
  apply obind_ok in E as ([h1 d1] & E1 & E). apply obind_ok in E as ([[h4 f] c] & Eg & E). apply obind_ok in E as (h5 & _ & [= <- <-]).
  assert (H1 : d_fl d1 = d_fl d /\ d_size d1 = d_size d /\ 64 <= d_slots d1 <= Z.max 64 (2 * (N + 5)) /\ d_back d1 - d_front d1 = d_back d - d_front d /\ d_bsize d1 = d_bsize d).
  { destruct (Z.eqb_spec (d_front d) 0); [|injection E1 as <- <-; fin]. destruct (Z.ltb_spec (d_back d) (d_slots d - 5)).
    - apply obind_ok in E1 as (h2 & _ & [= <- <-]). fl. fin.
    - cbn [talloc] in E1. apply obind_ok in E1 as (h2 & _ & E1). apply obind_ok in E1 as (h3 & _ & [= <- <-]). fl. fin. }
  destruct H1 as (Ef & Es & Hsl & Hu & Hfs). rewrite Ef in Eg. destruct (fl_get_fit N _ _ _ _ _ Eg Hf) as [Hf' Hg]. unfold dfit; fl. fin. right. fin.
  specialize (HN (d_back d - d_front d) ltac:(lia) ltac:(lia)). lia.
Qed.

Lemma dcheck_size h d h' d' : deq_check P h d = Ok (h', d') -> d_size d' = d_size d.
Proof.
  unfold deq_check. destruct (_ <=? _); [|intros [= <- <-]; reflexivity]. destruct (_ =? _).
  - unfold deq_first_block. cbn [talloc]. intros ([[h2 f] c] & _ & E)%obind_ok. apply obind_ok in E as (h3 & _ & [= <- <-]). reflexivity.
  - intros ([h1 d1] & E1 & E)%obind_ok. apply obind_ok in E as ([[h4 f] c] & _ & E). apply obind_ok in E as (h5 & _ & [= <- <-]). fl.
    destruct (_ <=? _); [|injection E1 as <- <-; reflexivity]. destruct (_ <? _).
    + apply obind_ok in E1 as (h2 & _ & [= <- <-]). reflexivity.
    + cbn [talloc] in E1. apply obind_ok in E1 as (h2 & _ & E1). apply obind_ok in E1 as (h3 & _ & [= <- <-]). reflexivity.
Qed.
Lemma dcheckf_size h d h' d' : deq_check_front P h d = Ok (h', d') -> d_size d' = d_size d.
Proof.
  unfold deq_check_front. destruct (_ <? _); [|intros [= <- <-]; reflexivity]. destruct (_ =? _).
  - unfold deq_first_block. cbn [talloc]. intros ([[h2 f] c] & _ & E)%obind_ok. apply obind_ok in E as (h3 & _ & [= <- <-]). reflexivity.
  - intros ([h1 d1] & E1 & E)%obind_ok. apply obind_ok in E as ([[h4 f] c] & _ & E). apply obind_ok in E as (h5 & _ & [= <- <-]). fl.
    destruct (_ =? _); [|injection E1 as <- <-; reflexivity]. destruct (_ <? _).
    + apply obind_ok in E1 as (h2 & _ & [= <- <-]). reflexivity.
    + cbn [talloc] in E1. apply obind_ok in E1 as (h2 & _ & E1). apply obind_ok in E1 as (h3 & _ & [= <- <-]). reflexivity.
Qed.

Lemma dpush_size h d x h' d' : deq_push P h d x = Ok (h', d') -> d_size d' = d_size d + 1.
Proof. unfold deq_push. intros ([h1 d1] & E1 & E)%obind_ok. apply obind_ok in E as (c & _ & E). apply obind_ok in E as (h2 & _ & [= <- <-]). fl. rewrite (dcheck_size _ _ _ _ E1). reflexivity. Qed.
Lemma dpush_fit h d x h' d' : deq_push P h d x = Ok (h', d') -> dfit d -> d_size d' <= p -> dfit d'.
Proof.
  intros E Hd Hp. rewrite (dpush_size _ _ _ _ _ E) in Hp. revert E. unfold deq_push. intros ([h1 d1] & E1 & E)%obind_ok. apply obind_ok in E as (c & _ & E). apply obind_ok in E as (h2 & _ & [= <- <-]).
  destruct (dcheck_fit _ _ _ _ E1 Hd Hp) as ((Hf & Hs & Hc) & Es & Hb & Hz). unfold dfit; fl. fin.
Qed.
Lemma dpushf_fit h d x h' d' : deq_push_front P h d x = Ok (h', d') -> dfit d -> d_size d' <= p -> dfit d'.
Proof.
  intros E Hd Hp. revert E. unfold deq_push_front. intros ([h1 d1] & E1 & E)%obind_ok. apply obind_ok in E as (c & _ & E). apply obind_ok in E as (h2 & Em & [= <- <-]). fl.
  rewrite (dcheckf_size _ _ _ _ E1) in Hp. destruct (dcheckf_fit _ _ _ _ E1 Hd Hp) as ((Hf & Hs & Hc) & Es & Hb & Hz). unfold dfit; fl. 
  assert (0 <= d_fsize d1). { unfold emake in Em. apply obind_ok in Em as (b & Eb & _). unfold slot in Eb. destruct c; [|discriminate]. destruct (Z.leb_spec 0 (d_fsize d1)); [assumption|]. rewrite andb_false_r in Eb. discriminate. }
  fin.
Qed.
Lemma dpop_fit h d h' d' : deq_pop P h d = Ok (h', d') -> dfit d -> dfit d'.
Proof.
  pose proof (BP P HP) as HB. unfold deq_pop. destruct (Z.eqb_spec (d_size d) 0); [intros [= <- <-]; tauto|]. intros ([h1 d1] & E1 & E)%obind_ok (Hf & Hs & Hc).
  apply obind_ok in E as (c & _ & E). apply obind_ok in E as (h2 & _ & [= <- <-]). destruct Hc as [Hc|Hc]; [lia|]. assert (Hfi : 0 <= f_idx (d_fl d)) by apply Hf.
  destruct (Z.ltb_spec 0 (d_bsize d)).
  - injection E1 as <- <-. unfold dfit; fl. fin.
  - apply obind_ok in E1 as (c1 & _ & E1). apply obind_ok in E1 as ([h3 f] & Ef & [= <- <-]).
    destruct (fl_put_fit N _ _ _ _ _ Ef Hf) as [Hf' Ei]; [lia|]. unfold dfit; fl. fin. right. fin. assert (0 < d_back d - d_front d) by nia. lia.
Qed.
Lemma dpopf_fit h d h' d' : deq_pop_front P h d = Ok (h', d') -> dfit d -> dfit d'.
Proof.
  pose proof (BP P HP) as HB. unfold deq_pop_front. destruct (Z.eqb_spec (d_size d) 0); [intros [= <- <-]; tauto|]. intros ([h1 d1] & E1 & E)%obind_ok (Hf & Hs & Hc).
  apply obind_ok in E as (c & _ & E). apply obind_ok in E as (h2 & _ & [= <- <-]). destruct Hc as [Hc|Hc]; [lia|]. assert (Hfi : 0 <= f_idx (d_fl d)) by apply Hf.
  destruct (Z.eqb_spec (d_fsize d) (B - 1)); cbn [negb] in E1.
  - apply obind_ok in E1 as (c1 & _ & E1). apply obind_ok in E1 as ([h3 f] & Ef & [= <- <-]).
    destruct (fl_put_fit N _ _ _ _ _ Ef Hf) as [Hf' Ei]; [lia|]. unfold dfit; fl. fin. right. fin. assert (0 < d_back d - d_front d) by nia. lia.
  - injection E1 as <- <-. unfold dfit; fl. fin.
Qed.
Lemma dpops_fit k : forall h d h' d', deq_pops P h d k = Ok (h', d') -> dfit d -> dfit d'.
Proof.
  induction k as [|k IH]; intros h d h' d' E Hd; cbn in E; [injection E as <- <-; exact Hd|]. apply obind_ok in E as ([h1 d1] & E1 & E). eapply IH; [exact E|]. eapply dpop_fit; eauto.
Qed.
Lemma dpushes_size xs : forall h d h' d', deq_pushes P h d xs = Ok (h', d') -> d_size d' = d_size d + zlen xs.
Proof.
  induction xs as [|x xs IH]; intros h d h' d' E; cbn in E; [injection E as <- <-; change (zlen []) with 0; lia|]. apply obind_ok in E as ([h1 d1] & E1 & E).
  rewrite (IH _ _ _ _ E), (dpush_size _ _ _ _ _ E1), zlen_cons. lia.
Qed.
Lemma dpushes_fit xs : forall h d h' d', deq_pushes P h d xs = Ok (h', d') -> dfit d -> d_size d' <= p -> dfit d'.
Proof.
  induction xs as [|x xs IH]; intros h d h' d' E Hd Hp; cbn in E; [injection E as <- <-; exact Hd|]. apply obind_ok in E as ([h1 d1] & E1 & E).
  eapply IH; [exact E| |exact Hp]. eapply dpush_fit; [exact E1|exact Hd|]. rewrite (dpushes_size _ _ _ _ _ E) in Hp. pose proof (zlen_nonneg xs). lia.
Qed.
Lemma dassign_fit xs h d h' d' : deq_assign P h d xs = Ok (h', d') -> dfit d -> d_size d' <= p -> dfit d'.
Proof.
  unfold deq_assign. intros ([[h1 d1] rest] & E1 & E)%obind_ok Hd Hp. eapply dpushes_fit; [exact E| |exact Hp].
  destruct (_ =? _); [injection E1 as <- <- <-; exact Hd|]. apply obind_ok in E1 as (a & _ & E1). apply obind_ok in E1 as (b & _ & E1). apply obind_ok in E1 as ([[h2 it] r] & _ & E1).
  destruct r; [|injection E1 as <- <- <-; exact Hd]. apply obind_ok in E1 as (n & _ & E1). apply obind_ok in E1 as ([h3 d3] & E3 & [= <- <- <-]). eapply dpops_fit; eauto.
Qed.
Lemma dclear_mid_fit k : forall h t i f h' f', deq_clear_mid P h t i f k = Ok (h', f') -> flfit N f -> f_idx f + Z.of_nat k <= N -> flfit N f' /\ f_idx f' = f_idx f + Z.of_nat k.
Proof.
  induction k as [|k IH]; intros h t i f h' f' E Hf Hk; cbn [deq_clear_mid] in E; [injection E as <- <-; split; [exact Hf|lia]|].
  apply obind_ok in E as (h1 & _ & E). apply obind_ok in E as (c & _ & E). apply obind_ok in E as ([h2 f2] & Ef & E). destruct (fl_put_fit N _ _ _ _ _ Ef Hf) as [Hf' Ei]; [lia|].
  destruct (IH _ _ _ _ _ _ E Hf') as [H1 H2]; [lia|]. split; [exact H1|lia].
Qed.
Lemma dclear_fit h d h' d' : deq_clear P h d = Ok (h', d') -> dfit d -> dfit d'.
Proof.
  pose proof (BP P HP) as HB. pose proof half as Hh. unfold deq_clear. intros E Hd. destruct (Z.eqb_spec (d_slots d) 0); [injection E as <- <-; exact Hd|]. destruct (Z.eqb_spec (d_size d) 0); [injection E as <- <-; exact Hd|].
  cbn [orb] in E. destruct Hd as (Hf & Hs & [Hc|Hc]); [lia|]. assert (Hfi : 0 <= f_idx (d_fl d)) by apply Hf.
  apply obind_ok in E as (h1 & _ & E). apply obind_ok in E as ([h2 f2] & Em & E). apply obind_ok in E as ([h3 f3] & E3 & E). apply obind_ok in E as (c & _ & E). apply obind_ok in E as (h4 & _ & [= <- <-]).
  destruct (dclear_mid_fit _ _ _ _ _ _ _ Em Hf) as [H2 I2]; [lia|].
  assert (H3 : flfit N f3 /\ f_idx f3 = f_idx (d_fl d) + (d_back d - d_front d)).
  { destruct (Z.ltb_spec (d_front d) (d_back d)).
    - apply obind_ok in E3 as (c3 & _ & E3). apply obind_ok in E3 as ([h5 f5] & Ef & E3). apply obind_ok in E3 as (h6 & _ & [= <- <-]). destruct (fl_put_fit N _ _ _ _ _ Ef H2) as [H5 I5]; [lia|]. split; [exact H5|lia].
    - injection E3 as <- <-. split; [exact H2|lia]. }
  destruct H3 as [H3 I3]. unfold dfit; fl. fin.
Qed.
Lemma dstep_fit h d o h' d' r : deq_step P h d o = Ok (h', d', r) -> dfit d -> d_size d' <= p -> dfit d'.
Proof.
  intros E Hd Hp. destruct o as [[x| | | |ys|n x|n|n| | | | |]|x|]; cbn [deq_step] in E.
  - apply obind_ok in E as ([h1 d1] & E & [= <- <- <-]). eapply dpush_fit; eauto.
  - apply obind_ok in E as ([h1 d1] & E & [= <- <- <-]). eapply dpop_fit; eauto.
  - apply obind_ok in E as ([h1 d1] & E & [= <- <- <-]). eapply dclear_fit; eauto.
  - apply obind_ok in E as ([h1 f] & E & [= <- <- <-]). destruct Hd as (Hf & Hs & Hc). destruct (fl_shrink_fit N _ _ _ _ E Hf) as [Hf' Hi]. assert (0 <= f_idx (d_fl d)) by apply Hf. unfold dfit; fl. fin.
  - apply obind_ok in E as ([h1 d1] & E & [= <- <- <-]). eapply dassign_fit; eauto.
  - apply obind_ok in E as (h1 & _ & [= <- <- <-]). exact Hd.
  - apply obind_ok in E as (y & _ & [= <- <- <-]). exact Hd.
  - destruct (_ <=? _); [injection E as <- <- <-; exact Hd|]. apply obind_ok in E as (y & _ & [= <- <- <-]). exact Hd.
  - apply obind_ok in E as (y & _ & [= <- <- <-]). exact Hd.
  - apply obind_ok in E as (y & _ & [= <- <- <-]). exact Hd.
  - injection E as <- <- <-. exact Hd.
  - injection E as <- <- <-. exact Hd.
  - apply obind_ok in E as (y & _ & [= <- <- <-]). exact Hd.
  - apply obind_ok in E as ([h1 d1] & E & [= <- <- <-]). eapply dpushf_fit; eauto.
  - apply obind_ok in E as ([h1 d1] & E & [= <- <- <-]). eapply dpopf_fit; eauto.
Qed.
Lemma dstart_fit h d xs : dstart P h d xs -> zlen xs <= p -> dfit d.
Proof.
  pose proof (BP P HP) as HB. intros H0 Hp. destruct (dstart_inv P HP _ _ _ H0) as (ids & frees & Hd). pose proof (zlen_nonneg xs) as Hx.
  destruct Hd as [(-> & -> & _)|(t & Hl)]; [unfold dfit, deq_default, flfit; cbn; fin|]. destruct Hl as (_ & _ & Hs & Hb & Hi & Hf & Hbs & Hz & Hsl).
  assert (Hfl : d_fl d = flist0 /\ d_slots d <= Z.max 64 (2 * (N + 5))).
  { destruct H0 as [|n x h d Hn E]; [cbn in *; lia|]. unfold deq_sized in E. cbn [talloc] in E. destruct (Z.eqb_spec n 0); [lia|]. destruct (deq_layout P n _) as [[[front back] fs] bs]. cbn [balloc] in E.
    apply obind_ok in E as (h3 & _ & E). apply obind_ok in E as (h4 & _ & E). apply obind_ok in E as (h5 & _ & E). apply obind_ok in E as (h6 & _ & [= <- <-]). fl. split; [reflexivity|].
    rewrite shiftr_bsz by lia. assert (Hlen : zlen (replicate (Z.to_nat n) x) = n) by (unfold zlen; rewrite replicate_length; lia). rewrite Hlen in Hp.
    pose proof (HN (n / B) ltac:(apply Z.div_pos; lia) ltac:(pose proof (Z.mul_div_le n B HB); lia)). lia. }
  destruct Hfl as [Ef Hsl']. unfold dfit, flfit. rewrite Ef. cbn [f_idx f_slots flist0]. pose proof (HN 0 ltac:(lia) ltac:(lia)). fin. right. fin.
  destruct (decide (d_back d = d_front d)); [lia|]. pose proof (HN (zlen ids - 2) ltac:(lia) ltac:(nia)). lia.
Qed.
End deq.

Section runs.
Context {V : Type}.
Variable P : params.
Hypothesis HP : 0 <= expo P <= 30.
Notation B := (bsz P).
Implicit Types (h : bheap V) (v : vec) (d : deq) (ids frees bs ts : list nat) (xs : list V).

Lemma div_bound p k : 0 <= k -> k * B <= p -> k + 1 <= p / B + 1.
Proof. intros _ H. pose proof (BP P HP). pose proof (Z.div_le_lower_bound p B k ltac:(lia) ltac:(lia)). lia. Qed.
Lemma div_bound2 p k : 0 <= k -> k * B <= p -> k + 2 <= p / B + 2.
Proof. intros H1 H. pose proof (div_bound p k H1 H). lia. Qed.

Lemma only0 : only (@bheap0 V) [] [].
Proof. split; [intros b; cbn; set_solver|]. intros t. cbn. rewrite lookup_empty. intros [? [=]]. Qed.

Lemma vstart_fit h v xs p : vstart P h v xs -> zlen xs <= p -> vfit P p (p / B + 1) v.
Proof.
  pose proof (BP P HP) as HB. intros H0 Hp. destruct H0 as [|n x h v Hn E].
  - unfold vfit, vec_default, flfit; cbn [v_fl v_size v_slots v_bsize flist0 f_idx f_slots]. change (zlen []) with 0 in Hp. splits; lia.
  - assert (Hlen : zlen (replicate (Z.to_nat n) x) = n) by (unfold zlen; rewrite replicate_length; lia). rewrite Hlen in Hp. unfold vec_sized in E. cbn [talloc] in E. apply obind_ok in E as (h2 & _ & [= <- <-]).
    rewrite shiftr_bsz, land_bsz by lia. pose proof (Z.div_mod n B ltac:(lia)). pose proof (Z.mod_pos_bound n B ltac:(lia)). pose proof (Z.div_pos n B ltac:(lia) ltac:(lia)).
    pose proof (div_bound p (n / B) ltac:(lia) ltac:(lia)). unfold vfit, flfit; cbn [v_fl v_size v_slots v_bsize v_idx flist0 f_idx f_slots]. splits; try lia.
Qed.

Lemma hok0 : hok [] [] (@bheap0 V).
Proof. apply (vinv_hok P _ _ _ _ _ (proj1 (default_good P HP))). Qed.
Lemma vstart_only h v xs : vstart P h v xs -> exists ids frees, vinv P h v xs ids frees /\ ~ phantom v /\ only h (frees ++ ids) (vts v).
Proof.
  pose proof HP as [HP1 HP2]. destruct 1 as [|n x h v Hn E].
  - exists [], []. destruct (default_good (V := V) P HP) as [H1 H2]. split; [exact H1|]. split; [exact H2|]. apply only0.
  - destruct (vsized_ok P HP1 bheap0 n x hok0 Hn) as (h' & v' & ids & E' & Hv & Hph & U). rewrite E in E'. injection E' as <- <-. exists ids, []. split; [exact Hv|]. split; [exact Hph|]. eapply only_upd; [apply only0|exact U].
Qed.
Lemma dstart_only h d xs : dstart P h d xs -> exists ids frees, dinv P h d xs ids frees /\ only h (frees ++ ids) (dts d).
Proof.
  pose proof HP as [HP1 HP2]. destruct 1 as [|n x h d Hn E].
  - exists [], []. split; [left; auto using hok0|]. apply only0.
  - destruct (dsized_ok P HP1 bheap0 n x hok0 Hn) as (h' & d' & ids & E' & Hd & U). rewrite E in E'. injection E' as <- <-. exists ids, []. split; [exact Hd|]. eapply only_upd; [apply only0|exact U].
Qed.

(** The tables of a live container have the lengths its fields say. *)
Lemma blocks_tables h t slots lo ids off xs f frees M u cs :
  blocks P h t slots lo ids off xs f frees -> slots <= M -> f_slots f <= M -> u ∈ rts f t -> tb h !! u = Some cs -> zlen cs <= M.
Proof.
  intros Hb H1 H2 Hu Hc. unfold rts in Hu. apply elem_of_app in Hu as [Hu|Hu].
  - destruct (bk_free _ _ _ _ _ _ _ _ _ _ Hb) as (_ & _ & [(E & _)|(t' & E & _ & Hr)]); rewrite E in Hu; cbn in Hu; [inversion Hu|]. apply elem_of_list_singleton in Hu as ->.
    destruct Hr as (cs' & E' & Hz & _). rewrite Hc in E'. injection E' as <-. lia.
  - apply elem_of_list_singleton in Hu as ->. destruct (bk_row _ _ _ _ _ _ _ _ _ _ Hb) as (cs' & E' & Hz & _). rewrite Hc in E'. injection E' as <-. lia.
Qed.
Lemma rts_len f t : (length (rts f t) <= 2)%nat.
Proof. unfold rts. destruct (f_tab f); cbn; lia. Qed.

Lemma vrun_mem p ops : forall h v xs ids frees h' v' tr,
  vinv P h v xs ids frees -> ~ phantom v -> only h (frees ++ ids) (vts v) -> vfit P p (p / B + 1) v -> seq_ok xs ops -> Forall no_walk ops ->
  vec_run P h v ops = Ok (h', v', tr) -> (forall k, zlen (seq_after xs (take k ops)) <= p) ->
  exists ids' frees', vinv P h' v' (seq_after xs ops) ids' frees' /\ only h' (frees' ++ ids') (vts v') /\ vfit P p (p / B + 1) v'.
Proof.
  pose proof HP as [HP1 HP2]. induction ops as [|o ops IH]; intros h v xs ids frees h' v' tr Hv Hph Ho Hf Hok Hnw E Hp; cbn [vec_run] in E.
  - injection E as <- <- <-. exists ids, frees. auto.
  - destruct Hok as [Hl Hok]. apply Forall_cons in Hnw as [Hn1 Hnw]. apply obind_ok in E as ([[h1 v1] r] & E1 & E). apply obind_ok in E as ([[h2 v2] tr2] & E2 & [= <- <- <-]).
    destruct (vstep_ok P HP1 h v xs ids frees o HP2 Hv Hl) as (h1' & v1' & r' & xs1 & ids1 & frees1 & E' & Hs & Hv1 & U & Hp1 & M).
    { destruct o; cbn in *; tauto. }
    rewrite E1 in E'. injection E' as <- <- <-. pose proof (seq_next_ok _ _ _ _ Hs). subst xs1.
    pose proof (vinv_size P _ _ _ _ _ Hv) as Hsz. pose proof (zlen_nonneg xs) as Hx. assert (Hp' : zlen (seq_next xs o) <= p) by exact (Hp 1%nat).
    apply (IH h1 v1 (seq_next xs o) ids1 frees1 h2 v2 tr2); try assumption.
    + auto.
    + eapply only_upd; eassumption.
    + eapply (vstep_fit P HP); [apply div_bound|exact E1|exact Hf|lia|]. destruct o; try exact I; unfold zlen in Hsz, Hp' |- *; cbn in Hp'; [rewrite app_length in Hp'; cbn in Hp'; lia|exact Hp'].
    + intros k. apply (Hp (S k)).
Qed.

Lemma vmem h0 v0 xs0 ops h v tr p :
  vstart P h0 v0 xs0 -> seq_ok xs0 ops -> Forall no_walk ops -> vec_run P h0 v0 ops = Ok (h, v, tr) -> (forall k, zlen (seq_after xs0 (take k ops)) <= p) ->
  Z.of_nat (size (bl h)) <= p / B + 1 /\ (size (tb h) <= 2)%nat /\ (forall t cs, tb h !! t = Some cs -> zlen cs <= Z.max 64 (2 * (p / B + 1))) /\ vfit P p (p / B + 1) v.
Proof.
  intros H0 Hok Hnw E Hp. destruct (vstart_only _ _ _ H0) as (ids & frees & Hv & Hph & Ho0).
  destruct (vrun_mem p ops h0 v0 xs0 ids frees h v tr Hv Hph Ho0 (vstart_fit _ _ _ _ H0 (Hp 0%nat)) Hok Hnw E Hp) as (ids' & frees' & Hv' & Ho & Hf).
  pose proof (BP P HP) as HB. assert (0 <= p / B) by (apply Z.div_pos; [|lia]; pose proof (Hp 0%nat); pose proof (zlen_nonneg (seq_after xs0 (take 0 ops))); lia).
  destruct Hv' as [(-> & _ & -> & -> & _)|(t & Hl)].
  { destruct (only_count _ _ _ Ho) as [H1 H2]; [constructor..|]. split; [change (zlen ([] ++ [])) with 0 in H1; lia|]. split; [cbn in H2; lia|]. split; [|exact Hf]. intros t cs Hc. destruct Ho as [_ Ho]. specialize (Ho t (mk_is_Some _ _ Hc)). inversion Ho. }
  destruct Hl as (Ed & Hb & Hs & Hi & Hbs & Hz & Hsl). rewrite (vts_live _ _ Ed) in Ho. destruct (only_count _ _ _ Ho) as [H1 H2]; [apply Hb..|]. pose proof (rts_len (v_fl v) t).
  destruct Hf as (Hfl & Hsz & Hc). pose proof (proj1 (bk_free _ _ _ _ _ _ _ _ _ _ Hb)) as Hfi. rewrite zlen_app in H1. destruct Hc as [Hc|Hc]; [lia|].
  split; [lia|]. split; [lia|]. split.
  - intros u cs Hu. eapply blocks_tables; [exact Hb|lia|apply Hfl| |exact Hu]. apply Ho. eauto.
  - split; [exact Hfl|]. split; [exact Hsz|]. right. exact Hc.
Qed.

(** ** Deque *)
Lemma drun_mem p ops : forall h d xs ids frees h' d' tr,
  dinv P h d xs ids frees -> only h (frees ++ ids) (dts d) -> dfit P p (p / B + 2) d -> dok P h d xs ops ->
  deq_run P h d ops = Ok (h', d', tr) -> (forall k, zlen (dq_after xs (take k ops)) <= p) ->
  exists ids' frees', dinv P h' d' (dq_after xs ops) ids' frees' /\ only h' (frees' ++ ids') (dts d') /\ dfit P p (p / B + 2) d'.
Proof.
  pose proof HP as [HP1 HP2]. induction ops as [|o ops IH]; intros h d xs ids frees h' d' tr Hd Ho Hf Hok E Hp; cbn [deq_run] in E.
  - injection E as <- <- <-. exists ids, frees. auto.
  - destruct Hok as (Hl & Hg & Hok). apply obind_ok in E as ([[h1 d1] r] & E1 & E). apply obind_ok in E as ([[h2 d2] tr2] & E2 & [= <- <- <-]).
    destruct (dstep_ok P HP1 h d xs ids frees o HP2 Hd Hl Hg) as (h1' & d1' & r' & xs1 & ids1 & frees1 & E' & Hs & Hd1 & U & Ex & K).
    rewrite E1 in E'. injection E' as <- <- <-. subst xs1.
    pose proof (dinv_size P _ _ _ _ _ Hd1) as Hsz. assert (Hp' : zlen (dq_next xs o) <= p) by exact (Hp 1%nat).
    apply (IH h1 d1 (dq_next xs o) ids1 frees1 h2 d2 tr2); try assumption.
    + eapply only_upd; eassumption.
    + eapply (dstep_fit P HP); [apply div_bound2|exact E1|exact Hf|lia].
    + eapply Hok, E1.
    + intros k. apply (Hp (S k)).
Qed.

Lemma dmem h0 d0 xs0 ops h d tr p :
  dstart P h0 d0 xs0 -> dq_ok xs0 ops -> deq_run P h0 d0 ops = Ok (h, d, tr) -> (forall k, zlen (dq_after xs0 (take k ops)) <= p) ->
  Z.of_nat (size (bl h)) <= p / B + 2 /\ (size (tb h) <= 2)%nat /\ (forall t cs, tb h !! t = Some cs -> zlen cs <= Z.max 64 (2 * (p / B + 7))) /\ dfit P p (p / B + 2) d.
Proof.
  intros H0 Hok E Hp. destruct (dstart_only _ _ _ H0) as (ids & frees & Hd & Ho0). pose proof (BP P HP) as HB.
  destruct (drun_mem p ops h0 d0 xs0 ids frees h d tr Hd Ho0 (dstart_fit P HP p _ (div_bound2 p) _ _ _ H0 (Hp 0%nat)) (start_dok P HP _ _ _ _ _ _ _ H0 Hok E) E Hp) as (ids' & frees' & Hd' & Ho & Hf).
  assert (0 <= p / B) by (apply Z.div_pos; [|lia]; pose proof (Hp 0%nat); pose proof (zlen_nonneg (dq_after xs0 (take 0 ops))); lia).
  destruct Hd' as [(-> & _ & -> & -> & _)|(t & Hl)].
  { destruct (only_count _ _ _ Ho) as [H1 H2]; [constructor..|]. split; [change (zlen ([] ++ [])) with 0 in H1; lia|]. split; [cbn in H2; lia|]. split; [|exact Hf]. intros t cs Hc. destruct Ho as [_ Ho]. specialize (Ho t (mk_is_Some _ _ Hc)). inversion Ho. }
  destruct Hl as (Ed & Hb & Hs & Hi & H1i & Hfs & Hbs & Hz & Hsl). rewrite (dts_live _ _ Ed) in Ho. destruct (only_count _ _ _ Ho) as [H1 H2]; [apply Hb..|]. pose proof (rts_len (d_fl d) t).
  destruct Hf as (Hfl & Hsz & Hc). pose proof (proj1 (bk_free _ _ _ _ _ _ _ _ _ _ Hb)) as Hfi. rewrite zlen_app in H1. destruct Hc as [Hc|Hc]; [lia|].
  split; [lia|]. split; [lia|]. split.
  - intros u cs Hu. destruct Hfl as [_ Hfl]. eapply blocks_tables; [exact Hb|lia|lia| |exact Hu]. apply Ho. eauto.
  - split; [exact Hfl|]. split; [exact Hsz|]. right. exact Hc.
Qed.

(** ** After shrink_to_fit only the blocks in use are held. *)
Lemma peak {A O} (next : list A -> O -> list A) ops : forall (xs : list A), exists p, forall k, zlen (fold_left next (take k ops) xs) <= p.
Proof.
  induction ops as [|o ops IH]; intros xs.
  - exists (zlen xs). intros k. rewrite take_nil. cbn. lia.
  - destruct (IH (next xs o)) as [p Hp]. exists (Z.max p (zlen xs)). intros [|k]; cbn; [lia|]. specialize (Hp k). lia.
Qed.

Lemma vmem_shrink h0 v0 xs0 ops h v tr h' v' r :
  vstart P h0 v0 xs0 -> seq_ok xs0 ops -> Forall no_walk ops -> vec_run P h0 v0 ops = Ok (h, v, tr) -> vec_step P h v VShrink = Ok (h', v', r) ->
  Z.of_nat (size (bl h')) <= zlen (seq_after xs0 ops) / B + 1.
Proof.
  pose proof HP as [HP1 HP2]. pose proof (BP P HP) as HB. intros H0 Hok Hnw E Es. destruct (vstart_only _ _ _ H0) as (ids & frees & Hv & Hph & Ho0). destruct (peak seq_next ops xs0) as [p Hp].
  destruct (vrun_mem p ops h0 v0 xs0 ids frees h v tr Hv Hph Ho0 (vstart_fit _ _ _ _ H0 (Hp 0%nat)) Hok Hnw E Hp) as (ids' & frees' & Hv' & Ho & Hf).
  destruct (vstep_ok P HP1 h v (seq_after xs0 ops) ids' frees' VShrink HP2 Hv' I I) as (h1 & v1 & r1 & xs1 & ids1 & frees1 & E' & Hs & Hv1 & U & _ & _).
  rewrite Es in E'. injection E' as <- <- <-. assert (xs1 = seq_after xs0 ops) as -> by (inversion Hs; reflexivity). apply (only_upd _ _ _ _ _ _ Ho) in U.
  assert (Hi : f_idx (v_fl v') = 0). { cbn [vec_step] in Es. apply obind_ok in Es as ([h2 f] & Ef & [= <- <- <-]). eapply fl_shrink_fit; [exact Ef|apply Hf]. }
  assert (0 <= zlen (seq_after xs0 ops) / B) by (apply Z.div_pos; [apply zlen_nonneg|lia]).
  destruct Hv1 as [(-> & _ & -> & -> & _)|(t & Hl)]; [destruct (only_count _ _ _ U) as [H1 _]; [constructor..|]; change (zlen ([] ++ [])) with 0 in H1; lia|].
  destruct Hl as (Ed & Hb & _ & Hid & Hbs & Hz & _). rewrite (vts_live _ _ Ed) in U. destruct (only_count _ _ _ U) as [H1 _]; [apply Hb..|].
  pose proof (proj1 (bk_free _ _ _ _ _ _ _ _ _ _ Hb)) as Hfi. rewrite zlen_app in H1. pose proof (Z.div_le_lower_bound (zlen (seq_after xs0 ops)) B (v_idx v') HB ltac:(lia)). lia.
Qed.

Lemma dmem_shrink h0 d0 xs0 ops h d tr h' d' r :
  dstart P h0 d0 xs0 -> dq_ok xs0 ops -> deq_run P h0 d0 ops = Ok (h, d, tr) -> deq_step P h d (DV VShrink) = Ok (h', d', r) ->
  Z.of_nat (size (bl h')) <= zlen (dq_after xs0 ops) / B + 2.
Proof.
  pose proof HP as [HP1 HP2]. pose proof (BP P HP) as HB. intros H0 Hok E Es. destruct (dstart_only _ _ _ H0) as (ids & frees & Hd & Ho0). destruct (peak dq_next ops xs0) as [p Hp].
  destruct (drun_mem p ops h0 d0 xs0 ids frees h d tr Hd Ho0 (dstart_fit P HP p _ (div_bound2 p) _ _ _ H0 (Hp 0%nat)) (start_dok P HP _ _ _ _ _ _ _ H0 Hok E) E Hp) as (ids' & frees' & Hd' & Ho & Hf).
  destruct (dstep_ok P HP1 h d (dq_after xs0 ops) ids' frees' (DV VShrink) HP2 Hd' I I) as (h1 & d1 & r1 & xs1 & ids1 & frees1 & E' & Hs & Hd1 & U & Ex & _).
  rewrite Es in E'. injection E' as <- <- <-. cbn [dq_next seq_next] in Ex. subst xs1. apply (only_upd _ _ _ _ _ _ Ho) in U.
  assert (Hi : f_idx (d_fl d') = 0). { cbn [deq_step] in Es. apply obind_ok in Es as ([h2 f] & Ef & [= <- <- <-]). eapply fl_shrink_fit; [exact Ef|apply Hf]. }
  assert (0 <= zlen (dq_after xs0 ops) / B) by (apply Z.div_pos; [apply zlen_nonneg|lia]).
  destruct Hd1 as [(-> & _ & -> & -> & _)|(t & Hl)]; [destruct (only_count _ _ _ U) as [H1 _]; [constructor..|]; change (zlen ([] ++ [])) with 0 in H1; lia|].
  destruct Hl as (Ed & Hb & _ & Hid & Hn & Hfs & Hbs & Hz & _). rewrite (dts_live _ _ Ed) in U. destruct (only_count _ _ _ U) as [H1 _]; [apply Hb..|].
  pose proof (proj1 (bk_free _ _ _ _ _ _ _ _ _ _ Hb)) as Hfi. rewrite zlen_app in H1. pose proof (Z.div_le_lower_bound (zlen (dq_after xs0 ops)) B (zlen ids1 - 2) HB ltac:(lia)). lia.
Qed.
End runs.
