(** The cost of growing a StableBlockDeque that is only pushed to, at both ends. *)
From stdpp Require Import gmap.
From Verif Require Import Base BlkHeap BlkProofs BlkIter VecModel VecSpec VecFinal DeqModel DeqSpec DeqProofs DeqFinal BlkMem BlkCost BlkCostF.

Section push.
Context {V : Type}.
Variable P : params.
Hypothesis HP : 0 <= expo P <= 30.
Notation B := (bsz P).
Implicit Types (h : bheap V) (d : deq) (x : V) (xs : list V).

Definition push_op (o : @qop V) : Prop := match o with QPushB _ | QPushF _ => True | _ => False end.
Ltac tup := repeat match goal with |- (_, _) = (_, _) => apply (f_equal2 pair) end; try reflexivity.

(** ** Above: every shift of the table at least halves the larger of the two free parts, so there are at most log2 of them before
    the table is doubled.  [M]: no free part is larger; [n]: entries copied so far. *)
Definition pspent d (n : Z) : Prop :=
  (d = deq_default P /\ n = 0) \/
  (64 <= d_slots d /\ 0 <= d_front d <= d_back d /\ d_back d <= d_slots d - 1 /\ -1 <= d_fsize d <= B - 1 /\ 0 <= d_bsize d <= B /\
   d_size d = (d_back d - d_front d) * B + d_bsize d - d_fsize d - 1 /\ B * d_slots d <= 2 * d_size d + 64 * B /\
   exists M, d_front d <= M /\ d_slots d - 1 - d_back d <= M /\ 1 <= M /\ n + d_slots d * Z.log2 M <= 2 * d_slots d * (Z.log2 (d_slots d) + 1)).

Lemma push_size h d x h' d' n : deq_push_n P h d x = Ok (h', d', n) -> d_size d' = d_size d + 1.
Proof.
  unfold deq_push_n. intros ([[h1 d1] n1] & E1 & E)%obind_ok. apply obind_ok in E as (c & _ & E). apply obind_ok in E as (h2 & _ & [= <- <- <-]).
  cbn [d_size]. f_equal. unfold deq_check_n in E1. destruct (B <=? d_bsize d); [|injection E1 as <- <- <-; reflexivity].
  destruct (d_slots d =? 0).
  { apply obind_ok in E1 as ([h3 d3] & E3 & [= <- <- <-]). unfold deq_first_block in E3. cbn [talloc] in E3. apply obind_ok in E3 as ([[h4 f] c4] & _ & E3). apply obind_ok in E3 as (h5 & _ & [= <- <-]). reflexivity. }
  apply obind_ok in E1 as ([[h3 d3] n3] & E3 & E1). apply obind_ok in E1 as ([[h4 f] c4] & _ & E1). apply obind_ok in E1 as (h5 & _ & [= <- <- <-]).
  cbn [d_size]. destruct (d_slots d - 1 <=? d_back d); [|injection E3 as <- <- <-; reflexivity]. destruct (5 <? d_front d).
  - apply obind_ok in E3 as (h6 & _ & [= <- <- <-]). reflexivity.
  - cbn [talloc] in E3. apply obind_ok in E3 as (h6 & _ & E3). apply obind_ok in E3 as (h7 & _ & [= <- <- <-]). reflexivity.
Qed.

Lemma log2_half a M : 2 <= a -> a <= M -> Z.log2 (a / 2) + 1 <= Z.log2 M.
Proof.
  intros Ha Hle. assert (H2 : 1 <= a / 2) by (apply Z.div_le_lower_bound; lia). pose proof (Z.log2_double (a / 2) ltac:(lia)) as E.
  pose proof (Z.mul_div_le a 2 ltac:(lia)). pose proof (Z.log2_le_mono (2 * (a / 2)) M ltac:(lia)). lia.
Qed.
Lemma log2_twice S : 1 <= S -> Z.log2 (2 * S - 1) <= Z.log2 S + 1 /\ Z.log2 (S * 2) = Z.log2 S + 1.
Proof.
  intros HS. pose proof (Z.log2_double S ltac:(lia)) as E. rewrite (Z.mul_comm S 2). split; [|lia]. pose proof (Z.log2_le_mono (2 * S - 1) (2 * S) ltac:(lia)). lia.
Qed.

Lemma push_pspent h d o h' d' n0 n : push_op o -> pspent d n0 -> deq_step_n P h d o = Ok (h', d', n) -> pspent d' (n0 + n) /\ d_size d' = d_size d + 1.
Proof.
  pose proof (BP P HP) as HB. assert (Hh : 0 <= B / 2) by (apply Z.div_pos; lia). assert (Hh2 : B / 2 < B) by (apply Z.div_lt; lia).
  intros Ho Hs E. destruct o as [x| |x|]; cbn in Ho; try contradiction; cbn [deq_step_n] in E.
  - pose proof (push_size _ _ _ _ _ _ E) as Hsz. apply push_ctl in E. split; [|exact Hsz]. right. unfold cpush, ctl in E. destruct Hs as [(-> & ->)|(HS & Hf & Hb & Hfs & Hbs & Hss & HBS & M & HM1 & HM2 & HM & Hn)].
    + cbn [deq_default d_bsize d_slots d_size] in *. destruct (Z.leb_spec B B); [|lia]. cbn [Z.eqb] in E. injection E as Ef Eb Es Ebs Efs ->. rewrite Ef, Eb, Es, Ebs, Efs, Hsz.
      repeat (split; [lia|]). exists 33. change (Z.log2 33) with 5. change (Z.log2 64) with 6. lia.
    + destruct (Z.leb_spec B (d_bsize d)); [|injection E as Ef Eb Es Ebs Efs ->; rewrite Ef, Eb, Es, Ebs, Efs, Hsz; repeat (split; [lia|]); exists M; lia].
      destruct (Z.eqb_spec (d_slots d) 0); [lia|]. destruct (Z.leb_spec (d_slots d - 1) (d_back d)) as [Hbe|];
        [|injection E as Ef Eb Es Ebs Efs ->; rewrite Ef, Eb, Es, Ebs, Efs, Hsz; repeat (split; [lia|]); exists M; lia].
      assert (Hbe' : d_back d = d_slots d - 1) by lia. destruct (Z.ltb_spec 5 (d_front d)) as [H5|H5]; injection E as Ef Eb Es Ebs Efs ->; rewrite Ef, Eb, Es, Ebs, Efs, Hsz.
      * assert (Hq : 3 <= d_front d / 2) by (apply Z.div_le_lower_bound; lia). pose proof (Z.mul_div_le (d_front d) 2 ltac:(lia)). pose proof (Z.mul_succ_div_gt (d_front d) 2 ltac:(lia)).
        pose proof (log2_half (d_front d) M ltac:(lia) HM1) as Hl. set (L := Z.log2 (d_front d / 2)) in *. set (q := d_front d / 2) in *.
        split; [lia|]. split; [lia|]. split; [lia|]. split; [lia|]. split; [lia|]. split; [nia|]. split; [lia|]. exists q. split; [lia|]. split; [lia|]. split; [lia|]. fold L. nia.
      * destruct (log2_twice (d_slots d) ltac:(lia)) as [L1 L2]. split; [lia|]. split; [lia|]. split; [lia|]. split; [lia|]. split; [lia|]. split; [nia|]. split; [nia|].
        exists (2 * d_slots d - 1). rewrite L2. pose proof (Z.log2_nonneg M). pose proof (Z.log2_nonneg (d_slots d)). split; [lia|]. split; [lia|]. split; [lia|]. nia.
  - apply pushf_ctl in E as (E & Hsz & Hf1). split; [|exact Hsz]. right. unfold cpushf, ctl in E. destruct Hs as [(-> & ->)|(HS & Hf & Hb & Hfs & Hbs & Hss & HBS & M & HM1 & HM2 & HM & Hn)].
    + cbn in E, Hsz. injection E as Ef Eb Es Ebs Efs ->. rewrite Ef, Eb, Es, Ebs, Efs, Hsz in *.
      repeat (split; [lia|]). exists 33. change (Z.log2 33) with 5. change (Z.log2 64) with 6. lia.
    + destruct (Z.ltb_spec (d_fsize d) 0); [|injection E as Ef Eb Es Ebs Efs ->; rewrite Ef, Eb, Es, Ebs, Efs, Hsz; repeat (split; [lia|]); exists M; lia].
      destruct (Z.eqb_spec (d_slots d) 0); [lia|]. destruct (Z.eqb_spec (d_front d) 0) as [F0|F0];
        [|injection E as Ef Eb Es Ebs Efs ->; rewrite Ef, Eb, Es, Ebs, Efs, Hsz; repeat (split; [lia|]); exists M; lia].
      destruct (Z.ltb_spec (d_back d) (d_slots d - 5)) as [H5|H5]; injection E as Ef Eb Es Ebs Efs ->; rewrite Ef, Eb, Es, Ebs, Efs, Hsz; rewrite F0 in *.
      * set (F := d_slots d - 1 - d_back d) in *. assert (Hq : 2 <= F / 2) by (apply Z.div_le_lower_bound; lia). pose proof (Z.mul_div_le F 2 ltac:(lia)). pose proof (Z.mul_succ_div_gt F 2 ltac:(lia)).
        set (g := (d_slots d - d_back d) / 2) in *. pose proof (Z.mul_div_le (d_slots d - d_back d) 2 ltac:(lia)). pose proof (Z.mul_succ_div_gt (d_slots d - d_back d) 2 ltac:(lia)).
        pose proof (log2_half F M ltac:(lia) HM2) as Hl. set (L := Z.log2 (F / 2)) in *. set (q := F / 2) in *.
        split; [lia|]. split; [lia|]. split; [lia|]. split; [lia|]. split; [lia|]. split; [nia|]. split; [lia|]. exists q. split; [lia|]. split; [lia|]. split; [lia|]. fold L. nia.
      * destruct (log2_twice (d_slots d) ltac:(lia)) as [L1 L2]. split; [lia|]. split; [lia|]. split; [lia|]. split; [lia|]. split; [lia|]. split; [nia|]. split; [nia|].
        exists (2 * d_slots d - 1). rewrite L2. pose proof (Z.log2_nonneg M). pose proof (Z.log2_nonneg (d_slots d)). split; [lia|]. split; [lia|]. split; [lia|]. nia.
Qed.
Lemma pushes_pspent ops : forall h d h' d' n0 n, Forall push_op ops -> pspent d n0 -> deq_run_n P h d ops = Ok (h', d', n) -> pspent d' (n0 + n) /\ d_size d' = d_size d + zlen ops.
Proof.
  induction ops as [|o ops IH]; intros h d h' d' n0 n Hf Hs; cbn [deq_run_n].
  - intros [= <- <- <-]. rewrite Z.add_0_r. change (zlen []) with 0. split; [exact Hs|lia].
  - intros ([[h1 d1] n1] & E1 & E)%obind_ok. apply obind_ok in E as ([[h2 d2] n2] & E2 & [= <- <- <-]). inversion Hf as [|? ? Ho Hf']; subst.
    destruct (push_pspent _ _ _ _ _ _ _ Ho Hs E1) as [Hs1 Hz1]. destruct (IH _ _ _ _ _ _ Hf' Hs1 E2) as [Hs2 Hz2]. rewrite Z.add_assoc, zlen_cons. split; [exact Hs2|lia].
Qed.
Lemma deq_push_cost ops h d tr :
  Forall push_op ops -> deq_run P bheap0 (deq_default P) (map qdop ops) = Ok (h, d, tr) ->
  exists n, deq_run_n P bheap0 (deq_default P) ops = Ok (h, d, n) /\
    let q := 2 * zlen ops + 64 * B in B * n <= 2 * q * (Z.log2 q + 1).
Proof.
  intros Hf E. destruct (run_n_deq P _ _ _ _ _ _ E) as (n & En). exists n. split; [exact En|]. pose proof (BP P HP) as HB. intros q.
  destruct (pushes_pspent _ _ _ _ _ 0 n Hf (or_introl (conj eq_refl eq_refl)) En) as [Hs Hz]. cbn [deq_default d_size] in Hz. pose proof (zlen_nonneg ops) as Hl. pose proof (Z.log2_nonneg q) as Hq0.
  destruct Hs as [(_ & Hn)|(HS & _ & _ & _ & _ & _ & HBS & M & _ & _ & HM & Hn)]; [assert (n = 0) as -> by lia; unfold q in *; nia|].
  pose proof (Z.log2_nonneg M). assert (Hq : B * d_slots d <= q) by (unfold q; lia). assert (Hlog : Z.log2 (d_slots d) <= Z.log2 q) by (apply Z.log2_le_mono; nia).
  set (S := d_slots d) in *. set (L := Z.log2 S) in *. set (L' := Z.log2 q) in *. assert (n <= 2 * S * (L' + 1)) by nia. nia.
Qed.

(** ** Below.  As [goes] in [BlkCost], with pushes at both ends. *)
Definition pgoes s s' (k : nat) (n : Z) : Prop :=
  V -> forall h d, at_ P h d s -> exists ops h' d', length ops = k /\ Forall push_op ops /\ deq_run_n P h d ops = Ok (h', d', n) /\ at_ P h' d' s'.
Lemma pgoes_refl s : pgoes s s 0 0.
Proof. intros _ h d H. exists [], h, d. split; [reflexivity|]. split; [constructor|]. split; [reflexivity|exact H]. Qed.
Lemma pgoes_trans s1 s2 s3 k1 k2 n1 n2 : pgoes s1 s2 k1 n1 -> pgoes s2 s3 k2 n2 -> pgoes s1 s3 (k1 + k2) (n1 + n2).
Proof.
  intros H1 H2 x h d H. destruct (H1 x h d H) as (o1 & h1 & d1 & L1 & F1 & E1 & A1). destruct (H2 x h1 d1 A1) as (o2 & h2 & d2 & L2 & F2 & E2 & A2).
  exists (o1 ++ o2), h2, d2. split; [rewrite app_length; lia|]. split; [apply Forall_app; split; assumption|]. split; [eapply run_n_app; eassumption|exact A2].
Qed.
Lemma pgoes_eq s s' k n t t' k' n' : pgoes s s' k n -> s = t -> s' = t' -> k = k' -> n = n' -> pgoes t t' k' n'.
Proof. intros H -> -> -> ->. exact H. Qed.

Lemma pgoes_push s : pgoes s (fst (cpush P s)) 1 (snd (cpush P s)).
Proof.
  intros x h d (xs & ids & frees & t & Hl & <-). pose proof HP as [HP1 _].
  destruct (dpush_ok P HP1 h d xs ids frees x (or_intror (ex_intro _ t Hl))) as (h' & d' & ids' & frees' & E & Hd' & _).
  destruct (step_n_deq P h d (QPushB x) h' d' VUnit) as (n & En); [cbn [qdop deq_step]; rewrite E; reflexivity|]. pose proof (push_ctl P _ _ _ _ _ _ En) as Hc.
  exists [QPushB x], h', d'. split; [reflexivity|]. split; [repeat constructor|]. rewrite <- Hc. cbn [fst snd]. split.
  - cbn [deq_run_n]. rewrite En. cbn [obind]. do 2 f_equal. lia.
  - destruct Hd' as [(_ & Hn & _)|(t' & Hl')]; [destruct xs; discriminate|]. exists (xs ++ [x]), ids', frees', t'. auto.
Qed.
(** push_front where no overlapping copy is made *)
Lemma pgoes_pushf f b s bs fs : ~ (fs < 0 /\ f = 0 /\ b < s - 5) -> pgoes (f, b, s, bs, fs) (fst (cpushf P (f, b, s, bs, fs))) 1 (snd (cpushf P (f, b, s, bs, fs))).
Proof.
  intros Hg x h d (xs & ids & frees & t & Hl & Hc). pose proof HP as [HP1 _].
  destruct (dpush_front_ok P HP1 h d xs ids frees x (or_intror (ex_intro _ t Hl))) as (h' & d' & ids' & frees' & E & Hd' & _).
  { injection Hc as Ef Eb Es Ebs Efs. split; [destruct Hl as (_ & _ & _ & _ & _ & _ & _ & _ & Hs); lia|right; lia]. }
  destruct (step_n_deq P h d (QPushF x) h' d' VUnit) as (n & En); [cbn [qdop deq_step]; rewrite E; reflexivity|]. pose proof (proj1 (pushf_ctl P _ _ _ _ _ _ En)) as Hc'. rewrite Hc in Hc'.
  exists [QPushF x], h', d'. split; [reflexivity|]. split; [repeat constructor|]. rewrite <- Hc'. cbn [fst snd]. split.
  - cbn [deq_run_n]. rewrite En. cbn [obind]. do 2 f_equal. lia.
  - destruct Hd' as [(_ & Hn & _)|(t' & Hl')]; [discriminate|]. exists (x :: xs), ids', frees', t'. auto.
Qed.

(** The back, as in [BlkCost] *)
Lemma pgoes_fill k : forall f b s bs fs, bs + Z.of_nat k <= B -> pgoes (f, b, s, bs, fs) (f, b, s, bs + Z.of_nat k, fs) k 0.
Proof.
  induction k as [|k IH]; intros f b s bs fs Hk; [eapply pgoes_eq; [apply pgoes_refl|..]; try reflexivity; tup; lia|].
  pose proof (pgoes_push (f, b, s, bs, fs)) as H1. unfold cpush in H1. destruct (Z.leb_spec B bs); [lia|]. cbn [fst snd] in H1.
  eapply pgoes_eq; [eapply pgoes_trans; [exact H1|apply (IH f b s (bs + 1) fs); lia]|..]; try reflexivity; tup; lia.
Qed.
Notation nB := (nB P).
Lemma pgoes_block s s' n : cpush P s = (s', n) -> (exists f b sl fs, s' = (f, b, sl, 1, fs)) -> pgoes s (let '(f, b, sl, _, fs) := s' in (f, b, sl, B, fs)) nB n.
Proof.
  intros Hc (f & b & sl & fs & ->). pose proof (nB_B P HP) as [E Hp]. pose proof (pgoes_push s) as H1. rewrite Hc in H1. cbn [fst snd] in H1.
  eapply pgoes_eq; [eapply pgoes_trans; [exact H1|apply (pgoes_fill (nB - 1) f b sl 1 fs); lia]|..]; try reflexivity; [tup; lia|lia|lia].
Qed.
Lemma pgoes_room f b s fs : 0 < s -> b < s - 1 -> pgoes (f, b, s, B, fs) (f, b + 1, s, B, fs) nB 0.
Proof.
  intros Hs Hb. eapply (pgoes_block (f, b, s, B, fs) (f, b + 1, s, 1, fs)); [|eauto 10]. unfold cpush.
  destruct (Z.leb_spec B B); [|lia]. destruct (Z.eqb_spec s 0); [lia|]. destruct (Z.leb_spec (s - 1) b); [lia|]. reflexivity.
Qed.
Lemma pgoes_rooms m : forall f b s fs, 0 < s -> b + Z.of_nat m <= s - 1 -> pgoes (f, b, s, B, fs) (f, b + Z.of_nat m, s, B, fs) (m * nB) 0.
Proof.
  induction m as [|m IH]; intros f b s fs Hs Hb; [eapply pgoes_eq; [apply pgoes_refl|..]; try reflexivity; tup; lia|].
  eapply pgoes_eq; [eapply pgoes_trans; [apply (pgoes_room f b s fs); lia|apply (IH f (b + 1) s fs); lia]|..]; try reflexivity; tup; lia.
Qed.
Lemma pgoes_shift_fill f s fs : 0 < s -> 5 < f -> pgoes (f, s - 1, s, B, fs) (f / 2, s - 1, s, B, fs) (Z.to_nat (f - f / 2) * nB) (s - f).
Proof.
  intros Hs Hf. assert (f / 2 < f) by (apply Z.div_lt; lia).
  assert (H1 : pgoes (f, s - 1, s, B, fs) (f / 2, f / 2 + (s - 1 - f) + 1, s, B, fs) nB (s - 1 + 1 - f)).
  { eapply (pgoes_block (f, s - 1, s, B, fs) (f / 2, f / 2 + (s - 1 - f) + 1, s, 1, fs) (s - 1 + 1 - f)); [|eauto 10].
    unfold cpush. destruct (Z.leb_spec B B); [|lia]. destruct (Z.eqb_spec s 0); [lia|]. destruct (Z.leb_spec (s - 1) (s - 1)); [|lia]. destruct (Z.ltb_spec 5 f); [reflexivity|lia]. }
  eapply pgoes_eq; [eapply pgoes_trans; [exact H1|apply (pgoes_rooms (Z.to_nat (f - f / 2 - 1)) (f / 2) (f / 2 + (s - 1 - f) + 1) s fs); lia]|..]; try reflexivity; [tup; lia| |lia].
  replace (Z.to_nat (f - f / 2)) with (S (Z.to_nat (f - f / 2 - 1))) by lia. cbn [Nat.mul]. reflexivity.
Qed.

(** The front *)
Lemma pgoes_fillf k : forall f b s bs fs, Z.of_nat k <= fs + 1 -> pgoes (f, b, s, bs, fs) (f, b, s, bs, fs - Z.of_nat k) k 0.
Proof.
  induction k as [|k IH]; intros f b s bs fs Hk; [eapply pgoes_eq; [apply pgoes_refl|..]; try reflexivity; tup; lia|].
  pose proof (pgoes_pushf f b s bs fs ltac:(lia)) as H1. unfold cpushf in H1. destruct (Z.ltb_spec fs 0); [lia|]. cbn [fst snd] in H1.
  eapply pgoes_eq; [eapply pgoes_trans; [exact H1|apply (IH f b s bs (fs - 1)); lia]|..]; try reflexivity; tup; lia.
Qed.
Lemma pgoes_blockf f b s bs f' b' s' n : ~ (f = 0 /\ b < s - 5) -> cpushf P (f, b, s, bs, -1) = (f', b', s', bs, B - 2, n) -> pgoes (f, b, s, bs, -1) (f', b', s', bs, -1) nB n.
Proof.
  intros Hg Hc. pose proof (nB_B P HP) as [E Hp]. pose proof (pgoes_pushf f b s bs (-1) ltac:(lia)) as H1. rewrite Hc in H1. cbn [fst snd] in H1.
  eapply pgoes_eq; [eapply pgoes_trans; [exact H1|apply (pgoes_fillf (nB - 1) f' b' s' bs (B - 2)); lia]|..]; try reflexivity; [tup; lia|lia|lia].
Qed.
Lemma pgoes_roomsf m : forall f b s bs, 0 < s -> Z.of_nat m <= f -> pgoes (f, b, s, bs, -1) (f - Z.of_nat m, b, s, bs, -1) (m * nB) 0.
Proof.
  induction m as [|m IH]; intros f b s bs Hs Hb; [eapply pgoes_eq; [apply pgoes_refl|..]; try reflexivity; tup; lia|].
  eapply pgoes_eq; [eapply pgoes_trans; [apply (pgoes_blockf f b s bs (f - 1) b s 0); [lia|]|apply (IH (f - 1) b s bs); lia]|..]; try reflexivity; [|tup; lia].
  unfold cpushf. destruct (Z.ltb_spec (-1) 0); [|lia]. destruct (Z.eqb_spec s 0); [lia|]. destruct (Z.eqb_spec f 0); [lia|]. reflexivity.
Qed.
Lemma pgoes_growf s : 6 <= s -> pgoes (0, s - 1, s, B, -1) (s - 1, s * 2 - 1, s * 2, B, -1) nB s.
Proof.
  intros Hs. eapply pgoes_eq; [apply (pgoes_blockf 0 (s - 1) s B (s - 1) (s + (s - 1)) (s * 2) (s - 1 + 1)); [lia|]|..]; try reflexivity; [|tup; lia|lia].
  unfold cpushf. destruct (Z.ltb_spec (-1) 0); [|lia]. destruct (Z.eqb_spec s 0); [lia|]. rewrite Z.eqb_refl. destruct (Z.ltb_spec (s - 1) (s - 5)); [lia|]. reflexivity.
Qed.

(** A full table of any size, all growth at the front *)
Lemma pgoes_setup k : exists m n, 0 <= n /\ Z.of_nat m <= 64 * 2 ^ Z.of_nat k * B /\
  pgoes (30, 30, 64, B / 2 + 1, B / 2 - 1) (0, 64 * 2 ^ Z.of_nat k - 1, 64 * 2 ^ Z.of_nat k, B, -1) m n.
Proof.
  pose proof (nB_B P HP) as [EB Hp]. assert (Hh : 0 <= B / 2 < B) by (split; [apply Z.div_pos; lia|apply Z.div_lt_upper_bound; lia]).
  induction k as [|k (m & n & Hn & Hm & IH)].
  - pose proof (pgoes_fill (Z.to_nat (B - (B / 2 + 1))) 30 30 64 (B / 2 + 1) (B / 2 - 1) ltac:(lia)) as H0. replace (B / 2 + 1 + Z.of_nat (Z.to_nat (B - (B / 2 + 1)))) with B in H0 by lia.
    pose proof (pgoes_rooms 33 30 30 64 (B / 2 - 1) ltac:(lia) ltac:(lia)) as H1. change (30 + Z.of_nat 33) with (64 - 1) in H1.
    pose proof (pgoes_fillf (Z.to_nat (B / 2)) 30 (64 - 1) 64 B (B / 2 - 1) ltac:(lia)) as H2. replace (B / 2 - 1 - Z.of_nat (Z.to_nat (B / 2))) with (-1) in H2 by lia.
    pose proof (pgoes_roomsf 30 30 (64 - 1) 64 B ltac:(lia) ltac:(lia)) as H3. change (30 - Z.of_nat 30) with 0 in H3. change (64 * 2 ^ Z.of_nat 0) with 64.
    eexists _, _. split; [|split; [|eapply pgoes_trans; [exact H0|eapply pgoes_trans; [exact H1|eapply pgoes_trans; [exact H2|exact H3]]]]]; lia.
  - set (A := 64 * 2 ^ Z.of_nat k) in *. assert (HA : 0 < 2 ^ Z.of_nat k) by (apply Z.pow_pos_nonneg; lia).
    replace (64 * 2 ^ Z.of_nat (S k)) with (A * 2) by (unfold A; rewrite Nat2Z.inj_succ, Z.pow_succ_r by lia; lia).
    assert (64 <= A) by (unfold A; lia). pose proof (pgoes_growf A ltac:(lia)) as H1.
    pose proof (pgoes_roomsf (Z.to_nat (A - 1)) (A - 1) (A * 2 - 1) (A * 2) B ltac:(lia) ltac:(lia)) as H2. replace (A - 1 - Z.of_nat (Z.to_nat (A - 1))) with 0 in H2 by lia.
    eexists _, _. split; [|split; [|eapply pgoes_trans; [exact IH|eapply pgoes_trans; [exact H1|exact H2]]]]; [lia|]. rewrite !Nat2Z.inj_add, Nat2Z.inj_mul, EB, Z2Nat.id by lia. nia.
Qed.
(** Then pushes at the back: each shift halves what is free in front *)
Lemma pgoes_shifts j S fs : 2 ^ (Z.of_nat j + 3) <= S -> exists m n, Z.of_nat m <= 2 ^ (Z.of_nat j + 2) * B /\ Z.of_nat j * (S - 2 ^ (Z.of_nat j + 2)) <= n /\
  pgoes (2 ^ (Z.of_nat j + 2) - 1, S - 1, S, B, fs) (3, S - 1, S, B, fs) m n.
Proof.
  pose proof (nB_B P HP) as [EB Hp]. induction j as [|j IH]; intros HS.
  - exists 0%nat, 0. split; [change (2 ^ (Z.of_nat 0 + 2)) with 4; lia|]. split; [lia|]. eapply pgoes_eq; [apply pgoes_refl|..]; reflexivity.
  - replace (Z.of_nat (Datatypes.S j) + 3) with (Z.succ (Z.of_nat j + 3)) in HS by lia. replace (Z.of_nat (Datatypes.S j) + 2) with (Z.succ (Z.of_nat j + 2)) by lia.
    rewrite Z.pow_succ_r in HS by lia. replace (Z.of_nat j + 3) with (Z.succ (Z.of_nat j + 2)) in HS, IH by lia. rewrite Z.pow_succ_r in HS, IH by lia. rewrite Z.pow_succ_r by lia.
    pose proof (Z.pow_le_mono_r 2 2 (Z.of_nat j + 2) ltac:(lia) ltac:(lia)) as H4. change (2 ^ 2) with 4 in H4. set (w := 2 ^ (Z.of_nat j + 2)) in *.
    destruct IH as (m & n & Hm & Hn & IH); [lia|]. assert (Eh : (2 * w - 1) / 2 = w - 1) by (symmetry; apply (Z.div_unique_pos _ _ _ 1); lia).
    pose proof (pgoes_shift_fill (2 * w - 1) S fs ltac:(lia) ltac:(lia)) as H1. rewrite Eh in H1.
    eexists _, _. split; [|split; [|eapply pgoes_trans; [exact H1|exact IH]]].
    + rewrite Nat2Z.inj_add, Nat2Z.inj_mul, EB, Z2Nat.id by lia. nia.
    + rewrite Nat2Z.inj_succ. nia.
Qed.

Lemma deq_push_dear (x : V) (K : Z) : 0 < K -> exists ops h d n, Forall push_op ops /\ deq_run_n P bheap0 (deq_default P) ops = Ok (h, d, n) /\ K * zlen ops <= n /\ ops <> [].
Proof.
  intros HK. pose proof (nB_B P HP) as [EB Hp].
  set (k := Z.to_nat (4 * B * K)). destruct (pgoes_setup k) as (m & n0 & Hn0 & Hm & H1). assert (HA0 : 0 < 2 ^ Z.of_nat k) by (apply Z.pow_pos_nonneg; lia).
  set (A := 64 * 2 ^ Z.of_nat k) in *. assert (HA : 64 <= A) by (unfold A; lia). pose proof (pgoes_growf A ltac:(lia)) as H2.
  destruct (pgoes_shifts (k + 4) (A * 2) (-1)) as (m2 & n2 & Hm2 & Hn2 & H3).
  { replace (Z.of_nat (k + 4) + 3) with (7 + Z.of_nat k) by lia. rewrite Z.pow_add_r by lia. change (2 ^ 7) with 128. unfold A. lia. }
  replace (Z.of_nat (k + 4) + 2) with (6 + Z.of_nat k) in * by lia. rewrite Z.pow_add_r in * by lia. change (2 ^ 6) with 64 in *. fold A in Hm2, Hn2, H3.
  pose proof (pgoes_trans _ _ _ _ _ _ _ H1 (pgoes_trans _ _ _ _ _ _ _ H2 H3)) as H5.
  pose proof HP as [HP1 _]. destruct (dstart_inv P HP (@bheap0 V) (deq_default P) [] (dst_default P)) as (ids & frees & Hd).
  destruct (dpush_ok P HP1 bheap0 (deq_default P) [] ids frees x Hd) as (h1 & d1 & ids1 & frees1 & E1 & Hd1 & _).
  destruct (step_n_deq P bheap0 (deq_default P) (QPushB x) h1 d1 VUnit) as (n1 & En1); [cbn [qdop deq_step]; rewrite E1; reflexivity|].
  pose proof (push_ctl P _ _ _ _ _ _ En1) as Hc. unfold cpush, ctl, deq_default in Hc. cbn [d_front d_back d_slots d_bsize d_fsize] in Hc. destruct (Z.leb_spec B B); [|lia]. rewrite Z.eqb_refl in Hc.
  destruct Hd1 as [(_ & Hbad & _)|(t & Hl)]; [discriminate|].
  destruct (H5 x h1 d1) as (ops & h & d & Hlen & Hq & Er & _). { exists ([] ++ [x]), ids1, frees1, t. split; [exact Hl|]. unfold ctl. congruence. }
  exists (QPushB x :: ops), h, d, (n1 + (n0 + (A + n2))). split; [constructor; [exact I|exact Hq]|]. split; [cbn [deq_run_n]; rewrite En1; cbn [obind]; rewrite Er; reflexivity|].
  split; [|discriminate]. assert (n1 = 0) as -> by congruence. unfold zlen. cbn [length]. rewrite Hlen.
  assert (Ek : Z.of_nat k = 4 * B * K) by (unfold k; nia). rewrite Nat2Z.inj_add, Ek in Hn2. rewrite Nat2Z.inj_succ, !Nat2Z.inj_add, EB.
  assert (Hup : Z.succ (Z.of_nat m + (B + Z.of_nat m2)) <= 4 * A * B) by nia. assert (Hlow : 4 * B * K * A <= n2) by nia. nia.
Qed.
End push.
