(** The cost of growing a StableBlockDeque that is only used at its front. *)
From stdpp Require Import gmap.
From Verif Require Import Base BlkHeap BlkProofs BlkIter VecModel VecSpec VecFinal DeqModel DeqSpec DeqProofs DeqFinal BlkMem BlkCost.

Section front.
Context {V : Type}.
Variable P : params.
Hypothesis HP : 0 <= expo P <= 30.
Notation B := (bsz P).
Implicit Types (h : bheap V) (d : deq) (x : V) (xs : list V).

Definition front_op (o : @qop V) : Prop := match o with QPushF _ | QPopF => True | _ => False end.

Ltac tup := repeat match goal with |- (_, _) = (_, _) => apply (f_equal2 pair) end; try reflexivity.
Definition cpushf (s : Z * Z * Z * Z * Z) : Z * Z * Z * Z * Z * Z :=
  let '(f, b, s, bs, fs) := s in
  if fs <? 0 then
    if s =? 0 then (30, 30, 64, B / 2, B / 2 - 2, 0)
    else if f =? 0 then
      if b <? s - 5 then ((s - b) / 2 - 1, (s - b) / 2 + b, s, bs, B - 2, b + 1) else (s - 1, s + b, s * 2, bs, B - 2, b + 1)
    else (f - 1, b, s, bs, B - 2, 0)
  else (f, b, s, bs, fs - 1, 0).
Lemma pushf_ctl h d x h' d' n : deq_push_front_n P h d x = Ok (h', d', n) -> (ctl d', n) = cpushf (ctl d) /\ d_size d' = d_size d + 1 /\ -1 <= d_fsize d'.
Proof.
  unfold deq_push_front_n. intros ([[h1 d1] n1] & E1 & E)%obind_ok. apply obind_ok in E as (c & _ & E). apply obind_ok in E as (h2 & Em & [= <- <- <-]).
  assert (Hj : 0 <= d_fsize d1) by (apply obind_ok in Em as (b & Em & _); unfold slot in Em; repeat case_match; try discriminate; lia).
  unfold ctl at 1. cbn [d_size d_data d_slots d_back d_front d_bsize d_fsize d_fl]. unfold cpushf, ctl. unfold deq_check_front_n in E1. destruct (d_fsize d <? 0); [|injection E1 as <- <- <-; split; [reflexivity|lia]].
  destruct (d_slots d =? 0).
  { apply obind_ok in E1 as ([h3 d3] & E3 & [= <- <- <-]). unfold deq_first_block in E3. cbn [talloc] in E3. apply obind_ok in E3 as ([[h4 f] c4] & _ & E3). apply obind_ok in E3 as (h5 & _ & [= <- <-]).
    cbn [d_size d_data d_slots d_back d_front d_bsize d_fsize d_fl] in *. split; [tup; lia|lia]. }
  apply obind_ok in E1 as ([[h3 d3] n3] & E3 & E1). apply obind_ok in E1 as ([[h4 f] c4] & _ & E1). apply obind_ok in E1 as (h5 & _ & [= <- <- <-]).
  cbn [d_size d_data d_slots d_back d_front d_bsize d_fsize d_fl] in *.
  destruct (Z.eqb_spec (d_front d) 0) as [F0|F0]; [|injection E3 as <- <- <-; split; [tup; lia|lia]]. rewrite F0 in *. destruct (d_back d <? d_slots d - 5).
  - apply obind_ok in E3 as (h6 & _ & [= <- <- <-]). cbn. split; [tup; lia|lia].
  - cbn [talloc] in E3. apply obind_ok in E3 as (h6 & _ & E3). apply obind_ok in E3 as (h7 & _ & [= <- <- <-]). cbn. split; [tup; lia|lia].
Qed.

(** What has been copied so far, from the counters; [p]: the most elements held so far *)
Definition fspent d (p n : Z) : Prop :=
  (d = deq_default P /\ n = 0) \/
  (-1 <= d_fsize d <= B - 1 /\ 0 <= d_bsize d /\ d_size d = (d_back d - d_front d) * B + d_bsize d - d_fsize d - 1 /\
   ((d_slots d = 64 /\ d_back d = 30 /\ n = 0) \/ (d_slots d = 64 /\ d_back d = 47 /\ n = 31) \/ (d_slots d = 64 /\ d_back d = 55 /\ n = 79) \/
    (d_slots d = 64 /\ d_back d = 59 /\ n = 135) \/
    (128 <= d_slots d /\ d_back d = d_slots d - 5 /\ n <= 195 + (d_slots d - 128) /\ (d_slots d - 10) * B <= 2 * p))).

Lemma front_spent ops : forall h d xs h' d' p n0 n, Forall front_op ops -> d_size d = zlen xs -> (forall k, zlen (dq_after xs (take k (map qdop ops))) <= p) ->
  fspent d p n0 -> deq_run_n P h d ops = Ok (h', d', n) -> fspent d' p (n0 + n).
Proof.
  pose proof (BP P HP) as HB. induction ops as [|o ops IH]; intros h d xs h' d' p n0 n Hf Hx Hp Hs; cbn [deq_run_n].
  - intros [= <- <- <-]. rewrite Z.add_0_r. exact Hs.
  - intros ([[h1 d1] n1] & E1 & E)%obind_ok. apply obind_ok in E as ([[h2 d2] n2] & E2 & [= <- <- <-]). rewrite Z.add_assoc. inversion Hf as [|? ? Ho Hf']; subst.
    assert (Hp' : forall k, zlen (dq_after (dq_next xs (qdop o)) (take k (map qdop ops))) <= p) by (intros k; exact (Hp (S k))).
    pose proof (Hp 0%nat) as Hp0. change (zlen xs <= p) in Hp0.
    destruct o as [x| |x|]; cbn in Ho; try contradiction; cbn [deq_step_n qdop dq_next] in *.
    + apply pushf_ctl in E1 as (Hc & Hsz & Hfs). eapply (IH h1 d1 (x :: xs)); [exact Hf'|rewrite zlen_cons; lia|exact Hp'| |exact E2]. clear IH E2 Hp Hp'.
      unfold cpushf, ctl in Hc. right. destruct Hs as [(-> & ->)|(Hfs0 & Hbs & Hss & Hs)].
      * cbn in Hc, Hsz. injection Hc as Ef Eb Es Ebs Efs ->. rewrite Ef, Eb, Es, Ebs in *. assert (0 <= B / 2) by (apply Z.div_pos; lia). assert (B / 2 <= B) by (apply Z.div_le_upper_bound; lia). lia.
      * assert (H64 : 64 <= d_slots d) by lia. destruct (Z.ltb_spec (d_fsize d) 0); [|injection Hc as Ef Eb Es Ebs Efs ->; rewrite Ef, Eb, Es, Ebs, Efs in *; rewrite Z.add_0_r; lia].
        destruct (Z.eqb_spec (d_slots d) 0); [lia|]. assert (Efs0 : d_fsize d = -1) by lia.
        destruct (Z.eqb_spec (d_front d) 0) as [F0|F0]; [|injection Hc as Ef Eb Es Ebs Efs ->; rewrite Ef, Eb, Es, Ebs, Efs in *; rewrite Z.add_0_r; nia].
        destruct (Z.ltb_spec (d_back d) (d_slots d - 5)); injection Hc as Ef Eb Es Ebs Efs ->; rewrite Ef, Eb, Es, Ebs, Efs in *; rewrite F0 in *.
        -- destruct Hs as [(E64 & Eb0 & ->)|[(E64 & Eb0 & ->)|[(E64 & Eb0 & ->)|Hs]]]; [| | |lia]; rewrite E64, Eb0 in *.
           ++ change ((64 - 30) / 2) with 17 in *. lia.
           ++ change ((64 - 47) / 2) with 8 in *. lia.
           ++ change ((64 - 55) / 2) with 4 in *. lia.
        -- assert (Hb5 : d_back d = d_slots d - 5 /\ n0 <= d_slots d + 71) by lia. destruct Hb5 as [Hb5 Hn0].
           split; [lia|]. split; [lia|]. split; [rewrite Hsz, Hss, Efs0; lia|]. right; right; right; right.
           assert (Hge : (d_slots d - 5) * B <= p) by (rewrite Hss, Efs0, Hb5 in Hx; lia). split; [lia|]. split; [lia|]. split; [lia|]. lia.
    + apply obind_ok in E1 as ([h3 d3] & E3 & [= <- <- <-]). rewrite Z.add_0_r. destruct (Z.eqb_spec (d_size d) 0) as [Ez|Ez].
      * assert (xs = []) as -> by (destruct xs; [reflexivity|rewrite zlen_cons in Hx; pose proof (zlen_nonneg xs); lia]).
        unfold deq_pop_front in E3. rewrite Ez in E3. injection E3 as <- <-. eapply (IH h d []); eauto.
      * pose proof (popf_ctl P _ _ _ _ E3 Ez) as Hc.
        assert (Hsz : d_size d3 = d_size d - 1).
        { clear - E3 Ez. unfold deq_pop_front in E3. destruct (Z.eqb_spec (d_size d) 0); [contradiction|]. apply obind_ok in E3 as ([h1 d1] & E1 & E). apply obind_ok in E as (c & _ & E). apply obind_ok in E as (h2 & _ & [= <- <-]).
          destruct (negb _); [injection E1 as <- <-; reflexivity|]. apply obind_ok in E1 as (c1 & _ & E1). apply obind_ok in E1 as ([h4 f] & _ & [= <- <-]). reflexivity. }
        destruct xs as [|x xs]; [change (zlen []) with 0 in Hx; lia|]. rewrite zlen_cons in Hx.
        eapply (IH h3 d3 xs); [exact Hf'|lia|exact Hp'| |exact E2]. unfold ctl in Hc. destruct Hs as [(-> & ->)|(Hfs0 & Hbs & Hss & Hs)]; [cbn in Ez; lia|].
        right. destruct (Z.eqb_spec (d_fsize d) (B - 1)); injection Hc as Ef Eb Es Ebs Efs; rewrite Ef, Eb, Es, Ebs, Efs in *; (split; [lia|]); (split; [lia|]); (split; [lia|exact Hs]).
Qed.

Lemma deq_front_cost ops h d tr p :
  Forall front_op ops -> deq_run P bheap0 (deq_default P) (map qdop ops) = Ok (h, d, tr) -> (forall k, zlen (dq_after [] (take k (map qdop ops))) <= p) ->
  exists n, deq_run_n P bheap0 (deq_default P) ops = Ok (h, d, n) /\ B * n <= 2 * p + 135 * B.
Proof.
  intros Hf E Hp. destruct (run_n_deq P _ _ _ _ _ _ E) as (n & En). exists n. split; [exact En|]. pose proof (BP P HP) as HB.
  pose proof (front_spent ops bheap0 (deq_default P) [] _ _ p 0 n Hf eq_refl Hp (or_introl (conj eq_refl eq_refl)) En) as Hs. rewrite Z.add_0_l in Hs.
  assert (Hp0 : 0 <= p) by (exact (Hp 0%nat)).
  destruct Hs as [(_ & ->)|(_ & _ & _ & [(_ & _ & ->)|[(_ & _ & ->)|[(_ & _ & ->)|[(_ & _ & ->)|(H1 & H2 & H3 & H4)]]]])]; nia.
Qed.
End front.
