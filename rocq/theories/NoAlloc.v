(** Memory requests of the block containers.  [nx h] names the next allocation, so it stays the same just when none is made. *)
From stdpp Require Import gmap.
From Verif Require Import Base BlkHeap VecModel DeqModel.

Section noalloc.
Context {V : Type}.
Variable P : params.
Notation B := (bsz P).
Implicit Types (h : bheap V) (v : vec) (d : deq) (x : V).

Ltac kill_ifs E := repeat match type of E with
  | context [match ?x with _ => _ end] => lazymatch x with context [match _ with _ => _ end] => fail | _ => destruct x end end.

Lemma tset_nx h p i c h1 : tset h p i c = Ok h1 -> nx h1 = nx h.
Proof. unfold tset. intros E. kill_ifs E; try discriminate. injection E as <-. reflexivity. Qed.
Lemma tdelete_nx h p h1 : tdelete h p = Ok h1 -> nx h1 = nx h.
Proof. unfold tdelete. intros E. kill_ifs E; try discriminate; injection E as <-; reflexivity. Qed.
Lemma tcopy_nx h p i n q k h1 : tcopy h p i n q k = Ok h1 -> nx h1 = nx h.
Proof. unfold tcopy. intros E. kill_ifs E; try discriminate. injection E as <-. reflexivity. Qed.
Lemma bfree_nx h c h1 : bfree h c = Ok h1 -> nx h1 = nx h.
Proof. unfold bfree. intros E. kill_ifs E; try discriminate. injection E as <-. reflexivity. Qed.
Lemma emake_nx h c j x h1 : emake P h c j x = Ok h1 -> nx h1 = nx h.
Proof. unfold emake. intros E. apply obind_ok in E as (b & _ & E). kill_ifs E; try discriminate. injection E as <-. reflexivity. Qed.
Lemma ekill_nx h c j h1 : ekill P h c j = Ok h1 -> nx h1 = nx h.
Proof. unfold ekill. intros E. apply obind_ok in E as (b & _ & E). kill_ifs E; try discriminate; injection E as <-; reflexivity. Qed.
Lemma kill_down_nx k : forall h p i lo h1, kill_down P h p i lo k = Ok h1 -> nx h1 = nx h.
Proof.
  induction k as [|k IH]; intros h p i lo h1 E; cbn [kill_down] in E; [injection E as <-; reflexivity|].
  apply obind_ok in E as (c & _ & E). apply obind_ok in E as (h2 & E2 & E). rewrite (IH _ _ _ _ _ E). eapply ekill_nx; exact E2.
Qed.
Lemma fl_free_nx k : forall h f i h1, fl_free h f i k = Ok h1 -> nx h1 = nx h.
Proof.
  induction k as [|k IH]; intros h f i h1 E; cbn [fl_free] in E; [injection E as <-; reflexivity|].
  apply obind_ok in E as (c & _ & E). apply obind_ok in E as (h2 & E2 & E). rewrite (IH _ _ _ _ E). eapply bfree_nx; exact E2.
Qed.

Lemma fl_put_nx h f c h1 f1 : fl_put h f c = Ok (h1, f1) ->
  (f_idx f < f_slots f /\ nx h1 = nx h /\ f_slots f1 = f_slots f \/ f_slots f <= f_idx f /\ (nx h < nx h1)%nat) /\ f_idx f1 = f_idx f + 1.
Proof.
  unfold fl_put. intros E. apply obind_ok in E as ([h2 f2] & E & F). apply obind_ok in F as (h3 & F & G). injection G as <- <-.
  apply tset_nx in F. cbn [f_idx f_slots]. destruct (Z.leb_spec (f_slots f) (f_idx f)).
  - destruct (f_slots f =? 0).
    + injection E as <- <-. cbn in *. split; [right; split; [lia|]|lia]. rewrite F. lia.
    + cbn [talloc] in E. apply obind_ok in E as (h4 & E4 & E). apply obind_ok in E as (h5 & E5 & E). injection E as <- <-. apply tcopy_nx in E4. apply tdelete_nx in E5.
      cbn in *. split; [right; split; [lia|]|lia]. rewrite F, E5, E4. cbn. lia.
  - injection E as <- <-. split; [left; rewrite F; auto|lia].
Qed.
Lemma fl_get_nx h f h1 f1 c : fl_get h f = Ok (h1, f1, c) -> (f_idx f = 0 /\ nx h1 = S (nx h)) \/ (f_idx f <> 0 /\ nx h1 = nx h).
Proof.
  unfold fl_get. destruct (Z.eqb_spec (f_idx f) 0); intros E; [injection E as <- <- <-; left; auto|].
  apply obind_ok in E as (c1 & _ & E). injection E as <- <- <-. right; auto.
Qed.

Lemma vpush_nx h v x h1 v1 : vec_push P h v x = Ok (h1, v1) ->
  (nx h <= nx h1)%nat /\ (nx h1 = nx h <-> v_bsize v < B \/ (f_idx (v_fl v) <> 0 /\ v_slots v <> 0 /\ v_idx v < v_slots v - 1)).
Proof.
  unfold vec_push. intros E. apply obind_ok in E as ([h2 v2] & E & F). apply obind_ok in F as (c & _ & F). apply obind_ok in F as (h3 & F & G).
  injection G as <- <-. apply emake_nx in F. rewrite F. clear F. unfold vec_block_check in E. destruct (Z.leb_spec B (v_bsize v)).
  2: { injection E as <- <-. split; [lia|]. split; [auto|reflexivity]. }
  apply obind_ok in E as ([h4 v4] & E & F). apply obind_ok in F as ([[h5 f] c5] & F & G). apply obind_ok in G as (h6 & G & K). injection K as <- <-.
  apply tset_nx in G. rewrite G. clear G. apply fl_get_nx in F. destruct (Z.eqb_spec (v_slots v) 0).
  - cbn [talloc] in E. injection E as <- <-. cbn [nx v_fl] in F. split; [lia|]. split; [lia|]. intros [?|(_ & ? & _)]; [lia|contradiction].
  - destruct (Z.leb_spec (v_slots v - 1) (v_idx v)).
    + cbn [talloc] in E. apply obind_ok in E as (h7 & E7 & E). apply obind_ok in E as (h8 & E8 & E). injection E as <- <-. apply tcopy_nx in E7. apply tdelete_nx in E8.
      cbn [nx v_fl] in *. split; [lia|]. split; [lia|]. intros [?|(_ & _ & ?)]; lia.
    + injection E as <- <-. split; [lia|]. split; [|lia]. intros ?. right. split; [|split; [assumption|lia]]. destruct F as [[? ?]|[? ?]]; [lia|assumption].
Qed.

Lemma vpop_nx h v h1 v1 : vec_pop P h v = Ok (h1, v1) ->
  (nx h <= nx h1)%nat /\ (nx h1 = nx h <-> v_size v = 0 \/ 0 < v_bsize v \/ f_idx (v_fl v) < f_slots (v_fl v)).
Proof.
  unfold vec_pop. intros E. destruct (Z.eqb_spec (v_size v) 0); [injection E as <- <-; split; [lia|tauto]|].
  apply obind_ok in E as ([h2 v2] & E & F). apply obind_ok in F as (c & _ & F). apply obind_ok in F as (h3 & F & G). injection G as <- <-. apply ekill_nx in F. rewrite F. clear F.
  destruct (Z.ltb_spec 0 (v_bsize v)); [injection E as <- <-; split; [lia|tauto]|].
  apply obind_ok in E as (c2 & _ & E). apply obind_ok in E as ([h4 f] & E & F). injection F as <- <-. apply fl_put_nx in E as [E _].
  split; [lia|]. split; [|lia]. intros. right. right. lia.
Qed.

Lemma vclear_mid_nx k : forall h v h1 f1, vec_clear_mid P h v k = Ok (h1, f1) ->
  (nx h <= nx h1)%nat /\ (nx h1 = nx h <-> k = O \/ f_idx (v_fl v) + Z.of_nat k <= f_slots (v_fl v)).
Proof.
  induction k as [|k IH]; intros h v h1 f1 E; cbn [vec_clear_mid] in E; [injection E as <- <-; split; [lia|tauto]|].
  apply obind_ok in E as (h2 & E2 & E). apply obind_ok in E as (c & _ & E). apply obind_ok in E as ([h3 f3] & E3 & E). apply kill_down_nx in E2.
  apply fl_put_nx in E3 as [E3 Ei]. apply IH in E as [E Eq]. cbn [v_fl] in *. rewrite E2 in *. split; [lia|].
  split; [intros Hn|intros [?|Hn]; [discriminate|]].
  - right. destruct E3 as [(? & En & Es)|(? & ?)]; [|lia]. rewrite En in Eq. apply Eq in Hn as [->|]; [lia|]. lia.
  - destruct E3 as [(? & En & Es)|(? & ?)]; [|lia]. rewrite <- En. apply Eq. right. lia.
Qed.

Lemma vclear_nx h v h1 v1 : vec_clear P h v = Ok (h1, v1) ->
  nx h1 = nx h <-> v_slots v <= 0 \/ v_idx v <= 0 \/ f_idx (v_fl v) + v_idx v <= f_slots (v_fl v).
Proof.
  unfold vec_clear. intros E. destruct (Z.leb_spec (v_slots v) 0); [injection E as <- <-; tauto|].
  apply obind_ok in E as (h2 & E2 & E). apply kill_down_nx in E2. destruct (Z.ltb_spec 0 (v_idx v)).
  2: { injection E as <- <-. rewrite E2. tauto. }
  apply obind_ok in E as (c & _ & E). apply obind_ok in E as ([h3 f3] & E3 & E). apply obind_ok in E as ([h4 f4] & E4 & E). apply obind_ok in E as (h5 & E5 & E).
  injection E as <- <-. apply kill_down_nx in E5. apply fl_put_nx in E3 as [E3 Ei]. apply vclear_mid_nx in E4 as [E4 Eq]. cbn [v_fl] in *. rewrite E5, E2 in *.
  split; [intros Hn|intros Hn].
  - right. right. destruct E3 as [(? & En & Es)|(? & ?)]; [|lia]. rewrite En in Eq. apply Eq in Hn as [?|]; lia.
  - destruct E3 as [(? & En & Es)|(? & ?)]; [|lia]. rewrite <- En. apply Eq. destruct (Z.to_nat (v_idx v - 1)) eqn:En0; [left; reflexivity|right]. lia.
Qed.

Lemma vfree_mid_nx k : forall h v h1, vec_free_mid P h v k = Ok h1 -> nx h1 = nx h.
Proof.
  induction k as [|k IH]; intros h v h1 E; cbn [vec_free_mid] in E; [injection E as <-; reflexivity|].
  apply obind_ok in E as (h2 & E2 & E). apply obind_ok in E as (c & _ & E). apply obind_ok in E as (h3 & E3 & E).
  apply IH in E. apply kill_down_nx in E2. apply bfree_nx in E3. congruence.
Qed.
Lemma vfree_nx h v h1 : vec_free_all P h v = Ok h1 -> nx h1 = nx h.
Proof.
  unfold vec_free_all. destruct (v_data v); [|intros E; injection E as <-; reflexivity]. intros E.
  apply obind_ok in E as (h2 & E2 & E). apply obind_ok in E as (h3 & E3 & E). apply obind_ok in E as (h4 & E4 & E). apply obind_ok in E as (h5 & E5 & E).
  apply obind_ok in E as (h6 & E6 & E). apply obind_ok in E as (h7 & E7 & E).
  apply kill_down_nx in E2. apply vfree_mid_nx in E4. apply fl_free_nx in E6. apply tdelete_nx in E7. apply tdelete_nx in E.
  assert (nx h3 = nx h2). { destruct (0 <? v_idx v); [apply obind_ok in E3 as (c & _ & E3); eapply bfree_nx; exact E3|injection E3 as <-; reflexivity]. }
  assert (nx h5 = nx h4). { destruct (v_idx v =? 0); [apply obind_ok in E5 as (c & _ & E5); eapply bfree_nx; exact E5|injection E5 as <-; reflexivity]. }
  congruence.
Qed.

Lemma dclear_mid_nx k : forall h t front f h1 f1, deq_clear_mid P h t front f k = Ok (h1, f1) ->
  (nx h <= nx h1)%nat /\ (nx h1 = nx h -> k = O \/ f_idx f + Z.of_nat k <= f_slots f) /\
  (k = O \/ f_idx f + Z.of_nat k <= f_slots f -> nx h1 = nx h /\ f_slots f1 = f_slots f) /\ f_idx f1 = f_idx f + Z.of_nat k.
Proof.
  induction k as [|k IH]; intros h t front f h1 f1 E; cbn [deq_clear_mid] in E; [injection E as <- <-; repeat split; lia|].
  apply obind_ok in E as (h2 & E2 & E). apply obind_ok in E as (c & _ & E). apply obind_ok in E as ([h3 f3] & E3 & E). apply kill_down_nx in E2.
  apply fl_put_nx in E3 as [E3 Ei]. apply IH in E as (E & Eq & Eq2 & Ek). rewrite E2 in *. split; [lia|]. split; [|split; [|lia]].
  - intros Hn. right. destruct E3 as [(? & En & Es)|(? & ?)]; [|lia]. rewrite En in Eq. specialize (Eq Hn). destruct Eq as [->|]; lia.
  - intros [?|Hn]; [discriminate|]. destruct E3 as [(? & En & Es)|(? & ?)]; [|lia]. rewrite <- En, <- Es. apply Eq2. right. lia.
Qed.

Lemma dclear_nx h d h1 d1 : deq_clear P h d = Ok (h1, d1) ->
  nx h1 = nx h <-> d_slots d = 0 \/ d_size d = 0 \/ d_back d <= d_front d \/ f_idx (d_fl d) + (d_back d - d_front d) <= f_slots (d_fl d).
Proof.
  unfold deq_clear. intros E. destruct (Z.eqb_spec (d_slots d) 0), (Z.eqb_spec (d_size d) 0); cbn [orb] in E;
    try (injection E as <- <-; tauto).
  apply obind_ok in E as (h2 & E2 & E). apply kill_down_nx in E2. apply obind_ok in E as ([h3 f3] & E3 & E). apply dclear_mid_nx in E3 as (E3 & Eq & Eq2 & Ek).
  apply obind_ok in E as ([h4 f4] & E4 & E). apply obind_ok in E as (c & _ & E). apply obind_ok in E as (h5 & E5 & E). injection E as <- <-. apply tset_nx in E5.
  rewrite E5, E2 in *. destruct (Z.ltb_spec (d_front d) (d_back d)).
  - apply obind_ok in E4 as (c4 & _ & E4). apply obind_ok in E4 as ([h6 f6] & E6 & E4). apply obind_ok in E4 as (h7 & E7 & E4). injection E4 as <- <-.
    apply kill_down_nx in E7. rewrite E7. apply fl_put_nx in E6 as [E6 _]. split.
    + intros Hn. right. right. right. destruct E6 as [(? & En & Es)|(? & ?)]; [|lia]. assert (Hn3 : nx h3 = nx h) by lia.
      destruct (Eq2 (Eq Hn3)) as [_ Es3]. lia.
    + intros Hn. assert (Hk : f_idx (d_fl d) + (d_back d - d_front d) <= f_slots (d_fl d)) by lia.
      destruct Eq2 as [En3 Es3]; [destruct (Z.to_nat (d_back d - 1 - d_front d)) eqn:En0; [left; reflexivity|right; lia]|].
      destruct E6 as [(? & En & Es)|(? & ?)]; [congruence|lia].
  - injection E4 as <- <-. replace (Z.to_nat (d_back d - 1 - d_front d)) with O in * by lia. split; [intros _; lia|]. intros _. apply Eq2. left; reflexivity.
Qed.

Lemma dfree_mid_nx k : forall h t front h1, deq_free_mid P h t front k = Ok h1 -> nx h1 = nx h.
Proof.
  induction k as [|k IH]; intros h t front h1 E; cbn [deq_free_mid] in E; [injection E as <-; reflexivity|].
  apply obind_ok in E as (h2 & E2 & E). apply obind_ok in E as (c & _ & E). apply obind_ok in E as (h3 & E3 & E).
  apply IH in E. apply kill_down_nx in E2. apply bfree_nx in E3. congruence.
Qed.
Lemma dfree_nx h d h1 : deq_free_all P h d = Ok h1 -> nx h1 = nx h.
Proof.
  unfold deq_free_all. destruct (d_data d); [|intros E; injection E as <-; reflexivity]. intros E.
  apply obind_ok in E as (h2 & E2 & E). apply obind_ok in E as (h3 & E3 & E). apply obind_ok in E as (h4 & E4 & E).
  apply fl_free_nx in E3. apply tdelete_nx in E4. apply tdelete_nx in E.
  assert (nx h2 = nx h); [|congruence]. destruct (d_back d =? d_front d).
  - apply obind_ok in E2 as (h5 & E5 & E2). apply obind_ok in E2 as (c & _ & E2). apply kill_down_nx in E5. apply bfree_nx in E2. congruence.
  - apply obind_ok in E2 as (h5 & E5 & E2). apply obind_ok in E2 as (c & _ & E2). apply obind_ok in E2 as (h6 & E6 & E2). apply obind_ok in E2 as (h7 & E7 & E2).
    apply obind_ok in E2 as (h8 & E8 & E2). apply obind_ok in E2 as (c8 & _ & E2).
    apply kill_down_nx in E5. apply bfree_nx in E6. apply dfree_mid_nx in E7. apply kill_down_nx in E8. apply bfree_nx in E2. congruence.
Qed.

Lemma make_up_nx k : forall h p i lo x h1, make_up P h p i lo k x = Ok h1 -> nx h1 = nx h.
Proof.
  induction k as [|k IH]; intros h p i lo x h1 E; cbn [make_up] in E; [injection E as <-; reflexivity|].
  apply obind_ok in E as (c & _ & E). apply obind_ok in E as (h2 & E2 & E). rewrite (IH _ _ _ _ _ _ E). eapply emake_nx; exact E2.
Qed.
Lemma fill_nx k : forall h t i last r x h1, fill_blocks P h t i k last r x = Ok h1 -> nx h1 = (nx h + k)%nat.
Proof.
  induction k as [|k IH]; intros h t i last r x h1 E; cbn [fill_blocks] in E; [injection E as <-; lia|].
  cbn [balloc] in E. apply obind_ok in E as (h2 & E2 & E). apply obind_ok in E as (h3 & E3 & E). apply IH in E. apply tset_nx in E2. apply make_up_nx in E3.
  cbn in E2. lia.
Qed.
Lemma vsized_nx h n x h1 v1 : 0 <= expo P -> 0 <= n -> vec_sized P h n x = Ok (h1, v1) -> nx h1 = (nx h + 2 + Z.to_nat (n / B))%nat.
Proof.
  intros HP Hn. unfold vec_sized. cbn [talloc]. intros E. apply obind_ok in E as (h2 & E2 & E). injection E as <- <-.
  assert (EB : Z.shiftr n (expo P) = n / B) by (unfold bsz; rewrite Z.shiftr_div_pow2, Z.shiftl_mul_pow2 by exact HP; f_equal; lia). rewrite EB in E2.
  assert (0 < B) by (unfold bsz; rewrite Z.shiftl_mul_pow2 by exact HP; lia). pose proof (Z.div_pos n B Hn ltac:(lia)).
  destruct (Z.eqb_spec n 0) as [->|].
  - cbn [balloc] in E2. apply tset_nx in E2. cbn in E2. rewrite Z.div_0_l by lia. lia.
  - apply fill_nx in E2. cbn in E2. lia.
Qed.
End noalloc.
