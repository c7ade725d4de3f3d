(** StackBuffer: which memory is left.  A block is accounted for if some buffer's [data] points to it. *)
From stdpp Require Import gmap.
From Verif Require Import Base Heap StackModel Leak.

Lemma stk_step_len s o s' x : stk_step s o = Ok (s', x) -> zlen (k_mem s') = zlen (k_mem s).
Proof.
  destruct o as [d n|k| | | | | | |]; cbn [stk_step]; try (intros [= <- <-]; reflexivity).
  - intros ([s1 b] & E & [= <- <-])%obind_ok. unfold stk_push in E. destruct d as [d|]; [|injection E as <- <-; reflexivity].
    destruct (n <=? 0); [injection E as <- <-; reflexivity|]. destruct (negb _); [injection E as <- <-; reflexivity|].
    apply obind_ok in E as (bs & _ & E). apply obind_ok in E as (m1 & E1 & E). apply obind_ok in E as (m2 & E2 & E). apply obind_ok in E as (m3 & E3 & [= <- <-]). cbn.
    apply mwrite_len in E1, E2, E3. congruence.
  - intros ([[s1 z] bs] & E & [= <- <-])%obind_ok. unfold stk_pop in E. destruct (0 <? k_count s); [|injection E as <- <- <-; reflexivity].
    apply obind_ok in E as (blk & _ & E). destruct (blk <=? k); [|injection E as <- <- <-; reflexivity].
    apply obind_ok in E as (off & _ & E). apply obind_ok in E as (b & _ & E). destruct (k_count s - 1 =? 0); injection E as <- <- <-; reflexivity.
  - intros (z & _ & [= <- <-])%obind_ok. reflexivity.
  - intros (s1 & E & [= <- <-])%obind_ok. unfold stk_reverse in E. destruct (1 <? k_count s); [|injection E as <-; reflexivity].
    apply obind_ok in E as (bs & _ & E). apply obind_ok in E as (m & E & [= <-]). cbn. eapply mwrite_len; eassumption.
Qed.

(** Constructors make objects under names not in use *)
Definition swfresh (objs : gmap nat sbuf) (p : swop) : Prop :=
  match p with SDefault o | SNew o _ | SCopy o _ | SMove o _ => objs !! o = None | _ => True end.
(** No array of size 0 is kept: only the constructor can do that *)
Definition swnozero (p : swop) : Prop := match p with SNew _ n => n <> 0 | _ => True end.

Section leak.
Variable strict : Prop.
Notation linv := (linv b_data b_acap strict).
Notation tr := (tr strict).

Lemma sresize_memory_tr h objs o b b0 n cd h' b' : linv h objs -> objs !! o = Some b ->
  b_data b0 = b_data b -> b_acap b0 = b_acap b -> sb_resize_memory h b0 n cd = Ok (h', b') ->
  tr h h' (b_data b) (b_data b') (b_acap b').
Proof.
  intros I Eo Ed Ea. unfold sb_resize_memory.
  destruct (n =? b_stated b0). { intros [= <- <-]. apply (tr_same b_data b_acap strict h h objs o b b0); auto. }
  rewrite Ea. destruct (Z.ltb_spec (b_acap b) n) as [Hn|Hn].
  - intros ([id h1] & A & H)%obind_ok. apply hl_alloc in A as (Hn0 & -> & A1 & A2). apply obind_ok in H as (h3 & H3 & [= <- <-]). cbn.
    destruct (Z.ltb_spec 0 (b_acap b)) as [Hp|Hp].
    + apply obind_ok in H3 as (h2 & H2 & H3). apply hl_free in H3 as (F1 & F2).
      assert (Hs : (forall i, hl h2 i = hl h1 i) /\ h_next h2 = h_next h1) by (destruct cd; [eapply hl_copy; eassumption|injection H2 as <-; auto]).
      destruct Hs as (S1 & S2). eapply tr_realloc; eauto; [congruence| | |].
      * rewrite F2, S1, A2, Ed. rewrite (decide_True (P := h_next h = h_next h)) by reflexivity. case_decide as F; [|reflexivity].
        exfalso. pose proof (l_old _ _ _ _ _ I _ _ _ Eo F). lia.
      * intros i _ _ D. rewrite F2, Ed. rewrite decide_True by assumption. reflexivity.
      * intros i Hi D. rewrite F2, S1, A2, Ed. rewrite decide_False by tauto. rewrite decide_False by congruence. reflexivity.
    + injection H3 as <-. eapply tr_realloc; eauto.
      * rewrite A2. rewrite decide_True by reflexivity. reflexivity.
      * lia.
      * intros i Hi _. rewrite A2. rewrite decide_False by congruence. reflexivity.
  - intros [= <- <-]. cbn. rewrite Ed. apply (tr_same b_data b_acap strict h h objs o b b); auto.
Qed.

Lemma sresize_tr h objs o b n h' b' r : linv h objs -> objs !! o = Some b -> sb_resize h b n = Ok (h', b', r) -> tr h h' (b_data b) (b_data b') (b_acap b').
Proof.
  intros I Eo. unfold sb_resize.
  assert (Hs : forall h2 b2, (forall i, hl h2 i = hl h i) -> h_next h2 = h_next h -> b_data b2 = b_data b -> b_acap b2 = b_acap b -> tr h h2 (b_data b) (b_data b2) (b_acap b2)).
  { intros h2 b2 E1 E2 E3 E4. exact (tr_same b_data b_acap strict h h2 objs o b b2 I Eo E1 E2 E3 E4). }
  destruct (n <? 0); [intros [= <- <- <-]; apply Hs; auto|].
  destruct (n =? b_size b); [intros [= <- <- <-]; apply Hs; auto|].
  destruct (b_count b =? 0).
  { intros ([h1 b1] & E & [= <- <- <-])%obind_ok. cbn. eapply (sresize_memory_tr h objs o b b); eauto. }
  destruct (b_stated b <? n).
  { intros ([h1 b1] & E & H)%obind_ok. apply (sresize_memory_tr h objs o b b) in E; auto.
    apply obind_ok in H as (m & Em & [= <- <- <-]). cbn. apply mmove_len in Em. apply hl_get_put in Em as [M1 M2]. eapply tr_ext; eauto. }
  destruct (n <? _); [intros [= <- <- <-]; apply Hs; auto|].
  intros (m & Em & [= <- <- <-])%obind_ok. apply mmove_len in Em. apply hl_get_put in Em as [M1 M2]. apply Hs; auto.
Qed.

Lemma sget_some w o b : sget w o = Ok b -> s_objs w !! o = Some b.
Proof. unfold sget. destruct (s_objs w !! o); congruence. Qed.

Lemma swstep_linv w p w' x : (strict -> swnozero p) -> swfresh (s_objs w) p -> linv (s_heap w) (s_objs w) -> swstep w p = Ok (w', x) ->
  linv (s_heap w') (s_objs w').
Proof.
  intros Hz Hf I. destruct p as [o|o n|o src|o src|o src|o src|o o'|o n|o c|o]; cbn [swstep swnozero swfresh] in *.
  - intros [= <- <-]. cbn. eapply linv_update; [eassumption|left; eauto|]. cbn. pose proof I as [N O U L C Q P]. constructor; auto; try lia; try discriminate.
    intros i m F _ G. apply N in F. lia.
  - destruct (sb_new (s_heap w) n) as [[h b]| |] eqn:E; [|intros [= <- <-]; assumption|discriminate]. intros [= <- <-]. cbn.
    unfold sb_new in E. apply obind_ok in E as ([id h1] & A & [= <- <-]). apply hl_alloc in A as (Hn0 & -> & A1 & A2).
    eapply linv_update; [eassumption|left; eauto|]. cbn. eapply tr_alloc; eauto.
  - intros (bs & E & H)%obind_ok. apply sget_some in E. destruct (sb_copy (s_heap w) bs) as [[h b]| |] eqn:K; [|injection H as <- <-; assumption|discriminate].
    injection H as <- <-. cbn. unfold sb_copy in K. apply obind_ok in K as ([id h1] & A & K). apply hl_alloc in A as (Hn0 & -> & A1 & A2).
    eapply linv_update; [eassumption|left; eauto|]. destruct (_ && _) eqn:Ed.
    + apply andb_prop in Ed as [_ Ed%Z.ltb_lt].
      apply obind_ok in K as (h2 & K & [= <- <-]). cbn. apply hl_copy in K as [K1 K2]. eapply tr_ext; [eapply tr_alloc; eauto|exact K1|exact K2]. lia.
    + apply obind_ok in K as (h2 & K & [= <- <-]). cbn. apply hl_free in K as [K1 K2]. eapply tr_tmp; eauto; [congruence| |].
      * intros i Hi. rewrite K2, A2. rewrite !decide_False by congruence. reflexivity.
      * rewrite K2. rewrite decide_True by reflexivity. reflexivity.
  - intros (bs & E & [= <- <-])%obind_ok. apply sget_some in E. cbn. assert (o <> src) by congruence. rewrite insert_commute by assumption.
    eapply linv_move; eauto. cbn. lia.
  - intros (bd & E & H)%obind_ok. apply sget_some in E. apply obind_ok in H as (bs & Es & H). apply obind_ok in H as ([h b] & K & [= <- <-]). cbn.
    unfold sb_copy_assign in K. apply obind_ok in K as ([h1 b1] & R & K). apply obind_ok in K as (h2 & K & [= <- <-]).
    eapply linv_update; [eassumption|right; eauto|]. cbn. apply hl_copy in K as [K1 K2]. eapply tr_ext; [|exact K1|exact K2].
    eapply (sresize_memory_tr _ _ _ bd); [eassumption|eassumption| | |exact R]; reflexivity.
  - intros (bd & E & H)%obind_ok. apply sget_some in E. apply obind_ok in H as (bs & Es & H). apply sget_some in Es. apply obind_ok in H as ([[h b] bs'] & K & [= <- <-]). cbn.
    unfold sb_move_assign in K. apply obind_ok in K as (h1 & K & [= <- <- <-]). apply hl_free in K as [K1 K2].
    assert (Hq : 0 <= b_acap bs) by (eapply (l_cap _ _ _ _ _ I); eassumption).
    assert (I1 : linv h1 (<[o := SBuf None 0 0 None 0 0 0 0]> (s_objs w))).
    { eapply linv_update; [eassumption|right; eauto|]. cbn. eapply tr_free; eauto. }
    destruct (decide (o = src)) as [<-|Hne].
    + rewrite insert_insert. rewrite <- (insert_insert (s_objs w) o _ (SBuf None 0 0 None 0 0 0 0)).
      eapply linv_update; [exact I1|right; exists (SBuf None 0 0 None 0 0 0 0); rewrite lookup_insert; auto|]. cbn.
      destruct I1 as [N O U L C Q P]. constructor; auto; try lia; try discriminate. intros i m F _ G. apply N in F. lia.
    + rewrite <- (insert_insert (s_objs w) o _ (SBuf None 0 0 None 0 0 0 0)). eapply linv_move; eauto; cbn; try lia.
      * right. exists (SBuf None 0 0 None 0 0 0 0). rewrite lookup_insert. auto.
      * rewrite lookup_insert_ne by assumption. assumption.
  - intros (b & E & H)%obind_ok. apply sget_some in E. apply obind_ok in H as (b' & E' & [= <- <-]). apply sget_some in E'. cbn. eapply linv_swap; eauto.
  - intros (b & E & H)%obind_ok. apply sget_some in E. apply obind_ok in H as ([[h b'] r] & K & [= <- <-]). cbn.
    eapply linv_update; [eassumption|right; eauto|]. eapply sresize_tr; eauto.
  - intros (b & E & H)%obind_ok. apply sget_some in E. apply obind_ok in H as ([[h b'] r] & K & [= <- <-]). cbn.
    unfold sb_op in K. apply obind_ok in K as ([s y] & K & [= <- <- <-]). apply stk_step_len in K. cbn in K. apply hl_get_put in K as [K1 K2].
    eapply linv_update; [eassumption|right; eauto|]. eapply (tr_same b_data b_acap strict (s_heap w) _ (s_objs w) o b); eauto.
  - intros (b & E & H)%obind_ok. apply sget_some in E. apply obind_ok in H as (h & K & [= <- <-]). cbn.
    eapply linv_drop; [eassumption|eassumption|]. unfold sb_destroy in K. apply hl_free in K as [K1 K2]. eapply tr_free; eauto.
Qed.
End leak.
