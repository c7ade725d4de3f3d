(** CircularBuffer: which memory is left.  A block is accounted for if some buffer's [data] points to it. *)
From stdpp Require Import gmap.
From Verif Require Import Base Heap CircModel CircBufModel Leak.

Lemma circ_put_len m off d n m' : circ_put m off d n = Ok m' -> zlen m' = zlen m.
Proof. unfold circ_put. intros (m1 & E1 & H)%obind_ok. apply obind_ok in H as (bs & _ & H). apply mwrite_len in E1, H. congruence. Qed.
Lemma circ_step_len s o s' x : circ_step s o = Ok (s', x) -> zlen (c_mem s') = zlen (c_mem s).
Proof.
  destruct o as [d n|k| | | | |]; cbn [circ_step].
  - intros ([s1 b] & E & [= <- <-])%obind_ok. unfold circ_push in E. destruct d as [d|]; [|injection E as <- <-; reflexivity].
    destruct (n <=? 0); [injection E as <- <-; reflexivity|]. destruct (c_r s <=? c_w s).
    + destruct (n + 4 <=? c_cap s - c_w s).
      * apply obind_ok in E as (m & E & [= <- <-]). cbn. eapply circ_put_len; eassumption.
      * destruct (n + 4 <=? c_r s); [|injection E as <- <-; reflexivity].
        apply obind_ok in E as (m1 & E1 & E). apply obind_ok in E as (m & E & [= <- <-]). cbn. apply mwrite_len in E1. apply circ_put_len in E. congruence.
    + destruct (n + 4 <=? c_r s - c_w s); [|injection E as <- <-; reflexivity].
      apply obind_ok in E as (m & E & [= <- <-]). cbn. eapply circ_put_len; eassumption.
  - intros ([[s1 z] bs] & E & [= <- <-])%obind_ok. unfold circ_pop in E. destruct (c_w s =? c_r s); [injection E as <- <- <-; reflexivity|].
    apply obind_ok in E as (sz0 & _ & E). apply obind_ok in E as ([r sz] & _ & E). destruct (sz <=? k).
    + apply obind_ok in E as (b & _ & [= <- <- <-]). reflexivity.
    + injection E as <- <- <-. reflexivity.
  - intros (z & _ & [= <- <-])%obind_ok. reflexivity.
  - intros [= <- <-]. reflexivity.
  - intros [= <- <-]. reflexivity.
  - intros [= <- <-]. reflexivity.
  - intros [= <- <-]. reflexivity.
Qed.

(** Constructors make objects under names not in use *)
Definition wfresh (objs : gmap nat cbuf) (p : wop) : Prop :=
  match p with WDefault o | WNew o _ | WCopy o _ | WMove o _ => objs !! o = None | _ => True end.
(** No array of size 0 is kept: neither by the constructor nor by a copy *)
Definition wnozero (objs : gmap nat cbuf) (p : wop) : Prop :=
  match p with
  | WNew _ n => n <> 0
  | WCopy _ src => forall b, objs !! src = Some b -> b_data b <> None -> b_asize b <> 0
  | _ => True
  end.

Section leak.
Variable strict : Prop.
Notation linv := (linv b_data b_acap strict).
Notation tr := (tr strict).

Lemma resize_memory_tr h objs o b b0 n cd h' b' : linv h objs -> objs !! o = Some b ->
  b_data b0 = b_data b -> b_acap b0 = b_acap b -> cb_resize_memory h b0 n cd = Ok (h', b') ->
  tr h h' (b_data b) (b_data b') (b_acap b').
Proof.
  intros I Eo Ed Ea. unfold cb_resize_memory. rewrite Ea. destruct (Z.ltb_spec (b_acap b) n) as [Hn|Hn].
  - intros ([id h1] & A & H)%obind_ok. apply hl_alloc in A as (Hn0 & -> & A1 & A2). apply obind_ok in H as (h3 & H3 & [= <- <-]). cbn.
    destruct (Z.ltb_spec 0 (b_acap b)) as [Hp|Hp].
    + apply obind_ok in H3 as (h2 & H2 & H3). apply hl_free in H3 as (F1 & F2).
      assert (Hs : (forall i, hl h2 i = hl h1 i) /\ h_next h2 = h_next h1) by (destruct cd; [eapply hl_copy; eassumption|injection H2 as <-; auto]).
      destruct Hs as (S1 & S2). eapply tr_realloc; eauto; [congruence| | |].
      * rewrite F2, S1, A2, Ed. rewrite (decide_True (P := h_next h = h_next h)) by reflexivity. case_decide as F; [|reflexivity].
        exfalso. pose proof (l_old _ _ _ _ _ I _ _ _ Eo F). lia.
      * intros i _ _ D. rewrite F2, Ed. rewrite decide_True by assumption. reflexivity.
      * intros i Hi D. rewrite F2, S1, A2, Ed. rewrite decide_False by tauto. rewrite decide_False by congruence. reflexivity.
    + injection H3 as <-. eapply tr_realloc; eauto.
      * rewrite A2. rewrite decide_True by reflexivity. reflexivity.
      * lia.
      * intros i Hi _. rewrite A2. rewrite decide_False by congruence. reflexivity.
  - intros [= <- <-]. cbn. rewrite Ed. apply (tr_same b_data b_acap strict h h objs o b b); auto.
Qed.

Lemma resize_tr h objs o b n h' b' r : linv h objs -> objs !! o = Some b -> cb_resize h b n = Ok (h', b', r) -> tr h h' (b_data b) (b_data b') (b_acap b').
Proof.
  intros I Eo. unfold cb_resize.
  assert (Hs : forall h2 b2, (forall i, hl h2 i = hl h i) -> h_next h2 = h_next h -> b_data b2 = b_data b -> b_acap b2 = b_acap b -> tr h h2 (b_data b) (b_data b2) (b_acap b2)).
  { intros h2 b2 E1 E2 E3 E4. exact (tr_same b_data b_acap strict h h2 objs o b b2 I Eo E1 E2 E3 E4). }
  assert (Hm : forall p m d s k, mmove (hget h p) d s k = Ok m -> (forall i, hl (hput h p m) i = hl h i) /\ h_next (hput h p m) = h_next h).
  { intros p m d s k E. apply hl_get_put. eapply mmove_len; eassumption. }
  destruct (n =? b_cap b); [intros [= <- <- <-]; apply Hs; auto|].
  destruct (b_w b =? b_r b).
  { intros ([h1 b1] & E & [= <- <- <-])%obind_ok. cbn. eapply (resize_memory_tr h objs o b b); eauto. }
  destruct (b_asize b <? n).
  { intros ([h1 b1] & E & H)%obind_ok. apply (resize_memory_tr h objs o b b) in E; auto. destruct (b_r b <? b_w b); [injection H as <- <- <-; exact E|].
    apply obind_ok in H as (m & Em & [= <- <- <-]). cbn. apply mmove_len in Em. apply hl_get_put in Em as [M1 M2]. eapply tr_ext; eauto. }
  destruct (b_r b <? b_w b).
  - destruct (b_w b <=? n); [intros [= <- <- <-]; apply Hs; auto|]. destruct (b_w b - b_r b <? n); [|intros [= <- <- <-]; apply Hs; auto].
    intros (m & Em & [= <- <- <-])%obind_ok. apply Hm in Em as [M1 M2]. apply Hs; auto.
  - destruct (_ <? n); [|intros [= <- <- <-]; apply Hs; auto].
    intros (m & Em & [= <- <- <-])%obind_ok. apply Hm in Em as [M1 M2]. apply Hs; auto.
Qed.

Lemma wget_some w o b : wget w o = Ok b -> w_objs w !! o = Some b.
Proof. unfold wget. destruct (w_objs w !! o); congruence. Qed.

Lemma wstep_linv w p w' x : (strict -> wnozero (w_objs w) p) -> wfresh (w_objs w) p -> linv (w_heap w) (w_objs w) -> wstep w p = Ok (w', x) ->
  linv (w_heap w') (w_objs w').
Proof.
  intros Hz Hf I. destruct p as [o|o n|o src|o src|o src|o src|o n|o c|o]; cbn [wstep wnozero wfresh] in *.
  - intros [= <- <-]. cbn. eapply linv_update; [eassumption|left; eauto|]. cbn. pose proof I as [N O U L C Q P]. constructor; auto; try lia; try discriminate.
    intros i m F _ G. apply N in F. lia.
  - destruct (cb_new (w_heap w) n) as [[h b]| |] eqn:E; [|intros [= <- <-]; assumption|discriminate]. intros [= <- <-]. cbn.
    unfold cb_new in E. apply obind_ok in E as ([id h1] & A & [= <- <-]). apply hl_alloc in A as (Hn0 & -> & A1 & A2).
    eapply linv_update; [eassumption|left; eauto|]. cbn. eapply tr_alloc; eauto.
  - intros (bs & E & H)%obind_ok. apply wget_some in E. destruct (cb_copy (w_heap w) bs) as [[h b]| |] eqn:K; [|injection H as <- <-; assumption|discriminate].
    injection H as <- <-. cbn. unfold cb_copy in K. apply obind_ok in K as ([id h1] & A & K). apply hl_alloc in A as (Hn0 & -> & A1 & A2).
    eapply linv_update; [eassumption|left; eauto|]. destruct (b_data bs) as [d|] eqn:Ed.
    + apply obind_ok in K as (h2 & K & [= <- <-]). cbn. apply hl_copy in K as [K1 K2]. eapply tr_ext; [eapply tr_alloc; eauto|exact K1|exact K2].
      intros S. apply (Hz S bs); congruence.
    + apply obind_ok in K as (h2 & K & [= <- <-]). cbn. apply hl_free in K as [K1 K2]. eapply tr_tmp; eauto; [congruence| |].
      * intros i Hi. rewrite K2, A2. rewrite !decide_False by congruence. reflexivity.
      * rewrite K2. rewrite decide_True by reflexivity. reflexivity.
  - intros (bs & E & [= <- <-])%obind_ok. apply wget_some in E. cbn. assert (o <> src) by congruence. rewrite insert_commute by assumption.
    eapply linv_move; eauto. cbn. lia.
  - intros (bd & E & H)%obind_ok. apply wget_some in E. apply obind_ok in H as (bs & Es & H). apply obind_ok in H as ([h b] & K & [= <- <-]). cbn.
    unfold cb_copy_assign in K. apply obind_ok in K as ([h1 b1] & R & K). apply obind_ok in K as (h2 & K & [= <- <-]).
    eapply linv_update; [eassumption|right; eauto|]. cbn. apply hl_copy in K as [K1 K2]. eapply tr_ext; [|exact K1|exact K2].
    eapply (resize_memory_tr _ _ _ bd); [eassumption|eassumption| | |exact R]; reflexivity.
  - intros (bd & E & H)%obind_ok. apply wget_some in E. apply obind_ok in H as (bs & Es & H). apply wget_some in Es. apply obind_ok in H as ([[h b] bs'] & K & [= <- <-]). cbn.
    unfold cb_move_assign in K. apply obind_ok in K as (h1 & K & [= <- <- <-]). apply hl_free in K as [K1 K2].
    assert (I1 : linv h1 (<[o := cb_default]> (w_objs w))).
    { eapply linv_update; [eassumption|right; eauto|]. cbn. eapply tr_free; eauto. }
    destruct (decide (o = src)) as [<-|Hne]; [rewrite insert_insert; exact I1|].
    rewrite <- (insert_insert (w_objs w) o _ cb_default). eapply linv_move; eauto; cbn; try lia.
    + right. exists cb_default. rewrite lookup_insert. auto.
    + rewrite lookup_insert_ne by assumption. assumption.
  - intros (b & E & H)%obind_ok. apply wget_some in E. apply obind_ok in H as ([[h b'] r] & K & [= <- <-]). cbn.
    eapply linv_update; [eassumption|right; eauto|]. eapply resize_tr; eauto.
  - intros (b & E & H)%obind_ok. apply wget_some in E. apply obind_ok in H as ([[h b'] r] & K & [= <- <-]). cbn.
    unfold cb_op in K. apply obind_ok in K as ([s y] & K & [= <- <- <-]). apply circ_step_len in K. cbn in K. apply hl_get_put in K as [K1 K2].
    eapply linv_update; [eassumption|right; eauto|]. eapply (tr_same b_data b_acap strict (w_heap w) _ (w_objs w) o b); eauto.
  - intros (b & E & H)%obind_ok. apply wget_some in E. apply obind_ok in H as (h & K & [= <- <-]). cbn.
    eapply linv_drop; [eassumption|eassumption|]. unfold cb_destroy in K. destruct (Z.ltb_spec 0 (b_acap b)).
    + apply hl_free in K as [K1 K2]. eapply tr_free; eauto.
    + injection K as <-. eapply tr_forget; eauto. pose proof (l_cap _ _ _ _ _ I _ _ E). lia.
Qed.
End leak.
