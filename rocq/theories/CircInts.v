(** The int arithmetic of CircularBuffer.hpp stays within int. *)
From stdpp Require Import gmap.
From Verif Require Import Base Heap CircModel CircBufModel.

Definition int_min : Z := -2147483648.
Definition int_ok (z : Z) : Prop := int_min <= z <= int_max.

(** Every value of type int that pop computes or converts to (CircularBuffer.hpp:101-121); the other operations of
    CircularBufferRaw compute in ptrdiff_t only. *)
Definition circ_ints (s : circ) (o : cop) : outcome (list Z) :=
  match o with
  | CPop k =>
      if c_w s =? c_r s then Ok []
      else
        sz0 <-! read_int (c_mem s) (c_r s) ;;
        sz <-! (if sz0 <? 0 then read_int (c_mem s) 0 else Ok sz0) ;;
        if sz <=? k then Ok [] else Ok [- sz]                          (* :120 *)
  | _ => Ok []
  end.

(** ... and resize (CircularBuffer.hpp:216-291) *)
Definition cb_resize_ints (b : cbuf) (n : Z) : list Z :=
  if n =? b_cap b then []
  else if b_w b =? b_r b then []
  else if b_asize b <? n then
    [b_r b; b_w b] ++ (if b_r b <? b_w b then [] else [b_cap b - b_r b])          (* :226-229, 236 *)
  else if b_r b <? b_w b then
    [b_r b; b_w b] ++ (if b_w b <=? n then [] else [b_w b - b_r b])               (* :247-253 *)
  else [b_r b; b_w b; b_cap b - b_r b; b_cap b - b_r b + b_w b].                   (* :247, 270-273 *)

Definition cw_ints (w : world) (p : wop) : outcome (list Z) :=
  match p with
  | WResize o n => b <-! wget w o ;; Ok (cb_resize_ints b n)
  | WCall o c => b <-! wget w o ;; circ_ints (raw_of (w_heap w) b) c
  | _ => Ok []
  end.

(** Arguments are ints and bytes. *)
Definition bytes_ok (m : list byte) : Prop := Forall (fun b => 0 <= b < 256) m.
Definition cop_args (o : cop) : Prop := match o with CPush d n => int_ok n /\ bytes_ok (default [] d) | CSpace n => int_ok n | CPop k => int_ok k | _ => True end.
Definition wop_args (p : wop) : Prop := match p with WNew _ n | WResize _ n => int_ok n | WCall _ c => cop_args c | _ => True end.

(** ** The state *)
Definition mem_small (m : list byte) : Prop := zlen m <= int_max /\ bytes_ok m.
Definition small (h : heap) : Prop := (forall i j, 0 <= h_junk h i j < 256) /\ forall id m, h_live h !! id = Some m -> mem_small m.
Definition raw_small (w r cap : Z) : Prop := 0 <= w <= int_max /\ 0 <= r <= int_max /\ int_ok cap /\ (0 <= cap \/ (w = 0 /\ r = 0)).
Definition obj_small (b : cbuf) : Prop := raw_small (b_w b) (b_r b) (b_cap b) /\ int_ok (b_asize b) /\ (0 <= b_cap b -> 0 <= b_asize b).
Definition world_small (w : world) : Prop := small (w_heap w) /\ forall o b, w_objs w !! o = Some b -> obj_small b.

Lemma mem_small_nil : mem_small [].
Proof. split; [unfold zlen, int_max; cbn; lia|constructor]. Qed.
Lemma mread_bytes m off n l : bytes_ok m -> mread m off n = Ok l -> bytes_ok l.
Proof. intros Hm Hr. apply mread_inv in Hr as (_ & _ & _ & _ & ->). apply Forall_take, Forall_drop, Hm. Qed.
Lemma mwrite_small m off bs m' : mem_small m -> bytes_ok bs -> mwrite m off bs = Ok m' -> mem_small m'.
Proof.
  intros [Hl Hm] Hb Hw. split; [rewrite (mwrite_len _ _ _ _ Hw); exact Hl|]. apply mwrite_inv in Hw as (_ & _ & ->). apply Forall_app. split; [apply Forall_take, Hm|]. apply Forall_app. split; [exact Hb|apply Forall_drop, Hm].
Qed.
Lemma enc32_bytes z : bytes_ok (enc32 z).
Proof. unfold enc32. repeat constructor; apply Z.mod_pos_bound; lia. Qed.
Lemma small_get h p : small h -> mem_small (hget h p).
Proof. intros [_ Hs]. destruct p as [id|]; cbn; [|apply mem_small_nil]. destruct (h_live h !! id) eqn:E; cbn; [eauto|apply mem_small_nil]. Qed.
Lemma small_put h p m : small h -> mem_small m -> small (hput h p m).
Proof.
  intros [Hj Hs] Hm. unfold hput. destruct p as [id|]; [|split; assumption]. destruct (h_live h !! id) eqn:E; [|split; assumption]. split; [exact Hj|].
  intros i m'. cbn. destruct (decide (id = i)) as [<-|Hne]; [rewrite lookup_insert; intros [= <-]; exact Hm|rewrite lookup_insert_ne by assumption; apply Hs].
Qed.
Lemma small_alloc h n id h' : small h -> n <= int_max -> halloc h n = Ok (id, h') -> small h'.
Proof.
  unfold halloc. intros [Hj Hs] Hn. destruct (Z.ltb_spec n 0); [discriminate|]. intros [= <- <-]. split; [exact Hj|]. intros i m. cbn.
  destruct (decide (h_next h = i)) as [<-|Hne]; [rewrite lookup_insert; intros [= <-]|rewrite lookup_insert_ne by assumption; apply Hs].
  split; [unfold zlen; rewrite map_length, seq_length; lia|]. apply Forall_forall. intros b (k & -> & _)%elem_of_list_fmap. apply Hj.
Qed.
Lemma small_free h p h' : small h -> hfree h p = Ok h' -> small h'.
Proof.
  unfold hfree. intros [Hj Hs]. destruct p as [id|]; [|intros [= <-]; split; assumption]. destruct (h_live h !! id); [|discriminate]. intros [= <-]. split; [exact Hj|]. intros i m. cbn. rewrite lookup_delete_Some. intros [_ E]. eapply Hs, E.
Qed.
Lemma small_copy h d s n h' : small h -> hcopy h d s n = Ok h' -> small h'.
Proof.
  unfold hcopy. intros Hs. destruct (n =? 0); [intros [= <-]; exact Hs|]. destruct (bool_decide _); [discriminate|].
  intros (bs & Hb & H)%obind_ok. apply obind_ok in H as (m & Hm & [= <-]). apply small_put; [exact Hs|]. eapply mwrite_small; [apply small_get, Hs|eapply mread_bytes; [apply small_get, Hs|exact Hb]|exact Hm].
Qed.
Lemma mmove_small m d s n m' : mem_small m -> mmove m d s n = Ok m' -> mem_small m' /\ 0 <= d /\ 0 <= n /\ 0 <= s /\ d + n <= int_max.
Proof.
  unfold mmove. intros Hm (bs & Hr & Hw)%obind_ok. pose proof (mwrite_small _ _ _ _ Hm (mread_bytes _ _ _ _ (proj2 Hm) Hr) Hw). apply mread_inv in Hr as (? & ? & ? & ? & _). apply mwrite_inv in Hw as (? & ? & _). destruct Hm as [Hm _]. split; [assumption|lia].
Qed.
Lemma circ_put_small m off d n m' : mem_small m -> bytes_ok d -> circ_put m off d n = Ok m' -> mem_small m'.
Proof. unfold circ_put. intros Hm Hd (m1 & H1 & H)%obind_ok. apply obind_ok in H as (bs & Hb & H2). eapply mwrite_small; [|eapply mread_bytes; [exact Hd|exact Hb]|exact H2]. eapply mwrite_small; [exact Hm|apply enc32_bytes|exact H1]. Qed.

Lemma circ_cap_same s o s' x : circ_step s o = Ok (s', x) -> c_cap s' = c_cap s.
Proof.
  destruct o as [d n|k| | |n| |]; cbn [circ_step]; try (intros [= <- <-]; reflexivity).
  - intros ([s1 b] & E & [= <- <-])%obind_ok. unfold circ_push in E. destruct d as [d|]; [|injection E as <- <-; reflexivity].
    destruct (n <=? 0); [injection E as <- <-; reflexivity|]. destruct (c_r s <=? c_w s).
    + destruct (n + 4 <=? c_cap s - c_w s); [apply obind_ok in E as (m & _ & [= <- <-]); reflexivity|]. destruct (n + 4 <=? c_r s); [|injection E as <- <-; reflexivity].
      apply obind_ok in E as (m1 & _ & E). apply obind_ok in E as (m & _ & [= <- <-]). reflexivity.
    + destruct (n + 4 <=? c_r s - c_w s); [|injection E as <- <-; reflexivity]. apply obind_ok in E as (m & _ & [= <- <-]). reflexivity.
  - intros ([[s1 z] bs] & E & [= <- <-])%obind_ok. unfold circ_pop in E. destruct (c_w s =? c_r s); [injection E as <- <- <-; reflexivity|].
    apply obind_ok in E as (sz0 & _ & E). apply obind_ok in E as ([r sz] & _ & E). destruct (sz <=? k); [|injection E as <- <- <-; reflexivity]. apply obind_ok in E as (bs' & _ & [= <- <- <-]). reflexivity.
  - intros (z & _ & [= <- <-])%obind_ok. reflexivity.
Qed.

Lemma circ_small s o s' x : mem_small (c_mem s) -> raw_small (c_w s) (c_r s) (c_cap s) -> cop_args o -> circ_step s o = Ok (s', x) ->
  mem_small (c_mem s') /\ raw_small (c_w s') (c_r s') (c_cap s').
Proof.
  intros Hm Hr Ha. pose proof Hr as Hraw. destruct Hr as (Hw & Hr & Hc & Hd). unfold int_ok, int_min, int_max in *.
  destruct o as [d n|k| | |n| |]; cbn [circ_step].
  - intros ([s1 b] & E & [= <- <-])%obind_ok. unfold circ_push in E. destruct d as [d|]; [|injection E as <- <-; split; assumption]. destruct Ha as [Ha Hby]. cbn in Hby.
    destruct (Z.leb_spec n 0); [injection E as <- <-; split; assumption|].
    destruct (Z.leb_spec (c_r s) (c_w s)).
    + destruct (Z.leb_spec (n + 4) (c_cap s - c_w s)).
      * apply obind_ok in E as (m & Hp & [= <- <-]). cbn. split; [eapply circ_put_small; eassumption|]. unfold raw_small, int_ok, int_min, int_max. destruct ((_ <? 8) && _); lia.
      * destruct (Z.leb_spec (n + 4) (c_r s)); [|injection E as <- <-; split; assumption].
        apply obind_ok in E as (m1 & Hp1 & E). apply obind_ok in E as (m & Hp & [= <- <-]). cbn. split; [eapply circ_put_small; [|exact Hby|exact Hp]; eapply mwrite_small; [exact Hm|apply enc32_bytes|exact Hp1]|]. unfold raw_small, int_ok, int_min, int_max. lia.
    + destruct (Z.leb_spec (n + 4) (c_r s - c_w s)); [|injection E as <- <-; split; assumption].
      apply obind_ok in E as (m & Hp & [= <- <-]). cbn. split; [eapply circ_put_small; eassumption|]. unfold raw_small, int_ok, int_min, int_max. lia.
  - intros ([[s1 z] bs] & E & [= <- <-])%obind_ok. unfold circ_pop in E. destruct (Z.eqb_spec (c_w s) (c_r s)); [injection E as <- <- <-; split; assumption|].
    apply obind_ok in E as (sz0 & _ & E). apply obind_ok in E as ([r sz] & Er & E).
    assert (Hrr : r = 0 \/ r = c_r s) by (destruct (sz0 <? 0); [apply obind_ok in Er as (? & _ & [= <- <-]); auto|injection Er as <- <-; auto]).
    destruct (Z.leb_spec sz k).
    + apply obind_ok in E as (bs' & Hb & [= <- <- <-]). apply mread_inv in Hb as (? & ? & ? & _). cbn. split; [exact Hm|]. destruct Hm as [Hm _]. unfold raw_small, int_ok, int_min, int_max in *. destruct (_ <? 8); lia.
    + injection E as <- <- <-. cbn. split; [exact Hm|]. unfold raw_small, int_ok, int_min, int_max. lia.
  - intros (z & _ & [= <- <-])%obind_ok. split; assumption.
  - intros [= <- <-]. split; assumption.
  - intros [= <- <-]. split; assumption.
  - intros [= <- <-]. split; assumption.
  - intros [= <- <-]. cbn. split; [exact Hm|]. unfold raw_small, int_ok, int_min, int_max. lia.
Qed.

Lemma resize_memory_small h b n cp h' b' : small h -> int_ok n -> cb_resize_memory h b n cp = Ok (h', b') ->
  small h' /\ b_asize b' = n /\ b_org b' = b_org b /\ b_w b' = b_w b /\ b_r b' = b_r b /\ b_cap b' = b_cap b.
Proof.
  intros Hs Hn. unfold cb_resize_memory. destruct (b_acap b <? n); [|intros [= <- <-]; split; [exact Hs|]; repeat split; auto].
  intros ([id h1] & Ha & E)%obind_ok. apply obind_ok in E as (h3 & E3 & [= <- <-]). split; [|repeat split; auto].
  apply small_alloc in Ha; [|exact Hs|apply Hn]. destruct (0 <? b_acap b); [|injection E3 as <-; exact Ha].
  apply obind_ok in E3 as (h2 & E2 & Hf). eapply small_free; [|exact Hf]. destruct cp; [eapply small_copy; [exact Ha|exact E2]|injection E2 as <-; exact Ha].
Qed.

Lemma step_small w p w' x : world_small w -> wop_args p -> wstep w p = Ok (w', x) -> world_small w'.
Proof.
  intros [Hh Ho] Ha.
  assert (Hobj0 : obj_small (CBuf None 0 0 None 0 0 0)) by (unfold obj_small, raw_small, int_ok, int_min, int_max; cbn; lia).
  assert (Hset : forall h o b, small h -> obj_small b -> world_small (World h (<[o := b]> (w_objs w)))).
  { intros h o b H1 H2. split; [exact H1|]. cbn. intros o' b'. destruct (decide (o = o')) as [<-|Hne]; [rewrite lookup_insert; intros [= <-]; exact H2|rewrite lookup_insert_ne by assumption; apply Ho]. }
  assert (Hget : forall o b, wget w o = Ok b -> obj_small b) by (unfold wget; intros o b; destruct (w_objs w !! o) eqn:E; [|discriminate]; intros [= <-]; eauto).
  assert (Hset2 : forall h o b o' b', small h -> obj_small b -> obj_small b' -> world_small (World h (<[o := b]> (<[o' := b']> (w_objs w))))).
  { intros h o b o' b' H1 H2 H3. split; [exact H1|]. cbn. intros o1 b1. destruct (decide (o = o1)) as [<-|Hne]; [rewrite lookup_insert; intros [= <-]; exact H2|rewrite lookup_insert_ne by assumption].
    destruct (decide (o' = o1)) as [<-|Hne']; [rewrite lookup_insert; intros [= <-]; exact H3|rewrite lookup_insert_ne by assumption; apply Ho]. }
  destruct p as [o|o n|o src|o src|o src|o src|o n|o c|o]; cbn [wstep wop_args] in *.
  - intros [= <- <-]. apply Hset; assumption.
  - unfold cb_new. destruct (halloc (w_heap w) n) as [[id h1]| |] eqn:Ea; cbn; [|intros [= <- <-]; split; assumption|discriminate]. intros [= <- <-].
    apply Hset; [eapply small_alloc; [exact Hh|apply Ha|exact Ea]|]. unfold halloc in Ea. destruct (Z.ltb_spec n 0); [discriminate|]. unfold obj_small, raw_small, int_ok, int_min, int_max in *; cbn; lia.
  - intros (bs & Hb & E)%obind_ok. specialize (Hget _ _ Hb). unfold cb_copy in E. destruct (halloc (w_heap w) (b_asize bs)) as [[id h1]| |] eqn:Ea; cbn in E; [|injection E as <- <-; split; assumption|discriminate].
    apply small_alloc in Ea; [|exact Hh|apply Hget]. destruct (b_data bs) as [d|].
    + destruct (hcopy h1 (Some id) (Some d) (b_asize bs)) as [h2| |] eqn:Ec; cbn in E; [|injection E as <- <-; split; assumption|discriminate]. injection E as <- <-.
      apply Hset; [eapply small_copy; [exact Ea|exact Ec]|exact Hget].
    + match type of E with context [match ?q with Ok _ => _ | Throw => _ | UB => _ end] => change q with (h2 <-! hfree h1 (Some id) ;; Ok (h2, CBuf (Some id) 0 0 (b_org bs) (b_w bs) (b_r bs) (b_cap bs))) in E end.
      destruct (hfree h1 (Some id)) as [h2| |] eqn:Ef; cbn in E; [|injection E as <- <-; split; assumption|discriminate]. injection E as <- <-.
      apply Hset; [eapply small_free; [exact Ea|exact Ef]|]. destruct Hget as [Hg _]. split; [exact Hg|]. unfold int_ok, int_min, int_max; cbn; lia.
  - intros (bs & Hb & E)%obind_ok. cbn in E. injection E as <- <-. apply Hset2; eauto.
  - intros (bd & Hbd & E)%obind_ok. apply obind_ok in E as (bs & Hb & E). apply obind_ok in E as ([h b] & E & [= <- <-]). pose proof (Hget _ _ Hb) as Hg.
    unfold cb_copy_assign in E. apply obind_ok in E as ([h1 b1] & E1 & E). apply obind_ok in E as (h2 & E2 & [= <- <-]). destruct Hg as (Hg1 & Hg2 & Hg3).
    apply resize_memory_small in E1 as (Hs1 & Ea1 & _ & Ew & Er & Ec); [|exact Hh|exact Hg2]. cbn in *.
    apply Hset; [eapply small_copy; [exact Hs1|exact E2]|]. unfold obj_small; cbn; rewrite Ew, Er, Ec, Ea1; auto.
  - intros (bd & Hbd & E)%obind_ok. apply obind_ok in E as (bs & Hb & E). apply obind_ok in E as ([[h b] bs'] & E & [= <- <-]).
    unfold cb_move_assign in E. apply obind_ok in E as (h1 & E1 & [= <- <- <-]). apply Hset2; [eapply small_free; [exact Hh|exact E1]|exact Hobj0|eauto].
  - intros (b & Hb & E)%obind_ok. apply obind_ok in E as ([[h b'] th] & E & [= <- <-]). pose proof (Hget _ _ Hb) as Hg. pose proof Hg as (Hg1 & Hg2 & Hg3).
    unfold cb_resize in E. destruct (Z.eqb_spec n (b_cap b)); [injection E as <- <- <-; apply Hset; [exact Hh|exact Hg]|].
    destruct (Z.eqb_spec (b_w b) (b_r b)).
    { apply obind_ok in E as ([h1 b1] & E1 & [= <- <- <-]). apply resize_memory_small in E1 as (Hs1 & Ea1 & _); [|exact Hh|exact Ha]. apply Hset; [exact Hs1|]. unfold obj_small, raw_small, int_ok, int_min, int_max in *; cbn. lia. }
    assert (Hcap : 0 <= b_cap b) by (destruct Hg1 as (_ & _ & _ & [?|[? ?]]); lia).
    destruct (Z.ltb_spec (b_asize b) n).
    { apply obind_ok in E as ([h1 b1] & E1 & E). apply resize_memory_small in E1 as (Hs1 & Ea1 & _); [|exact Hh|exact Ha].
      destruct (Z.ltb_spec (b_r b) (b_w b)).
      - injection E as <- <- <-. apply Hset; [exact Hs1|]. unfold obj_small, raw_small, int_ok, int_min, int_max in *; cbn. lia.
      - apply obind_ok in E as (m & Em & [= <- <- <-]). apply mmove_small in Em as (Em & ? & ? & ? & ?); [|apply small_get; assumption]. apply Hset; [apply small_put; [exact Hs1|exact Em]|]. pose proof (small_get _ (b_data b1) Hs1). unfold obj_small, raw_small, int_ok, int_min, int_max in *; cbn. lia. }
    destruct (Z.ltb_spec (b_r b) (b_w b)).
    + destruct (Z.leb_spec (b_w b) n); [injection E as <- <- <-; apply Hset; [exact Hh|]; unfold obj_small, raw_small, int_ok, int_min, int_max in *; cbn; lia|].
      destruct (Z.ltb_spec (b_w b - b_r b) n); [|injection E as <- <- <-; apply Hset; [exact Hh|exact Hg]].
      apply obind_ok in E as (m & Em & [= <- <- <-]). apply mmove_small in Em as (Em & ? & ? & ? & ?); [|apply small_get; assumption]. apply Hset; [apply small_put; [exact Hh|exact Em]|]. unfold obj_small, raw_small, int_ok, int_min, int_max in *; cbn. lia.
    + destruct (Z.ltb_spec (b_cap b - b_r b + b_w b) n); [|injection E as <- <- <-; apply Hset; [exact Hh|exact Hg]].
      apply obind_ok in E as (m & Em & [= <- <- <-]). apply mmove_small in Em as (Em & ? & ? & ? & ?); [|apply small_get; assumption]. apply Hset; [apply small_put; [exact Hh|exact Em]|]. pose proof (small_get _ (b_data b) Hh). unfold obj_small, raw_small, int_ok, int_min, int_max in *; cbn. lia.
  - intros (b & Hb & E)%obind_ok. apply obind_ok in E as ([[h b'] y] & E & [= <- <-]). pose proof (Hget _ _ Hb) as (Hg1 & Hg2 & Hg3). unfold cb_op in E. apply obind_ok in E as ([s y'] & E & [= <- <- <-]).
    pose proof (circ_cap_same _ _ _ _ E) as Ecap. apply circ_small in E as [El Er]; [|apply small_get, Hh|exact Hg1|exact Ha]. apply Hset; [apply small_put; [exact Hh|exact El]|]. split; [exact Er|]. split; [exact Hg2|]. cbn in *. rewrite Ecap. exact Hg3.
  - intros (b & Hb & E)%obind_ok. apply obind_ok in E as (h & E & [= <- <-]). split; [|cbn; intros o' b'; rewrite lookup_delete_Some; intros [_ H]; eapply Ho, H]. cbn.
    unfold cb_destroy in E. destruct (0 <? b_acap b); [eapply small_free; [exact Hh|exact E]|injection E as <-; exact Hh].
Qed.

Lemma run_small ps : forall w w' tr, world_small w -> Forall wop_args ps -> wrun w ps = Ok (w', tr) -> world_small w'.
Proof.
  induction ps as [|p ps IH]; intros w w' tr Hw Ha; cbn [wrun]; [intros [= <- <-]; exact Hw|]. apply Forall_cons in Ha as [Hp Ha].
  intros ([w1 x] & E1 & E)%obind_ok. apply obind_ok in E as ([w2 tr2] & E2 & [= <- <-]). eapply IH; [|exact Ha|exact E2]. eapply step_small; [exact Hw|exact Hp|exact E1].
Qed.

Lemma world0_small junk : (forall i j, 0 <= junk i j < 256) -> world_small (world0 junk).
Proof. intros Hj. split; [split; [exact Hj|]|]; intros ? ?; cbn; rewrite lookup_empty; discriminate. Qed.

Lemma dec32_range bs : bytes_ok bs -> int_ok (dec32 bs).
Proof.
  intros Hb. unfold dec32, int_ok, int_min, int_max. destruct bs as [|a [|b [|c [|d [|e bs]]]]]; try lia.
  apply Forall_cons in Hb as [Ha Hb]. apply Forall_cons in Hb as [Hb Hc]. apply Forall_cons in Hc as [Hc Hd]. apply Forall_cons in Hd as [Hd _].
  destruct (Z.ltb_spec (a + 256 * b + 65536 * c + 16777216 * d) 2147483648); lia.
Qed.
Lemma read_int_range m off z : bytes_ok m -> read_int m off = Ok z -> int_ok z.
Proof. unfold read_int. intros Hm (bs & Hb & [= <-])%obind_ok. apply dec32_range. eapply mread_bytes; [exact Hm|exact Hb]. Qed.

Lemma circ_ints_ok s o zs : mem_small (c_mem s) -> cop_args o -> circ_ints s o = Ok zs -> Forall int_ok zs.
Proof.
  intros [_ Hm] Ha. destruct o as [d n|k| | |n| |]; cbn [circ_ints]; try (intros [= <-]; constructor).
  destruct (c_w s =? c_r s); [intros [= <-]; constructor|]. intros (sz0 & H0 & E)%obind_ok. apply obind_ok in E as (sz & H1 & E).
  assert (Hz : int_ok sz) by (destruct (sz0 <? 0); [eapply read_int_range; [exact Hm|exact H1]|injection H1 as <-; eapply read_int_range; [exact Hm|exact H0]]).
  destruct (Z.leb_spec sz k); injection E as <-; [constructor|]. repeat constructor; cbn in Ha; unfold int_ok, int_min, int_max in *; lia.
Qed.

Lemma resize_ints_ok b n : obj_small b -> Forall int_ok (cb_resize_ints b n).
Proof.
  intros ((Hw & Hr & Hc & Hd) & _). unfold cb_resize_ints. unfold int_ok, int_min, int_max in *.
  destruct (Z.eqb_spec n (b_cap b)); [constructor|]. destruct (Z.eqb_spec (b_w b) (b_r b)); [constructor|].
  destruct (Z.ltb_spec (b_asize b) n), (Z.ltb_spec (b_r b) (b_w b)); cbn [app]; try (destruct (b_w b <=? n)); repeat constructor; lia.
Qed.

Lemma circ_world_ints junk ps w tr p zs : (forall i j, 0 <= junk i j < 256) -> Forall wop_args ps -> wop_args p -> wrun (world0 junk) ps = Ok (w, tr) -> cw_ints w p = Ok zs -> Forall int_ok zs.
Proof.
  intros Hj Hps Hp Er. pose proof (run_small _ _ _ _ (world0_small _ Hj) Hps Er) as [Hh Ho].
  assert (Hget : forall o b, wget w o = Ok b -> obj_small b) by (unfold wget; intros o b; destruct (w_objs w !! o) eqn:E; [|discriminate]; intros [= <-]; eauto).
  destruct p; cbn [cw_ints]; try (intros [= <-]; constructor).
  - intros (b & Hb & [= <-])%obind_ok. apply resize_ints_ok. eauto.
  - intros (b & Hb & E)%obind_ok. eapply circ_ints_ok; [|exact Hp|exact E]. apply small_get, Hh.
Qed.

(** CircularBufferRaw on memory of the caller *)
Lemma circ_run_small ops : forall s s' tr, mem_small (c_mem s) -> raw_small (c_w s) (c_r s) (c_cap s) -> Forall cop_args ops -> circ_run s ops = Ok (s', tr) -> mem_small (c_mem s').
Proof.
  induction ops as [|o ops IH]; intros s s' tr Hm Hr Ha; cbn [circ_run]; [intros [= <- <-]; exact Hm|]. apply Forall_cons in Ha as [Hp Ha].
  intros ([s1 x] & E1 & E)%obind_ok. apply obind_ok in E as ([s2 tr2] & E2 & [= <- <-]). apply circ_small in E1 as [Hm1 Hr1]; [|assumption..]. eapply IH; [exact Hm1|exact Hr1|exact Ha|exact E2].
Qed.
Lemma circ_raw_ints mem n ops s tr o zs : bytes_ok mem -> zlen mem = n -> n <= int_max -> Forall cop_args ops -> cop_args o -> circ_run (circ_new mem n) ops = Ok (s, tr) -> circ_ints s o = Ok zs -> Forall int_ok zs.
Proof.
  intros Hb Hl Hn Hops Ho Er. apply circ_ints_ok; [|exact Ho]. eapply circ_run_small; [| |exact Hops|exact Er]; cbn.
  - split; [lia|exact Hb].
  - pose proof (zlen_nonneg mem). unfold raw_small, int_ok, int_min, int_max in *. lia.
Qed.
