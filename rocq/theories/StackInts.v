(** The int arithmetic of StackBuffer.hpp. *)
From stdpp Require Import gmap.
From Verif Require Import Base Heap Own CircInts StackModel StackSpec StackProofs StackWorld StackFinal.

(** Every value of type int that push and pop compute or convert to (StackBuffer.hpp:71-118); isSpaceAvailable computes in
    ptrdiff_t. *)
Definition stk_ints (s : stk) (o : kop) : outcome (list Z) :=
  match o with
  | KPush (Some _) n => if n <=? 0 then Ok [] else if negb (stk_space s n) then Ok [] else Ok [k_next s; k_count s + 1]   (* :80, 84 *)
  | KPop k =>
      if 0 <? k_count s then
        b <-! top_size s ;;
        if b <=? k then off <-! top_offset s ;; Ok [off + b; k_next s; k_count s - 1]                           (* :99-104 *)
        else Ok [- b]                                                                                           (* :114 *)
      else Ok []
  | _ => Ok []
  end.

(** ... and resize (StackBuffer.hpp:217-267) *)
Definition sb_resize_ints (b : sbuf) (n : Z) : list Z :=
  if n <? 0 then []
  else if n =? b_size b then []
  else if b_count b =? 0 then []
  else [diSize * b_count b; b_size b - diSize * b_count b; n - diSize * b_count b] ++                            (* :230-231, 245-246 *)
    (if b_stated b <? n then [] else [b_next b; b_next b + diSize * b_count b]).                                 (* :247-248 *)

Definition sw_ints (w : sworld) (p : swop) : outcome (list Z) :=
  match p with
  | SResize o n => b <-! sget w o ;; Ok (sb_resize_ints b n)
  | SCall o c => b <-! sget w o ;; stk_ints (sraw_of (s_heap w) b) c
  | _ => Ok []
  end.

Lemma top_near s b q e : stk_inv s (b :: q, e) -> exists o, top_size s = Ok (zlen b) /\ top_offset s = Ok o /\ 0 < zlen b /\ 0 <= o /\ o + zlen b <= k_next s.
Proof.
  intros Hi. destruct (top_ok _ _ _ _ Hi) as (_ & o & E1 & E2 & _ & Hb & Ho). exists o. splits; try assumption. destruct Hi as [es H]; cbn in H.
  destruct H as [Hsz Hint Hcnt Hidx Hnx Hix Hbl Hdj Hhe Hne Hti Hem Hfl]. inversion Hbl as [|f ? es' ? Hf Hbl' F1 F2]; subst. rewrite zlen_cons in *. pose proof (zlen_nonneg es').
  destruct f as [o' n]. pose proof (blk_len _ _ _ _ Hf) as Hlen. destruct Hf as (F1 & F2 & F3 & F4). cbn in *. apply read_entry in Hix as (H1 & H2 & _); cbn [fst snd] in *.
  unfold top_offset in E2. rewrite H1 in E2. cbn [obind] in E2. rewrite dec_enc32 in E2 by (unfold int_max in *; lia). injection E2 as <-. lia.
Qed.

Lemma stk_ints_ok s q e o zs : stk_inv s (q, e) -> stk_ints s o = Ok zs -> Forall int_ok zs.
Proof.
  intros Hi. pose proof Hi as [es Hok]. pose proof (ok_size _ _ _ _ Hok). pose proof (ok_int _ _ _ _ Hok). pose proof (ok_count _ _ _ _ Hok) as Hc. pose proof (ok_next _ _ _ _ Hok).
  pose proof (need_count _ _ _ _ (ok_blocks _ _ _ _ Hok)) as Hn. pose proof (ok_need _ _ _ _ Hok). pose proof (held_nonneg q). pose proof (zlen_nonneg es). cbn [fst snd] in *.
  destruct o as [d n|k| | |n| | | |]; cbn [stk_ints]; try (intros [= <-]; constructor).
  - destruct d as [d|]; [|intros [= <-]; constructor]. destruct (Z.leb_spec n 0); [intros [= <-]; constructor|]. unfold stk_space. destruct (Z.leb_spec n (k_size s - k_next s - (k_count s + 1) * diSize)) as [Hsp|]; cbn [negb]; intros [= <-]; [|constructor].
    unfold diSize in Hsp. repeat constructor; unfold int_ok, int_min, int_max in *; lia.
  - destruct (Z.ltb_spec 0 (k_count s)); [|intros [= <-]; constructor].
    destruct q as [|b q]; [exfalso; pose proof (zlen_forall2 _ _ _ (ok_blocks _ _ _ _ Hok)); unfold zlen in *; cbn in *; lia|].
    destruct (top_near _ _ _ _ Hi) as (off & E1 & E2 & Hb & Ho & Hob). rewrite E1, E2. cbn [obind].
    destruct (Z.leb_spec (zlen b) k); intros [= <-]; repeat constructor; unfold int_ok, int_min, int_max in *; lia.
Qed.

Lemma resize_ints_in h b c q e n : sobj True h b (c, (q, e)) -> n <= int_max -> (0 <= n < c -> q <> [] -> e = true \/ c + 8 * zlen q <= int_max) -> Forall int_ok (sb_resize_ints b n).
Proof.
  intros Hob Hn Hg. unfold sb_resize_ints. destruct (Z.ltb_spec n 0); [constructor|]. destruct (Z.eqb_spec n (b_size b)); [constructor|]. destruct (Z.eqb_spec (b_count b) 0); [constructor|].
  destruct Hob as [(id & m & _ & _ & _ & _ & Hst & Hv & [es Hok])|(_ & _ & _ & _ & H0 & _)]; [|contradiction]. cbn [fst snd] in *.
  pose proof (ok_size _ _ _ _ Hok). pose proof (ok_int _ _ _ _ Hok). pose proof (ok_count _ _ _ _ Hok) as Hc. pose proof (ok_next _ _ _ _ Hok).
  pose proof (need_count _ _ _ _ (ok_blocks _ _ _ _ Hok)) as Hnd. pose proof (ok_need _ _ _ _ Hok). pose proof (held_nonneg q). pose proof (zlen_nonneg es). pose proof (zlen_forall2 _ _ _ (ok_blocks _ _ _ _ Hok)) as Hq.
  cbn [k_mem k_next k_idx k_size k_count] in *. unfold diSize. apply Forall_app. split; [repeat constructor; unfold int_ok, int_min, int_max in *; lia|].
  destruct (Z.ltb_spec (b_stated b) n); [constructor|].
  assert (Hsum : b_next b + 8 * b_count b <= int_max).
  { destruct Hg as [->|Hg]; [lia|intros ->; unfold zlen in *; cbn in *; lia| |lia].
    pose proof (ok_tight _ _ _ _ Hok eq_refl) as Ht. cbn in Ht. rewrite <- (tight_held _ _ _ _ _ (ok_blocks _ _ _ _ Hok) Ht). unfold int_max in *. lia. }
  repeat constructor; unfold int_ok, int_min, int_max in *; lia.
Qed.

(** What is asked of resize: a stack that was resized while it held blocks is not made smaller if it is within 8 bytes per
    block of the largest int. *)
Definition roomy (A : gmap nat sval) (p : swop) : Prop :=
  match p with
  | SResize o n => forall c q e, A !! o = Some (c, (q, e)) -> 0 <= n < c -> q <> [] -> e = true \/ c + 8 * zlen q <= int_max
  | _ => True
  end.

Lemma stack_world_ints junk ps p w tr zs : swprog_ok True (sworld0 junk) (ps ++ [p]) -> swrun (sworld0 junk) ps = Ok (w, tr) -> sw_ints w p = Ok zs ->
  exists A, sws_trace ∅ tr A /\ (roomy A p -> Forall int_ok zs).
Proof.
  intros Hok Er Ez. destruct (swprog_ok_app _ _ _ _ _ _ Hok Er) as [Hok1 Hok2]. destruct (swrun_ok True ps _ _ (sworld0_inv True junk) Hok1) as (w1 & tr1 & A & E1 & Ht & Hw & _).
  rewrite Er in E1. injection E1 as <- <-. exists A. split; [exact Ht|]. intros Hr. destruct Hok2 as (Hl & _ & _). apply (slegal_transfer _ _ _ _ Hw) in Hl.
  assert (Hget : forall o b, sget w o = Ok b -> exists c q e, A !! o = Some (c, (q, e)) /\ sobj True (s_heap w) b (c, (q, e))).
  { unfold sget. intros o b. destruct (s_objs w !! o) as [b'|] eqn:E; [|discriminate]. intros [= ->]. destruct (A !! o) as [[c [q e]]|] eqn:EA; [|apply (oi_none _ _ _ _ _ Hw) in EA; congruence]. exists c, q, e. split; [reflexivity|]. eapply oi_obj; eassumption. }
  destruct p; cbn [sw_ints] in Ez; try (injection Ez as <-; constructor).
  - apply obind_ok in Ez as (b & Hb & [= <-]). destruct (Hget _ _ Hb) as (c & q & e & EA & Hob). eapply resize_ints_in; [exact Hob|apply Hl|]. apply (Hr _ _ _ EA).
  - apply obind_ok in Ez as (b & Hb & Ez). destruct (Hget _ _ Hb) as (cp & q & e & EA & Hob). destruct Hob as [(id & m & Hd & Ho & Hlv & _ & _ & _ & Hi)|Hid].
    + eapply stk_ints_ok; [|exact Ez]. unfold sraw_of. rewrite Ho. cbn [hget]. rewrite Hlv. exact Hi.
    + destruct Hid as (_ & _ & Hs & Hn & Hc & _). unfold stk_ints, sraw_of in Ez. destruct c as [[d|] n|k| | |n| | | |]; cbn [k_count k_next k_size stk_space] in Ez; try (injection Ez as <-; constructor).
      * destruct (Z.leb_spec n 0); [injection Ez as <-; constructor|]. unfold stk_space in Ez; cbn in Ez. rewrite Hs, Hn, Hc in Ez. unfold diSize in Ez. destruct (Z.leb_spec n (0 - 0 - (0 + 1) * 8)); [lia|]. injection Ez as <-. constructor.
      * rewrite Hc in Ez. injection Ez as <-. constructor.
Qed.

Lemma stack_raw_ints mem n ops s tr o zs : zlen mem = n -> n <= int_max -> Forall kop_legal ops -> stk_run (stk_new mem n) ops = Ok (s, tr) -> stk_ints s o = Ok zs -> Forall int_ok zs.
Proof.
  intros Hm Hn Hl Er. pose proof (zlen_nonneg mem). destruct (krun_ok ops (stk_new mem n) ([], true) (stk_new_inv mem n ltac:(lia) Hn) Hl) as (s' & tr' & a' & E' & Hr).
  rewrite Er in E'. injection E' as <- <-. destruct a' as [q e]. apply (stk_ints_ok _ q e). tauto.
Qed.

(** ** The sum can leave int. *)
Lemma grown h b n h' b' r : b_count b <> 0 -> 0 <= n -> n <> b_size b -> b_stated b < n -> sb_resize h b n = Ok (h', b', r) -> b_next b' = n /\ b_count b' = b_count b /\ b_size b' = n /\ b_stated b' = n.
Proof.
  intros Hc Hn Hs Hst. unfold sb_resize. destruct (Z.ltb_spec n 0); [lia|]. destruct (Z.eqb_spec n (b_size b)); [lia|]. destruct (Z.eqb_spec (b_count b) 0); [lia|]. destruct (Z.ltb_spec (b_stated b) n); [|lia].
  intros ([h1 b1] & E1 & E)%obind_ok. apply obind_ok in E as (m & _ & [= _ <- _]). cbn. repeat split; auto.
  unfold sb_resize_memory in E1. destruct (Z.eqb_spec n (b_stated b)); [lia|]. destruct (b_acap b <? n); [|injection E1 as _ <-; reflexivity].
  apply obind_ok in E1 as ([id h2] & _ & E1). apply obind_ok in E1 as (h3 & _ & [= _ <-]). reflexivity.
Qed.

(** Whatever the stack holds, if it is grown to more than the largest int less 8 bytes per block, the next shrinking
    resize leaves int. *)
Lemma stack_resize_leaves_int h b n h' b' r n' : 0 < b_count b -> n <> b_size b -> b_stated b < n -> int_max - 8 * b_count b < n ->  0 <= n' < n -> sb_resize h b n = Ok (h', b', r) ->
  exists z, In z (sb_resize_ints b' n') /\ ~ int_ok z.
Proof.
  intros Hc Hs Hst Hbig Hn' E. apply grown in E as (E1 & E2 & E3 & E4); [|lia..]. unfold sb_resize_ints. rewrite E1, E2, E3, E4.
  destruct (Z.ltb_spec n' 0); [lia|]. destruct (Z.eqb_spec n' n); [lia|]. destruct (Z.eqb_spec (b_count b) 0); [lia|]. destruct (Z.ltb_spec n n'); [lia|].
  exists (n + diSize * b_count b). split; [apply in_or_app; right; cbn; auto|]. unfold int_ok, diSize. lia.
Qed.
