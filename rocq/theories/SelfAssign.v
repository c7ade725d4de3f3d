(** Assigning an object to itself: CircularBuffer and StackBuffer.  memcpy of a region onto itself is undefined
    ([hcopy]); here it is taken to do nothing, as every implementation does. *)
From stdpp Require Import gmap.
From Verif Require Import Base Heap Own CircModel CircSpec CircProofs CircBufModel CircBufSpec CircBufProofs CircBufWorld.
From Verif Require StackModel StackSpec StackProofs StackWorld.

(** CircularBuffer.hpp:202-214 with [this == &cb]: resizeMemory(actualSize, false), then the offsets are added to data *)
Definition cb_self_copy (h : heap) (b : cbuf) : outcome (heap * cbuf) :=
  '(h1, b1) <-! cb_resize_memory h b (b_asize b) false ;;
  Ok (h1, CBuf (b_data b1) (b_asize b1) (b_acap b1) (b_data b1) (b_w b1) (b_r b1) (b_cap b1)).

Lemma cb_self_ok D M w A o b :
  world_inv D M w A -> w_objs w !! o = Some b ->
  exists b', cb_self_copy (w_heap w) b = Ok (w_heap w, b') /\ world_inv D M (World (w_heap w) (<[o := b']> (w_objs w))) A.
Proof.
  intros Hw Ho. destruct (A !! o) as [v|] eqn:Ev; [|apply (wi_none _ _ _ _ Hw) in Ev; congruence].
  pose proof (wi_obj _ _ _ _ Hw _ _ _ Ho Ev) as Hob. unfold cb_self_copy, cb_resize_memory.
  assert (Hc : b_asize b <= b_acap b).
  { destruct Hob as [(id & m & _ & _ & _ & Hl & Ha & _ & Hi)|(-> & -> & _)]; [|lia]. rewrite <- Hl, Ha. destruct Hi as (? & ? & _ ). cbn in *. lia. }
  destruct (Z.ltb_spec (b_acap b) (b_asize b)); [lia|]. cbn [obind b_data b_asize b_acap b_w b_r b_cap].
  eexists. split; [reflexivity|]. destruct Hw as [Hh Hn Hoi Hu]. constructor; cbn [w_heap w_objs].
  - exact Hh.
  - intros o2. destruct (decide (o = o2)) as [<-|N]; [rewrite lookup_insert, Ev; split; discriminate|]. rewrite lookup_insert_ne by assumption. apply Hn.
  - intros o2 b2 v2. destruct (decide (o = o2)) as [<-|N]; [|rewrite lookup_insert_ne by assumption; apply Hoi].
    rewrite lookup_insert. intros [= <-] Hv2. rewrite Ev in Hv2. injection Hv2 as <-.
    destruct Hob as [(id & m & H1 & H2 & H3)|(H1 & H2 & H3 & H4 & H5 & H6 & H7 & H8)].
    + left. exists id, m. cbn. splits; try assumption; apply H3.
    + right. unfold idle. cbn. splits; try assumption. right. reflexivity.
  - intros o1 o2 b1 b2 id.
    assert (Hb : forall o' b', <[o := CBuf (b_data b) (b_asize b) (b_acap b) (b_data b) (b_w b) (b_r b) (b_cap b)]> (w_objs w) !! o' = Some b' ->
      exists b0, w_objs w !! o' = Some b0 /\ b_data b0 = b_data b').
    { intros o' b'. destruct (decide (o = o')) as [<-|N]; [rewrite lookup_insert; intros [= <-]; eauto|]. rewrite lookup_insert_ne by assumption. eauto. }
    intros H1 H2 D1 D2. destruct (Hb _ _ H1) as (c1 & E1 & F1), (Hb _ _ H2) as (c2 & E2 & F2). apply (Hu _ _ _ _ id E1 E2); congruence.
Qed.

(** As the standard has it, copying a region onto itself with memcpy is undefined. *)
Lemma cb_self_strict D M w A o b :
  world_inv D M w A -> w_objs w !! o = Some b ->
  wstep w (WCopyAssign o o) = if b_asize b =? 0 then Ok (World (w_heap w) (<[o := CBuf (b_data b) 0 (b_acap b) (b_data b) (b_w b) (b_r b) (b_cap b)]> (w_objs w)), WDone) else UB.
Proof.
  intros Hw Ho. destruct (A !! o) as [v|] eqn:Ev; [|apply (wi_none _ _ _ _ Hw) in Ev; congruence].
  pose proof (wi_obj _ _ _ _ Hw _ _ _ Ho Ev) as Hob. cbn [wstep]. unfold wget. rewrite Ho. cbn [obind]. unfold cb_copy_assign, cb_resize_memory.
  assert (Hc : b_asize b <= b_acap b).
  { destruct Hob as [(id & m & _ & _ & _ & Hl & Ha & _ & Hi)|(-> & -> & _)]; [|lia]. rewrite <- Hl, Ha. destruct Hi as (? & ? & _ ). cbn in *. lia. }
  cbn [b_acap]. destruct (Z.ltb_spec (b_acap b) (b_asize b)); [lia|]. cbn [obind b_data b_asize b_acap b_w b_r b_cap b_org]. unfold hcopy.
  destruct (Z.eqb_spec (b_asize b) 0) as [->|]; [reflexivity|]. rewrite bool_decide_eq_true_2 by reflexivity. reflexivity.
Qed.

(** StackBuffer *)
Import StackModel StackSpec StackProofs StackWorld.

(** StackBuffer.hpp:202-215 with [this == &sq] *)
Definition sb_self_copy (h : heap) (b : sbuf) : outcome (heap * sbuf) :=
  '(h1, b1) <-! sb_resize_memory h b (b_stated b) false ;;
  Ok (h1, SBuf (b_data b1) (b_stated b1) (b_acap b1) (b_data b1) (b_next b1) (b_size b1 - diSize - diSize * b_count b1) (b_size b1) (b_count b1)).

Lemma sb_self_ok D w A o b :
  swi D w A -> s_objs w !! o = Some b ->
  exists b', sb_self_copy (s_heap w) b = Ok (s_heap w, b') /\ swi D (SWorld (s_heap w) (<[o := b']> (s_objs w))) A.
Proof.
  intros Hw Ho. destruct (A !! o) as [v|] eqn:Ev; [|apply (oi_none _ _ _ _ _ Hw) in Ev; congruence].
  pose proof (oi_obj _ _ _ _ _ Hw _ _ _ Ho Ev) as Hob.
  unfold sb_self_copy, sb_resize_memory.
  rewrite Z.eqb_refl. cbn [obind b_data b_stated b_acap b_next b_idx b_size b_count].
  eexists. split; [reflexivity|]. unfold swi in *. cbn [s_heap s_objs]. rewrite <- (insert_id A o v Ev).
  eapply own_update with (d := b_data b); [apply sobj_frame|apply sobj_old|exact Hw|intros b1 E1; congruence|congruence| |].
  - cbn [b_data]. apply local_refl. apply Hw.
  - destruct Hob as [(id & m & H1 & H2 & H3 & H4 & H5 & H6 & H7)|(H1 & H2 & H3 & H4 & H5 & H6 & H7)]; [left|right].
    + exists id, m. cbn [b_data b_org b_acap b_stated b_size b_next b_idx b_count]. splits; try assumption.
      replace (b_size b - diSize - diSize * b_count b) with (b_idx b); [exact H7|]. destruct H7 as [es H7]. pose proof (ok_idx _ _ _ _ H7) as E. cbn in E. unfold diSize. lia.
    + unfold sidle. cbn [b_data b_stated b_size b_next b_count b_acap]. splits; assumption.
Qed.

Lemma sb_self_strict (D : Prop) w A o b :
  swi D w A -> s_objs w !! o = Some b -> b_stated b <> 0 -> swstep w (SCopyAssign o o) = UB.
Proof.
  intros Hw Ho Hn. cbn [swstep]. unfold sget. rewrite Ho. cbn [obind]. unfold sb_copy_assign, sb_resize_memory. cbn [b_stated].
  rewrite Z.eqb_refl. cbn [obind b_data b_stated b_acap b_next b_idx b_size b_count]. unfold hcopy.
  destruct (Z.eqb_spec (b_stated b) 0) as [|]; [contradiction|]. rewrite bool_decide_eq_true_2 by reflexivity. reflexivity.
Qed.
