(** C93: what a CircularBuffer with nothing in it accepts *)
From Verif Require Import Base CircModel CircSpec CircProofs.

(** Where next_read can be, after any calls *)
Lemma read_pos s o s' x : circ_step s o = Ok (s', x) -> c_cap s = zlen (c_mem s) -> c_r s = 0 \/ 0 <= c_r s /\ c_r s + 8 <= c_cap s ->
  c_cap s' = c_cap s /\ zlen (c_mem s') = zlen (c_mem s) /\ (c_r s' = 0 \/ 0 <= c_r s' /\ c_r s' + 8 <= c_cap s').
Proof.
  intros E Hc Hr. assert (Hput : forall m off d k m', circ_put m off d k = Ok m' -> zlen m' = zlen m).
  { intros m off d k m' Ep. unfold circ_put in Ep. apply obind_ok in Ep as (m1 & E1 & Ep). apply obind_ok in Ep as (bs & _ & E2).
    apply mwrite_len in E1, E2. lia. }
  destruct o as [data n|k| | |n| |]; cbn [circ_step] in E.
  - apply obind_ok in E as ([s1 b] & E & E'). injection E' as <- <-. unfold circ_push in E. destruct data as [d|]; [|injection E as <- <-; auto].
    destruct (n <=? 0); [injection E as <- <-; auto|]. destruct (c_r s <=? c_w s).
    + destruct (n + 4 <=? c_cap s - c_w s); [|destruct (n + 4 <=? c_r s); [|injection E as <- <-; auto]].
      * apply obind_ok in E as (m & E & E'). injection E' as <- <-. cbn. apply Hput in E. auto.
      * apply obind_ok in E as (m1 & E1 & E). apply obind_ok in E as (m & E & E'). injection E' as <- <-. cbn. apply Hput in E. apply mwrite_len in E1. splits; [lia|auto].
    + destruct (n + 4 <=? c_r s - c_w s); [|injection E as <- <-; auto]. apply obind_ok in E as (m & E & E'). injection E' as <- <-. cbn. apply Hput in E. auto.
  - apply obind_ok in E as ([[s1 z] bs] & E & E'). injection E' as <- <-. unfold circ_pop in E. destruct (c_w s =? c_r s); [injection E as <- <- <-; auto|].
    apply obind_ok in E as (sz0 & _ & E). apply obind_ok in E as ([r sz] & E1 & E).
    assert (Hr' : r = 0 \/ 0 <= r /\ r + 8 <= c_cap s).
    { destruct (sz0 <? 0); [apply obind_ok in E1 as (sz1 & _ & E1)|]; injection E1 as <- _; auto. }
    destruct (sz <=? k); [|injection E as <- <- <-; cbn; auto]. apply obind_ok in E as (b & E2 & E). injection E as <- <- <-. cbn.
    splits; auto. destruct (Z.ltb_spec (c_cap s - (r + sz + 4)) 8); [auto|]. right. apply mread_inv in E2 as (? & ? & _). lia.
  - apply obind_ok in E as (z & _ & E). injection E as <- <-. auto.
  - injection E as <- <-. auto.
  - injection E as <- <-. auto.
  - injection E as <- <-. auto.
  - injection E as <- <-. cbn. auto.
Qed.

Lemma run_pos ops : forall s s' tr, circ_run s ops = Ok (s', tr) -> c_cap s = zlen (c_mem s) -> c_r s = 0 \/ 0 <= c_r s /\ c_r s + 8 <= c_cap s ->
  c_cap s' = c_cap s /\ zlen (c_mem s') = zlen (c_mem s) /\ (c_r s' = 0 \/ 0 <= c_r s' /\ c_r s' + 8 <= c_cap s').
Proof.
  induction ops as [|o ops IH]; intros s s' tr E Hc Hr; cbn in E; [injection E as <- <-; auto|].
  apply obind_ok in E as ([s1 x] & E1 & E). apply obind_ok in E as ([s2 tr2] & E2 & E). injection E as <- <-.
  destruct (read_pos _ _ _ _ E1 Hc Hr) as (A & B & C). destruct (IH _ _ _ E2) as (A' & B' & C'); [lia|assumption|]. splits; auto; lia.
Qed.

Lemma empty_push s d k : c_cap s = zlen (c_mem s) -> c_cap s <= int_max -> c_r s = 0 \/ 0 <= c_r s /\ c_r s + 8 <= c_cap s -> c_w s = c_r s -> 0 < k <= zlen d ->
  exists s' b, circ_push s (Some d) k = Ok (s', b) /\ (b = true <-> k + 4 <= c_cap s - c_r s \/ k + 4 <= c_r s).
Proof.
  intros Hc Hi Hr He Hk. unfold circ_push. destruct (Z.leb_spec k 0); [lia|]. destruct (Z.leb_spec (c_r s) (c_w s)); [|lia]. rewrite He.
  destruct (Z.leb_spec (k + 4) (c_cap s - c_r s)).
  - destruct (circ_put_spec (c_mem s) (c_r s) d k) as (m & -> & _); [lia..|]. cbn [obind]. eexists _, true. split; [reflexivity|]. split; auto.
  - destruct (Z.leb_spec (k + 4) (c_r s)).
    + destruct Hr as [Hr|Hr]; [lia|]. rewrite mwrite_ok; [|lia|change (zlen (enc32 (-1))) with 4; lia]. cbn [obind].
      set (m1 := _ ++ _). assert (Hm : zlen m1 = zlen (c_mem s)). { eapply (mwrite_len _ (c_r s) (enc32 (-1))). apply mwrite_ok; [lia|change (zlen (enc32 (-1))) with 4; lia]. }
      destruct (circ_put_spec m1 0 d k) as (m & -> & _); [lia..|]. cbn [obind]. eexists _, true. split; [reflexivity|]. split; auto.
    + eexists s, false. split; [reflexivity|]. split; [discriminate|lia].
Qed.

(** Full statement: when nothing is in the buffer, a block is accepted iff a new buffer of the same capacity would accept it.
    False ([C93_circ_empty_refuted]): it depends on where the last pop left next_read.  What holds after any calls that stayed
    inside the memory: push is defined, its answer is determined by the larger one of the two free parts, and so blocks of at
    most half the capacity (header included) are always accepted. *)
Theorem C93_circ_empty_partial :
  forall mem n ops s tr d k, zlen mem = n -> n <= int_max -> circ_run (circ_new mem n) ops = Ok (s, tr) -> circ_empty s = true -> 0 < k <= zlen d ->
  exists s' b, circ_push s (Some d) k = Ok (s', b) /\ (b = true <-> k + 4 <= n - c_r s \/ k + 4 <= c_r s) /\ (2 * (k + 4) <= n + 1 -> b = true).
Proof.
  intros mem n ops s tr d k Hn Hi Er He Hk. destruct (run_pos _ _ _ _ Er) as (Hc & Hm & Hr); [cbn; lia|cbn; auto|]. cbn in Hc, Hm.
  unfold circ_empty in He. apply Z.eqb_eq in He. destruct (empty_push s d k ltac:(lia) ltac:(lia) Hr He Hk) as (s' & b & E & Hb). rewrite Hc in Hb.
  exists s', b. splits; [exact E|exact Hb|]. intros. apply Hb. lia.
Qed.
Print Assumptions C93_circ_empty_partial.

(** A new buffer accepts what fits. *)
Theorem C93_circ_new :
  forall mem n d k, zlen mem = n -> n <= int_max -> 0 < k <= zlen d -> exists s' b, circ_push (circ_new mem n) (Some d) k = Ok (s', b) /\ (b = true <-> k + 4 <= n).
Proof.
  intros mem n d k Hn Hi Hk. destruct (empty_push (circ_new mem n) d k) as (s' & b & E & Hb); cbn; auto. exists s', b. split; [exact E|]. cbn in Hb. rewrite Hb. lia.
Qed.
Print Assumptions C93_circ_new.

(** An empty buffer that refuses a block refuses this and all larger ones for ever, whatever the reader does, until a smaller
    one is pushed or clear() is called. *)
Definition refusing (k : Z) (o : cop) : Prop := match o with CPush _ n => k <= n | CClear => False | _ => True end.
Theorem C93_circ_stuck :
  forall s d k ops, circ_empty s = true -> 0 < k -> circ_push s (Some d) k = Ok (s, false) -> Forall (refusing k) ops ->
  exists tr, circ_run s ops = Ok (s, tr) /\ map fst tr = ops /\ forall data n x, In (CPush data n, x) tr -> x = RBool false.
Proof.
  intros s d k ops He Hk E. unfold circ_empty in He. pose proof He as He'. apply Z.eqb_eq in He'.
  assert (Hp : forall data n, k <= n -> circ_push s data n = Ok (s, false)).
  { intros data n Hn. unfold circ_push in *. destruct data as [d'|]; [|reflexivity]. destruct (Z.leb_spec n 0); [lia|]. destruct (Z.leb_spec k 0); [lia|].
    destruct (Z.leb_spec (c_r s) (c_w s)); [|lia]. destruct (Z.leb_spec (k + 4) (c_cap s - c_w s)).
    { exfalso. apply obind_ok in E as (m & _ & E). discriminate. }
    destruct (Z.leb_spec (k + 4) (c_r s)). { exfalso. apply obind_ok in E as (m1 & _ & E). apply obind_ok in E as (m & _ & E). discriminate. }
    destruct (Z.leb_spec (n + 4) (c_cap s - c_w s)); [lia|]. destruct (Z.leb_spec (n + 4) (c_r s)); [lia|]. reflexivity. }
  induction 1 as [|o ops Ho Hf (tr & E1 & Em & Ht)]; [exists []; splits; intros ? ? ? []|].
  assert (Es : exists x, circ_step s o = Ok (s, x) /\ forall data n, o = CPush data n -> x = RBool false).
  { destruct o as [data n|m| | |n| |]; cbn [circ_step refusing] in *; try contradiction.
    - rewrite Hp by exact Ho. cbn. eauto.
    - unfold circ_pop. rewrite He. cbn. eexists. split; [reflexivity|discriminate].
    - unfold circ_next_size. rewrite He. cbn. eexists. split; [reflexivity|discriminate].
    - eexists. split; [reflexivity|discriminate].
    - eexists. split; [reflexivity|discriminate].
    - eexists. split; [reflexivity|discriminate]. }
  destruct Es as (x & Es & Hx). exists ((o, x) :: tr). cbn. rewrite Es. cbn. rewrite E1. cbn. rewrite Em. splits.
  intros data n y [Hy|Hy]; [injection Hy as -> ->; eauto|eauto].
Qed.
Print Assumptions C93_circ_stuck.

(** Capacity 100, one block of 46 bytes pushed and popped: nothing is in the buffer, a new one would accept 60 bytes, this one
    never will. *)
Theorem C93_circ_empty_refuted :
  exists s, circ_run (circ_new (repeat 0 100) 100) [CPush (Some (repeat 7 46)) 46; CPop 46] =
      Ok (s, [(CPush (Some (repeat 7 46)) 46, RBool true); (CPop 46, RPop 46 (repeat 7 46))]) /\ circ_empty s = true /\
    is_ok (circ_push (circ_new (repeat 0 100) 100) (Some (repeat 5 60)) 60) = true /\ circ_space (circ_new (repeat 0 100) 100) 60 = true /\
    forall ops, Forall (refusing 60) ops -> exists tr, circ_run s ops = Ok (s, tr) /\ forall data n x, In (CPush data n, x) tr -> x = RBool false.
Proof.
  eexists. split; [vm_compute; reflexivity|]. split; [vm_compute; reflexivity|]. split; [vm_compute; reflexivity|]. split; [vm_compute; reflexivity|].
  intros ops Ho. match goal with |- exists tr, circ_run ?s _ = _ /\ _ =>
    destruct (C93_circ_stuck s (repeat 5 60) 60 ops) as (tr & E & _ & Ht); [vm_compute; reflexivity|lia|vm_compute; reflexivity|exact Ho|] end.
  exists tr. split; [exact E|exact Ht].
Qed.
Print Assumptions C93_circ_empty_refuted.

(** The hypotheses of [C93_circ_empty_partial]: the same state accepts 46 bytes, behind a wrap *)
Example C93_case : exists s s', circ_run (circ_new (repeat 0 20) 20) [CPush (Some [1; 2; 3]) 3; CPop 3] =
    Ok (s, [(CPush (Some [1; 2; 3]) 3, RBool true); (CPop 3, RPop 3 [1; 2; 3])]) /\ circ_empty s = true /\ c_r s = 7 /\ 2 * (5 + 4) <= 20 + 1 /\
  circ_push s (Some [9; 8; 7; 6; 5]) 5 = Ok (s', true) /\ circ_push s (Some (repeat 1 10)) 10 = Ok (s, false).
Proof. eexists _, _. splits; try lia; vm_compute; reflexivity. Qed.
