(** Properties C60-C62: pushes left by an exception (StableBlockVector, StableBlockDeque). *)
From stdpp Require Import gmap.
From Verif Require Import Base BlkHeap BlkProofs BlkRun BlkIter VecModel VecSpec VecProofs VecFinal VecThrow
  DeqModel DeqSpec DeqProofs DeqMore DeqWorld DeqFinal DeqThrow.

Definition PT (n : Z) : params := Params n false false.

(** ** C60
    Full statement: if the constructor of the new element throws, the vector is as before the call (and so every later
    call behaves as if the push had not been made).  What the elements read and where they live, and size(), is as
    before; everything that relies on the next free slot is not. *)
Theorem C60_vector_throw_partial :
  forall (V : Type) P, 0 <= expo P <= 30 -> forall (h0 : bheap V) v0 xs0 ops h v tr,
    vstart P h0 v0 xs0 -> seq_ok xs0 ops -> Forall no_walk ops -> vec_run P h0 v0 ops = Ok (h, v, tr) ->
    exists h1 v1, vec_push_throw P h v = Ok (h1, v1) /\ v_size v1 = zlen (seq_after xs0 ops) /\
      (forall n x, seq_after xs0 ops !! n = Some x -> vec_get P h1 v1 (Z.of_nat n) = Ok x) /\
      (forall n, 0 <= n < zlen (seq_after xs0 ops) -> vec_at P h1 v1 n = vec_at P h v n).
Proof.
  intros V P HP h0 v0 xs0 ops h v tr H0 Hok Hnw E. pose proof HP as [HP1 _].
  destruct (vstart_good P HP _ _ _ H0) as (ids & frees & Hg).
  destruct (vrun_ok P HP ops h0 v0 xs0 ids frees Hg Hok Hnw) as (h' & v' & tr' & ids' & frees' & E' & _ & _ & Hv & _).
  rewrite E in E'. injection E' as <- <- <-.
  destruct (vthrow_ok P HP1 _ _ _ _ _ Hv) as (h1 & v1 & t & ids1 & frees1 & E1 & Hr & Hp & Hs & Hi & U & Hm).
  exists h1, v1. splits; try assumption.
  - intros n x Hx. eapply (vroom_get P HP1); [exact Hr|lia|exact Hx].
  - intros n Hn. destruct (vroom_at P HP1 _ _ _ _ _ _ _ n Hr) as (i & b & Hl & Hd & _ & _ & ->); [lia|lia|].
    destruct (vat_ok P HP1 _ _ _ _ _ n Hv Hn) as (i' & b' & -> & Hl' & Hd' & _).
    apply (mono_lookup _ _ _ _ Hm) in Hl'. replace i' with i in Hl' by lia. congruence.
Qed.
Print Assumptions C60_vector_throw_partial.

(** From every state: the destructor, clear and pop_back destroy an element that was never constructed, and after the
    next push the new index denotes the empty slot. *)
Theorem C60_vector_throw_breaks :
  forall (V : Type) P, 0 <= expo P <= 30 -> forall (h0 : bheap V) v0 xs0 ops h v tr h1 v1,
    vstart P h0 v0 xs0 -> seq_ok xs0 ops -> Forall no_walk ops -> vec_run P h0 v0 ops = Ok (h, v, tr) ->
    vec_push_throw P h v = Ok (h1, v1) ->
    (triv P = false -> vec_free_all P h1 v1 = UB /\ vec_clear P h1 v1 = UB /\ (seq_after xs0 ops <> [] -> vec_pop P h1 v1 = UB)) /\
    (forall y, exists h2 v2, vec_push P h1 v1 y = Ok (h2, v2) /\ v_size v2 = zlen (seq_after xs0 ops) + 1 /\
       vec_get P h2 v2 (zlen (seq_after xs0 ops)) = UB /\ vec_back P h2 v2 = Ok y).
Proof.
  intros V P HP h0 v0 xs0 ops h v tr h1 v1 H0 Hok Hnw E E1. pose proof HP as [HP1 _].
  destruct (vstart_good P HP _ _ _ H0) as (ids & frees & Hg).
  destruct (vrun_ok P HP ops h0 v0 xs0 ids frees Hg Hok Hnw) as (h' & v' & tr' & ids' & frees' & E' & _ & _ & Hv & _).
  rewrite E in E'. injection E' as <- <- <-.
  destruct (vthrow_ok P HP1 _ _ _ _ _ Hv) as (h1' & v1' & t & ids1 & frees1 & E1' & Hr & Hp & Hs & Hi & U & Hm).
  rewrite E1 in E1'. injection E1' as <- <-. split.
  - intros Ht. splits.
    + eapply (vthrow_free P); eassumption.
    + eapply (vthrow_clear P); eassumption.
    + intros Hne. eapply (vthrow_pop P); eassumption.
  - intros y. eapply (vthrow_push P HP1); eassumption.
Qed.
Print Assumptions C60_vector_throw_breaks.

(** A program: push 1, a push that throws, destroy. *)
Theorem C60_vector_throw_refuted :
  exists h v tr h1 v1, vec_run (PT 5) bheap0 (vec_default (PT 5)) [VPush 1] = Ok (h, v, tr) /\
    (exists h', vec_free_all (PT 5) h v = Ok h') /\ vec_push_throw (PT 5) h v = Ok (h1, v1) /\ vec_free_all (PT 5) h1 v1 = UB.
Proof.
  eexists _, _, _, _, _. split; [vm_compute; reflexivity|]. split; [eexists; vm_compute; reflexivity|].
  split; vm_compute; reflexivity.
Qed.
Print Assumptions C60_vector_throw_refuted.

Example C60_nonvacuous :
  let ops := [VPush 1; VPush 2; VPush 3] in
  seq_ok [] ops /\ Forall no_walk ops /\
  match vec_run (PT 1) bheap0 (vec_default (PT 1)) ops with
  | Ok (h, v, _) =>
      match vec_push_throw (PT 1) h v with
      | Ok (h1, v1) => v_size v1 = 3 /\ map (vec_get (PT 1) h1 v1) [0; 1; 2] = [Ok 1; Ok 2; Ok 3] /\ vec_pop (PT 1) h1 v1 = UB /\
          match vec_push (PT 1) h1 v1 9 with
          | Ok (h2, v2) => v_size v2 = 4 /\ map (vec_get (PT 1) h2 v2) [2; 3; 4] = [Ok 3; UB; Ok 9]
          | _ => False
          end
      | _ => False
      end
  | _ => False
  end.
Proof.
  cbv zeta. split; [cbn; unfold zlen; cbn; repeat split; try lia; discriminate|]. split; [repeat constructor|].
  vm_compute. repeat split.
Qed.

(** ** C61
    Full statement: as C60, for push_back and push_front of StableBlockDeque.  After a push_back that throws, elements
    and size() are as before. *)
Theorem C61_deque_throw_partial :
  forall (V : Type) P, 0 <= expo P <= 30 -> forall (h0 : bheap V) d0 xs0 ops h d tr,
    dstart P h0 d0 xs0 -> dq_ok xs0 ops -> deq_run P h0 d0 ops = Ok (h, d, tr) ->
    exists h1 d1, deq_push_throw P h d = Ok (h1, d1) /\ d_size d1 = zlen (dq_after xs0 ops) /\
      (forall n x, dq_after xs0 ops !! n = Some x -> deq_get P h1 d1 (Z.of_nat n) = Ok x) /\
      (forall n, 0 <= n < zlen (dq_after xs0 ops) -> deq_at P h1 d1 n = deq_at P h d n).
Proof.
  intros V P HP h0 d0 xs0 ops h d tr H0 Hok E. pose proof HP as [HP1 _].
  destruct (dstart_inv P HP _ _ _ H0) as (ids & frees & Hg). pose proof (run_dok P HP ops _ _ _ _ _ _ _ _ Hg Hok E) as Hdok.
  destruct (drun_ok P HP ops h0 d0 xs0 ids frees Hg Hdok) as (h' & d' & tr' & ids' & frees' & E' & _ & _ & Hd).
  rewrite E in E'. injection E' as <- <- <-.
  destruct (dthrow_ok P HP1 _ _ _ _ _ Hd) as (h1 & d1 & t & ids1 & frees1 & E1 & Hr & Hp & U & Hm & Hf).
  exists h1, d1. splits; try assumption.
  - apply Hr.
  - intros n x Hx. rewrite <- (Z.add_0_r (Z.of_nat n)). eapply (droom_get P HP1); [exact Hr|lia|lia|exact Hx].
  - intros n Hn. destruct (droom_at P HP1 _ _ _ _ _ _ _ _ n Hr) as (i & b & Hl & Hj & Hq & ->); [lia|].
    destruct (dat_ok P HP1 _ _ _ _ _ n Hd Hn) as (i' & b' & -> & Hl' & Hd' & Hj' & Hq').
    assert (Hne : ids' <> []) by (intros ->; rewrite lookup_nil in Hl'; discriminate). rewrite (Hf Hne) in *.
    apply (mono_lookup _ _ _ _ Hm) in Hl'. pose proof (B_pos P HP1). assert (i = i') by nia. subst i'. congruence.
Qed.
Print Assumptions C61_deque_throw_partial.

(** From every state: destroying the deque, and after a failed push_back popping at the back, destroys an element that
    was never constructed. *)
Theorem C61_deque_throw_breaks :
  forall (V : Type) P, 0 <= expo P <= 30 -> forall (h0 : bheap V) d0 xs0 ops h d tr h1 d1,
    dstart P h0 d0 xs0 -> dq_ok xs0 ops -> deq_run P h0 d0 ops = Ok (h, d, tr) ->
    deq_push_throw P h d = Ok (h1, d1) -> triv P = false ->
    deq_free_all P h1 d1 = UB /\ (dq_after xs0 ops <> [] -> deq_pop P h1 d1 = UB /\ deq_clear P h1 d1 = UB).
Proof.
  intros V P HP h0 d0 xs0 ops h d tr h1 d1 H0 Hok E E1 Ht. pose proof HP as [HP1 _].
  destruct (dstart_inv P HP _ _ _ H0) as (ids & frees & Hg). pose proof (run_dok P HP ops _ _ _ _ _ _ _ _ Hg Hok E) as Hdok.
  destruct (drun_ok P HP ops h0 d0 xs0 ids frees Hg Hdok) as (h' & d' & tr' & ids' & frees' & E' & _ & _ & Hd).
  rewrite E in E'. injection E' as <- <- <-.
  destruct (dthrow_ok P HP1 _ _ _ _ _ Hd) as (h1' & d1' & t & ids1 & frees1 & E1' & Hr & Hp & U & Hm & Hf).
  rewrite E1 in E1'. injection E1' as <- <-. split.
  - eapply (dthrow_free P); eassumption.
  - intros Hne. split; [eapply (dthrow_pop P)|eapply (dthrow_clear P)]; eassumption.
Qed.
Print Assumptions C61_deque_throw_breaks.

(** After a push_front that throws every index is off by one: index 0 is the slot that was never filled. *)
Theorem C61_deque_throw_front_breaks :
  forall (V : Type) P, 0 <= expo P <= 30 -> forall (h0 : bheap V) d0 xs0 ops h d tr h1 d1,
    dstart P h0 d0 xs0 -> dq_ok xs0 ops -> deq_run P h0 d0 ops = Ok (h, d, tr) -> front_guard P d ->
    deq_push_front_throw P h d = Ok (h1, d1) ->
    d_size d1 = zlen (dq_after xs0 ops) /\ deq_get P h1 d1 0 = UB /\
    (forall n x, dq_after xs0 ops !! n = Some x -> deq_get P h1 d1 (Z.of_nat n + 1) = Ok x) /\
    (triv P = false -> deq_free_all P h1 d1 = UB /\ (dq_after xs0 ops <> [] -> deq_pop_front P h1 d1 = UB)).
Proof.
  intros V P HP h0 d0 xs0 ops h d tr h1 d1 H0 Hok E Hfg E1. pose proof HP as [HP1 _].
  destruct (dstart_inv P HP _ _ _ H0) as (ids & frees & Hg). pose proof (run_dok P HP ops _ _ _ _ _ _ _ _ Hg Hok E) as Hdok.
  destruct (drun_ok P HP ops h0 d0 xs0 ids frees Hg Hdok) as (h' & d' & tr' & ids' & frees' & E' & _ & _ & Hd).
  rewrite E in E'. injection E' as <- <- <-.
  destruct (dthrow_front_ok P HP1 _ _ _ _ _ Hd Hfg) as (h1' & d1' & t & ids1 & frees1 & E1' & Hr & Hp & U).
  rewrite E1 in E1'. injection E1' as <- <-. splits.
  - apply Hr.
  - eapply (droom_hole P HP1); [exact Hr|lia|lia|lia].
  - intros n x Hx. eapply (droom_get P HP1); [exact Hr|lia|lia|exact Hx].
  - intros Ht. split; [eapply (dthrow_front_free P)|intros Hne; eapply (dthrow_front_pop P)]; eassumption.
Qed.
Print Assumptions C61_deque_throw_front_breaks.

Theorem C61_deque_throw_refuted :
  exists h d tr h1 d1, deq_run (PT 5) bheap0 (deq_default (PT 5)) [DV (VPush 1)] = Ok (h, d, tr) /\
    deq_get (PT 5) h d 0 = Ok 1 /\ (exists h', deq_free_all (PT 5) h d = Ok h') /\
    deq_push_front_throw (PT 5) h d = Ok (h1, d1) /\ deq_get (PT 5) h1 d1 0 = UB /\ deq_free_all (PT 5) h1 d1 = UB.
Proof.
  eexists _, _, _, _, _. split; [vm_compute; reflexivity|]. split; [vm_compute; reflexivity|]. split; [eexists; vm_compute; reflexivity|].
  split; [vm_compute; reflexivity|]. split; vm_compute; reflexivity.
Qed.
Print Assumptions C61_deque_throw_refuted.

Example C61_nonvacuous :
  let ops := [DV (VPush 1); DV (VPush 2); DPushF 0; DV (VPush 3); DPushF (-1)] in
  dstart (PT 1) (@bheap0 Z) (deq_default (PT 1)) [] /\ dq_ok [] ops /\
  match deq_run (PT 1) bheap0 (deq_default (PT 1)) ops with
  | Ok (h, d, _) =>
      front_guard (PT 1) d /\
      match deq_push_throw (PT 1) h d, deq_push_front_throw (PT 1) h d with
      | Ok (h1, d1), Ok (h2, d2) =>
          map (deq_get (PT 1) h1 d1) [0; 1; 2; 3; 4] = [Ok (-1); Ok 0; Ok 1; Ok 2; Ok 3] /\
          map (deq_get (PT 1) h2 d2) [0; 1; 2; 3; 4] = [UB; Ok (-1); Ok 0; Ok 1; Ok 2]
      | _, _ => False
      end
  | _ => False
  end.
Proof.
  cbv zeta. split; [constructor|]. split; [cbn; unfold zlen; cbn; repeat split; try lia; discriminate|].
  vm_compute. split; [split; [intros; discriminate|right; intros (F & _); discriminate]|]. split; reflexivity.
Qed.

(** ** C62
    Full statement: if a push fails because memory cannot be obtained, the container is as before the call and can be used
    on.  It holds of every failure but one: the block of the first push into a default constructed container. *)
Theorem C62_vector_nomem_partial :
  forall (V : Type) P, 0 <= expo P <= 30 -> forall (h0 : bheap V) v0 xs0 ops h v tr first r,
    vstart P h0 v0 xs0 -> seq_ok xs0 ops -> Forall no_walk ops -> vec_run P h0 v0 ops = Ok (h, v, tr) ->
    vec_push_nomem P h v first = Some r -> v <> vec_default P \/ first = true ->
    exists h1 v1, r = Ok (h1, v1) /\
      forall ops', seq_ok (seq_after xs0 ops) ops' -> Forall no_walk ops' ->
        exists h2 v2 tr2, vec_run P h1 v1 ops' = Ok (h2, v2, tr2) /\ map fst tr2 = ops' /\
          seq_trace (seq_after xs0 ops) tr2 (seq_after (seq_after xs0 ops) ops') /\ exists h3, vec_free_all P h2 v2 = Ok h3.
Proof.
  intros V P HP h0 v0 xs0 ops h v tr first r H0 Hok Hnw E Er Hc. pose proof HP as [HP1 _].
  destruct (vstart_good P HP _ _ _ H0) as (ids & frees & Hg).
  destruct (vrun_ok P HP ops h0 v0 xs0 ids frees Hg Hok Hnw) as (h' & v' & tr' & ids' & frees' & E' & _ & _ & Hv & Hph).
  rewrite E in E'. injection E' as <- <- <-.
  destruct (vnomem_ok P HP1 _ _ _ _ _ _ _ Hv Er) as (h1 & v1 & -> & Hv1 & Hp1 & U). exists h1, v1. split; [reflexivity|].
  intros ops' Hok' Hnw'.
  assert (Hn : ~ phantom v1) by (intros X; destruct (Hp1 X) as [Y|[-> ->]]; [exact (Hph Y)|destruct Hc; congruence]).
  destruct (vrun_ok P HP ops' h1 v1 _ ids' frees' (conj Hv1 Hn) Hok' Hnw') as (h2 & v2 & tr2 & ids2 & frees2 & E2 & F2 & T2 & Hv2 & Hp2).
  exists h2, v2, tr2. splits; try assumption. destruct (vfree_ok P HP1 _ _ _ _ _ Hv2 Hp2) as (h3 & -> & _). eauto.
Qed.
Print Assumptions C62_vector_nomem_partial.

Theorem C62_deque_nomem_partial :
  forall (V : Type) P, 0 <= expo P <= 30 -> forall (h0 : bheap V) d0 xs0 ops h d tr first r,
    dstart P h0 d0 xs0 -> dq_ok xs0 ops -> deq_run P h0 d0 ops = Ok (h, d, tr) ->
    deq_push_nomem P h d first = Some r -> d <> deq_default P \/ first = true ->
    exists h1 d1, r = Ok (h1, d1) /\
      forall ops' h2 d2 tr2, dq_ok (dq_after xs0 ops) ops' -> deq_run P h1 d1 ops' = Ok (h2, d2, tr2) ->
        map fst tr2 = ops' /\ dq_trace (dq_after xs0 ops) tr2 (dq_after (dq_after xs0 ops) ops') /\ exists h3, deq_free_all P h2 d2 = Ok h3.
Proof.
  intros V P HP h0 d0 xs0 ops h d tr first r H0 Hok E Er Hc. pose proof HP as [HP1 _].
  destruct (dstart_inv P HP _ _ _ H0) as (ids & frees & Hg). pose proof (run_dok P HP ops _ _ _ _ _ _ _ _ Hg Hok E) as Hdok.
  destruct (drun_ok P HP ops h0 d0 xs0 ids frees Hg Hdok) as (h' & d' & tr' & ids' & frees' & E' & _ & _ & Hd).
  rewrite E in E'. injection E' as <- <- <-.
  destruct (dnomem_ok P HP1 _ _ _ _ _ _ _ Hd Er Hc) as (h1 & d1 & -> & Hd1 & U). exists h1, d1. split; [reflexivity|].
  intros ops' h2 d2 tr2 Hok' E2. pose proof (run_dok P HP ops' _ _ _ _ _ _ _ _ Hd1 Hok' E2) as Hdok'.
  destruct (drun_ok P HP ops' h1 d1 _ ids' frees' Hd1 Hdok') as (h2' & d2' & tr2' & ids2 & frees2 & E2' & F2 & T2 & Hd2).
  rewrite E2 in E2'. injection E2' as <- <- <-. splits; try assumption.
  destruct (dfree_ok P HP1 _ _ _ _ _ Hd2) as (h3 & -> & _). eauto.
Qed.
Print Assumptions C62_deque_nomem_partial.

(** The exception: the container can no longer be destroyed. *)
Theorem C62_nomem_refuted :
  forall (V : Type) P, 0 <= expo P <= 30 -> forall h : bheap V, hok [] [] h ->
    (exists h1 v1, vec_push_nomem P h (vec_default P) false = Some (Ok (h1, v1)) /\ v_size v1 = 0 /\ vec_free_all P h1 v1 = UB) /\
    (exists h1 d1, deq_push_nomem P h (deq_default P) false = Some (Ok (h1, d1)) /\ d_size d1 = 0 /\ deq_free_all P h1 d1 = UB /\
       forall y, deq_push P h1 d1 y = UB).
Proof.
  intros V P HP h Hok. pose proof HP as [HP1 _]. split.
  - assert (Hv : vinv P h (vec_default P) [] [] []) by (left; auto).
    assert (E : exists r, vec_push_nomem P h (vec_default P) false = Some r).
    { unfold vec_push_nomem. cbn [vec_default v_bsize v_fl flist0 f_idx]. rewrite Z.leb_refl. eexists. reflexivity. }
    destruct E as [r E]. pose proof E as E1. destruct (vnomem_ok P HP1 _ _ _ _ _ _ _ Hv E) as (h1 & v1 & -> & Hv1 & _).
    exists h1, v1. split; [exact E|]. split; [apply (vinv_size P _ _ _ _ _ Hv1)|].
    assert (Hph : phantom v1).
    { unfold vec_push_nomem in E1. cbn [vec_default v_bsize v_fl flist0 f_idx v_slots] in E1. rewrite Z.leb_refl in E1.
      apply (inj Some) in E1. cbn -[replicate] in E1. apply (f_equal (fun o => match o with Ok p => v_idx (snd p) | _ => 0 end)) in E1 as Ei.
      apply (f_equal (fun o => match o with Ok p => v_data (snd p) | _ => None end)) in E1. cbn -[replicate] in *. split; [congruence|lia]. }
    destruct Hv1 as [(-> & _)|(t & Hl)]; [destruct Hph as [F _]; cbn in F; congruence|]. eapply (phantom_free P HP1); eassumption.
  - destruct (deq_first_nomem P h (deq_default P)) as [h1 d1] eqn:E. exists h1, d1.
    unfold deq_push_nomem. cbn [deq_default d_bsize d_fl flist0 f_idx d_slots]. rewrite Z.leb_refl. cbn [negb Z.eqb].
    change (Deq 0 None 0 0 0 (bsz P) (-1) flist0) with (deq_default P). rewrite E. splits.
    + unfold deq_first_nomem in E. destruct (talloc h 64). injection E as <- <-. reflexivity.
    + apply (dnomem_first P HP1 h h1 d1 E).
    + apply (dnomem_first P HP1 h h1 d1 E).
Qed.
Print Assumptions C62_nomem_refuted.

(** A vector whose table must grow (64 blocks of one element) and cannot: the failure and its continuation. *)
Example C62_nonvacuous :
  hok [] [] (@bheap0 nat) /\
  match vec_run (PT 0) bheap0 (vec_default (PT 0)) (map VPush (seq 0 64)) with
  | Ok (h, v, _) =>
      match vec_push_nomem (PT 0) h v false, vec_push_nomem (PT 0) h v true with
      | Some (Ok (h1, v1)), Some (Ok (h2, v2)) =>
          v_slots v1 = 128 /\ v_slots v2 = 64 /\ vec_get (PT 0) h1 v1 63 = Ok 63%nat /\ v_size v1 = 64 /\
          match vec_push (PT 0) h1 v1 5%nat with Ok (h3, v3) => vec_get (PT 0) h3 v3 64 = Ok 5%nat | _ => False end
      | _, _ => False
      end
  | _ => False
  end.
Proof.
  split; [|vm_compute; repeat split].
  apply (vinv_hok (PT 0) _ _ _ _ _ (proj1 (default_good (PT 0) ltac:(cbn; lia)))).
Qed.
