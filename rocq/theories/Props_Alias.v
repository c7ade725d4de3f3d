(** Property C108: calls whose arguments are elements of the container itself (StableBlockVector, StableBlockDeque). *)
From stdpp Require Import gmap.
From Verif Require Import Base BlkHeap BlkProofs BlkRun BlkIter VecModel VecSpec VecProofs VecFinal
  DeqModel DeqSpec DeqProofs DeqMore DeqWorld DeqFinal BlkAlias.

(** ** C108
    Full statement: push_back(v[n]), push_front(v[n]), their forms that move, and assign(v.begin() + a, v.begin() + b) do what they
    would do with the elements copied (or moved) out beforehand, also when the call makes the container grow; likewise
    move_assign unless it starts with the first element (which would be moved to itself).

    [mv]: what a moved-from element holds; [None] if it is copied. *)
Definition left_by {V} (mv : option (V -> V)) (n : nat) (x : V) (xs : list V) : list V :=
  match mv with None => xs | Some f => take n xs ++ f x :: drop (S n) xs end.

Lemma left_by_taken {V} (mv : option (V -> V)) n x xs : xs !! n = Some x -> left_by mv n x xs = taken mv n x xs.
Proof. intros Hx. destruct mv as [f|]; [|reflexivity]. cbn. symmetry. apply insert_take_drop. eapply lookup_lt_Some; exact Hx. Qed.

(** What follows is what follows for the sequence [ys] *)
Definition vec_is {V} P (h : bheap V) v ys : Prop :=
  v_size v = zlen ys /\ (forall n x, ys !! n = Some x -> vec_get P h v (Z.of_nat n) = Ok x) /\
  forall ops, seq_ok ys ops -> Forall no_walk ops ->
    exists h3 v3 tr3, vec_run P h v ops = Ok (h3, v3, tr3) /\ map fst tr3 = ops /\ seq_trace ys tr3 (seq_after ys ops) /\
      exists h4, vec_free_all P h3 v3 = Ok h4.
Definition deq_is {V} P (h : bheap V) d ys : Prop :=
  d_size d = zlen ys /\ (forall n x, ys !! n = Some x -> deq_get P h d (Z.of_nat n) = Ok x) /\
  (exists h4, deq_free_all P h d = Ok h4) /\
  forall ops h3 d3 tr3, dq_ok ys ops -> deq_run P h d ops = Ok (h3, d3, tr3) ->
    map fst tr3 = ops /\ dq_trace ys tr3 (dq_after ys ops) /\ exists h4, deq_free_all P h3 d3 = Ok h4.

Section is.
Context {V : Type}.
Variable P : params.
Hypothesis HP : 0 <= expo P <= 30.
Implicit Types (h : bheap V) (xs : list V).

Lemma vgood_is h v xs ids frees : vgood P h v xs ids frees -> vec_is P h v xs.
Proof.
  intros [Hv Hp]. pose proof HP as [HP1 _]. split; [eapply vinv_size; exact Hv|]. split; [intros n x Hx; eapply vget_ok; eassumption|]. intros ops Hok Hnw.
  destruct (vrun_ok P HP ops h v xs ids frees (conj Hv Hp) Hok Hnw) as (h3 & v3 & tr3 & ids3 & frees3 & E3 & F3 & T3 & Hv3 & Hp3).
  exists h3, v3, tr3. split; [exact E3|]. split; [exact F3|]. split; [exact T3|]. destruct (vfree_ok P HP1 _ _ _ _ _ Hv3 Hp3) as (h4 & -> & _). eauto.
Qed.
Lemma dinv_is h d xs ids frees : dinv P h d xs ids frees -> deq_is P h d xs.
Proof.
  intros Hd. pose proof HP as [HP1 _]. split; [eapply dinv_size; exact Hd|]. split; [intros n x Hx; eapply dget_ok; eassumption|].
  split; [destruct (dfree_ok P HP1 _ _ _ _ _ Hd) as (h4 & -> & _); eauto|]. intros ops h3 d3 tr3 Hok E.
  pose proof (run_dok P HP ops _ _ _ _ _ _ _ _ Hd Hok E) as Hdok.
  destruct (drun_ok P HP ops h d xs ids frees Hd Hdok) as (h3' & d3' & tr3' & ids3 & frees3 & E3' & F3 & T3 & Hd3).
  rewrite E in E3'. injection E3' as <- <- <-. split; [exact F3|]. split; [exact T3|]. destruct (dfree_ok P HP1 _ _ _ _ _ Hd3) as (h4 & -> & _). eauto.
Qed.
Lemma vreach h0 v0 xs0 ops h v tr : vstart P h0 v0 xs0 -> seq_ok xs0 ops -> Forall no_walk ops -> vec_run P h0 v0 ops = Ok (h, v, tr) ->
  exists ids frees, vgood P h v (seq_after xs0 ops) ids frees.
Proof.
  intros H0 Hok Hnw E. destruct (vstart_good P HP _ _ _ H0) as (ids & frees & Hg).
  destruct (vrun_ok P HP ops h0 v0 xs0 ids frees Hg Hok Hnw) as (h' & v' & tr' & ids' & frees' & E' & _ & _ & Hv).
  rewrite E in E'. injection E' as <- <- <-. eauto.
Qed.
Lemma dreach h0 d0 xs0 ops h d tr : dstart P h0 d0 xs0 -> dq_ok xs0 ops -> deq_run P h0 d0 ops = Ok (h, d, tr) ->
  exists ids frees, dinv P h d (dq_after xs0 ops) ids frees.
Proof.
  intros H0 Hok E. destruct (dstart_inv P HP _ _ _ H0) as (ids & frees & Hg). pose proof (run_dok P HP ops _ _ _ _ _ _ _ _ Hg Hok E) as Hdok.
  destruct (drun_ok P HP ops h0 d0 xs0 ids frees Hg Hdok) as (h' & d' & tr' & ids' & frees' & E' & _ & _ & Hd).
  rewrite E in E'. injection E' as <- <- <-. eauto.
Qed.
End is.

(** The vector.  [c], [j]: where v[n] is. *)
Theorem C108_vector_push_own :
  forall (V : Type) P, 0 <= expo P <= 30 -> forall (h0 : bheap V) v0 xs0 ops h v tr mv n x c j,
    vstart P h0 v0 xs0 -> seq_ok xs0 ops -> Forall no_walk ops -> vec_run P h0 v0 ops = Ok (h, v, tr) ->
    seq_after xs0 ops !! n = Some x -> vec_at P h v (Z.of_nat n) = Ok (c, j) ->
    exists h' v', vec_push_ref P h v c j mv = Ok (h', v') /\ vec_is P h' v' (left_by mv n x (seq_after xs0 ops) ++ [x]) /\
      forall m, 0 <= m < zlen (seq_after xs0 ops) -> vec_at P h' v' m = vec_at P h v m.
Proof.
  intros V P HP h0 v0 xs0 ops h v tr mv n x c j H0 Hok Hnw E Hx Hat. pose proof HP as [HP1 _]. destruct (vreach P HP _ _ _ _ _ _ _ H0 Hok Hnw E) as (ids & frees & Hv & Hp).
  destruct (vpush_ref_ok P HP h v _ ids frees mv n x c j Hv Hx Hat) as (h' & v' & ids' & frees' & E' & Hv' & Hp' & _ & Hm).
  exists h', v'. rewrite left_by_taken by exact Hx. split; [exact E'|]. split; [eapply vgood_is; [exact HP|split; eassumption]|].
  intros m Hb. destruct (vat_ok P HP1 h v _ ids frees m Hv Hb) as (i & b & Em & Hi & Ei & _). rewrite Em.
  eapply vat_loc; [exact HP|exact Hv'|rewrite zlen_app, taken_zlen; change (zlen [x]) with 1; lia|]. eapply mono_lookup; [exact Hm|].
  replace (Z.to_nat (m / bsz P)) with i by lia. exact Hi.
Qed.
Print Assumptions C108_vector_push_own.

Theorem C108_vector_assign_own :
  forall (V : Type) P, 0 <= expo P <= 30 -> forall (h0 : bheap V) v0 xs0 ops h v tr mv a b first ia ib,
    vstart P h0 v0 xs0 -> seq_ok xs0 ops -> Forall no_walk ops -> vec_run P h0 v0 ops = Ok (h, v, tr) ->
    (a <= b <= length (seq_after xs0 ops))%nat -> mv = None \/ (0 < a)%nat ->
    vec_begin P h v = Ok first -> it_steps P h first a = Ok ia -> it_steps P h first b = Ok ib ->
    exists h' v', vec_assign_it P h v ia ib mv = Ok (h', v') /\ vec_is P h' v' (take (b - a) (drop a (seq_after xs0 ops))) /\
      forall m, 0 <= m < Z.of_nat (b - a) -> vec_at P h' v' m = vec_at P h v m.
Proof.
  intros V P HP h0 v0 xs0 ops h v tr mv a b first ia ib H0 Hok Hnw E Hab Hm Ef Ea Eb. pose proof HP as [HP1 _].
  destruct (vreach P HP _ _ _ _ _ _ _ H0 Hok Hnw E) as (ids & frees & Hg).
  destruct (vassign_it_ok P HP h v _ ids frees mv a b first ia ib Hg Hab Hm Ef Ea Eb) as (h' & v' & ids' & frees' & E' & Hg' & Hmo).
  exists h', v'. split; [exact E'|]. split; [eapply vgood_is; [exact HP|exact Hg']|].
  intros m Hb. destruct Hg' as [Hv' _]. destruct Hg as [Hv _].
  destruct (vat_ok P HP1 h' v' _ ids' frees' m Hv') as (i & b' & Em & Hi & Ei & _); [unfold zlen; rewrite take_length, drop_length; lia|]. rewrite Em. symmetry.
  eapply vat_loc; [exact HP|exact Hv|unfold zlen; lia|]. eapply mono_lookup; [exact Hmo|]. replace (Z.to_nat (m / bsz P)) with i by lia. exact Hi.
Qed.
Print Assumptions C108_vector_assign_own.

(** The deque, in every state in which the call with a value is well defined (see C22, C24, C25). *)
Theorem C108_deque_push_own :
  forall (V : Type) P, 0 <= expo P <= 30 -> forall (h0 : bheap V) d0 xs0 ops h d tr mv n x c j,
    dstart P h0 d0 xs0 -> dq_ok xs0 ops -> deq_run P h0 d0 ops = Ok (h, d, tr) ->
    dq_after xs0 ops !! n = Some x -> deq_at P h d (Z.of_nat n) = Ok (c, j) ->
    (exists h' d', deq_push_ref P h d c j mv = Ok (h', d') /\ deq_is P h' d' (left_by mv n x (dq_after xs0 ops) ++ [x])) /\
    (deq_push_front P h d x <> UB ->
     exists h' d', deq_push_front_ref P h d c j mv = Ok (h', d') /\ deq_is P h' d' (x :: left_by mv n x (dq_after xs0 ops))).
Proof.
  intros V P HP h0 d0 xs0 ops h d tr mv n x c j H0 Hok E Hx Hat. destruct (dreach P HP _ _ _ _ _ _ _ H0 Hok E) as (ids & frees & Hd).
  rewrite left_by_taken by exact Hx. split.
  - destruct (dpush_ref_ok P HP h d _ ids frees mv n x c j Hd Hx Hat) as (h' & d' & ids' & frees' & E' & Hd').
    exists h', d'. split; [exact E'|]. eapply dinv_is; eassumption.
  - intros Hdef.
    assert (Hg : front_guard P d).
    { unfold front_guard. split.
      - intros E0. destruct Hd as [(-> & Hn & _)|(t & Hl)]; [rewrite Hn in Hx; rewrite lookup_nil in Hx; discriminate|].
        destruct Hl as (_ & _ & _ & _ & _ & _ & _ & _ & Hs). lia.
      - destruct (overlap_ok P) eqn:Eo; [left; reflexivity|right]. intros F. apply Hdef.
        assert (Hng : ~ dguard P d (DPushF x)) by (cbn; unfold front_guard; rewrite Eo; intros [_ [F'|F']]; [discriminate|contradiction]).
        pose proof (guard_exact P HP h d _ ids frees (DPushF x) Hd Hng) as Hub. cbn [deq_step] in Hub.
        destruct (deq_push_front P h d x) as [[h1 d1]| |]; [discriminate|discriminate|reflexivity]. }
    destruct (dpush_front_ref_ok P HP h d _ ids frees mv n x c j Hd Hg Hx Hat) as (h' & d' & ids' & frees' & E' & Hd').
    exists h', d'. split; [exact E'|]. eapply dinv_is; eassumption.
Qed.
Print Assumptions C108_deque_push_own.

Theorem C108_deque_assign_own :
  forall (V : Type) P, 0 <= expo P <= 30 -> forall (h0 : bheap V) d0 xs0 ops h d tr mv a b first ia ib,
    dstart P h0 d0 xs0 -> dq_ok xs0 ops -> deq_run P h0 d0 ops = Ok (h, d, tr) ->
    (a <= b <= length (dq_after xs0 ops))%nat -> mv = None \/ (0 < a)%nat ->
    deq_begin P h d = Ok first -> it_steps P h first a = Ok ia -> it_steps P h first b = Ok ib ->
    deq_assign P h d (take (b - a) (drop a (dq_after xs0 ops))) <> UB ->
    exists h' d', deq_assign_it P h d ia ib mv = Ok (h', d') /\ deq_is P h' d' (take (b - a) (drop a (dq_after xs0 ops))) /\
      forall m, 0 <= m < Z.of_nat (b - a) -> deq_at P h' d' m = deq_at P h d m.
Proof.
  intros V P HP h0 d0 xs0 ops h d tr mv a b first ia ib H0 Hok E Hab Hm Ef Ea Eb Hdef. pose proof HP as [HP1 _].
  destruct (dreach P HP _ _ _ _ _ _ _ H0 Hok E) as (ids & frees & Hd). set (xs := dq_after xs0 ops) in *.
  assert (Hnf : ~ dfull P d).
  { intros F. destruct (decide (xs = [])) as [En|Hne].
    - destruct (deq_begin_end P HP _ _ _ _ _ _ _ H0 Hok E) as (_ & _ & Hb & _). fold xs in Hb. rewrite (Hb (conj F En)) in Ef. discriminate.
    - apply Hdef. eapply (assign_full P HP); [exact Hd|exact F|]. rewrite (dinv_size P _ _ _ _ _ Hd). intros Ez. apply zlen_0 in Ez. congruence. }
  destruct (dassign_it_ok P HP h d xs ids frees mv a b first ia ib Hd Hnf Hab Hm Ef Ea Eb) as (h' & d' & ids' & frees' & E' & Hd' & Hmo & Hfs).
  exists h', d'. split; [exact E'|]. split; [eapply dinv_is; eassumption|].
  intros m Hb.
  destruct (dat_ok P HP1 h' d' _ ids' frees' m Hd') as (i & b' & Em & Hi & Ei & _); [unfold zlen; rewrite take_length, drop_length; lia|].
  destruct (dat_ok P HP1 h d _ ids frees m Hd) as (i2 & b2 & Em2 & Hi2 & Ei2 & _); [unfold zlen; lia|]. rewrite Em, Em2. rewrite Hfs in *.
  assert (i = i2) as -> by lia. pose proof (mono_lookup _ _ _ _ Hmo Hi). do 2 f_equal. congruence.
Qed.
Print Assumptions C108_deque_assign_own.

(** Push of the first element when the last block is full (so that a new block is needed), by copy and by move; the middle part
    assigned, by copy and by move.  Each line is the sequence the call leaves. *)
Definition vec_demo (mv : option (Z -> Z)) : outcome (list Z * list Z) :=
  let P := Params 1 true true in
  obind (vec_run P bheap0 (vec_default P) [VPush 4; VPush 5; VPush 6; VPush 7]) (fun '(h, v, _) =>
  obind (vec_at P h v 0) (fun '(c, j) => obind (vec_push_ref P h v c j mv) (fun '(h1, v1) => obind (vec_walk P h1 v1) (fun l1 =>
  obind (vec_begin P h v) (fun first => obind (it_steps P h first 1) (fun ia => obind (it_steps P h first 3) (fun ib =>
  obind (vec_assign_it P h v ia ib mv) (fun '(h2, v2) => obind (vec_walk P h2 v2) (fun l2 => Ok (l1, l2)))))))))).
Example C108_vector_nonvacuous :
  vstart (Params 1 true true) (@bheap0 Z) (vec_default (Params 1 true true)) [] /\ seq_ok [] [VPush 4; VPush 5; VPush 6; VPush 7] /\
  vec_demo None = Ok ([4; 5; 6; 7; 4], [5; 6]) /\ vec_demo (Some (fun _ => 0)) = Ok ([0; 5; 6; 7; 4], [5; 6]).
Proof. split; [apply vst_default|]. split; [cbn; tauto|]. split; vm_compute; reflexivity. Qed.

Definition deq_demo (mv : option (Z -> Z)) : outcome (list Z * list Z * list Z) :=
  let P := Params 1 true true in
  obind (deq_run P bheap0 (deq_default P) [DV (VPush 4); DPushF 5; DV (VPush 6); DPushF 7; DPushF 8]) (fun '(h, d, _) =>
  obind (deq_at P h d 0) (fun '(c, j) => obind (deq_push_ref P h d c j mv) (fun '(h1, d1) => obind (deq_walk P h1 d1) (fun l1 =>
  obind (deq_push_front P h d 8) (fun _ => obind (deq_push_front_ref P h d c j mv) (fun '(h3, d3) => obind (deq_walk P h3 d3) (fun l3 =>
  obind (deq_begin P h d) (fun first => obind (it_steps P h first 1) (fun ia => obind (it_steps P h first 3) (fun ib =>
  obind (deq_assign P h d [7; 5]) (fun _ => obind (deq_assign_it P h d ia ib mv) (fun '(h2, d2) => obind (deq_walk P h2 d2) (fun l2 =>
  Ok (l1, l3, l2)))))))))))))).
Example C108_deque_nonvacuous :
  dstart (Params 1 true true) (@bheap0 Z) (deq_default (Params 1 true true)) [] /\
  deq_demo None = Ok ([8; 7; 5; 4; 6; 8], [8; 8; 7; 5; 4; 6], [7; 5]) /\
  deq_demo (Some (fun _ => 0)) = Ok ([0; 7; 5; 4; 6; 8], [8; 0; 7; 5; 4; 6], [7; 5]).
Proof. split; [apply dst_default|]. split; vm_compute; reflexivity. Qed.
