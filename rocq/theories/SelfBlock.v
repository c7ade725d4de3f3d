(** x = x for StableBlockVector (StableBlockVector.hpp:109-113) and StableBlockDeque (StableBlockDeque.hpp:149-153). *)
From stdpp Require Import gmap.
From Verif Require Import Base BlkHeap BlkIter VecModel VecSpec VecProofs VecWorld VecFinal DeqModel DeqSpec DeqProofs DeqMore DeqWorld DeqFinal.

Section self.
Context {V : Type} (P : params) (HP : 0 <= expo P <= 30).
Implicit Types h : bheap V.

Lemma eset_same h c j x : eget P h c j = Ok x -> eset P h c j x = Ok h.
Proof.
  unfold eget, eset. destruct (slot P h c j) as [b| |]; cbn [obind]; try discriminate.
  destruct (el h !! (b, j)) as [y|] eqn:E; [|discriminate]. intros [= ->]. rewrite insert_id by assumption. destruct h; reflexivity.
Qed.

Lemma vec_set_same h v n x : vec_get P h v n = Ok x -> vec_set P h v n x = Ok h.
Proof. unfold vec_get, vec_set. destruct (vec_at P h v n) as [[c j]| |]; cbn [obind]; try discriminate. apply eset_same. Qed.

Lemma vec_self_assign h v xs ids frees : vinv P h v xs ids frees -> forall ys done, xs = done ++ ys -> vec_assign P h v (zlen done) ys = Ok (h, v).
Proof.
  intros Hv. pose proof (vinv_size P _ _ _ _ _ Hv) as Hsz. induction ys as [|y ys IH]; intros done ->; cbn [vec_assign]; rewrite Hsz, zlen_app.
  - replace (zlen done + zlen [] - zlen done) with 0 by (unfold zlen; cbn; lia). reflexivity.
  - rewrite zlen_cons. destruct (Z.ltb_spec (zlen done) (zlen done + (1 + zlen ys))) as [_|H]; [|pose proof (zlen_nonneg ys); lia].
    rewrite (vec_set_same h v (zlen done) y).
    + cbn [obind]. replace (zlen done + 1) with (zlen (done ++ [y])) by (rewrite zlen_app; unfold zlen; cbn; lia). apply IH. rewrite <- app_assoc. reflexivity.
    + unfold zlen. destruct HP. eapply vget_ok; [assumption|exact Hv|]. rewrite lookup_app_r by lia. rewrite Nat.sub_diag. reflexivity.
Qed.

Lemma vec_self_copy h0 v0 xs0 ops h v tr :
  vstart P h0 v0 xs0 -> seq_ok xs0 ops -> Forall no_walk ops -> vec_run P h0 v0 ops = Ok (h, v, tr) ->
  (~ vfull P v -> vec_copy_assign P h v v = Ok (h, v)) /\ (vfull P v -> vec_copy_assign P h v v = UB).
Proof.
  intros H0 Hok Hn E. destruct (vec_begin_end P HP h0 v0 xs0 ops h v tr H0 Hok Hn E) as ((it & Hb) & He & _). split.
  - intros Hf. destruct HP as [HP1 HP2]. destruct (vstart_good P HP _ _ _ H0) as (ids & frees & Hg).
    destruct (vrun_ok P HP ops h0 v0 xs0 ids frees Hg Hok) as (h' & v' & tr' & ids' & frees' & E' & _ & _ & Hg').
    { exact Hn. }
    rewrite E in E'. injection E' as <- <- <-. destruct Hg' as [Hv _].
    unfold vec_copy_assign. rewrite (vwalk_ok P HP1 h v _ _ _ HP2 Hv Hf). cbn [obind]. exact (vec_self_assign _ _ _ _ _ Hv _ [] eq_refl).
  - intros Hf. unfold vec_copy_assign, vec_walk. rewrite Hb, (He Hf). reflexivity.
Qed.

Lemma assign_over_same h last fuel : forall it xs,
  it_walk P h it last fuel = Ok xs -> exists it', assign_over P h it last xs = Ok (h, it', []) /\ it_eq it' last = true.
Proof.
  induction fuel as [|k IH]; intros it xs; cbn [it_walk].
  - destruct (it_eq it last) eqn:E; [|discriminate]. intros [= <-]. exists it. auto.
  - destruct (it_eq it last) eqn:E; [intros [= <-]; exists it; auto|].
    destruct (it_read P h it) as [x| |] eqn:Er; cbn [obind]; try discriminate.
    destruct (it_add P h it 1) as [it1| |] eqn:Ea; cbn [obind]; try discriminate.
    destruct (it_walk P h it1 last k) as [l| |] eqn:El; cbn [obind]; try discriminate. intros [= <-].
    cbn [assign_over]. rewrite E. assert (it_write P h it x = Ok h) as ->
      by (unfold it_write, it_read in *; destruct (i_ptr it); try discriminate; apply eset_same; exact Er). cbn [obind]. rewrite Ea. cbn [obind].
    apply IH. exact El.
Qed.

(** Whenever the deque can be traversed at all *)
Lemma deq_self h d xs : deq_walk P h d = Ok xs -> deq_copy_assign P h d d = Ok (h, d).
Proof.
  intros Hw. unfold deq_copy_assign. rewrite Hw. cbn [obind]. unfold deq_assign. unfold deq_walk in Hw.
  destruct (deq_begin P h d) as [first| |]; cbn [obind] in *; try discriminate. destruct (deq_end P h d) as [last| |]; cbn [obind] in *; try discriminate.
  destruct (Z.eqb_spec (d_size d) 0) as [E0|N0].
  - rewrite E0 in Hw. change (Z.to_nat 0) with O in Hw. cbn [it_walk] in Hw. destruct (it_eq first last); [|discriminate]. injection Hw as <-. reflexivity.
  - destruct (assign_over_same _ _ _ _ _ Hw) as (it' & -> & Heq). cbn [obind].
    assert (it_count P h it' last (Z.to_nat (d_size d)) = Ok O) as -> by (destruct (Z.to_nat (d_size d)); cbn [it_count]; rewrite Heq; reflexivity).
    reflexivity.
Qed.

Lemma deq_self_copy h0 d0 xs0 ops h d tr :
  dstart P h0 d0 xs0 -> dq_ok xs0 ops -> deq_run P h0 d0 ops = Ok (h, d, tr) ->
  (~ dfull P d -> deq_copy_assign P h d d = Ok (h, d)) /\ (dfull P d -> deq_copy_assign P h d d = UB).
Proof.
  pose proof HP as [HP1 HP2]. intros H0 Hok E. pose proof (start_dok P HP _ _ _ _ _ _ _ H0 Hok E) as Hok'. destruct (dstart_inv P HP _ _ _ H0) as (ids & frees & Hd0).
  destruct (drun_ok P HP ops h0 d0 xs0 ids frees Hd0 Hok') as (h' & d' & tr' & ids' & frees' & E' & _ & _ & Hd).
  rewrite E in E'. injection E' as <- <- <-. split; intros Hf.
  - eapply deq_self. exact (dwalk_ok P HP1 h d _ _ _ HP2 Hd Hf).
  - unfold deq_copy_assign. rewrite (walk_full P HP _ _ _ _ _ Hd Hf). reflexivity.
Qed.
End self.

Section selfmove.
Context {V : Type} (P : params) (HP : 0 <= expo P <= 30).
Implicit Types h : bheap V.

Lemma vec_self_move h0 v0 xs0 ops h v tr :
  vstart P h0 v0 xs0 -> seq_ok xs0 ops -> Forall no_walk ops -> vec_run P h0 v0 ops = Ok (h, v, tr) ->
  exists h' v', vec_move_assign P h v v = Ok (h', v, v') /\ v_size v' = zlen (seq_after xs0 ops) /\
    vec_free_all P h' v' = Ok h' /\ (forall s, exists s', vec_move_assign P h' v' s = Ok (h', s, s')) /\ (forall n, vec_get P h' v' n = UB).
Proof.
  intros H0 Hok Hn E. destruct HP as [HP1 HP2]. destruct (vstart_good P HP _ _ _ H0) as (ids & frees & Hg).
  destruct (vrun_ok P HP ops h0 v0 xs0 ids frees Hg Hok Hn) as (h1 & v1 & tr1 & ids1 & frees1 & E1 & _ & _ & [Hv Hp]).
  rewrite E in E1. injection E1 as <- <- <-. destruct (vfree_ok P HP1 _ _ _ _ _ Hv Hp) as (h' & Ef & _).
  eexists h', _. unfold vec_move_assign at 1. rewrite Ef. cbn [obind]. split; [reflexivity|]. split; [exact (vinv_size P _ _ _ _ _ Hv)|].
  split; [reflexivity|]. split; [intros s; eexists; reflexivity|]. intros n. reflexivity.
Qed.

Lemma deq_self_move h0 d0 xs0 ops h d tr :
  dstart P h0 d0 xs0 -> dq_ok xs0 ops -> deq_run P h0 d0 ops = Ok (h, d, tr) ->
  exists h', deq_move_assign P h d d = Ok (h', d, deq_husk d).
Proof.
  pose proof HP as [HP1 HP2]. intros H0 Hok E. pose proof (start_dok P HP _ _ _ _ _ _ _ H0 Hok E) as Hok'. destruct (dstart_inv P HP _ _ _ H0) as (ids & frees & Hd0).
  destruct (drun_ok P HP ops h0 d0 xs0 ids frees Hd0 Hok') as (h' & d' & tr' & ids' & frees' & E' & _ & _ & Hd).
  rewrite E in E'. injection E' as <- <- <-. destruct (dfree_ok P HP1 _ _ _ _ _ Hd) as (h' & Ef & _).
  exists h'. unfold deq_move_assign. rewrite Ef. reflexivity.
Qed.
End selfmove.
