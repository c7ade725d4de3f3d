(** How many entries of the table of blocks are copied when StableBlockVector and StableBlockDeque grow.

    The functions [.._n] are those of [VecModel] and [DeqModel] with a count of the pointers that std::copy moves
    (StableBlockVector.hpp:387, StableBlockDeque.hpp:490-493, 500, 526-529, 535-538); [run_n_vec] and [run_n_deq] say that they do
    the same.  Copies of the table of spare blocks are not counted. *)
From stdpp Require Import gmap.
From Verif Require Import Base BlkHeap BlkProofs BlkIter VecModel VecSpec VecProofs VecFinal
  DeqModel DeqSpec DeqProofs DeqWorld DeqFinal BlkMem.

Section cost.
Context {V : Type}.
Variable P : params.
Hypothesis HP : 0 <= expo P <= 30.
Notation B := (bsz P).
Implicit Types (h : bheap V) (v : vec) (d : deq) (x : V) (xs : list V).

(** ** The vector *)
Definition vec_check_n h v : outcome (bheap V * vec * Z) :=
  if B <=? v_bsize v then
    '(h1, v1, c1) <-!
      (if v_slots v =? 0 then
         let '(h', t) := talloc h 64 in Ok (h', Vec (v_size v) t 64 (-1) (v_bsize v) (v_fl v), 0)
       else if v_slots v - 1 <=? v_idx v then
         let '(h', t) := talloc h (v_slots v * 2) in
         h2 <-! tcopy h' (v_data v) 0 (v_slots v) t 0 ;;
         h3 <-! tdelete h2 (v_data v) ;;
         Ok (h3, Vec (v_size v) t (v_slots v * 2) (v_idx v) (v_bsize v) (v_fl v), v_slots v)
       else Ok (h, v, 0)) ;;
    '(h4, f, c) <-! fl_get h1 (v_fl v1) ;;
    h5 <-! tset h4 (v_data v1) (v_idx v1 + 1) c ;;
    Ok (h5, Vec (v_size v1) (v_data v1) (v_slots v1) (v_idx v1 + 1) 0 f, c1)
  else Ok (h, v, 0).
Definition vec_push_n h v x : outcome (bheap V * vec * Z) :=
  '(h1, v1, n) <-! vec_check_n h v ;;
  c <-! tget h1 (v_data v1) (v_idx v1) ;;
  h2 <-! emake P h1 c (v_bsize v1) x ;;
  Ok (h2, Vec (v_size v1 + 1) (v_data v1) (v_slots v1) (v_idx v1) (v_bsize v1 + 1) (v_fl v1), n).
Fixpoint vec_pushes_n h v xs : outcome (bheap V * vec * Z) :=
  match xs with
  | [] => Ok (h, v, 0)
  | x :: xs' => '(h1, v1, n1) <-! vec_push_n h v x ;; '(h2, v2, n2) <-! vec_pushes_n h1 v1 xs' ;; Ok (h2, v2, n1 + n2)
  end.
Fixpoint vec_assign_n h v (i : Z) xs : outcome (bheap V * vec * Z) :=
  match xs with
  | [] => '(h1, v1) <-! vec_pops P h v (Z.to_nat (v_size v - i)) ;; Ok (h1, v1, 0)
  | x :: xs' =>
      if i <? v_size v then h1 <-! vec_set P h v i x ;; vec_assign_n h1 v (i + 1) xs'
      else vec_pushes_n h v xs
  end.
(** No other call copies entries of this table. *)
Definition vec_step_n h v (o : vop V) : outcome (bheap V * vec * Z) :=
  match o with
  | VPush x => vec_push_n h v x
  | VAssign xs => vec_assign_n h v 0 xs
  | _ => '(h1, v1, _) <-! vec_step P h v o ;; Ok (h1, v1, 0)
  end.
Fixpoint vec_run_n h v (ops : list (vop V)) : outcome (bheap V * vec * Z) :=
  match ops with
  | [] => Ok (h, v, 0)
  | o :: ops' => '(h1, v1, n1) <-! vec_step_n h v o ;; '(h2, v2, n2) <-! vec_run_n h1 v1 ops' ;; Ok (h2, v2, n1 + n2)
  end.

(** Forgetting the count *)
Definition drop_n {A C} (e : outcome (A * C * Z)) : outcome (A * C) :=
  match e with Ok (a, c, _) => Ok (a, c) | Throw => Throw | UB => UB end.
Ltac crush := cbn [obind drop_n v_size v_data v_slots v_idx v_bsize v_fl d_size d_data d_slots d_back d_front d_bsize d_fsize d_fl]; repeat (match goal with
  | |- context [if ?b then _ else _] => destruct b
  | |- context [match ?e with Ok _ => _ | Throw => _ | UB => _ end] => destruct e as [?| |]
  | |- context [obind ?e _] => lazymatch e with Ok _ => fail | context [obind _ _] => fail | _ => destruct e as [?| |] end
  | p : (_ * _)%type |- _ => destruct p
  end; cbn [obind drop_n v_size v_data v_slots v_idx v_bsize v_fl d_size d_data d_slots d_back d_front d_bsize d_fsize d_fl]); try reflexivity; try congruence.

Lemma vec_check_drop h v : drop_n (vec_check_n h v) = vec_block_check P h v.
Proof.
  unfold vec_check_n, vec_block_check. cbn [talloc]. destruct (B <=? v_bsize v); [|reflexivity]. destruct (v_slots v =? 0); [crush|]. destruct (v_slots v - 1 <=? v_idx v); crush.
Qed.
Lemma vec_push_drop h v x : drop_n (vec_push_n h v x) = vec_push P h v x.
Proof. unfold vec_push_n, vec_push. rewrite <- vec_check_drop. destruct (vec_check_n h v) as [[[h1 v1] n]| |]; cbn [drop_n obind]; [|reflexivity..]. crush. Qed.
Lemma vec_pushes_drop xs : forall h v, drop_n (vec_pushes_n h v xs) = vec_pushes P h v xs.
Proof.
  induction xs as [|x xs IH]; intros h v; cbn [vec_pushes_n vec_pushes]; [reflexivity|]. rewrite <- vec_push_drop.
  destruct (vec_push_n h v x) as [[[h1 v1] n]| |]; cbn [drop_n obind]; [|reflexivity..]. rewrite <- IH. destruct (vec_pushes_n h1 v1 xs) as [[[? ?] ?]| |]; reflexivity.
Qed.
Lemma vec_assign_drop xs : forall h v i, drop_n (vec_assign_n h v i xs) = vec_assign P h v i xs.
Proof.
  induction xs as [|x xs IH]; intros h v i; [cbn [vec_assign_n vec_assign]; destruct (vec_pops P h v _) as [[? ?]| |]; reflexivity|].
  cbn [vec_assign_n vec_assign]. destruct (i <? v_size v); [|apply vec_pushes_drop]. destruct (vec_set P h v i x); cbn [obind]; [apply IH|reflexivity..].
Qed.
Lemma vec_step_drop h v o : drop_n (vec_step_n h v o) = drop_n ('(h1, v1, _) <-! vec_step P h v o ;; Ok (h1, v1, 0)).
Proof.
  destruct o; cbn [vec_step_n]; try reflexivity; cbn [vec_step].
  - rewrite vec_push_drop. destruct (vec_push P h v x) as [[? ?]| |]; reflexivity.
  - rewrite vec_assign_drop. destruct (vec_assign P h v 0 xs) as [[? ?]| |]; reflexivity.
Qed.
Lemma run_n_vec ops : forall h v h' v' tr, vec_run P h v ops = Ok (h', v', tr) -> exists n, vec_run_n h v ops = Ok (h', v', n).
Proof.
  induction ops as [|o ops IH]; intros h v h' v' tr; cbn [vec_run vec_run_n].
  - intros [= <- <- _]. eauto.
  - intros ([[h1 v1] r] & E1 & E)%obind_ok. apply obind_ok in E as ([[h2 v2] tr2] & E2 & [= <- <- _]).
    pose proof (vec_step_drop h v o) as Hs. rewrite E1 in Hs. cbn [obind drop_n] in Hs.
    destruct (vec_step_n h v o) as [[[h3 v3] n1]| |]; cbn [drop_n] in Hs; try discriminate. injection Hs as -> ->. cbn [obind].
    destruct (IH _ _ _ _ _ E2) as (n2 & ->). cbn [obind]. eauto.
Qed.

(** The count is what the table has grown by. *)
Definition tab v : Z := if v_slots v =? 0 then 64 else v_slots v.
Lemma vec_check_count h v h' v' n : vec_check_n h v = Ok (h', v', n) -> n = tab v' - tab v.
Proof.
  unfold vec_check_n. destruct (B <=? v_bsize v); [|intros [= <- <- <-]; lia]. intros ([[h1 v1] c1] & E1 & E)%obind_ok.
  apply obind_ok in E as ([[h4 f] c] & E4 & E). apply obind_ok in E as (h5 & E5 & [= <- <- <-]). unfold tab at 1. cbn [v_slots]. fold (tab v1).
  destruct (Z.eqb_spec (v_slots v) 0) as [E0|N0]; cbn [talloc] in E1.
  - injection E1 as <- <- <-. unfold tab. cbn [v_slots]. rewrite E0. reflexivity.
  - destruct (v_slots v - 1 <=? v_idx v).
    + apply obind_ok in E1 as (h2 & E2 & E1). apply obind_ok in E1 as (h3 & E3 & [= <- <- <-]). unfold tab. cbn [v_slots].
      destruct (Z.eqb_spec (v_slots v) 0); [lia|]. destruct (Z.eqb_spec (v_slots v * 2) 0); lia.
    + injection E1 as <- <- <-. lia.
Qed.
Lemma vec_push_count h v x h' v' n : vec_push_n h v x = Ok (h', v', n) -> n = tab v' - tab v.
Proof.
  unfold vec_push_n. intros ([[h1 v1] n1] & E1 & E)%obind_ok. apply obind_ok in E as (c & _ & E). apply obind_ok in E as (h2 & _ & [= <- <- <-]).
  rewrite (vec_check_count _ _ _ _ _ E1). reflexivity.
Qed.
Lemma vec_pushes_count xs : forall h v h' v' n, vec_pushes_n h v xs = Ok (h', v', n) -> n = tab v' - tab v.
Proof.
  induction xs as [|x xs IH]; intros h v h' v' n; cbn [vec_pushes_n]; [intros [= <- <- <-]; lia|].
  intros ([[h1 v1] n1] & E1 & E)%obind_ok. apply obind_ok in E as ([[h2 v2] n2] & E2 & [= <- <- <-]).
  rewrite (vec_push_count _ _ _ _ _ _ E1), (IH _ _ _ _ _ E2). lia.
Qed.
Lemma vec_pop_tab h v h' v' : vec_pop P h v = Ok (h', v') -> tab v' = tab v.
Proof.
  unfold vec_pop. destruct (v_size v =? 0); [intros [= <- <-]; reflexivity|]. intros ([h1 v1] & E1 & E)%obind_ok. apply obind_ok in E as (c & _ & E). apply obind_ok in E as (h2 & _ & [= <- <-]).
  destruct (0 <? v_bsize v); [injection E1 as <- <-; reflexivity|]. apply obind_ok in E1 as (c1 & _ & E1). apply obind_ok in E1 as ([h3 f] & _ & [= <- <-]). reflexivity.
Qed.
Lemma vec_pops_tab k : forall h v h' v', vec_pops P h v k = Ok (h', v') -> tab v' = tab v.
Proof.
  induction k as [|k IH]; intros h v h' v'; cbn [vec_pops]; [intros [= <- <-]; reflexivity|]. intros ([h1 v1] & E1 & E)%obind_ok. rewrite (IH _ _ _ _ E). eapply vec_pop_tab; exact E1.
Qed.
Lemma vec_assign_count xs : forall h v i h' v' n, vec_assign_n h v i xs = Ok (h', v', n) -> n = tab v' - tab v.
Proof.
  induction xs as [|x xs IH]; intros h v i h' v' n; [cbn [vec_assign_n]|].
  - intros ([h1 v1] & E1 & [= <- <- <-])%obind_ok. rewrite (vec_pops_tab _ _ _ _ _ E1). lia.
  - cbn [vec_assign_n]. destruct (i <? v_size v); [|apply (vec_pushes_count (x :: xs))]. intros (h1 & E1 & E)%obind_ok. exact (IH _ _ _ _ _ _ E).
Qed.
Lemma vec_step_count h v o h' v' n : vec_step_n h v o = Ok (h', v', n) -> n = tab v' - tab v.
Proof.
  assert (Hk : forall h1 v1 r, vec_step P h v o = Ok (h1, v1, r) -> (forall x, o <> VPush x) -> (forall xs, o <> VAssign xs) -> tab v1 = tab v).
  { intros h1 v1 r E Hx Ha. destruct o; cbn [vec_step] in E; try (exfalso; eapply Hx; reflexivity); try (exfalso; eapply Ha; reflexivity).
    - apply obind_ok in E as ([h2 v2] & E2 & [= <- <- _]). eapply vec_pop_tab; exact E2.
    - apply obind_ok in E as ([h2 v2] & E2 & [= <- <- _]). unfold vec_clear in E2. destruct (v_slots v <=? 0); [injection E2 as <- <-; reflexivity|].
      apply obind_ok in E2 as (h3 & _ & E2). destruct (0 <? v_idx v); [|injection E2 as <- <-; reflexivity].
      apply obind_ok in E2 as (c & _ & E2). apply obind_ok in E2 as ([h4 f] & _ & E2). apply obind_ok in E2 as ([h5 f5] & _ & E2). apply obind_ok in E2 as (h6 & _ & [= <- <-]). reflexivity.
    - apply obind_ok in E as ([h2 f] & E2 & [= <- <- _]). reflexivity.
    - apply obind_ok in E as (h2 & E2 & [= <- <- _]). reflexivity.
    - apply obind_ok in E as (x & _ & [= <- <- _]). reflexivity.
    - destruct (v_size v <=? n0); [injection E as <- <- _; reflexivity|]. apply obind_ok in E as (x & _ & [= <- <- _]). reflexivity.
    - apply obind_ok in E as (x & _ & [= <- <- _]). reflexivity.
    - apply obind_ok in E as (x & _ & [= <- <- _]). reflexivity.
    - injection E as <- <- _; reflexivity.
    - injection E as <- <- _; reflexivity.
    - apply obind_ok in E as (x & _ & [= <- <- _]). reflexivity. }
  destruct o; cbn [vec_step_n]; try apply vec_push_count; try apply vec_assign_count;
    intros ([[h1 v1] r] & E1 & [= <- <- <-])%obind_ok; rewrite (Hk _ _ _ E1) by discriminate; lia.
Qed.
Lemma vec_run_count ops : forall h v h' v' n, vec_run_n h v ops = Ok (h', v', n) -> n = tab v' - tab v.
Proof.
  induction ops as [|o ops IH]; intros h v h' v' n; cbn [vec_run_n]; [intros [= <- <- <-]; lia|].
  intros ([[h1 v1] n1] & E1 & E)%obind_ok. apply obind_ok in E as ([[h2 v2] n2] & E2 & [= <- <- <-]).
  rewrite (vec_step_count _ _ _ _ _ _ E1), (IH _ _ _ _ _ E2). lia.
Qed.

Lemma vec_cost h0 v0 xs0 ops h v tr p :
  vstart P h0 v0 xs0 -> seq_ok xs0 ops -> Forall no_walk ops -> vec_run P h0 v0 ops = Ok (h, v, tr) -> (forall k, zlen (seq_after xs0 (take k ops)) <= p) ->
  exists n, vec_run_n h0 v0 ops = Ok (h, v, n) /\ B * n <= 2 * p.
Proof.
  intros H0 Hok Hnw E Hp. destruct (run_n_vec _ _ _ _ _ _ E) as (n & En). exists n. split; [exact En|]. rewrite (vec_run_count _ _ _ _ _ _ En).
  destruct (vmem P HP _ _ _ _ _ _ _ _ H0 Hok Hnw E Hp) as (_ & _ & _ & Hf). pose proof (BP P HP) as HB.
  assert (Hp0 : 0 <= p) by (pose proof (Hp 0%nat); pose proof (zlen_nonneg (seq_after xs0 (take 0 ops))); lia).
  assert (Hdiv : B * (p / B) <= p) by (apply Z.mul_div_le; lia).
  assert (Hup : tab v <= Z.max 64 (2 * (p / B + 1))) by (unfold tab; destruct Hf as (_ & _ & [Hf|Hf]); destruct (Z.eqb_spec (v_slots v) 0); lia).
  assert (Hlow : 64 <= tab v0).
  { unfold tab. destruct (vstart_fit P HP _ _ _ _ H0 (Hp 0%nat)) as (_ & _ & [Hf0|Hf0]); destruct (Z.eqb_spec (v_slots v0) 0); lia. }
  nia.
Qed.

(** ** The deque: push_back, pop_back, push_front, pop_front *)
Definition deq_check_n h d : outcome (bheap V * deq * Z) :=
  if B <=? d_bsize d then
    if d_slots d =? 0 then '(h1, d1) <-! deq_first_block P h d ;; Ok (h1, d1, 0)
    else
      '(h1, d1, n1) <-!
        (if d_slots d - 1 <=? d_back d then
           if 5 <? d_front d then
             h' <-! tshift P h (d_data d) (d_front d) (d_back d + 1 - d_front d) (d_front d / 2) ;;
             Ok (h', Deq (d_size d) (d_data d) (d_slots d) (d_front d / 2 + (d_back d - d_front d)) (d_front d / 2)
                         (d_bsize d) (d_fsize d) (d_fl d), d_back d + 1 - d_front d)
           else
             let '(h', t) := talloc h (d_slots d * 2) in
             h2 <-! tcopy h' (d_data d) 0 (d_slots d) t 0 ;;
             h3 <-! tdelete h2 (d_data d) ;;
             Ok (h3, Deq (d_size d) t (d_slots d * 2) (d_back d) (d_front d) (d_bsize d) (d_fsize d) (d_fl d), d_slots d)
         else Ok (h, d, 0)) ;;
      '(h4, f, c) <-! fl_get h1 (d_fl d1) ;;
      h5 <-! tset h4 (d_data d1) (d_back d1 + 1) c ;;
      Ok (h5, Deq (d_size d1) (d_data d1) (d_slots d1) (d_back d1 + 1) (d_front d1) 0 (d_fsize d1) f, n1)
  else Ok (h, d, 0).
Definition deq_check_front_n h d : outcome (bheap V * deq * Z) :=
  if d_fsize d <? 0 then
    if d_slots d =? 0 then '(h1, d1) <-! deq_first_block P h d ;; Ok (h1, d1, 0)
    else
      '(h1, d1, n1) <-!
        (if d_front d =? 0 then
           if d_back d <? d_slots d - 5 then
             h' <-! tshift P h (d_data d) 0 (d_back d + 1) ((d_slots d - d_back d) / 2) ;;
             Ok (h', Deq (d_size d) (d_data d) (d_slots d) ((d_slots d - d_back d) / 2 + (d_back d - d_front d))
                         ((d_slots d - d_back d) / 2) (d_bsize d) (d_fsize d) (d_fl d), d_back d + 1)
           else
             let '(h', t) := talloc h (d_slots d * 2) in
             h2 <-! tcopy h' (d_data d) 0 (d_back d + 1) t (d_slots d) ;;
             h3 <-! tdelete h2 (d_data d) ;;
             Ok (h3, Deq (d_size d) t (d_slots d * 2) (d_slots d + (d_back d - d_front d)) (d_slots d) (d_bsize d) (d_fsize d) (d_fl d), d_back d + 1)
         else Ok (h, d, 0)) ;;
      '(h4, f, c) <-! fl_get h1 (d_fl d1) ;;
      h5 <-! tset h4 (d_data d1) (d_front d1 - 1) c ;;
      Ok (h5, Deq (d_size d1) (d_data d1) (d_slots d1) (d_back d1) (d_front d1 - 1) (d_bsize d1) (B - 1) f, n1)
  else Ok (h, d, 0).
Definition deq_push_n h d x : outcome (bheap V * deq * Z) :=
  '(h1, d1, n) <-! deq_check_n h d ;;
  c <-! tget h1 (d_data d1) (d_back d1) ;;
  h2 <-! emake P h1 c (d_bsize d1) x ;;
  Ok (h2, Deq (d_size d1 + 1) (d_data d1) (d_slots d1) (d_back d1) (d_front d1) (d_bsize d1 + 1) (d_fsize d1) (d_fl d1), n).
Definition deq_push_front_n h d x : outcome (bheap V * deq * Z) :=
  '(h1, d1, n) <-! deq_check_front_n h d ;;
  c <-! tget h1 (d_data d1) (d_front d1) ;;
  h2 <-! emake P h1 c (d_fsize d1) x ;;
  Ok (h2, Deq (d_size d1 + 1) (d_data d1) (d_slots d1) (d_back d1) (d_front d1) (d_bsize d1) (d_fsize d1 - 1) (d_fl d1), n).
Inductive qop := QPushB (x : V) | QPopB | QPushF (x : V) | QPopF.
Definition deq_step_n h d (o : qop) : outcome (bheap V * deq * Z) :=
  match o with
  | QPushB x => deq_push_n h d x
  | QPopB => '(h1, d1) <-! deq_pop P h d ;; Ok (h1, d1, 0)
  | QPushF x => deq_push_front_n h d x
  | QPopF => '(h1, d1) <-! deq_pop_front P h d ;; Ok (h1, d1, 0)
  end.
Fixpoint deq_run_n h d (ops : list qop) : outcome (bheap V * deq * Z) :=
  match ops with
  | [] => Ok (h, d, 0)
  | o :: ops' => '(h1, d1, n1) <-! deq_step_n h d o ;; '(h2, d2, n2) <-! deq_run_n h1 d1 ops' ;; Ok (h2, d2, n1 + n2)
  end.
(** The same calls in [DeqModel] *)
Definition qdop (o : qop) : dop V :=
  match o with QPushB x => DV (VPush x) | QPopB => DV (VPop) | QPushF x => DPushF x | QPopF => DPopF end.

Lemma deq_check_drop h d : drop_n (deq_check_n h d) = deq_check P h d.
Proof.
  unfold deq_check_n, deq_check. cbn [talloc]. destruct (B <=? d_bsize d); [|reflexivity]. destruct (d_slots d =? 0); [destruct (deq_first_block P h d) as [[? ?]| |]; reflexivity|].
  destruct (d_slots d - 1 <=? d_back d); [|crush]. destruct (5 <? d_front d); crush.
Qed.
Lemma deq_check_front_drop h d : drop_n (deq_check_front_n h d) = deq_check_front P h d.
Proof.
  unfold deq_check_front_n, deq_check_front. cbn [talloc]. destruct (d_fsize d <? 0); [|reflexivity]. destruct (d_slots d =? 0); [destruct (deq_first_block P h d) as [[? ?]| |]; reflexivity|].
  destruct (d_front d =? 0); [|crush]. destruct (d_back d <? d_slots d - 5); crush.
Qed.
Lemma deq_step_drop h d o : drop_n (deq_step_n h d o) = drop_n ('(h1, d1, _) <-! deq_step P h d (qdop o) ;; Ok (h1, d1, 0)).
Proof.
  destruct o; cbn [deq_step_n qdop deq_step].
  - unfold deq_push_n, deq_push. rewrite <- deq_check_drop. destruct (deq_check_n h d) as [[[h1 d1] n]| |]; cbn [drop_n obind]; [|reflexivity..]. crush.
  - destruct (deq_pop P h d) as [[? ?]| |]; reflexivity.
  - unfold deq_push_front_n, deq_push_front. rewrite <- deq_check_front_drop. destruct (deq_check_front_n h d) as [[[h1 d1] n]| |]; cbn [drop_n obind]; [|reflexivity..]. crush.
  - destruct (deq_pop_front P h d) as [[? ?]| |]; reflexivity.
Qed.
Lemma step_n_deq h d o h' d' r : deq_step P h d (qdop o) = Ok (h', d', r) -> exists n, deq_step_n h d o = Ok (h', d', n).
Proof.
  intros E. pose proof (deq_step_drop h d o) as Hs. rewrite E in Hs. cbn [obind drop_n] in Hs. destruct (deq_step_n h d o) as [[[h3 d3] n1]| |]; cbn [drop_n] in Hs; try discriminate.
  injection Hs as -> ->. eauto.
Qed.
Lemma step_deq_n h d o h' d' n : deq_step_n h d o = Ok (h', d', n) -> exists r, deq_step P h d (qdop o) = Ok (h', d', r).
Proof.
  intros E. pose proof (deq_step_drop h d o) as Hs. rewrite E in Hs. cbn [obind drop_n] in Hs. destruct (deq_step P h d (qdop o)) as [[[h3 d3] r]| |]; cbn [drop_n obind] in Hs; try discriminate.
  injection Hs as -> ->. eauto.
Qed.
Lemma run_n_deq ops : forall h d h' d' tr, deq_run P h d (map qdop ops) = Ok (h', d', tr) -> exists n, deq_run_n h d ops = Ok (h', d', n).
Proof.
  induction ops as [|o ops IH]; intros h d h' d' tr; cbn [map deq_run deq_run_n].
  - intros [= <- <- _]. eauto.
  - intros ([[h1 d1] r] & E1 & E)%obind_ok. apply obind_ok in E as ([[h2 d2] tr2] & E2 & [= <- <- _]).
    destruct (step_n_deq _ _ _ _ _ _ E1) as (n1 & ->). cbn [obind]. destruct (IH _ _ _ _ _ E2) as (n2 & ->). cbn [obind]. eauto.
Qed.
Lemma run_deq_n ops : forall h d h' d' n, deq_run_n h d ops = Ok (h', d', n) -> exists tr, deq_run P h d (map qdop ops) = Ok (h', d', tr).
Proof.
  induction ops as [|o ops IH]; intros h d h' d' n; cbn [map deq_run deq_run_n].
  - intros [= <- <- _]. eauto.
  - intros ([[h1 d1] n1] & E1 & E)%obind_ok. apply obind_ok in E as ([[h2 d2] n2] & E2 & [= <- <- _]).
    destruct (step_deq_n _ _ _ _ _ _ E1) as (r & ->). cbn [obind]. destruct (IH _ _ _ _ _ E2) as (tr & ->). cbn [obind]. eauto.
Qed.

(** The counters after a call *)
Definition ctl d : Z * Z * Z * Z * Z := (d_front d, d_back d, d_slots d, d_bsize d, d_fsize d).
Definition cpush (s : Z * Z * Z * Z * Z) : Z * Z * Z * Z * Z * Z :=
  let '(f, b, s, bs, fs) := s in
  if B <=? bs then
    if s =? 0 then (30, 30, 64, B / 2 + 1, B / 2 - 1, 0)
    else if s - 1 <=? b then
      if 5 <? f then (f / 2, f / 2 + (b - f) + 1, s, 1, fs, b + 1 - f) else (f, b + 1, s * 2, 1, fs, s)
    else (f, b + 1, s, 1, fs, 0)
  else (f, b, s, bs + 1, fs, 0).
Lemma push_ctl h d x h' d' n : deq_push_n h d x = Ok (h', d', n) -> (ctl d', n) = cpush (ctl d).
Proof.
  unfold deq_push_n. intros ([[h1 d1] n1] & E1 & E)%obind_ok. apply obind_ok in E as (c & _ & E). apply obind_ok in E as (h2 & _ & [= <- <- <-]).
  unfold ctl at 1. cbn [d_size d_data d_slots d_back d_front d_bsize d_fsize d_fl]. unfold cpush, ctl. unfold deq_check_n in E1. destruct (B <=? d_bsize d); [|injection E1 as <- <- <-; reflexivity].
  destruct (d_slots d =? 0).
  { apply obind_ok in E1 as ([h3 d3] & E3 & [= <- <- <-]). unfold deq_first_block in E3. cbn [talloc] in E3. apply obind_ok in E3 as ([[h4 f] c4] & _ & E3). apply obind_ok in E3 as (h5 & _ & [= <- <-]).
    cbn [d_size d_data d_slots d_back d_front d_bsize d_fsize d_fl]. repeat f_equal; lia. }
  apply obind_ok in E1 as ([[h3 d3] n3] & E3 & E1). apply obind_ok in E1 as ([[h4 f] c4] & _ & E1). apply obind_ok in E1 as (h5 & _ & [= <- <- <-]).
  cbn [d_size d_data d_slots d_back d_front d_bsize d_fsize d_fl].
  destruct (d_slots d - 1 <=? d_back d); [|injection E3 as <- <- <-; reflexivity]. destruct (5 <? d_front d).
  - apply obind_ok in E3 as (h6 & _ & [= <- <- <-]). reflexivity.
  - cbn [talloc] in E3. apply obind_ok in E3 as (h6 & _ & E3). apply obind_ok in E3 as (h7 & _ & [= <- <- <-]). reflexivity.
Qed.
Lemma popf_ctl h d h' d' : deq_pop_front P h d = Ok (h', d') -> d_size d <> 0 ->
  ctl d' = (if d_fsize d =? B - 1 then d_front d + 1 else d_front d, d_back d, d_slots d, d_bsize d, if d_fsize d =? B - 1 then 0 else d_fsize d + 1).
Proof.
  unfold deq_pop_front. intros E Hz. destruct (Z.eqb_spec (d_size d) 0); [contradiction|]. apply obind_ok in E as ([h1 d1] & E1 & E). apply obind_ok in E as (c & _ & E). apply obind_ok in E as (h2 & _ & [= <- <-]).
  destruct (d_fsize d =? B - 1); cbn [negb] in E1.
  - apply obind_ok in E1 as (c1 & _ & E1). apply obind_ok in E1 as ([h3 f] & _ & [= <- <-]). reflexivity.
  - injection E1 as <- <-. reflexivity.
Qed.

(** [goes s s' k n]: from every reachable state with counters [s], [k] pushes at the back and pops at the front lead to counters
    [s'] and copy [n] entries. *)
Definition at_ h d s : Prop := exists xs ids frees t, dlive P h d t xs ids frees /\ ctl d = s.
Definition queue_op (o : qop) : Prop := match o with QPushB _ | QPopF => True | _ => False end.
Definition goes s s' (k : nat) (n : Z) : Prop :=
  V -> forall h d, at_ h d s -> exists ops h' d', length ops = k /\ Forall queue_op ops /\ deq_run_n h d ops = Ok (h', d', n) /\ at_ h' d' s'.

Lemma run_n_app ops1 : forall ops2 h d h1 d1 n1 h2 d2 n2, deq_run_n h d ops1 = Ok (h1, d1, n1) -> deq_run_n h1 d1 ops2 = Ok (h2, d2, n2) ->
  deq_run_n h d (ops1 ++ ops2) = Ok (h2, d2, n1 + n2).
Proof.
  induction ops1 as [|o ops1 IH]; intros ops2 h d h1 d1 n1 h2 d2 n2; cbn [app deq_run_n].
  - intros [= <- <- <-] E. rewrite Z.add_0_l. exact E.
  - intros ([[h3 d3] n3] & E1 & E)%obind_ok E'. apply obind_ok in E as ([[h4 d4] n4] & E2 & [= <- <- <-]). rewrite E1. cbn [obind].
    rewrite (IH _ _ _ _ _ _ _ _ _ E2 E'). cbn [obind]. do 2 f_equal. lia.
Qed.
Ltac tup := repeat match goal with |- (_, _) = (_, _) => apply (f_equal2 pair) end; try reflexivity.
Lemma goes_refl s : goes s s 0 0.
Proof. intros _ h d H. exists [], h, d. split; [reflexivity|]. split; [constructor|]. split; [reflexivity|exact H]. Qed.
Lemma goes_trans s1 s2 s3 k1 k2 n1 n2 : goes s1 s2 k1 n1 -> goes s2 s3 k2 n2 -> goes s1 s3 (k1 + k2) (n1 + n2).
Proof.
  intros H1 H2 x h d H. destruct (H1 x h d H) as (o1 & h1 & d1 & L1 & F1 & E1 & A1). destruct (H2 x h1 d1 A1) as (o2 & h2 & d2 & L2 & F2 & E2 & A2).
  exists (o1 ++ o2), h2, d2. split; [rewrite app_length; lia|]. split; [apply Forall_app; split; assumption|]. split; [eapply run_n_app; eassumption|exact A2].
Qed.
Lemma goes_eq s s' k n t t' k' n' : goes s s' k n -> s = t -> s' = t' -> k = k' -> n = n' -> goes t t' k' n'.
Proof. intros H -> -> -> ->. exact H. Qed.

Lemma goes_push s : goes s (fst (cpush s)) 1 (snd (cpush s)).
Proof.
  intros x h d (xs & ids & frees & t & Hl & <-). pose proof HP as [HP1 _].
  destruct (dpush_ok P HP1 h d xs ids frees x (or_intror (ex_intro _ t Hl))) as (h' & d' & ids' & frees' & E & Hd' & _).
  destruct (step_n_deq h d (QPushB x) h' d' VUnit) as (n & En); [cbn [qdop deq_step]; rewrite E; reflexivity|]. pose proof (push_ctl _ _ _ _ _ _ En) as Hc.
  exists [QPushB x], h', d'. split; [reflexivity|]. split; [repeat constructor|]. rewrite <- Hc. cbn [fst snd]. split.
  - cbn [deq_run_n]. rewrite En. cbn [obind]. do 2 f_equal. lia.
  - destruct Hd' as [(_ & Hn & _)|(t' & Hl')]; [destruct xs; discriminate|]. exists (xs ++ [x]), ids', frees', t'. auto.
Qed.
Lemma goes_popf f b s bs fs : 0 < (b - f) * B + bs - fs - 1 ->
  goes (f, b, s, bs, fs) (if fs =? B - 1 then f + 1 else f, b, s, bs, if fs =? B - 1 then 0 else fs + 1) 1 0.
Proof.
  intros Hn _ h d (xs & ids & frees & t & Hl & Hc). pose proof HP as [HP1 _]. injection Hc as Ef Eb Es Ebs Efs.
  assert (Hz : zlen xs = (b - f) * B + bs - fs - 1). { destruct Hl as (_ & _ & _ & Hi & _ & _ & _ & Hz & _). rewrite Hz, <- Ef, <- Eb, <- Ebs, <- Efs, Hi. lia. }
  destruct xs as [|x xs]; [change (zlen []) with 0 in Hz; lia|].
  destruct (dpop_front_ok P HP1 h d xs x ids frees (or_intror (ex_intro _ t Hl))) as (h' & d' & ids' & frees' & E & Hd' & _).
  assert (Hsz : d_size d <> 0) by (destruct Hl as (_ & _ & Hsz & _); lia). pose proof (popf_ctl _ _ _ _ E Hsz) as Hc'.
  exists [QPopF], h', d'. split; [reflexivity|]. split; [repeat constructor|]. split; [cbn [deq_run_n deq_step_n]; rewrite E; reflexivity|].
  rewrite Ef, Eb, Es, Ebs, Efs in Hc'. destruct Hd' as [(-> & _)|(t' & Hl')]; [exfalso|exists xs, ids', frees', t'; auto].
  injection Hc' as _ _ E0 _ _. destruct Hl as (_ & _ & _ & _ & _ & _ & _ & _ & Hs). cbn in E0. lia.
Qed.

Lemma goes_fill k : forall f b s bs fs, bs + Z.of_nat k <= B -> goes (f, b, s, bs, fs) (f, b, s, bs + Z.of_nat k, fs) k 0.
Proof.
  induction k as [|k IH]; intros f b s bs fs Hk; [eapply goes_eq; [apply goes_refl|..]; try reflexivity; tup; lia|].
  pose proof (goes_push (f, b, s, bs, fs)) as H1. unfold cpush in H1. destruct (Z.leb_spec B bs); [lia|]. cbn [fst snd] in H1.
  eapply goes_eq; [eapply goes_trans; [exact H1|apply (IH f b s (bs + 1) fs); lia]|..]; try reflexivity; tup; lia.
Qed.
Definition nB : nat := Z.to_nat B.
Lemma nB_B : Z.of_nat nB = B /\ 0 < B.
Proof. pose proof (BP P HP). unfold nB. lia. Qed.
(** One more block at the back *)
Lemma goes_block s s' n : cpush s = (s', n) -> (exists f b sl fs, s' = (f, b, sl, 1, fs)) -> goes s (let '(f, b, sl, _, fs) := s' in (f, b, sl, B, fs)) nB n.
Proof.
  intros Hc (f & b & sl & fs & ->). pose proof nB_B as [E Hp]. pose proof (goes_push s) as H1. rewrite Hc in H1. cbn [fst snd] in H1.
  eapply goes_eq; [eapply goes_trans; [exact H1|apply (goes_fill (nB - 1) f b sl 1 fs); lia]|..]; try reflexivity; [tup; lia|lia|lia].
Qed.
Lemma goes_room f b s fs : 0 < s -> b < s - 1 -> goes (f, b, s, B, fs) (f, b + 1, s, B, fs) nB 0.
Proof.
  intros Hs Hb. eapply (goes_block (f, b, s, B, fs) (f, b + 1, s, 1, fs)); [|eauto 10]. unfold cpush.
  destruct (Z.leb_spec B B); [|lia]. destruct (Z.eqb_spec s 0); [lia|]. destruct (Z.leb_spec (s - 1) b); [lia|]. reflexivity.
Qed.
Lemma goes_rooms m : forall f b s fs, 0 < s -> b + Z.of_nat m <= s - 1 -> goes (f, b, s, B, fs) (f, b + Z.of_nat m, s, B, fs) (m * nB) 0.
Proof.
  induction m as [|m IH]; intros f b s fs Hs Hb; [eapply goes_eq; [apply goes_refl|..]; try reflexivity; tup; lia|].
  eapply goes_eq; [eapply goes_trans; [apply (goes_room f b s fs); lia|apply (IH f (b + 1) s fs); lia]|..]; try reflexivity; tup; lia.
Qed.
Lemma goes_shift f s fs : 0 < s -> 5 < f -> goes (f, s - 1, s, B, fs) (f / 2, f / 2 + (s - 1 - f) + 1, s, B, fs) nB (s - f).
Proof.
  intros Hs Hf. eapply goes_eq; [eapply (goes_block (f, s - 1, s, B, fs) (f / 2, f / 2 + (s - 1 - f) + 1, s, 1, fs) (s - 1 + 1 - f)); [|eauto 10]|..]; try reflexivity; [|lia].
  unfold cpush. destruct (Z.leb_spec B B); [|lia]. destruct (Z.eqb_spec s 0); [lia|]. destruct (Z.leb_spec (s - 1) (s - 1)); [|lia]. destruct (Z.ltb_spec 5 f); [reflexivity|lia].
Qed.
Lemma goes_double f s fs : 0 < s -> f <= 5 -> goes (f, s - 1, s, B, fs) (f, s, s * 2, B, fs) nB s.
Proof.
  intros Hs Hf. eapply goes_eq; [eapply (goes_block (f, s - 1, s, B, fs) (f, s - 1 + 1, s * 2, 1, fs) s); [|eauto 10]|..]; try reflexivity; [|tup; lia].
  unfold cpush. destruct (Z.leb_spec B B); [|lia]. destruct (Z.eqb_spec s 0); [lia|]. destruct (Z.leb_spec (s - 1) (s - 1)); [|lia]. destruct (Z.ltb_spec 5 f); [lia|reflexivity].
Qed.
Lemma goes_shift_fill f s fs : 0 < s -> 5 < f -> goes (f, s - 1, s, B, fs) (f / 2, s - 1, s, B, fs) ((1 + Z.to_nat (f - f / 2 - 1)) * nB) (s - f).
Proof.
  intros Hs Hf. assert (f / 2 < f) by (apply Z.div_lt; lia).
  eapply goes_eq; [eapply goes_trans; [apply (goes_shift f s fs); lia|apply (goes_rooms (Z.to_nat (f - f / 2 - 1)) (f / 2) (f / 2 + (s - 1 - f) + 1) s fs); lia]|..]; try reflexivity; tup; lia.
Qed.

(** Removing one block's worth of elements at the front *)
Lemma goes_pops k : forall f b s bs fs, fs + Z.of_nat k <= B - 1 -> Z.of_nat k <= (b - f) * B + bs - fs - 1 ->
  goes (f, b, s, bs, fs) (f, b, s, bs, fs + Z.of_nat k) k 0.
Proof.
  induction k as [|k IH]; intros f b s bs fs Hk Hn; [eapply goes_eq; [apply goes_refl|..]; try reflexivity; tup; lia|].
  pose proof (goes_popf f b s bs fs ltac:(lia)) as H1. destruct (Z.eqb_spec fs (B - 1)); [lia|].
  eapply goes_eq; [eapply goes_trans; [exact H1|apply (IH f b s bs (fs + 1)); lia]|..]; try reflexivity; tup; lia.
Qed.
Lemma goes_pop_block f b s bs fs : 0 <= fs <= B - 1 -> B <= (b - f) * B + bs - fs - 1 -> goes (f, b, s, bs, fs) (f + 1, b, s, bs, fs) nB 0.
Proof.
  intros Hfs Hn. pose proof nB_B as [EB Hp].
  assert (H1 : goes (f, b, s, bs, fs) (f, b, s, bs, B - 1) (Z.to_nat (B - 1 - fs)) 0).
  { eapply goes_eq; [apply (goes_pops (Z.to_nat (B - 1 - fs)) f b s bs fs); lia|..]; try reflexivity; tup; lia. }
  assert (H2 : goes (f, b, s, bs, B - 1) (f + 1, b, s, bs, 0) 1 0).
  { pose proof (goes_popf f b s bs (B - 1) ltac:(lia)) as H2. rewrite Z.eqb_refl in H2. exact H2. }
  assert (H3 : goes (f + 1, b, s, bs, 0) (f + 1, b, s, bs, fs) (Z.to_nat fs) 0).
  { eapply goes_eq; [apply (goes_pops (Z.to_nat fs) (f + 1) b s bs 0); lia|..]; try reflexivity; tup; lia. }
  eapply goes_eq; [eapply goes_trans; [eapply goes_trans; [exact H1|exact H2]|exact H3]|..]; try reflexivity; lia.
Qed.

(** A full table with three free entries in front, for every size of the table *)
Lemma goes_setup k : exists m n, 0 <= n /\ goes (30, 30, 64, B / 2 + 1, B / 2 - 1) (3, 64 * 2 ^ Z.of_nat k - 1, 64 * 2 ^ Z.of_nat k, B, B / 2 - 1) m n.
Proof.
  pose proof nB_B as [EB Hp]. assert (Hh : 0 <= B / 2 < B) by (split; [apply Z.div_pos; lia|apply Z.div_lt_upper_bound; lia]).
  induction k as [|k (m & n & Hn & IH)].
  - assert (H0 : goes (30, 30, 64, B / 2 + 1, B / 2 - 1) (30, 30, 64, B, B / 2 - 1) (Z.to_nat (B - (B / 2 + 1))) 0).
    { eapply goes_eq; [apply (goes_fill (Z.to_nat (B - (B / 2 + 1))) 30 30 64 (B / 2 + 1) (B / 2 - 1)); lia|..]; try reflexivity; tup; lia. }
    pose proof (goes_rooms 33 30 30 64 (B / 2 - 1) ltac:(lia) ltac:(lia)) as H1. change (30 + Z.of_nat 33) with (64 - 1) in H1.
    pose proof (goes_shift_fill 30 64 (B / 2 - 1) ltac:(lia) ltac:(lia)) as H2. change (30 / 2) with 15 in H2.
    pose proof (goes_shift_fill 15 64 (B / 2 - 1) ltac:(lia) ltac:(lia)) as H3. change (15 / 2) with 7 in H3.
    pose proof (goes_shift_fill 7 64 (B / 2 - 1) ltac:(lia) ltac:(lia)) as H4. change (7 / 2) with 3 in H4.
    eexists _, _. split; [|eapply goes_trans; [exact H0|eapply goes_trans; [exact H1|eapply goes_trans; [exact H2|eapply goes_trans; [exact H3|exact H4]]]]]. lia.
  - set (A := 64 * 2 ^ Z.of_nat k) in *. assert (HA : 0 < 2 ^ Z.of_nat k) by (apply Z.pow_pos_nonneg; lia).
    replace (64 * 2 ^ Z.of_nat (S k)) with (A * 2) by (unfold A; rewrite Nat2Z.inj_succ, Z.pow_succ_r by lia; lia).
    assert (0 < A) by (unfold A; lia). pose proof (goes_double 3 A (B / 2 - 1) ltac:(lia) ltac:(lia)) as H1.
    pose proof (goes_rooms (Z.to_nat (A - 1)) 3 A (A * 2) (B / 2 - 1) ltac:(lia) ltac:(lia)) as H2. replace (A + Z.of_nat (Z.to_nat (A - 1))) with (A * 2 - 1) in H2 by lia.
    eexists _, _. split; [|eapply goes_trans; [exact IH|eapply goes_trans; [exact H1|exact H2]]]. lia.
Qed.

(** One round: three blocks' worth of elements go through the queue, and the whole table is copied. *)
Lemma goes_round A fs : 64 <= A -> 0 <= fs <= B - 1 -> goes (6, A - 1, A, B, fs) (6, A - 1, A, B, fs) (6 * nB) (A - 6).
Proof.
  intros HA Hfs. pose proof nB_B as [EB Hp]. pose proof (goes_shift_fill 6 A fs ltac:(lia) ltac:(lia)) as H1. change (6 / 2) with 3 in H1.
  pose proof (goes_pop_block 3 (A - 1) A B fs Hfs ltac:(nia)) as P1. pose proof (goes_pop_block 4 (A - 1) A B fs Hfs ltac:(nia)) as P2. pose proof (goes_pop_block 5 (A - 1) A B fs Hfs ltac:(nia)) as P3.
  eapply goes_eq; [eapply goes_trans; [exact H1|eapply goes_trans; [exact P1|eapply goes_trans; [exact P2|exact P3]]]|..]; try reflexivity; lia.
Qed.
Lemma goes_rounds A fs r : 64 <= A -> 0 <= fs <= B - 1 -> goes (6, A - 1, A, B, fs) (6, A - 1, A, B, fs) (r * (6 * nB)) (Z.of_nat r * (A - 6)).
Proof.
  intros HA Hfs. induction r as [|r IH]; [eapply goes_eq; [apply goes_refl|..]; try reflexivity; lia|].
  eapply goes_eq; [eapply goes_trans; [apply (goes_round A fs HA Hfs)|exact IH]|..]; try reflexivity; lia.
Qed.

Lemma deq_dear (x : V) (K : Z) : 0 < K -> exists ops h d n, Forall queue_op ops /\ deq_run_n bheap0 (deq_default P) ops = Ok (h, d, n) /\ K * zlen ops <= n /\ ops <> [].
Proof.
  intros HK.
  pose proof nB_B as [EB Hp]. assert (Hh : 0 <= B / 2 < B) by (split; [apply Z.div_pos; lia|apply Z.div_lt_upper_bound; lia]).
  assert (Hk : exists k, 6 * B * K + 7 <= 64 * 2 ^ Z.of_nat k).
  { exists (Z.to_nat (6 * B * K + 7)). rewrite Z2Nat.id by nia. pose proof (Z.pow_gt_lin_r 2 (6 * B * K + 7) ltac:(lia)). lia. }
  destruct Hk as (k & Hk). destruct (goes_setup k) as (m & n0 & Hn0 & H1). assert (HA0 : 0 < 2 ^ Z.of_nat k) by (apply Z.pow_pos_nonneg; lia).
  set (A := 64 * 2 ^ Z.of_nat k) in *. assert (HA : 64 <= A) by (unfold A; lia).
  assert (H2 : goes (3, A - 1, A, B, B / 2 - 1) (3, A - 1, A, B, B / 2) 1 0).
  { pose proof (goes_popf 3 (A - 1) A B (B / 2 - 1) ltac:(nia)) as H2. destruct (Z.eqb_spec (B / 2 - 1) (B - 1)); [lia|]. replace (B / 2 - 1 + 1) with (B / 2) in H2 by lia. exact H2. }
  pose proof (goes_pop_block 3 (A - 1) A B (B / 2) ltac:(lia) ltac:(nia)) as P1. pose proof (goes_pop_block 4 (A - 1) A B (B / 2) ltac:(lia) ltac:(nia)) as P2. pose proof (goes_pop_block 5 (A - 1) A B (B / 2) ltac:(lia) ltac:(nia)) as P3.
  set (M := (m + (1 + (nB + (nB + nB))))%nat).
  assert (H3 : goes (30, 30, 64, B / 2 + 1, B / 2 - 1) (6, A - 1, A, B, B / 2) M n0).
  { eapply goes_eq; [eapply goes_trans; [exact H1|eapply goes_trans; [exact H2|eapply goes_trans; [exact P1|eapply goes_trans; [exact P2|exact P3]]]]|..]; try reflexivity. lia. }
  set (r := Z.to_nat (K * (Z.of_nat M + 1))). pose proof (goes_rounds A (B / 2) r HA ltac:(lia)) as H4. pose proof (goes_trans _ _ _ _ _ _ _ H3 H4) as H5.
  (* the first push *)
  pose proof HP as [HP1 _]. destruct (dstart_inv P HP (@bheap0 V) (deq_default P) [] (dst_default P)) as (ids & frees & Hd).
  destruct (dpush_ok P HP1 bheap0 (deq_default P) [] ids frees x Hd) as (h1 & d1 & ids1 & frees1 & E1 & Hd1 & _).
  destruct (step_n_deq bheap0 (deq_default P) (QPushB x) h1 d1 VUnit) as (n1 & En1); [cbn [qdop deq_step]; rewrite E1; reflexivity|].
  pose proof (push_ctl _ _ _ _ _ _ En1) as Hc. unfold cpush, ctl, deq_default in Hc. cbn [d_front d_back d_slots d_bsize d_fsize] in Hc. destruct (Z.leb_spec B B); [|lia]. rewrite Z.eqb_refl in Hc.
  destruct Hd1 as [(_ & Hbad & _)|(t & Hl)]; [discriminate|].
  destruct (H5 x h1 d1) as (ops & h & d & Hlen & Hq & Er & _). { exists ([] ++ [x]), ids1, frees1, t. split; [exact Hl|]. unfold ctl. congruence. }
  exists (QPushB x :: ops), h, d, (n1 + (n0 + Z.of_nat r * (A - 6))). split; [constructor; [exact I|exact Hq]|]. split; [cbn [deq_run_n]; rewrite En1; cbn [obind]; rewrite Er; reflexivity|].
  assert (n1 = 0) as -> by congruence. unfold zlen. cbn [length]. rewrite Hlen.
  replace (Z.of_nat (S (M + r * (6 * nB)))) with (Z.of_nat M + 1 + Z.of_nat r * (6 * B)) by lia.
  assert (Hr : Z.of_nat r = K * (Z.of_nat M + 1)) by (unfold r; nia). split; [nia|discriminate].
Qed.

(** ** Pushes and pops at the back only *)
Definition back_op (o : qop) : Prop := match o with QPushB _ | QPopB => True | _ => False end.
(** What has been copied so far, from the counters *)
Definition spent (f s n : Z) : Prop :=
  (f = 30 /\ s = 64 /\ n = 0) \/ (f = 15 /\ s = 64 /\ n = 34) \/ (f = 7 /\ s = 64 /\ n = 83) \/ (f = 3 /\ 64 <= s /\ n = 140 + (s - 64)).
Definition spent_d d n : Prop := (d_slots d = 0 /\ d_bsize d = B /\ n = 0) \/ (d_back d <= d_slots d - 1 /\ spent (d_front d) (d_slots d) n).
Lemma pop_ctl h d h' d' : deq_pop P h d = Ok (h', d') -> d_front d' = d_front d /\ d_slots d' = d_slots d /\ d_back d' <= d_back d /\ (d_size d = 0 -> d' = d).
Proof.
  unfold deq_pop. intros E. destruct (Z.eqb_spec (d_size d) 0); [injection E as <- <-; splits; lia || auto|]. apply obind_ok in E as ([h1 d1] & E1 & E). apply obind_ok in E as (c & _ & E). apply obind_ok in E as (h2 & _ & [= <- <-]).
  destruct (0 <? d_bsize d).
  - injection E1 as <- <-. cbn [d_front d_slots d_back]. split; [reflexivity|]. split; [reflexivity|]. split; [lia|contradiction].
  - apply obind_ok in E1 as (c1 & _ & E1). apply obind_ok in E1 as ([h3 f] & _ & [= <- <-]). cbn [d_front d_slots d_back]. split; [reflexivity|]. split; [reflexivity|]. split; [lia|contradiction].
Qed.
Lemma back_spent ops : forall h d xs ids frees h' d' n0 n, dinv P h d xs ids frees -> Forall back_op ops -> spent_d d n0 -> deq_run_n h d ops = Ok (h', d', n) -> spent_d d' (n0 + n).
Proof.
  pose proof HP as [HP1 HP2]. induction ops as [|o ops IH]; intros h d xs ids frees h' d' n0 n Hd Hf Hs; cbn [deq_run_n].
  - intros [= <- <- <-]. rewrite Z.add_0_r. exact Hs.
  - intros ([[h1 d1] n1] & E1 & E)%obind_ok. apply obind_ok in E as ([[h2 d2] n2] & E2 & [= <- <- <-]). rewrite Z.add_assoc. inversion Hf as [|? ? Ho Hf']; subst.
    destruct (step_deq_n _ _ _ _ _ _ E1) as (r & Er).
    assert (Hleg : dq_legal xs (qdop o)) by (destruct o; cbn; exact I || contradiction).
    destruct (dstep_ok P HP1 h d xs ids frees (qdop o) HP2 Hd Hleg) as (h1' & d1' & r' & xs' & ids' & frees' & Er' & _ & Hd' & _); [destruct o; cbn; exact I || contradiction|].
    rewrite Er in Er'. injection Er' as <- <- <-. eapply (IH h1 d1 xs' ids' frees'); [exact Hd'|exact Hf'| |exact E2]. clear IH E2 Hd' Er Hleg.
    destruct o as [x| |x|]; cbn in Ho; try contradiction; cbn [deq_step_n] in E1.
    + pose proof (push_ctl _ _ _ _ _ _ E1) as Hc. unfold cpush, ctl in Hc. unfold spent_d. destruct Hs as [(H0 & Hb & ->)|[Hb Hs]].
      * rewrite H0, Hb in Hc. destruct (Z.leb_spec B B); [|lia]. cbn [Z.eqb] in Hc. injection Hc as -> -> -> _ _ ->. right. split; [lia|]. left. lia.
      * right. assert (Hs0 : 64 <= d_slots d) by (unfold spent in Hs; lia).
        destruct (B <=? d_bsize d); [|injection Hc as -> -> -> _ _ ->; rewrite Z.add_0_r; auto]. destruct (Z.eqb_spec (d_slots d) 0); [lia|].
        destruct (Z.leb_spec (d_slots d - 1) (d_back d)); [|injection Hc as -> -> -> _ _ ->; rewrite Z.add_0_r; split; [lia|exact Hs]].
        assert (Eb : d_back d = d_slots d - 1) by lia. rewrite Eb in Hc.
        destruct (Z.ltb_spec 5 (d_front d)); injection Hc as -> -> -> _ _ ->; unfold spent in *.
        -- destruct Hs as [(-> & -> & ->)|[(-> & -> & ->)|[(-> & -> & ->)|(? & _)]]]; [| | |lia].
           ++ change (30 / 2) with 15. split; [lia|]. right; left. lia.
           ++ change (15 / 2) with 7. split; [lia|]. right; right; left. lia.
           ++ change (7 / 2) with 3. split; [lia|]. right; right; right. lia.
        -- split; [lia|]. right; right; right. lia.
    + apply obind_ok in E1 as ([h3 d3] & E3 & [= <- <- <-]). rewrite Z.add_0_r. destruct (pop_ctl _ _ _ _ E3) as (Ef & Es & Eb & Ez). destruct Hs as [Hs|[Hb Hs]].
      * destruct Hd as [(-> & _)|(t & Hl)]; [rewrite (Ez eq_refl); left; exact Hs|]. destruct Hl as (_ & _ & _ & _ & _ & _ & _ & _ & H64). lia.
      * right. rewrite Ef, Es. split; [lia|exact Hs].
Qed.
Lemma deq_back_cost ops h d tr p :
  Forall back_op ops -> deq_run P bheap0 (deq_default P) (map qdop ops) = Ok (h, d, tr) -> (forall k, zlen (dq_after [] (take k (map qdop ops))) <= p) ->
  exists n, deq_run_n bheap0 (deq_default P) ops = Ok (h, d, n) /\ B * n <= 2 * p + 140 * B.
Proof.
  intros Hf E Hp. destruct (run_n_deq _ _ _ _ _ _ E) as (n & En). exists n. split; [exact En|]. pose proof (BP P HP) as HB.
  destruct (dstart_inv P HP (@bheap0 V) (deq_default P) [] (dst_default P)) as (ids & frees & Hd).
  pose proof (back_spent ops _ _ _ _ _ _ _ 0 n Hd Hf (or_introl (conj eq_refl (conj eq_refl eq_refl))) En) as Hs. rewrite Z.add_0_l in Hs.
  assert (Hok : dq_ok [] (map qdop ops)).
  { clear - Hf. generalize (@nil V) as xs. induction Hf as [|o ops Ho Hf IH]; intros xs; cbn [map dq_ok]; [exact I|]. split; [destruct o; cbn; exact I || contradiction|apply IH]. }
  destruct (dmem P HP _ _ _ _ _ _ _ _ (dst_default P) Hok E Hp) as (_ & _ & _ & _ & _ & Hc).
  assert (Hp0 : 0 <= p) by (pose proof (Hp 0%nat); pose proof (zlen_nonneg (dq_after (@nil V) (take 0 (map qdop ops)))); lia).
  assert (Hdiv : B * (p / B) <= p) by (apply Z.mul_div_le; lia). unfold spent_d, spent in Hs. nia.
Qed.
End cost.
