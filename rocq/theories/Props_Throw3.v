(** Property C99: assignments and constructions left by an exception (StableBlockVector, StableBlockDeque). *)
From stdpp Require Import gmap.
From Verif Require Import Base BlkHeap BlkProofs BlkRun BlkIter VecModel VecSpec VecProofs VecFinal VecThrow
  DeqModel DeqSpec DeqProofs DeqMore DeqWorld DeqFinal DeqThrow BlkAssign BlkCtor.

Definition PA (n : Z) : params := Params n false false.

(** ** C99
    Full statement: if assign, move_assign or copy assignment is left by an exception the container holds elements that were
    assigned, elements it had, and nothing else, and can be used on and destroyed; and if a constructor is left by an
    exception, what it has made is destroyed and its memory is given back.

    [vec_assign_part]: what the call has done when it comes to the element that fails. *)
Theorem C99_vector_part :
  forall (V : Type) P (h : bheap V) v ys zs, 0 <= v_size v ->
    vec_assign P h v 0 (ys ++ zs) = ('(h1, v1) <-! vec_assign_part P h v 0 ys ;; vec_assign P h1 v1 (zlen ys) zs).
Proof. intros V P h v ys zs Hs. rewrite part_app by exact Hs. reflexivity. Qed.
Print Assumptions C99_vector_part.

(** An element assignment throws, whatever value it leaves: the vector is the sequence with the elements so far replaced. *)
Theorem C99_vector_assign_partial :
  forall (V : Type) P, 0 <= expo P <= 30 -> forall (h0 : bheap V) v0 xs0 ops h v tr ys w,
    vstart P h0 v0 xs0 -> seq_ok xs0 ops -> Forall no_walk ops -> vec_run P h0 v0 ops = Ok (h, v, tr) ->
    (length ys < length (seq_after xs0 ops))%nat ->
    let xs' := ys ++ w :: drop (S (length ys)) (seq_after xs0 ops) in
    exists h1 h2, vec_assign_part P h v 0 ys = Ok (h1, v) /\ vec_set P h1 v (zlen ys) w = Ok h2 /\
      forall ops', seq_ok xs' ops' -> Forall no_walk ops' ->
        exists h3 v3 tr3, vec_run P h2 v ops' = Ok (h3, v3, tr3) /\ map fst tr3 = ops' /\ seq_trace xs' tr3 (seq_after xs' ops') /\
          exists h4, vec_free_all P h3 v3 = Ok h4.
Proof.
  intros V P HP h0 v0 xs0 ops h v tr ys w H0 Hok Hnw E Hl xs'. pose proof HP as [HP1 _].
  destruct (vstart_good P HP _ _ _ H0) as (ids & frees & Hg).
  destruct (vrun_ok P HP ops h0 v0 xs0 ids frees Hg Hok Hnw) as (h' & v' & tr' & ids' & frees' & E' & _ & _ & Hv & Hph).
  rewrite E in E'. injection E' as <- <- <-. set (xs := seq_after xs0 ops) in *.
  destruct (part_over P HP1 ys h v xs [] ids' frees' Hv) as (h1 & E1 & Hv1 & _); [lia|]. cbn [app] in Hv1.
  destruct (vset_ok P HP1 h1 v _ ids' frees' (length ys) w Hv1) as (h2 & E2 & Hv2 & _); [rewrite app_length, drop_length; lia|].
  rewrite insert_app_r_alt in Hv2 by lia. rewrite Nat.sub_diag in Hv2.
  destruct (drop (length ys) xs) as [|x0 rest] eqn:Edr; [apply (f_equal length) in Edr; rewrite drop_length in Edr; cbn in Edr; lia|].
  assert (Er : drop (S (length ys)) xs = rest) by (change rest with (drop 1 (x0 :: rest)); rewrite <- Edr, drop_drop; f_equal; lia).
  cbn in Hv2. rewrite <- Er in Hv2. fold xs' in Hv2. exists h1, h2. split; [exact E1|]. split; [exact E2|].
  intros ops' Hok' Hnw'.
  destruct (vrun_ok P HP ops' h2 v _ ids' frees' (conj Hv2 Hph) Hok' Hnw') as (h3 & v3 & tr3 & ids3 & frees3 & E3 & F3 & T3 & Hv3 & Hp3).
  exists h3, v3, tr3. splits; try assumption. destruct (vfree_ok P HP1 _ _ _ _ _ Hv3 Hp3) as (h4 & -> & _). eauto.
Qed.
Print Assumptions C99_vector_assign_partial.

(** The sequence is full and the constructor of a further element throws, or memory runs out: as after a failed push_back
    (C60, C62) of a vector holding the elements so far. *)
Theorem C99_vector_push :
  forall (V : Type) P, 0 <= expo P <= 30 -> forall (h0 : bheap V) v0 xs0 ops h v tr ys,
    vstart P h0 v0 xs0 -> seq_ok xs0 ops -> Forall no_walk ops -> vec_run P h0 v0 ops = Ok (h, v, tr) ->
    (length (seq_after xs0 ops) <= length ys)%nat ->
    exists h1 v1, vec_assign_part P h v 0 ys = Ok (h1, v1) /\
      (exists h2 v2, vec_push_throw P h1 v1 = Ok (h2, v2) /\ v_size v2 = zlen ys /\
         (forall n x, ys !! n = Some x -> vec_get P h2 v2 (Z.of_nat n) = Ok x) /\ (triv P = false -> vec_free_all P h2 v2 = UB)) /\
      (forall first r, vec_push_nomem P h1 v1 first = Some r -> v1 <> vec_default P \/ first = true ->
         exists h2 v2, r = Ok (h2, v2) /\
           forall ops', seq_ok ys ops' -> Forall no_walk ops' ->
             exists h3 v3 tr3, vec_run P h2 v2 ops' = Ok (h3, v3, tr3) /\ map fst tr3 = ops' /\ seq_trace ys tr3 (seq_after ys ops') /\
               exists h4, vec_free_all P h3 v3 = Ok h4).
Proof.
  intros V P HP h0 v0 xs0 ops h v tr ys H0 Hok Hnw E Hl. pose proof HP as [HP1 _].
  destruct (vstart_good P HP _ _ _ H0) as (ids & frees & Hg).
  destruct (vrun_ok P HP ops h0 v0 xs0 ids frees Hg Hok Hnw) as (h' & v' & tr' & ids' & frees' & E' & _ & _ & Hv & Hph).
  rewrite E in E'. injection E' as <- <- <-.
  destruct (part_all P HP1 ys h v _ ids' frees' Hv Hl (or_introl Hph)) as (h1 & v1 & ids1 & frees1 & E1 & Hv1 & Hp1 & _).
  exists h1, v1. split; [exact E1|]. split.
  - destruct (vthrow_ok P HP1 _ _ _ _ _ Hv1) as (h2 & v2 & t & ids2 & frees2 & E2 & Hr & Hp & Hs & Hi & _).
    exists h2, v2. splits; try assumption.
    + intros n x Hx. eapply (vroom_get P HP1); [exact Hr|lia|exact Hx].
    + intros Ht. eapply (vthrow_free P); eassumption.
  - intros first r Er Hc. destruct (vnomem_ok P HP1 _ _ _ _ _ _ _ Hv1 Er) as (h2 & v2 & -> & Hv2 & Hp2 & _). exists h2, v2. split; [reflexivity|].
    intros ops' Hok' Hnw'.
    assert (Hn : ~ phantom v2) by (intros X; destruct (Hp2 X) as [Y|[-> ->]]; [exact (Hp1 Y)|destruct Hc; congruence]).
    destruct (vrun_ok P HP ops' h2 v2 _ ids1 frees1 (conj Hv2 Hn) Hok' Hnw') as (h3 & v3 & tr3 & ids3 & frees3 & E3 & F3 & T3 & Hv3 & Hp3).
    exists h3, v3, tr3. splits; try assumption. destruct (vfree_ok P HP1 _ _ _ _ _ Hv3 Hp3) as (h4 & -> & _). eauto.
Qed.
Print Assumptions C99_vector_push.

(** So the full statement is false: {1} assigned {7, 8, 9} where the construction of 9 throws cannot be destroyed. *)
Theorem C99_vector_assign_refuted :
  exists h v tr h1 v1 h2 v2, vec_run (PA 5) bheap0 (vec_default (PA 5)) [VPush 1] = Ok (h, v, tr) /\
    vec_assign_part (PA 5) h v 0 [7; 8] = Ok (h1, v1) /\ vec_push_throw (PA 5) h1 v1 = Ok (h2, v2) /\
    v_size v2 = 2 /\ vec_free_all (PA 5) h2 v2 = UB.
Proof. eexists _, _, _, _, _, _, _. split; [vm_compute; reflexivity|]. repeat (split; [vm_compute; reflexivity|]). vm_compute; reflexivity. Qed.
Print Assumptions C99_vector_assign_refuted.

(** The same for StableBlockDeque: the elements are reached with iterators, so a deque that is not empty must not be full
    (see C24).  [deq_assign_part] tells what the next element is written to. *)
Theorem C99_deque_part :
  forall (V : Type) P (h : bheap V) d ys z zs h1 d1 o, deq_assign_part P h d ys = Ok (h1, d1, o) ->
    match o with
    | None => deq_assign P h d (ys ++ z :: zs) = deq_pushes P h1 d1 (z :: zs)
    | Some it =>
        d1 = d /\ (it_write P h1 it z = UB -> deq_assign P h d (ys ++ z :: zs) = UB) /\
        (forall h2 it', it_write P h1 it z = Ok h2 -> it_add P h2 it 1 = Ok it' ->
           deq_assign_part P h d (ys ++ [z]) = (last <-! deq_end P h d ;; if it_eq it' last then Ok (h2, d, None) else Ok (h2, d, Some it')))
    end.
Proof.
  intros V P h d ys z zs h1 d1 [it|] E; [apply (dpart_some P h d ys z zs h1 d1 it E)|apply (dpart_none P h d ys z zs h1 d1 E)].
Qed.
Print Assumptions C99_deque_part.

Theorem C99_deque_assign_partial :
  forall (V : Type) P, 0 <= expo P <= 30 -> forall (h0 : bheap V) d0 xs0 ops h d tr ys w,
    dstart P h0 d0 xs0 -> dq_ok xs0 ops -> deq_run P h0 d0 ops = Ok (h, d, tr) -> ~ dfull P d ->
    (length ys < length (dq_after xs0 ops))%nat ->
    let xs' := ys ++ w :: drop (S (length ys)) (dq_after xs0 ops) in
    exists h1 it b j h2, deq_assign_part P h d ys = Ok (h1, d, Some it) /\
      deq_at P h d (zlen ys) = Ok (Some b, j) /\ i_ptr it = PSlot b j /\ it_write P h1 it w = Ok h2 /\
      (exists h4, deq_free_all P h2 d = Ok h4) /\
      forall ops' h3 d3 tr3, dq_ok xs' ops' -> deq_run P h2 d ops' = Ok (h3, d3, tr3) ->
        map fst tr3 = ops' /\ dq_trace xs' tr3 (dq_after xs' ops') /\ exists h4, deq_free_all P h3 d3 = Ok h4.
Proof.
  intros V P HP h0 d0 xs0 ops h d tr ys w H0 Hok E Hf Hl xs'. pose proof HP as [HP1 _].
  destruct (dstart_inv P HP _ _ _ H0) as (ids & frees & Hg). pose proof (run_dok P HP ops _ _ _ _ _ _ _ _ Hg Hok E) as Hdok.
  destruct (drun_ok P HP ops h0 d0 xs0 ids frees Hg Hdok) as (h' & d' & tr' & ids' & frees' & E' & _ & _ & Hd).
  rewrite E in E'. injection E' as <- <- <-.
  destruct (dpart_over P HP h d _ ys ids' frees' Hd Hf Hl) as (h1 & it & E1 & Eat & Hw). destruct (Hw w) as (h2 & E2 & Hd2). fold xs' in Hd2.
  destruct (dat_ok P HP1 h d _ ids' frees' (zlen ys) Hd) as (i & b & Eb & _); [unfold zlen; lia|].
  rewrite Eb in Eat. destruct (i_ptr it) as [| |b' j] eqn:Ei; try discriminate. injection Eat as <- Ej.
  exists h1, it, b, j, h2. rewrite Ei, Ej in *. splits; try assumption.
  - destruct (dfree_ok P HP1 _ _ _ _ _ Hd2) as (h4 & -> & _). eauto.
  - intros ops' h3 d3 tr3 Hok' E3. pose proof (run_dok P HP ops' _ _ _ _ _ _ _ _ Hd2 Hok' E3) as Hdok'.
    destruct (drun_ok P HP ops' h2 d _ ids' frees' Hd2 Hdok') as (h3' & d3' & tr3' & ids3 & frees3 & E3' & F3 & T3 & Hd3).
    rewrite E3 in E3'. injection E3' as <- <- <-. splits; try assumption.
    destruct (dfree_ok P HP1 _ _ _ _ _ Hd3) as (h4 & -> & _). eauto.
Qed.
Print Assumptions C99_deque_assign_partial.

Theorem C99_deque_push :
  forall (V : Type) P, 0 <= expo P <= 30 -> forall (h0 : bheap V) d0 xs0 ops h d tr ys,
    dstart P h0 d0 xs0 -> dq_ok xs0 ops -> deq_run P h0 d0 ops = Ok (h, d, tr) -> (dq_after xs0 ops <> [] -> ~ dfull P d) ->
    (length (dq_after xs0 ops) <= length ys)%nat ->
    exists h1 d1, deq_assign_part P h d ys = Ok (h1, d1, None) /\
      (exists h2 d2, deq_push_throw P h1 d1 = Ok (h2, d2) /\ d_size d2 = zlen ys /\
         (forall n x, ys !! n = Some x -> deq_get P h2 d2 (Z.of_nat n) = Ok x) /\ (triv P = false -> deq_free_all P h2 d2 = UB)) /\
      (forall first r, deq_push_nomem P h1 d1 first = Some r -> d1 <> deq_default P \/ first = true ->
         exists h2 d2, r = Ok (h2, d2) /\
           forall ops' h3 d3 tr3, dq_ok ys ops' -> deq_run P h2 d2 ops' = Ok (h3, d3, tr3) ->
             map fst tr3 = ops' /\ dq_trace ys tr3 (dq_after ys ops') /\ exists h4, deq_free_all P h3 d3 = Ok h4).
Proof.
  intros V P HP h0 d0 xs0 ops h d tr ys H0 Hok E Hf Hl. pose proof HP as [HP1 _].
  destruct (dstart_inv P HP _ _ _ H0) as (ids & frees & Hg). pose proof (run_dok P HP ops _ _ _ _ _ _ _ _ Hg Hok E) as Hdok.
  destruct (drun_ok P HP ops h0 d0 xs0 ids frees Hg Hdok) as (h' & d' & tr' & ids' & frees' & E' & _ & _ & Hd).
  rewrite E in E'. injection E' as <- <- <-.
  destruct (dpart_all P HP h d _ ys ids' frees' Hd Hf Hl) as (h1 & d1 & ids1 & frees1 & E1 & Hd1).
  exists h1, d1. split; [exact E1|]. split.
  - destruct (dthrow_ok P HP1 _ _ _ _ _ Hd1) as (h2 & d2 & t & ids2 & frees2 & E2 & Hr & Hp & _).
    exists h2, d2. splits; try assumption.
    + apply Hr.
    + intros n x Hx. rewrite <- (Z.add_0_r (Z.of_nat n)). eapply (droom_get P HP1); [exact Hr|lia|lia|exact Hx].
    + intros Ht. eapply (dthrow_free P); eassumption.
  - intros first r Er Hc. destruct (dnomem_ok P HP1 _ _ _ _ _ _ _ Hd1 Er Hc) as (h2 & d2 & -> & Hd2 & _). exists h2, d2. split; [reflexivity|].
    intros ops' h3 d3 tr3 Hok' E3. pose proof (run_dok P HP ops' _ _ _ _ _ _ _ _ Hd2 Hok' E3) as Hdok'.
    destruct (drun_ok P HP ops' h2 d2 _ ids1 frees1 Hd2 Hdok') as (h3' & d3' & tr3' & ids3 & frees3 & E3' & F3 & T3 & Hd3).
    rewrite E3 in E3'. injection E3' as <- <- <-. splits; try assumption.
    destruct (dfree_ok P HP1 _ _ _ _ _ Hd3) as (h4 & -> & _). eauto.
Qed.
Print Assumptions C99_deque_push.

Theorem C99_deque_assign_refuted :
  exists h d tr h1 d1 h2 d2, deq_run (PA 5) bheap0 (deq_default (PA 5)) [DV (VPush 1)] = Ok (h, d, tr) /\
    deq_assign_part (PA 5) h d [7; 8] = Ok (h1, d1, None) /\ deq_push_throw (PA 5) h1 d1 = Ok (h2, d2) /\
    d_size d2 = 2 /\ deq_free_all (PA 5) h2 d2 = UB.
Proof. eexists _, _, _, _, _, _, _. split; [vm_compute; reflexivity|]. repeat (split; [vm_compute; reflexivity|]). vm_compute; reflexivity. Qed.
Print Assumptions C99_deque_assign_refuted.

(** Constructors.  [bheap0] is empty, no vector exists after the exception, but the table and the elements made so far do. *)
Theorem C99_sized_refuted :
  forall (V : Type) P, 0 <= expo P -> forall n (x : V) k, 0 <= k < n ->
    exists h v t, vec_sized_fail P bheap0 n x k = Ok (h, v) /\ v_data v = Some t /\ tb (@bheap0 V) !! t = None /\ is_Some (tb h !! t) /\
      forall i, 0 <= i < k -> vec_get P h v i = Ok x.
Proof.
  intros V P HP n x k Hk. assert (Hok : hok [] [] (@bheap0 V)).
  { unfold hok; splits; [|intros b Hb; inversion Hb|intros b Hb; inversion Hb]. intros b _. split; [|reflexivity]. split; [set_solver|reflexivity]. }
  destruct (sized_fail_ok P HP bheap0 n x k Hok Hk) as (h & v & t & E & Ed & _ & Ht & Hg). exists h, v, t. splits; try assumption.
Qed.
Print Assumptions C99_sized_refuted.

(** Copy construction from any vector with a table, after the elements [ys] (not none) have been copied. *)
Theorem C99_copy_refuted :
  forall (V : Type) P, 0 <= expo P <= 30 -> forall (h0 : bheap V) v0 xs0 ops h v tr ys zs,
    vstart P h0 v0 xs0 -> seq_ok xs0 ops -> Forall no_walk ops -> vec_run P h0 v0 ops = Ok (h, v, tr) ->
    seq_after xs0 ops = ys ++ zs -> ys <> [] -> zs <> [] ->
    exists h1 v1 h2 v2 t, vec_copy_part P h v ys = Ok (h1, v1) /\ vec_push_throw P h1 v1 = Ok (h2, v2) /\
      v_data v2 = Some t /\ tb h !! t = None /\ is_Some (tb h2 !! t) /\
      (forall n x, ys !! n = Some x -> vec_get P h2 v2 (Z.of_nat n) = Ok x).
Proof.
  intros V P HP h0 v0 xs0 ops h v tr ys zs H0 Hok Hnw E Hs Hy Hz. pose proof HP as [HP1 _].
  destruct (vstart_good P HP _ _ _ H0) as (ids & frees & Hg).
  destruct (vrun_ok P HP ops h0 v0 xs0 ids frees Hg Hok Hnw) as (h' & v' & tr' & ids' & frees' & E' & _ & _ & Hv & Hph).
  rewrite E in E'. injection E' as <- <- <-. rewrite Hs in Hv. pose proof (vinv_hok P _ _ _ _ _ Hv) as Hok0.
  assert (Hokh : hok [] [] h) by (eapply hok_eqv; [exact Hok0|intros b Hb; inversion Hb|intros b Hb; inversion Hb]).
  assert (Hsl : 0 < v_slots v) by (destruct Hv as [(_ & F & _)|(t & Hlv)]; [destruct ys; [congruence|discriminate]|apply Hlv]).
  destruct (copy_part_ok P HP1 h v ys Hokh Hsl Hy) as (h1 & v1 & t1 & ids1 & frees1 & E1 & Hv1 & _ & Ed1 & Ht1 & U1).
  destruct (vthrow_ok P HP1 _ _ _ _ _ Hv1) as (h2 & v2 & t & ids2 & frees2 & E2 & Hr & _ & _ & Hi2 & U & _).
  exists h1, v1, h2, v2, t. splits; try assumption; [apply Hr| | |].
  - destruct Hokh as (K & _). apply K. assert (Ht : t ∈ vts v2) by (destruct Hr as (Ed & _); rewrite (vts_live _ _ Ed); unfold rts; set_solver).
    apply (u_tnew _ _ _ _ _ _ (upd_trans _ _ _ _ _ _ _ _ _ U1 U)) in Ht as [_ [Ht|Ht]]; [inversion Ht|exact Ht].
  - destruct Hr as (_ & Hbk & Hi & _). destruct (lookup_lt_is_Some_2 ids2 0%nat) as [b Hb]; [unfold zlen in *; lia|].
    pose proof (bk_get P h2 t _ _ ids2 _ _ _ frees2 0%nat b 0 Hbk Hb eq_refl) as G. unfold tget in G. destruct (tb h2 !! t); [eauto|discriminate].
  - intros n x Hx. eapply (vroom_get P HP1); [exact Hr|lia|exact Hx].
Qed.
Print Assumptions C99_copy_refuted.

(** The constructors of StableBlockDeque: the same. *)
Theorem C99_deque_sized_refuted :
  forall (V : Type) P, 0 <= expo P <= 30 -> forall n (x : V) k, 0 <= k < n ->
    exists h d t, deq_sized_fail P bheap0 n x k = Ok (h, d) /\ d_data d = Some t /\ tb (@bheap0 V) !! t = None /\ is_Some (tb h !! t) /\
      (forall i, 0 <= i < k -> deq_get P h d i = Ok x) /\ exists h', deq_sized P bheap0 n x = Ok (h', d).
Proof.
  intros V P HP n x k Hk. pose proof HP as [HP1 _]. assert (Hok : hok [] [] (@bheap0 V)).
  { unfold hok; splits; [|intros b Hb; inversion Hb|intros b Hb; inversion Hb]. intros b _. split; [|reflexivity]. split; [set_solver|reflexivity]. }
  destruct (dsized_fail_ok P HP bheap0 n x k Hok Hk) as (h & d & t & E & Ed & _ & Ht & Hg). exists h, d, t. splits; try assumption.
  destruct (dsized_ok P HP1 bheap0 n x Hok) as (h' & d' & ids & E' & _); [lia|]. exists h'. rewrite E'. f_equal. f_equal.
  eapply (dsized_fail_members P); [|exact E'|exact E]. lia.
Qed.
Print Assumptions C99_deque_sized_refuted.

Theorem C99_deque_copy_part :
  forall (V : Type) P, 0 <= expo P <= 30 -> forall (h0 : bheap V) d0 xs0 ops h d tr ys zs,
    dstart P h0 d0 xs0 -> dq_ok xs0 ops -> deq_run P h0 d0 ops = Ok (h, d, tr) -> d_data d <> None -> ~ dfull P d -> dq_after xs0 ops = ys ++ zs ->
    deq_copy P h d = ('(h1, d1) <-! deq_copy_part P h d ys ;; deq_pushes P h1 d1 zs).
Proof.
  intros V P HP h0 d0 xs0 ops h d tr ys zs H0 Hok E Hnn Hf Hs.
  destruct (dstart_inv P HP _ _ _ H0) as (ids & frees & Hg). pose proof (run_dok P HP ops _ _ _ _ _ _ _ _ Hg Hok E) as Hdok.
  destruct (drun_ok P HP ops h0 d0 xs0 ids frees Hg Hdok) as (h' & d' & tr' & ids' & frees' & E' & _ & _ & Hd).
  rewrite E in E'. injection E' as <- <- <-. eapply (dcopy_split P HP); eassumption.
Qed.
Print Assumptions C99_deque_copy_part.

Theorem C99_deque_copy_refuted :
  forall (V : Type) P, 0 <= expo P <= 30 -> forall (h0 : bheap V) d0 xs0 ops h d tr ys zs,
    dstart P h0 d0 xs0 -> dq_ok xs0 ops -> deq_run P h0 d0 ops = Ok (h, d, tr) -> d_data d <> None ->
    dq_after xs0 ops = ys ++ zs -> zs <> [] ->
    exists h1 d1 h2 d2 t, deq_copy_part P h d ys = Ok (h1, d1) /\ deq_push_throw P h1 d1 = Ok (h2, d2) /\
      d_data d2 = Some t /\ tb h !! t = None /\ is_Some (tb h2 !! t) /\
      (forall n x, ys !! n = Some x -> deq_get P h2 d2 (Z.of_nat n) = Ok x).
Proof.
  intros V P HP h0 d0 xs0 ops h d tr ys zs H0 Hok E Hnn Hs _. pose proof HP as [HP1 _].
  destruct (dstart_inv P HP _ _ _ H0) as (ids & frees & Hg). pose proof (run_dok P HP ops _ _ _ _ _ _ _ _ Hg Hok E) as Hdok.
  destruct (drun_ok P HP ops h0 d0 xs0 ids frees Hg Hdok) as (h' & d' & tr' & ids' & frees' & E' & _ & _ & Hd).
  rewrite E in E'. injection E' as <- <- <-. pose proof (dinv_hok P _ _ _ _ _ Hd) as Hok0.
  assert (Hokh : hok [] [] h) by (eapply hok_eqv; [exact Hok0|intros b Hb; inversion Hb|intros b Hb; inversion Hb]).
  destruct (dcopy_part_ok P HP h d _ ids' frees' ys Hd Hnn) as (h1 & d1 & ids1 & frees1 & E1 & Hd1 & U1).
  destruct (dthrow_ok P HP1 _ _ _ _ _ Hd1) as (h2 & d2 & t & ids2 & frees2 & E2 & Hr & _ & U & _).
  exists h1, d1, h2, d2, t. splits; try assumption; [apply Hr| | |].
  - destruct Hokh as (K & _). apply K. assert (Ht : t ∈ dts d2) by (destruct Hr as (Ed & _); rewrite (dts_live _ _ Ed); unfold rts; set_solver).
    apply (u_tnew _ _ _ _ _ _ (upd_trans _ _ _ _ _ _ _ _ _ U1 U)) in Ht as [_ [Ht|Ht]]; [inversion Ht|exact Ht].
  - destruct Hr as (_ & Hbk & _ & Hi & Hn & _). destruct (lookup_lt_is_Some_2 ids2 0%nat) as [b Hb]; [unfold zlen in *; lia|].
    pose proof (bk_get P h2 t _ _ ids2 _ _ _ frees2 0%nat b _ Hbk Hb eq_refl) as G. unfold tget in G. destruct (tb h2 !! t); [eauto|discriminate].
  - intros n x Hx. rewrite <- (Z.add_0_r (Z.of_nat n)). eapply (droom_get P HP1); [exact Hr|lia|lia|exact Hx].
Qed.
Print Assumptions C99_deque_copy_refuted.

(** Cases meeting the hypotheses: an assignment that stops within the old elements, one that stops behind them; the
    constructors for three elements. *)
Example C99_ex :
  let ops := [VPush 1; VPush 2; VPush 3] in
  seq_ok [] ops /\ Forall no_walk ops /\
  match vec_run (PA 1) bheap0 (vec_default (PA 1)) ops with
  | Ok (h, v, _) =>
      match vec_assign_part (PA 1) h v 0 [7], vec_assign_part (PA 1) h v 0 [7; 8; 9; 10], vec_copy_part (PA 1) h v [1; 2] with
      | Ok (h1, v1), Ok (h2, v2), Ok (h3, v3) =>
          map (vec_get (PA 1) h1 v1) [0; 1; 2] = [Ok 7; Ok 2; Ok 3] /\ map (vec_get (PA 1) h2 v2) [0; 1; 2; 3] = [Ok 7; Ok 8; Ok 9; Ok 10] /\
          (exists r, vec_push_nomem (PA 1) h2 v2 false = Some r) /\ v2 <> vec_default (PA 1) /\ map (vec_get (PA 1) h3 v3) [0; 1] = [Ok 1; Ok 2]
      | _, _, _ => False
      end
  | _ => False
  end /\
  match vec_sized_fail (PA 1) bheap0 5 4 3 with
  | Ok (h, v) => map (vec_get (PA 1) h v) [0; 1; 2; 3] = [Ok 4; Ok 4; Ok 4; UB]
  | _ => False
  end.
Proof.
  cbv zeta. split; [cbn; unfold zlen; cbn; repeat split; try lia; discriminate|]. split; [repeat constructor|].
  split; [|vm_compute; reflexivity]. vm_compute. repeat split; [eexists; reflexivity|discriminate].
Qed.
Example C99_deque_ex :
  let ops := [DV (VPush 1); DV (VPush 2); DPushF 0; DV (VPush 3)] in
  dstart (PA 1) (@bheap0 Z) (deq_default (PA 1)) [] /\ dq_ok [] ops /\
  match deq_run (PA 1) bheap0 (deq_default (PA 1)) ops with
  | Ok (h, d, _) =>
      ~ dfull (PA 1) d /\
      match deq_assign_part (PA 1) h d [7], deq_assign_part (PA 1) h d [7; 8; 9; 10; 11] with
      | Ok (h1, d1, Some it), Ok (h2, d2, None) =>
          match it_write (PA 1) h1 it 5 with Ok h3 => map (deq_get (PA 1) h3 d1) [0; 1; 2; 3] = [Ok 7; Ok 5; Ok 2; Ok 3] | _ => False end /\
          map (deq_get (PA 1) h2 d2) [0; 1; 2; 3; 4] = [Ok 7; Ok 8; Ok 9; Ok 10; Ok 11] /\ d2 <> deq_default (PA 1)
      | _, _ => False
      end
  | _ => False
  end.
Proof.
  cbv zeta. split; [constructor|]. split; [cbn; unfold zlen; cbn; repeat split; try lia; discriminate|].
  vm_compute. split; [intros (_ & _ & F); discriminate|]. split; [reflexivity|]. split; [reflexivity|discriminate].
Qed.
(** Five elements in blocks of two: the fourth cannot be made; copying four elements, the third cannot be. *)
Example C99_deque_ctor_ex :
  match deq_sized_fail (PA 1) bheap0 5 4 3 with
  | Ok (h, d) => map (deq_get (PA 1) h d) [0; 1; 2; 3] = [Ok 4; Ok 4; Ok 4; UB]
  | _ => False
  end /\
  match deq_run (PA 1) bheap0 (deq_default (PA 1)) [DV (VPush 1); DV (VPush 2); DPushF 0; DV (VPush 3)] with
  | Ok (h, d, _) =>
      d_data d <> None /\ ~ dfull (PA 1) d /\
      match deq_copy_part (PA 1) h d [0; 1] with
      | Ok (h1, d1) => map (deq_get (PA 1) h1 d1) [0; 1] = [Ok 0; Ok 1] /\ d_data d1 <> d_data d
      | _ => False
      end
  | _ => False
  end.
Proof. split; [vm_compute; reflexivity|]. vm_compute. split; [discriminate|]. split; [intros (_ & _ & F); discriminate|]. split; [reflexivity|discriminate]. Qed.
