(** Property C62 for push_front, and C88: StableBlockDeque out of memory. *)
From stdpp Require Import gmap.
From Verif Require Import Base BlkHeap BlkProofs BlkRun BlkIter VecModel VecSpec VecProofs VecFinal VecThrow
  DeqModel DeqSpec DeqProofs DeqMore DeqWorld DeqFinal DeqThrow DeqThrow2.

Definition PD (n : Z) : params := Params n false false.

(** ** C62 for push_front
    As [C62_deque_nomem_partial].  [r <> UB]: the overlapping copy of C25 is a defect of its own. *)
Theorem C62_deque_front_nomem_partial :
  forall (V : Type) P, 0 <= expo P <= 30 -> forall (h0 : bheap V) d0 xs0 ops h d tr first r,
    dstart P h0 d0 xs0 -> dq_ok xs0 ops -> deq_run P h0 d0 ops = Ok (h, d, tr) ->
    deq_push_front_nomem P h d first = Some r -> r <> UB -> d <> deq_default P \/ first = true ->
    exists h1 d1, r = Ok (h1, d1) /\
      forall ops' h2 d2 tr2, dq_ok (dq_after xs0 ops) ops' -> deq_run P h1 d1 ops' = Ok (h2, d2, tr2) ->
        map fst tr2 = ops' /\ dq_trace (dq_after xs0 ops) tr2 (dq_after (dq_after xs0 ops) ops') /\ exists h3, deq_free_all P h2 d2 = Ok h3.
Proof.
  intros V P HP h0 d0 xs0 ops h d tr first r H0 Hok E Er Hu Hc. pose proof HP as [HP1 _].
  destruct (dstart_inv P HP _ _ _ H0) as (ids & frees & Hg). pose proof (run_dok P HP ops _ _ _ _ _ _ _ _ Hg Hok E) as Hdok.
  destruct (drun_ok P HP ops h0 d0 xs0 ids frees Hg Hdok) as (h' & d' & tr' & ids' & frees' & E' & _ & _ & Hd).
  rewrite E in E'. injection E' as <- <- <-.
  destruct (dnomem_front_ok P HP1 _ _ _ _ _ _ _ Hd Er Hu Hc) as (h1 & d1 & -> & Hd1 & U). exists h1, d1. split; [reflexivity|].
  intros ops' h2 d2 tr2 Hok' E2. pose proof (run_dok P HP ops' _ _ _ _ _ _ _ _ Hd1 Hok' E2) as Hdok'.
  destruct (drun_ok P HP ops' h1 d1 _ ids' frees' Hd1 Hdok') as (h2' & d2' & tr2' & ids2 & frees2 & E2' & F2 & T2 & Hd2).
  rewrite E2 in E2'. injection E2' as <- <- <-. splits; try assumption.
  destruct (dfree_ok P HP1 _ _ _ _ _ Hd2) as (h3 & -> & _). eauto.
Qed.
Print Assumptions C62_deque_front_nomem_partial.

(** The exception, as for push_back *)
Theorem C62_front_nomem_refuted :
  forall (V : Type) P, 0 <= expo P <= 30 -> forall h : bheap V,
    exists h1 d1, deq_push_front_nomem P h (deq_default P) false = Some (Ok (h1, d1)) /\ d_size d1 = 0 /\ deq_free_all P h1 d1 = UB /\
       forall y, deq_push P h1 d1 y = UB.
Proof.
  intros V P HP h. pose proof HP as [HP1 _].
  destruct (deq_first_nomem P h (deq_default P)) as [h1 d1] eqn:E. exists h1, d1.
  unfold deq_push_front_nomem. cbn [deq_default d_fsize d_fl flist0 f_idx d_slots]. change (-1 <? 0) with true. cbn [negb Z.eqb].
  change (Deq 0 None 0 0 0 (bsz P) (-1) flist0) with (deq_default P). rewrite E. splits.
  - unfold deq_first_nomem in E. destruct (talloc h 64). injection E as <- <-. reflexivity.
  - apply (dnomem_first P HP1 h h1 d1 E).
  - apply (dnomem_first P HP1 h h1 d1 E).
Qed.
Print Assumptions C62_front_nomem_refuted.

(** Blocks of two elements.  With 61 elements pushed at the front the leading places of the table are used up and its
    31 blocks must be moved (the copy overlaps); with 119 the table must be doubled.  The requests fail, and the deque
    goes on. *)
Definition PO : params := Params 1 false true.
Example C62_front_nonvacuous :
  match deq_run PO (@bheap0 nat) (deq_default PO) (map DPushF (seq 0 119)), deq_run PO (@bheap0 nat) (deq_default PO) (map DPushF (seq 0 61)) with
  | Ok (h, d, _), Ok (g, e, _) =>
      match deq_push_front_nomem PO h d false, deq_push_front_nomem PO h d true, deq_push_front_nomem PO g e false with
      | Some (Ok (h1, d1)), Some (Ok (h2, d2)), Some (Ok (g1, e1)) =>
          d_front d = 0 /\ d_slots d = 64 /\ d_slots d1 = 128 /\ d_front d1 = 64 /\ d_slots d2 = 64 /\ deq_get PO h1 d1 118 = Ok 0%nat /\ d_size d1 = 119 /\
          d_front e = 0 /\ d_front e1 = 17 /\ deq_get PO g1 e1 60 = Ok 0%nat /\
          match deq_push_front PO h1 d1 5%nat with Ok (h3, d3) => deq_get PO h3 d3 0 = Ok 5%nat /\ deq_get PO h3 d3 1 = Ok 118%nat | _ => False end
      | _, _, _ => False
      end
  | _, _ => False
  end.
Proof. vm_compute. repeat split. Qed.

(** ** C88
    Full statement: if pop_back() or pop_front() cannot get the memory for its list of free blocks, the deque is as
    before the call or has lost the last (first) element, and every later call behaves accordingly.  Proved: when the
    request is made (otherwise the call cannot fail); after pop_back(), size(), the indexed reads and front() are those
    of the shortened deque. *)
Theorem C88_pop_back_partial :
  forall (V : Type) P, 0 <= expo P <= 30 -> forall (h0 : bheap V) d0 xs0 ops h d tr,
    dstart P h0 d0 xs0 -> dq_ok xs0 ops -> deq_run P h0 d0 ops = Ok (h, d, tr) ->
    let xs := dq_after xs0 ops in
    (deq_pop_nomem h d <> None <-> xs <> [] /\ d_bsize d = 0 /\ f_slots (d_fl d) <= f_idx (d_fl d)) /\
    (forall r, deq_pop_nomem h d = Some r ->
      exists d1, r = Ok (h, d1) /\ d_size d1 = zlen xs - 1 /\ (forall n x, removelast xs !! n = Some x -> deq_get P h d1 (Z.of_nat n) = Ok x) /\
        (forall x ys, xs = x :: ys -> ys <> [] -> deq_front P h d1 = Ok x)).
Proof.
  intros V P HP h0 d0 xs0 ops h d tr H0 Hok E xs. pose proof HP as [HP1 _].
  destruct (dstart_inv P HP _ _ _ H0) as (ids & frees & Hg). pose proof (run_dok P HP ops _ _ _ _ _ _ _ _ Hg Hok E) as Hdok.
  destruct (drun_ok P HP ops h0 d0 xs0 ids frees Hg Hdok) as (h' & d' & tr' & ids' & frees' & E' & _ & _ & Hd).
  rewrite E in E'. injection E' as <- <- <-. fold xs in Hd. split.
  - pose proof (dinv_size P _ _ _ _ _ Hd) as Hsz. unfold deq_pop_nomem. rewrite Hsz.
    assert (Hb : 0 <= d_bsize d).
    { pose proof (B_pos P HP1). destruct Hd as [(-> & _)|(t & Hl)]; [cbn; lia|]. destruct Hl as (_ & _ & _ & _ & _ & _ & ? & _). lia. }
    destruct (Z.eqb_spec (zlen xs) 0) as [E0|E0]; [apply zlen_0 in E0; tauto|].
    destruct (Z.ltb_spec 0 (d_bsize d)); [split; [congruence|lia]|].
    destruct (Z.leb_spec (f_slots (d_fl d)) (f_idx (d_fl d))); cbn [negb].
    + split; [|discriminate]. intros _. split; [|lia]. intros ->. apply E0. reflexivity.
    + split; [congruence|lia].
  - intros r Er. destruct (dpop_nomem_ok P _ _ _ _ _ _ Hd Er) as (d1 & -> & Hs & _ & _ & Hget & Hfr).
    exists d1. split; [reflexivity|]. split; [exact Hs|]. split.
    + intros n x Hx. rewrite Hget. apply (dget_ok P HP1 _ _ _ _ _ _ _ Hd).
      destruct xs as [|y ys] using rev_ind; [cbn in Hx; rewrite lookup_nil in Hx; discriminate|].
      rewrite removelast_last in Hx. apply lookup_app_l_Some. exact Hx.
    + intros x ys Exs Hne. rewrite Hfr. rewrite Exs in Hd. apply (dfront_ok P HP1 _ _ _ _ _ _ Hd).
Qed.
Print Assumptions C88_pop_back_partial.

(** What does not hold, from every reachable state: after pop_back() a push constructs on a live element (undefined in
    the model; the element there is never destroyed) and back() is an element one block before the last; after
    pop_front() every index is off by a block. *)
Theorem C88_pop_refuted :
  forall (V : Type) P, 0 <= expo P <= 30 -> forall (h0 : bheap V) d0 xs0 ops h d tr,
    dstart P h0 d0 xs0 -> dq_ok xs0 ops -> deq_run P h0 d0 ops = Ok (h, d, tr) ->
    let xs := dq_after xs0 ops in
    (forall h1 d1, deq_pop_nomem h d = Some (Ok (h1, d1)) ->
       (2 ^ expo P <= zlen xs -> forall y, deq_push P h1 d1 y = UB) /\
       (forall n x, xs !! n = Some x -> Z.of_nat n = zlen xs - 2 ^ expo P - 1 -> deq_back P h1 d1 = Ok x)) /\
    (forall h1 d1, deq_pop_front_nomem P h d = Some (Ok (h1, d1)) ->
       d_size d1 = zlen xs - 1 /\
       (forall n m x, xs !! m = Some x -> Z.of_nat m = Z.of_nat n + 2 ^ expo P -> deq_get P h1 d1 (Z.of_nat n) = Ok x)).
Proof.
  intros V P HP h0 d0 xs0 ops h d tr H0 Hok E xs. pose proof HP as [HP1 _].
  destruct (dstart_inv P HP _ _ _ H0) as (ids & frees & Hg). pose proof (run_dok P HP ops _ _ _ _ _ _ _ _ Hg Hok E) as Hdok.
  destruct (drun_ok P HP ops h0 d0 xs0 ids frees Hg Hdok) as (h' & d' & tr' & ids' & frees' & E' & _ & _ & Hd).
  rewrite E in E'. injection E' as <- <- <-. fold xs in Hd.
  assert (EB : bsz P = 2 ^ expo P) by (unfold bsz; rewrite Z.shiftl_mul_pow2 by assumption; lia). rewrite <- EB. split.
  - intros h1 d1 Er. destruct (dpop_nomem_after P HP1 _ _ _ _ _ _ _ Hd Er) as [A1 A2]. split; [exact A1|].
    intros n x Hx Hn. apply A2. rewrite <- Hn, zl_nat. exact Hx.
  - intros h1 d1 Er. destruct (dpop_front_nomem_ok P HP1 _ _ _ _ _ _ Hd Er) as (d2 & Eq & Hs & Hget). injection Eq as <- <-.
    split; [exact Hs|]. intros n m x Hx Hm. rewrite Hget, <- Hm. apply (dget_ok P HP1 _ _ _ _ _ _ _ Hd Hx).
Qed.
Print Assumptions C88_pop_refuted.

(** Blocks of two, pushes of 0 to 5.  After one pop_back() the next one requests memory.  It fails; then size() is 4,
    back() is 2 instead of 3, and a push or the destruction of the deque is undefined in the model (elements are lost
    without being destroyed).  At the front the same: element 0 then is 3 instead of 2. *)
Theorem C88_pop_case_refuted :
  exists ops ops' : list (dop nat),
    (exists h d tr h1 d1, deq_run (PD 1) bheap0 (deq_default (PD 1)) ops = Ok (h, d, tr) /\
       dq_after [] ops = [0; 1; 2; 3; 4]%nat /\ deq_pop_nomem h d = Some (Ok (h1, d1)) /\
       d_size d1 = 4 /\ deq_get (PD 1) h1 d1 3 = Ok 3%nat /\ deq_back (PD 1) h1 d1 = Ok 2%nat /\
       deq_push (PD 1) h1 d1 9%nat = UB /\ deq_free_all (PD 1) h1 d1 = UB) /\
    (exists h d tr h1 d1, deq_run (PD 1) bheap0 (deq_default (PD 1)) ops' = Ok (h, d, tr) /\
       dq_after [] ops' = [1; 2; 3; 4; 5]%nat /\ deq_pop_front_nomem (PD 1) h d = Some (Ok (h1, d1)) /\
       d_size d1 = 4 /\ deq_get (PD 1) h1 d1 0 = Ok 3%nat /\ deq_free_all (PD 1) h1 d1 = UB).
Proof.
  exists (map (fun n => DV (VPush n)) (seq 0 6) ++ [DV VPop]), (map (fun n => DV (VPush n)) (seq 0 6) ++ [DPopF]).
  split; (eexists _, _, _, _, _; split; [vm_compute; reflexivity|]); repeat (split; [vm_compute; reflexivity|]); vm_compute; reflexivity.
Qed.
Print Assumptions C88_pop_case_refuted.
