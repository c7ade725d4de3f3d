(** Iterators held while the container changes: C82 (StableBlockVector), C83 (StableBlockDeque).

    [ops1] are the calls before the iterator is made, as begin() followed by [n] increments; [ops2] are the calls made while it
    is held.  Element [n] exists all the time.  [v_slots v1 * bsz P] is the number of elements for which the table of blocks
    has room when the iterator is made. *)
From stdpp Require Import gmap.
From Verif Require Import Base BlkHeap BlkIter BlkProofs BlkIterProofs VecModel VecSpec VecProofs VecFinal VecIterStable
  DeqModel DeqSpec DeqProofs DeqMore DeqFinal DeqIterStable.

(** ** C82 *)

(** Reading through the iterator gives the current element [n], and moving within the block gives its neighbours. *)
Theorem C82_vector_iterator_reads :
  forall (V : Type) P, 0 <= expo P <= 30 -> forall (h0 : bheap V) v0 xs0 ops1 ops2 h1 v1 tr1 h2 v2 tr2 n first it,
    vstart P h0 v0 xs0 -> seq_ok xs0 (ops1 ++ ops2) -> Forall no_walk (ops1 ++ ops2) ->
    vec_run P h0 v0 ops1 = Ok (h1, v1, tr1) -> vec_run P h1 v1 ops2 = Ok (h2, v2, tr2) ->
    (forall k, (n < length (seq_after xs0 (ops1 ++ take k ops2)))%nat) ->
    vec_begin P h1 v1 = Ok first -> it_steps P h1 first n = Ok it ->
    (forall x, seq_after xs0 (ops1 ++ ops2) !! n = Some x -> it_read P h2 it = Ok x) /\
    (forall m x, seq_after xs0 (ops1 ++ ops2) !! m = Some x -> Z.of_nat m / bsz P = Z.of_nat n / bsz P ->
       exists it', (if (n <=? m)%nat then it_add P h2 it (Z.of_nat (m - n)) else it_sub P h2 it (Z.of_nat (n - m))) = Ok it' /\ it_read P h2 it' = Ok x).
Proof.
  intros V P HP h0 v0 xs0 ops1 ops2 h1 v1 tr1 h2 v2 tr2 n first it H0 Hok Hnw E1 E2 Hlen Ef Ei. split.
  - intros x. exact (held_read P HP _ _ _ _ _ _ _ _ _ _ _ _ _ _ H0 Hok Hnw E1 E2 Hlen Ef Ei x).
  - intros m x. exact (held_at P HP _ _ _ _ _ _ _ _ _ _ _ _ _ _ H0 Hok Hnw E1 E2 Hlen Ef Ei m x).
Qed.
Print Assumptions C82_vector_iterator_reads.

(** While the table has room, which it has for 64 blocks at least, the iterator is the one that begin() and [n] increments give
    now, and it moves to any element. *)
Theorem C82_vector_iterator_moves_partial :
  forall (V : Type) P, 0 <= expo P <= 30 -> forall (h0 : bheap V) v0 xs0 ops1 ops2 h1 v1 tr1 h2 v2 tr2 n first it,
    vstart P h0 v0 xs0 -> seq_ok xs0 (ops1 ++ ops2) -> Forall no_walk (ops1 ++ ops2) ->
    vec_run P h0 v0 ops1 = Ok (h1, v1, tr1) -> vec_run P h1 v1 ops2 = Ok (h2, v2, tr2) ->
    (forall k, (n < length (seq_after xs0 (ops1 ++ take k ops2)))%nat) ->
    vec_begin P h1 v1 = Ok first -> it_steps P h1 first n = Ok it ->
    64 <= v_slots v1 /\
    ((forall k, zlen (seq_after xs0 (ops1 ++ take k ops2)) <= v_slots v1 * bsz P) ->
     exists first2, vec_begin P h2 v2 = Ok first2 /\ it_steps P h2 first2 n = Ok it /\
       forall m : nat, (m < length (seq_after xs0 (ops1 ++ ops2)))%nat ->
         exists it2, it_steps P h2 first2 m = Ok it2 /\
           ((n <= m)%nat -> Z.of_nat (m - n) <= 2147483648 - bsz P -> it_add P h2 it (Z.of_nat (m - n)) = Ok it2) /\
           ((m <= n)%nat -> Z.of_nat (n - m) <= 2147483647 -> it_sub P h2 it (Z.of_nat (n - m)) = Ok it2)).
Proof.
  intros V P HP h0 v0 xs0 ops1 ops2 h1 v1 tr1 h2 v2 tr2 n first it H0 Hok Hnw E1 E2 Hlen Ef Ei. split.
  - exact (held_room P HP _ _ _ _ _ _ _ _ _ _ _ _ _ _ H0 Hok Hnw E1 E2 Hlen Ef Ei).
  - exact (held_same P HP _ _ _ _ _ _ _ _ _ _ _ _ _ _ H0 Hok Hnw E1 E2 Hlen Ef Ei).
Qed.
Print Assumptions C82_vector_iterator_moves_partial.

(** Once the vector has had more elements than that, every move out of the block is undefined, and the iterator compares
    unequal to every iterator made since, the one to the same element and end() included. *)
Theorem C82_vector_iterator_lost :
  forall (V : Type) P, 0 <= expo P <= 30 -> forall (h0 : bheap V) v0 xs0 ops1 ops2 h1 v1 tr1 h2 v2 tr2 n first it,
    vstart P h0 v0 xs0 -> seq_ok xs0 (ops1 ++ ops2) -> Forall no_walk (ops1 ++ ops2) ->
    vec_run P h0 v0 ops1 = Ok (h1, v1, tr1) -> vec_run P h1 v1 ops2 = Ok (h2, v2, tr2) ->
    (forall k, (n < length (seq_after xs0 (ops1 ++ take k ops2)))%nat) ->
    vec_begin P h1 v1 = Ok first -> it_steps P h1 first n = Ok it ->
    (exists k, v_slots v1 * bsz P < zlen (seq_after xs0 (ops1 ++ take k ops2))) ->
    (forall k, 0 <= k <= 2147483647 -> bsz P <= Z.of_nat n mod bsz P + k -> it_add P h2 it k = UB) /\
    (forall k, 0 <= k <= 2147483647 -> Z.of_nat n mod bsz P < k -> it_sub P h2 it k = UB) /\
    (forall first2 m it2, vec_begin P h2 v2 = Ok first2 -> it_steps P h2 first2 m = Ok it2 -> it_eq it it2 = false) /\
    (forall last, vec_end P h2 v2 = Ok last -> it_eq it last = false).
Proof.
  intros V P HP h0 v0 xs0 ops1 ops2 h1 v1 tr1 h2 v2 tr2 n first it H0 Hok Hnw E1 E2 Hlen Ef Ei.
  exact (held_lost P HP _ _ _ _ _ _ _ _ _ _ _ _ _ _ H0 Hok Hnw E1 E2 Hlen Ef Ei).
Qed.
Print Assumptions C82_vector_iterator_lost.

Lemma pushes_after {V} (x : V) k : forall xs, seq_after xs (replicate k (VPush x)) = xs ++ replicate k x.
Proof.
  induction k as [|k IH]; intros xs; cbn; [rewrite app_nil_r; reflexivity|]. unfold seq_after in *; cbn. rewrite IH, <- app_assoc. reflexivity.
Qed.
Lemma pushes_legal {V} (x : V) k : forall xs, seq_ok xs (replicate k (VPush x)).
Proof. induction k as [|k IH]; intros xs; cbn; [exact I|]. split; [exact I|apply IH]. Qed.
Lemma pushes_walk {V} (x : V) k : Forall no_walk (replicate k (VPush x)).
Proof. induction k; cbn; constructor; [exact I|assumption]. Qed.

(** So appending elements can make ++ undefined for an iterator that is not at the last element, for every block size. *)
Theorem C82_vector_iterator_moves_refuted :
  forall (V : Type) P (x : V), 0 <= expo P <= 30 ->
    exists ops1 ops2 h1 v1 tr1 h2 v2 tr2 n first it,
      Forall (fun o => o = VPush x) (ops1 ++ ops2) /\
      vec_run P bheap0 (vec_default P) ops1 = Ok (h1, v1, tr1) /\ vec_run P h1 v1 ops2 = Ok (h2, v2, tr2) /\
      vec_begin P h1 v1 = Ok first /\ it_steps P h1 first n = Ok it /\
      (S n < length (seq_after [] ops1))%nat /\ (exists it', it_add P h1 it 1 = Ok it') /\ it_add P h2 it 1 = UB.
Proof.
  intros V P x HP. pose proof (bsz_pos P ltac:(lia)) as HB. pose proof (B_int P HP) as HBi.
  set (ops1 := replicate (Z.to_nat (bsz P + 1)) (VPush x)).
  destruct (vrun_ok P HP ops1 bheap0 (vec_default P) [] [] [] (default_good P HP) (pushes_legal _ _ _) (pushes_walk _ _)) as (h1 & v1 & tr1 & ids1 & frees1 & E1 & _ & _ & Hg1).
  set (ops2 := replicate (Z.to_nat (v_slots v1 * bsz P)) (VPush x)).
  destruct (vrun_ok P HP ops2 h1 v1 _ ids1 frees1 Hg1 (pushes_legal _ _ _) (pushes_walk _ _)) as (h2 & v2 & tr2 & ids2 & frees2 & E2 & _ & _ & Hg2).
  assert (Hl1 : length (seq_after [] ops1) = Z.to_nat (bsz P + 1)) by (unfold ops1; rewrite pushes_after, app_length, replicate_length; reflexivity).
  set (n := Z.to_nat (bsz P - 1)). assert (Hn : (S n < length (seq_after [] ops1))%nat) by (rewrite Hl1; unfold n; lia).
  destruct (viter_make P HP h1 v1 _ ids1 frees1 n (proj1 Hg1)) as (t1 & first & it & b & Hd & Ef & Ei & Hat & _); [lia|].
  destruct (viter_make P HP h1 v1 _ ids1 frees1 (S n) (proj1 Hg1) Hn) as (t1' & first' & it' & b' & Hd' & Ef' & Ei' & Hat' & _).
  assert (t1' = t1) as -> by congruence.
  exists ops1, ops2, h1, v1, tr1, h2, v2, tr2, n, first, it. splits; try assumption.
  - unfold ops1, ops2. rewrite <- replicate_add. apply Forall_replicate. reflexivity.
  - destruct (it_add_ok P ltac:(lia) h1 t1 (Z.of_nat n) it 1 Hat) as (it2 & E & _); [lia| |eauto].
    replace (Z.of_nat n + 1) with (Z.of_nat (S n)) by lia. apply it_at_inv in Hat' as (c & Hc & _). eexists; exact Hc.
  - assert (Hlen : forall k, seq_after [] (ops1 ++ take k ops2) = replicate (length ops1) x ++ replicate (min k (length ops2)) x).
    { intros k. unfold seq_after. rewrite fold_left_app. fold (seq_after [] ops1). unfold ops1 at 1, ops2. rewrite pushes_after, take_replicate.
      match goal with |- fold_left seq_next ?l ?xs = _ => change (seq_after xs l = replicate (length ops1) x ++ replicate (min k (length (replicate (Z.to_nat (v_slots v1 * bsz P)) (VPush x)))) x) end.
      rewrite pushes_after, replicate_length. unfold ops1. rewrite replicate_length. reflexivity. }
    assert (Hnm : Z.of_nat n mod bsz P = bsz P - 1) by (unfold n; rewrite Z2Nat.id by lia; apply Z.mod_small; lia).
    eapply (held_lost P HP _ _ [] ops1 ops2 _ _ _ _ _ _ n first it (vst_default P)); try eassumption.
    + unfold ops1, ops2. rewrite <- replicate_add. apply pushes_legal.
    + unfold ops1, ops2. rewrite <- replicate_add. apply pushes_walk.
    + intros k. rewrite Hlen, app_length, replicate_length. unfold ops1. rewrite replicate_length. unfold n. lia.
    + exists (length ops2). rewrite Hlen, Nat.min_id. unfold zlen. rewrite app_length, !replicate_length. unfold ops1, ops2. rewrite !replicate_length. lia.
    + lia.
    + rewrite Hnm. lia.
Qed.
Print Assumptions C82_vector_iterator_moves_refuted.

(** Two elements to a block.  The iterator to the second of three elements, while fifty more are appended and 52 popped. *)
Definition PH (e : Z) : params := Params e false false.
Example C82_case :
  match vec_run (PH 1) bheap0 (vec_default (PH 1)) [VPush 1; VPush 2; VPush 3] with
  | Ok (h1, v1, _) =>
      match vec_begin (PH 1) h1 v1 with
      | Ok first =>
          match it_steps (PH 1) h1 first 1, vec_run (PH 1) h1 v1 (replicate 50 (VPush 7) ++ replicate 51 VPop ++ [VSet 1 9; VPush 4; VPush 5]) with
          | Ok it, Ok (h2, v2, _) =>
              it_read (PH 1) h1 it = Ok 2 /\ it_read (PH 1) h2 it = Ok 9 /\
              (it' <-! it_add (PH 1) h2 it 2 ;; it_read (PH 1) h2 it') = Ok 5
          | _, _ => False
          end
      | _ => False
      end
  | _ => False
  end.
Proof. vm_compute. auto. Qed.

(** ** C83

    The iterator is made at element [n]; the calls made while it is held leave that element at index [m].  [dq0 P d] is the
    number of element places of the table (blocks times block size) before the first element. *)

(** Reading through the iterator gives the element as it is now, and moving within the block ([c] is the block, [i] and [j] the
    places in it) gives its neighbours. *)
Theorem C83_deque_iterator_reads :
  forall (V : Type) P, 0 <= expo P <= 30 -> forall (h0 : bheap V) d0 xs0 ops1 ops2 h1 d1 tr1 h2 d2 tr2 n m first it,
    dstart P h0 d0 xs0 -> dq_ok xs0 (ops1 ++ ops2) ->
    deq_run P h0 d0 ops1 = Ok (h1, d1, tr1) -> deq_run P h1 d1 ops2 = Ok (h2, d2, tr2) ->
    (n < length (dq_after xs0 ops1))%nat -> dq_tracks (dq_after xs0 ops1) (Z.of_nat n) ops2 = Some (Z.of_nat m) ->
    deq_begin P h1 d1 = Ok first -> it_steps P h1 first n = Ok it ->
    (forall x, dq_after xs0 (ops1 ++ ops2) !! m = Some x -> it_read P h2 it = Ok x) /\
    (forall (p : nat) x c i j, dq_after xs0 (ops1 ++ ops2) !! p = Some x -> deq_at P h2 d2 (Z.of_nat m) = Ok (c, i) -> deq_at P h2 d2 (Z.of_nat p) = Ok (c, j) ->
       exists it', (if i <=? j then it_add P h2 it (j - i) else it_sub P h2 it (i - j)) = Ok it' /\ it_read P h2 it' = Ok x).
Proof.
  intros V P HP h0 d0 xs0 ops1 ops2 h1 d1 tr1 h2 d2 tr2 n m first it H0 Hok E1 E2 Hn Ht Ef Ei.
  split.
  - intros x. exact (dheld_read P HP _ _ _ _ _ _ _ _ _ _ _ _ _ _ _ H0 Hok E1 E2 Hn Ht Ef Ei x).
  - intros p x c i j. exact (dheld_at P HP _ _ _ _ _ _ _ _ _ _ _ _ _ _ _ H0 Hok E1 E2 Hn Ht Ef Ei p x c j i).
Qed.
Print Assumptions C83_deque_iterator_reads.

(** While every push finds room in the table at its end, so that blockCheck neither shifts nor replaces the table, and there is no
    assignment, the iterator is the one that begin() and [m] increments give now, and it moves to any element. *)
Theorem C83_deque_iterator_moves_partial :
  forall (V : Type) P, 0 <= expo P <= 30 -> forall (h0 : bheap V) d0 xs0 ops1 ops2 h1 d1 tr1 h2 d2 tr2 n m first it,
    dstart P h0 d0 xs0 -> dq_ok xs0 (ops1 ++ ops2) ->
    deq_run P h0 d0 ops1 = Ok (h1, d1, tr1) -> deq_run P h1 d1 ops2 = Ok (h2, d2, tr2) ->
    (n < length (dq_after xs0 ops1))%nat -> dq_tracks (dq_after xs0 ops1) (Z.of_nat n) ops2 = Some (Z.of_nat m) ->
    deq_begin P h1 d1 = Ok first -> it_steps P h1 first n = Ok it ->
    roomy_run P h1 d1 ops2 ->
    exists first2, deq_begin P h2 d2 = Ok first2 /\ it_steps P h2 first2 m = Ok it /\
      forall p : nat, (p < length (dq_after xs0 (ops1 ++ ops2)))%nat ->
        exists it2, it_steps P h2 first2 p = Ok it2 /\
          ((m <= p)%nat -> Z.of_nat (p - m) <= 2147483648 - bsz P -> it_add P h2 it (Z.of_nat (p - m)) = Ok it2) /\
          ((p <= m)%nat -> Z.of_nat (m - p) <= 2147483647 -> it_sub P h2 it (Z.of_nat (m - p)) = Ok it2).
Proof.
  intros V P HP h0 d0 xs0 ops1 ops2 h1 d1 tr1 h2 d2 tr2 n m first it H0 Hok E1 E2 Hn Ht Ef Ei.
  intros Hr. destruct (dheld_facts P HP _ _ _ _ _ _ _ _ _ _ _ _ _ _ _ H0 Hok E1 E2 Hn Ht Ef Ei) as (ids2 & frees2 & t1 & b & Hd2 & Hm & Ed1 & Eit & Eat & _ & _ & Hrm).
  destruct (Hrm Hr) as [Hs Hq]. destruct (dheld_same P HP _ _ _ _ _ _ _ _ _ _ _ _ _ _ _ H0 Hok E1 E2 Hn Ht Ef Ei Hs) as (first2 & Ef2 & Hp).
  exists first2. split; [exact Ef2|]. split.
  - destruct (Hp m Hm) as (it2 & E3 & Ha & _). pose proof (bsz_pos P ltac:(lia)). pose proof (B_int P HP). specialize (Ha 0 ltac:(lia) ltac:(lia) ltac:(left; lia)).
    rewrite E3. f_equal. subst it. pose proof (Z.mod_pos_bound (dq0 P d1 + Z.of_nat n) (bsz P) ltac:(lia)). unfold it_add in Ha; cbn [i_off i_pos i_tab i_ptr] in Ha. rewrite (wrap32_id 0) in Ha by lia. rewrite Z.add_0_r in Ha.
    unfold int_ok, int_max in Ha. assert (Hio : negb ((-2147483648 <=? (dq0 P d1 + Z.of_nat n) mod bsz P) && ((dq0 P d1 + Z.of_nat n) mod bsz P <=? 2147483647)) = false) by lia. rewrite Hio in Ha.
    destruct (Z.leb_spec (bsz P) ((dq0 P d1 + Z.of_nat n) mod bsz P)); [lia|]. injection Ha as <-. cbn. rewrite ?Z.add_0_r. reflexivity.
  - intros p Hpl. destruct (Hp p Hpl) as (it2 & E3 & Ha & Hb). exists it2. splits; [exact E3| |].
    + intros Hmp Hk. apply Ha; lia.
    + intros Hmp Hk. apply Hb; lia.
Qed.
Print Assumptions C83_deque_iterator_moves_partial.

(** If the table is the one that the iterator refers to but the elements were shifted in it, a move out of the block by [k] goes
    to the element that is [k] plus the shift away instead of [k]. *)
Theorem C83_deque_iterator_shifted :
  forall (V : Type) P, 0 <= expo P <= 30 -> forall (h0 : bheap V) d0 xs0 ops1 ops2 h1 d1 tr1 h2 d2 tr2 n m first it,
    dstart P h0 d0 xs0 -> dq_ok xs0 (ops1 ++ ops2) ->
    deq_run P h0 d0 ops1 = Ok (h1, d1, tr1) -> deq_run P h1 d1 ops2 = Ok (h2, d2, tr2) ->
    (n < length (dq_after xs0 ops1))%nat -> dq_tracks (dq_after xs0 ops1) (Z.of_nat n) ops2 = Some (Z.of_nat m) ->
    deq_begin P h1 d1 = Ok first -> it_steps P h1 first n = Ok it ->
    d_data d2 = d_data d1 ->
    let shift := (dq0 P d1 + Z.of_nat n) - (dq0 P d2 + Z.of_nat m) in
    exists first2, deq_begin P h2 d2 = Ok first2 /\
      forall p : nat, (p < length (dq_after xs0 (ops1 ++ ops2)))%nat ->
        exists it2, it_steps P h2 first2 p = Ok it2 /\
          (forall k, 0 <= k <= 2147483648 - bsz P -> Z.of_nat p = Z.of_nat m + k + shift -> bsz P <= (dq0 P d1 + Z.of_nat n) mod bsz P + k -> it_add P h2 it k = Ok it2) /\
          (forall k, 0 <= k <= 2147483647 -> Z.of_nat p = Z.of_nat m - k + shift -> (dq0 P d1 + Z.of_nat n) mod bsz P < k -> it_sub P h2 it k = Ok it2).
Proof.
  intros V P HP h0 d0 xs0 ops1 ops2 h1 d1 tr1 h2 d2 tr2 n m first it H0 Hok E1 E2 Hn Ht Ef Ei.
  intros Hs shift. destruct (dheld_same P HP _ _ _ _ _ _ _ _ _ _ _ _ _ _ _ H0 Hok E1 E2 Hn Ht Ef Ei Hs) as (first2 & Ef2 & Hp).
  exists first2. split; [exact Ef2|]. intros p Hpl. destruct (Hp p Hpl) as (it2 & E3 & Ha & Hb). exists it2. splits; [exact E3| |].
  - intros k Hk Hpk Hc. apply Ha; auto.
  - intros k Hk Hpk Hc. apply Hb; auto.
Qed.
Print Assumptions C83_deque_iterator_shifted.

(** If the table was replaced, every move out of the block is undefined, and the iterator compares unequal to every iterator made
    since. *)
Theorem C83_deque_iterator_lost :
  forall (V : Type) P, 0 <= expo P <= 30 -> forall (h0 : bheap V) d0 xs0 ops1 ops2 h1 d1 tr1 h2 d2 tr2 n m first it,
    dstart P h0 d0 xs0 -> dq_ok xs0 (ops1 ++ ops2) ->
    deq_run P h0 d0 ops1 = Ok (h1, d1, tr1) -> deq_run P h1 d1 ops2 = Ok (h2, d2, tr2) ->
    (n < length (dq_after xs0 ops1))%nat -> dq_tracks (dq_after xs0 ops1) (Z.of_nat n) ops2 = Some (Z.of_nat m) ->
    deq_begin P h1 d1 = Ok first -> it_steps P h1 first n = Ok it ->
    d_data d2 <> d_data d1 ->
    (forall k, 0 <= k <= 2147483647 -> bsz P <= (dq0 P d1 + Z.of_nat n) mod bsz P + k -> it_add P h2 it k = UB) /\
    (forall k, 0 <= k <= 2147483647 -> (dq0 P d1 + Z.of_nat n) mod bsz P < k -> it_sub P h2 it k = UB) /\
    (forall first2 p it2, deq_begin P h2 d2 = Ok first2 -> it_steps P h2 first2 p = Ok it2 -> it_eq it it2 = false) /\
    (forall last, deq_end P h2 d2 = Ok last -> it_eq it last = false).
Proof.
  intros V P HP h0 d0 xs0 ops1 ops2 h1 d1 tr1 h2 d2 tr2 n m first it H0 Hok E1 E2 Hn Ht Ef Ei.
  exact (dheld_lost P HP _ _ _ _ _ _ _ _ _ _ _ _ _ _ _ H0 Hok E1 E2 Hn Ht Ef Ei).
Qed.
Print Assumptions C83_deque_iterator_lost.

(** Two elements to a block, elements 0 and 1, the iterator at element 0.  After 66 more push_back calls blockCheck has shifted the
    table, and ++ goes to element 31 and not to element 1.  After 150 it has replaced the table, and ++ is undefined. *)
Definition PD : params := Params 1 true true.
Definition count (a k : nat) : list (dop Z) := map (fun i => DV (VPush (Z.of_nat i))) (seq a k).
Definition held_next (k : nat) : outcome (outcome Z * outcome Z * outcome Z * outcome Z) :=
  '(h1, d1, _) <-! deq_run PD bheap0 (deq_default PD) (count 0 2) ;;
  first <-! deq_begin PD h1 d1 ;;
  it <-! it_steps PD h1 first 0 ;;
  '(h2, d2, _) <-! deq_run PD h1 d1 (count 2 k) ;;
  Ok (it' <-! it_add PD h1 it 1 ;; it_read PD h1 it', deq_get PD h2 d2 1, it_read PD h2 it, it' <-! it_add PD h2 it 1 ;; it_read PD h2 it').
Lemma held_next_ok k a b c e : held_next k = Ok (a, b, c, e) ->
  exists h1 d1 tr1 first it h2 d2 tr2,
    deq_run PD bheap0 (deq_default PD) (count 0 2) = Ok (h1, d1, tr1) /\ deq_run PD h1 d1 (count 2 k) = Ok (h2, d2, tr2) /\
    deq_begin PD h1 d1 = Ok first /\ it_steps PD h1 first 0 = Ok it /\
    (it' <-! it_add PD h1 it 1 ;; it_read PD h1 it') = a /\ deq_get PD h2 d2 1 = b /\ it_read PD h2 it = c /\
    (it' <-! it_add PD h2 it 1 ;; it_read PD h2 it') = e.
Proof.
  unfold held_next. intros ([[h1 d1] tr1] & E1 & E)%obind_ok. apply obind_ok in E as (first & Ef & E). apply obind_ok in E as (it & Ei & E).
  apply obind_ok in E as ([[h2 d2] tr2] & E2 & [= <- <- <- <-]). exists h1, d1, tr1, first, it, h2, d2, tr2. splits; assumption.
Qed.
Theorem C83_deque_iterator_moves_refuted :
  exists k1 k2, forall k next2, (k = k1 /\ next2 = Ok 31) \/ (k = k2 /\ next2 = UB) ->
    exists h1 d1 tr1 first it h2 d2 tr2,
      deq_run PD bheap0 (deq_default PD) (count 0 2) = Ok (h1, d1, tr1) /\ deq_run PD h1 d1 (count 2 k) = Ok (h2, d2, tr2) /\
      deq_begin PD h1 d1 = Ok first /\ it_steps PD h1 first 0 = Ok it /\
      (it' <-! it_add PD h1 it 1 ;; it_read PD h1 it') = Ok 1 /\ deq_get PD h2 d2 1 = Ok 1 /\ it_read PD h2 it = Ok 0 /\
      (it' <-! it_add PD h2 it 1 ;; it_read PD h2 it') = next2.
Proof.
  exists 66%nat, 150%nat. intros k next2 [[-> ->]|[-> ->]]; apply held_next_ok; vm_compute; reflexivity.
Qed.
Print Assumptions C83_deque_iterator_moves_refuted.

(** The hypotheses of the theorems hold for it; while 65 elements are appended and some popped at either end, it moves rightly. *)
Example C83_case :
  held_next 65 = Ok (Ok 1, Ok 1, Ok 0, Ok 1) /\
  dq_ok [] (count 0 2 ++ count 2 66) /\ dq_tracks (dq_after [] (count 0 2)) 0 (count 2 66) = Some 0 /\
  dq_tracks (dq_after [] (count 0 2)) 1 [DPopF; DPushF 5; DPushF 6; DV VPop] = None /\
  dq_tracks (dq_after [] (count 0 2)) 1 [DPopF; DPushF 5; DPushF 6; DV (VPush 7)] = Some 2.
Proof. vm_compute. repeat split; auto. Qed.
Example C83_roomy :
  match deq_run PD bheap0 (deq_default PD) (count 0 3) with
  | Ok (h1, d1, _) => roomy_run PD h1 d1 [DV (VPush 8); DPopF; DPushF 9] /\ dq_tracks (dq_after [] (count 0 3)) 1 [DV (VPush 8); DPopF; DPushF 9] = Some 1
  | _ => False
  end.
Proof.
  destruct (deq_run PD bheap0 (deq_default PD) (count 0 3)) as [[[h1 d1] tr1]| |] eqn:E; [|vm_compute in E; discriminate..].
  assert (Hd : (d_back d1, d_slots d1, d_front d1, d_fsize d1, d_bsize d1) = (31, 64, 30, 0, 2)).
  { pose (view := fun r : outcome (bheap Z * deq * list (dop Z * vret Z)) =>
      match r with Ok (_, d, _) => (d_back d, d_slots d, d_front d, d_fsize d, d_bsize d) | _ => (0, 0, 0, 0, 0) end).
    assert (Hv : view (deq_run PD bheap0 (deq_default PD) (count 0 3)) = (31, 64, 30, 0, 2)) by (vm_compute; reflexivity).
    rewrite E in Hv. exact Hv. }
  injection Hd as Hb Hs Hf Hfs Hbs. split; [|reflexivity]. split; [right; rewrite Hb, Hs; lia|]. intros h2 d2 r2 E2. split; [exact I|]. intros h3 d3 r3 E3. split; [|intros; exact I].
  right.
  assert (Hf2 : d_front d2 = 30).
  { cbn [deq_step] in E2. apply obind_ok in E2 as ([h4 d4] & E2 & [= <- <- <-]). unfold deq_push in E2. apply obind_ok in E2 as ([h5 d5] & E2 & E4). apply obind_ok in E4 as (c & _ & E4). apply obind_ok in E4 as (h6 & _ & [= <- <-]).
    cbn [d_front]. unfold deq_check in E2. destruct (_ <=? _); [|injection E2 as <- <-; exact Hf]. destruct (Z.eqb_spec (d_slots d1) 0); [lia|]. destruct (Z.leb_spec (d_slots d1 - 1) (d_back d1)); [lia|].
    cbn [obind] in E2. apply obind_ok in E2 as ([[h7 f] c7] & _ & E2). apply obind_ok in E2 as (h8 & _ & [= <- <-]). exact Hf. }
  cbn [deq_step] in E3. apply obind_ok in E3 as ([h4 d4] & E3 & [= <- <- <-]). unfold deq_pop_front in E3. destruct (_ =? _); [injection E3 as <- <-; lia|].
  apply obind_ok in E3 as ([h5 d5] & E3 & E4). apply obind_ok in E4 as (c & _ & E4). apply obind_ok in E4 as (h6 & _ & [= <- <-]). cbn [d_front]. destruct (negb _).
  - injection E3 as <- <-. cbn [d_front]. lia.
  - apply obind_ok in E3 as (c1 & _ & E3). apply obind_ok in E3 as ([h7 f] & _ & [= <- <-]). cbn [d_front]. lia.
Qed.
