(** Property C107: comparing iterators with const_iterators. *)
From stdpp Require Import gmap.
From Verif Require Import Base BlkHeap BlkProofs BlkRun BlkIter VecModel VecSpec VecProofs VecWorld VecFinal DeqModel DeqSpec DeqProofs DeqMore DeqFinal IterMix.

Definition PM (n : Z) : params := Params n false false.

(** ** C107
    begin() + i of one kind and begin() + k of the other (iterator, const_iterator) are equal just when i = k, != is the
    opposite, and an iterator to an element converts to true: for every vector and deque whose end() can be had (C18), whatever
    table entries that were never written hold ([junk]).  [pos i] is begin() advanced i times. *)
Theorem C107_vector :
  forall (V : Type) P junk, 0 <= expo P <= 30 -> forall (h0 : bheap V) v0 xs0 ops h v tr,
    vstart P h0 v0 xs0 -> seq_ok xs0 ops -> Forall no_walk ops -> vec_run P h0 v0 ops = Ok (h, v, tr) -> ~ vfull P v ->
    exists first last pos, vec_begin P h v = Ok first /\ vec_end P h v = Ok last /\ pos 0 = first /\ pos (zlen (seq_after xs0 ops)) = last /\
      (forall n, (n <= length (seq_after xs0 ops))%nat -> it_steps P h first n = Ok (pos (Z.of_nat n))) /\
      (forall i k, 0 <= i <= zlen (seq_after xs0 ops) -> 0 <= k <= zlen (seq_after xs0 ops) ->
         it_equiv junk h (pos i) (pos k) = Ok (i =? k) /\ it_differ junk h (pos i) (pos k) = Ok (negb (i =? k))) /\
      (forall i, 0 <= i < zlen (seq_after xs0 ops) -> it_bool junk (pos i) = true).
Proof.
  intros V P junk HP h0 v0 xs0 ops h v tr H0 H1 H2 H3 H4. destruct (vec_iterators P HP _ _ _ _ _ _ _ H0 H1 H2 H3 H4) as (first & last & pos & E1 & E2 & Hi & Hs & _).
  exists first, last, pos. split; [exact E1|]. split; [exact E2|]. split; [apply Hi|]. split; [apply Hi|]. split; [exact Hs|].
  assert (exists t p o, it_new h t p o = Ok first) as (t & p & o & En).
  { unfold vec_begin, vec_end in E1. repeat case_match; try discriminate; eauto. }
  eapply iters_mix; eassumption.
Qed.
Print Assumptions C107_vector.

Theorem C107_deque :
  forall (V : Type) P junk, 0 <= expo P <= 30 -> forall (h0 : bheap V) d0 xs0 ops h d tr,
    dstart P h0 d0 xs0 -> dq_ok xs0 ops -> deq_run P h0 d0 ops = Ok (h, d, tr) -> ~ dfull P d ->
    exists first last pos, deq_begin P h d = Ok first /\ deq_end P h d = Ok last /\ pos 0 = first /\ pos (zlen (dq_after xs0 ops)) = last /\
      (forall n, (n <= length (dq_after xs0 ops))%nat -> it_steps P h first n = Ok (pos (Z.of_nat n))) /\
      (forall i k, 0 <= i <= zlen (dq_after xs0 ops) -> 0 <= k <= zlen (dq_after xs0 ops) ->
         it_equiv junk h (pos i) (pos k) = Ok (i =? k) /\ it_differ junk h (pos i) (pos k) = Ok (negb (i =? k))) /\
      (forall i, 0 <= i < zlen (dq_after xs0 ops) -> it_bool junk (pos i) = true).
Proof.
  intros V P junk HP h0 v0 xs0 ops h v tr H0 H1 H2 H3. destruct (deq_iterators P HP _ _ _ _ _ _ _ H0 H1 H2 H3) as (first & last & pos & E1 & E2 & Hi & Hs & _).
  exists first, last, pos. split; [exact E1|]. split; [exact E2|]. split; [apply Hi|]. split; [apply Hi|]. split; [exact Hs|].
  assert (exists t p o, it_new h t p o = Ok first) as (t & p & o & En).
  { unfold deq_begin, deq_end in E1. repeat case_match; try discriminate; eauto. }
  eapply iters_mix; eassumption.
Qed.
Print Assumptions C107_deque.

(** An iterator that was just made converts to false just when the entry of the table it points to holds null; so do begin() and
    end() of a container without a table. *)
Theorem C107_bool :
  forall (V : Type) P junk (h : bheap V),
    (forall t pos off it, it_new h t pos off = Ok it -> it_null junk h it = Ok (negb (it_bool junk it))) /\
    (exists e, vec_end P h (vec_default P) = Ok e /\ vec_begin P h (vec_default P) = Ok e /\ it_bool junk e = false) /\
    (exists e, deq_end P h (deq_default P) = Ok e /\ deq_begin P h (deq_default P) = Ok e /\ it_bool junk e = false).
Proof.
  intros V P junk h. split; [|split].
  - intros t pos off it (p & E & [= <-])%obind_ok. unfold it_null, it_bool. cbn [i_tab i_pos i_ptr]. unfold it_ptr in E. destruct t as [t|].
    + apply obind_ok in E as (c & -> & [= <-]). cbn [obind]. destruct c; cbn; [reflexivity|]. rewrite negb_involutive. reflexivity.
    + destruct (pos =? 0); [|discriminate]. injection E as <-. reflexivity.
  - eexists. unfold vec_begin, vec_end. cbn. rewrite ?Z.eqb_refl. split; [reflexivity|]. split; reflexivity.
  - eexists. unfold deq_begin, deq_end. cbn. rewrite ?Z.eqb_refl. split; [reflexivity|]. split; reflexivity.
Qed.
Print Assumptions C107_bool.

(** The comparison is not one of the addresses alone: begin() and end() const of a default constructed vector point to different
    empty values and are equal; and, without the test of the offset, iterators into one block would all be equal. *)
Example C107_ex :
  (forall junk, exists e, vec_end (V := Z) (PM 1) bheap0 (vec_default (PM 1)) = Ok e /\ it_same e e = false /\ it_equiv (V := Z) junk bheap0 e e = Ok true /\ it_bool junk e = false) /\
  (forall junk, exists h v tr a b c e, vec_run (V := Z) (PM 1) bheap0 (vec_default (PM 1)) [VPush 1; VPush 2; VPush 3; VPush 4] = Ok (h, v, tr) /\
    vec_begin (PM 1) h v = Ok a /\ it_add (PM 1) h a 1 = Ok b /\ it_add (PM 1) h a 2 = Ok c /\ vec_end (PM 1) h v = Ok e /\
    it_same a b = true /\ it_equiv junk h a b = Ok false /\ it_equiv junk h a c = Ok false /\ it_equiv junk h e a = Ok false /\ it_equiv junk h a e = Ok false /\ it_equiv junk h c c = Ok true).
Proof.
  split; intros junk.
  - eexists. split; [vm_compute; reflexivity|]. repeat split.
  - eexists _, _, _, _, _, _, _. split; [vm_compute; reflexivity|]. split; [vm_compute; reflexivity|]. split; [vm_compute; reflexivity|].
    split; [vm_compute; reflexivity|]. split; [vm_compute; reflexivity|]. split; [vm_compute; reflexivity|].
    split; [vm_compute; reflexivity|]. split; [vm_compute; reflexivity|]. split; [|split; vm_compute; reflexivity].
    vm_compute. destruct (junk _ _); reflexivity.
Qed.
