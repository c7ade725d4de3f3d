(** BlockingQueue and BlockingPriorityQueue: C46, C47, C50, C51, C59 *)
From stdpp Require Import list.
From Verif Require Import Base Conc CondVar Herlihy Serial BqModel BqSpec BqInv BqMore BqWake BqFlag BqSerial BqMore2 Props_Bq.

Section props.
Context {V : Type}.
Notation bqcfg := (cfg (bqsh V) (bqpc V)).
Implicit Types (s : bqsh V) (c : bqcfg) (xs : list (nat * act cvc (bqop V))) (H : list (hev (bqop V) (bqret V))) (bs : list (nat * bqop V * list cvc)).

Lemma bq_wakeup bp t0 s xs c H : rest bp s -> Forall (has_op bp) (calls xs) -> sole_consumer bp t0 xs -> bq_run bp (init s) xs = Some (c, H) ->
  bq_waits c t0 -> (forall i o, under_way H c i o -> bval o = None) -> nothing_held (sh c).
Proof.
  intros Hs Hok Hso Er (m & Em & Hw) Hno. pose proof (wake_run bp t0 xs _ _ _ (bqI_init bp s Hs) (wake_init bp t0 s) Hok Hso Er) as Hk.
  destruct (k_wake _ _ _ Hk _ Em Hw) as [[_ Hc]|[(u & pu & Eu & Hn)|[He _]]]; [exact Hc| |destruct He].
  exfalso. destruct (inserting bp _ _ _ _ _ _ Er Eu Hn) as (i & o & Hl & Ho). apply Ho, (Hno i o). exists u. split; [congruence|exact Hl].
Qed.

(** C46, with one thread that may block.  The others may call everything except pop(), pop(timeout) and popOrCall(): if it is
    blocked and no push is under way, the queue is empty.  Missing: several blocking consumers, see [C46_refuted]. *)
Theorem C46_no_lost_wakeup_partial t0 s xs c H : rest false s -> Forall (has_op false) (calls xs) -> sole_consumer false t0 xs -> bq_run false (init s) xs = Some (c, H) ->
  bq_waits c t0 -> (forall i o, under_way H c i o -> bval o = None) -> nothing_held (sh c).
Proof. apply bq_wakeup. Qed.

(** C50, with one thread that pops; the others may call everything except the pop operations. *)
Theorem C50_no_lost_wakeup_partial t0 s xs c H : rest true s -> Forall (has_op true) (calls xs) -> sole_consumer true t0 xs -> bq_run true (init s) xs = Some (c, H) ->
  bq_waits c t0 -> (forall i o, under_way H c i o -> bval o = None) -> nothing_held (sh c).
Proof. apply bq_wakeup. Qed.

(** C47, for calls that do not overlap, on a queue that was always used that way: the exact answers of a FIFO queue.
    Missing: overlapping calls, see [C47_refuted]. *)
Inductive seq_reach : bqsh V -> Prop :=
| sr_new : seq_reach bq0
| sr_use s bs c H : seq_reach s -> Forall (fun b => has_op false b.1.2) bs -> bq_run false (init s) (serial bs) = Some (c, H) -> seq_reach (sh c)
| sr_move s : seq_reach s -> seq_reach (fst (bq_move s)).

Lemma no_prio bs : Forall (fun b => has_op false b.1.2) bs -> Forall (fun b => has_op false b.1.2 /\ unprio b.1.2) bs.
Proof. intros Hf. eapply Forall_impl; [exact Hf|]. intros [[t o] ks] Ho. split; [exact Ho|]. cbn in *. destruct o; cbn in *; auto; discriminate. Qed.
Lemma seq_reach_I s : seq_reach s -> seqI s.
Proof.
  induction 1 as [|s bs c H _ IH Hok Er|s _ IH]; [apply seqI_bq0| |apply seqI_move, IH].
  apply (seq_run false _ _ _ _ IH (no_prio _ Hok) Er).
Qed.

Theorem C47_exact_partial s bs c H : seq_reach s -> Forall (fun b => has_op false b.1.2) bs -> bq_run false (init s) (serial bs) = Some (c, H) ->
  exists L, H = calls_of L /\ legal fifo_spec (in_order s) L (in_order (sh c)).
Proof. intros Hs Hok Er. apply (seq_run false _ _ _ _ (seq_reach_I _ Hs) (no_prio _ Hok) Er). Qed.

(** C47 and C51: in every execution from a new queue (or any queue at rest whose flag is not wrong), when empty() answers
    true, both vectors are empty at that moment, and the priority queue too unless a pushPriority has not returned yet. *)
Lemma bq_empty_true bp s xs c H t c' e : rest bp s -> (eflag s = true -> nothing_held s) -> Forall (has_op bp) (calls xs) -> bq_run bp (init s) xs = Some (c, H) ->
  th c t = Some E0 -> bq_exec bp c (t, AInt CStep) = Some (c', e) -> th c' t = Some (Ret (BBool true)) ->
  nothing_held (sh c) \/ exists i v, pullE (sh c) = [] /\ pushE (sh c) = [] /\ (under_way H c i (BPushPri v) \/ under_way H c i (BEmplacePri v)).
Proof.
  intros Hs Hfl Hok Er Et Ex Et'. pose proof (flagI_run bp xs _ _ _ (bqI_init bp s Hs) (flagI_init s Hfl) Hok Er) as Hf.
  unfold bq_exec in Ex. cbn in Ex. rewrite Et in Ex. cbn in Ex. injection Ex as <- _. cbn in Et'. rewrite fupd_same in Et'. injection Et' as Ee.
  destruct (f_true _ Hf Ee) as (E1 & E2 & [E3|[u Eu]]); [left; repeat split; assumption|]. right.
  set (K := fun (o : bqop V) (pc : bqpc V) => match pc with R0 o' | R1 o' | R2 o' | R3 o' | R5 o' | R6 o' => o = o' /\ channel o = true | R4 | R7 | R8 => channel o = true | _ => True end).
  destruct (pending bq_start (bq_step bp) bq_fin K) with (3 := Er) (4 := Eu) as (i & o & Hl & Hk).
  - intros []; cbn; auto.
  - intros s0 t1 pc k s' pc' o Es. destruct k as [|u'| |]; cbn [bq_step] in Es; try discriminate.
    + destruct pc; cbn [bq_step0] in Es; unfold lock_push, lock_pull, cont, after, test in Es;
        repeat lazymatch type of Es with context [match ?x with _ => _ end] => destruct x eqn:? end; try discriminate Es; injection Es as <- <-; cbn in *; auto; tauto.
    + destruct pc; try discriminate. destruct (inb t1 (bwait s0)); [|discriminate]. injection Es as <- <-. auto.
    + destruct pc; try discriminate. destruct m as [| |[]|]; try discriminate. injection Es as <- <-. auto.
  - cbn in Hk. assert (Hu : under_way H c i o) by (exists u; split; [congruence|exact Hl]).
    destruct o; try discriminate Hk; exists i, v; split; [exact E1|split; [exact E2|auto]|exact E1|split; [exact E2|auto]].
Qed.

Theorem C47_empty_true_partial s xs c H t c' e : rest false s -> (eflag s = true -> nothing_held s) -> Forall (has_op false) (calls xs) -> bq_run false (init s) xs = Some (c, H) ->
  th c t = Some E0 -> bq_exec false c (t, AInt CStep) = Some (c', e) -> th c' t = Some (Ret (BBool true)) -> nothing_held (sh c).
Proof.
  intros Hs Hfl Hok Er Et Ex Et'. pose proof (bqI_run false xs _ _ _ (bqI_init false s Hs) Hok Er) as Hi.
  destruct (bq_empty_true _ _ _ _ _ _ _ _ Hs Hfl Hok Er Et Ex Et') as [?|(i & v & E1 & E2 & _)]; [assumption|]. repeat split; try assumption. apply (i_prio _ _ Hi eq_refl).
Qed.

(** C51, one direction: when nobody is inside an operation and empty() would answer true, nothing is held. *)
Theorem C51_true_partial s xs c H : rest true s -> (eflag s = true -> nothing_held s) -> Forall (has_op true) (calls xs) -> bq_run true (init s) xs = Some (c, H) ->
  (forall t, th c t = None) -> forall t ks c' H', bq_run true c (block (t, BEmpty, ks)) = Some (c', H') -> In (HRet t (BBool true)) H' -> nothing_held (sh c).
Proof.
  intros Hs Hfl Hok Er Hn t ks c' H' Eb Hin. pose proof (flagI_run true xs _ _ _ (bqI_init true s Hs) (flagI_init s Hfl) Hok Er) as Hf.
  destruct (run_block _ _ _ _ _ _ _ _ _ Eb) as (r & _ & Es & _ & ->). destruct ks as [|[|?| |] ks]; cbn in Es; try discriminate. destruct ks as [|[|?| |] ks]; cbn in Es; try discriminate.
  injection Es as _ <-. destruct Hin as [Hin|[Hin|[]]]; [discriminate|]. injection Hin as Ee. destruct (f_true _ Hf Ee) as (E1 & E2 & [E3|[u Eu]]); [repeat split; assumption|congruence].
Qed.

(** C51, both directions, for calls that do not overlap and no priority elements *)
Theorem C51_exact_partial s bs c H : seqI s -> Forall (fun b => has_op true b.1.2 /\ unprio b.1.2) bs -> bq_run true (init s) (serial bs) = Some (c, H) ->
  exists L, H = calls_of L /\ legal fifo_spec (in_order s) L (in_order (sh c)).
Proof. intros Hs Hok Er. apply (seq_run true _ _ _ _ Hs Hok Er). Qed.

(** C59.  Both classes.  The callback is called only after a try_pop that found nothing: between the start of that try_pop
    and the callback there is a moment at which nothing at all is held. *)
Theorem C59_callback_only_if_empty bp s xs0 c0 H0 xs c H t : rest bp s -> Forall (has_op bp) (calls xs0) -> Forall (has_op bp) (calls xs) ->
  bq_run bp (init s) xs0 = Some (c0, H0) -> th c0 t = Some (O0 MCall) -> bq_run bp c0 xs = Some (c, H) -> inside t xs -> th c t = Some CB ->
  exists ys zs c1 H1, xs = ys ++ zs /\ bq_run bp c0 ys = Some (c1, H1) /\ nothing_held (sh c1).
Proof.
  intros Hs Hok0 Hok Er0 Et0 Er Hin Et. eapply (none_moment bp xs c0 c H t (O0 MCall) CB); try assumption; try reflexivity. eapply bqI_run; [apply bqI_init, Hs|exact Hok0|exact Er0].
Qed.

(** No other way leads to the callback. *)
Theorem C59_callback_after_try_pop bp s t pc k s' : bq_step bp s t pc k = Some (s', CB) -> pc = O3 MCall None.
Proof.
  intros Es. destruct k as [|u| |]; cbn [bq_step] in Es; try discriminate.
  - destruct pc; cbn [bq_step0] in Es; unfold lock_push, lock_pull, cont, after, test in Es;
      repeat lazymatch type of Es with context [match ?x with _ => _ end] => destruct x eqn:? end; try discriminate Es; subst; reflexivity.
  - destruct pc; try discriminate. destruct (inb t (bwait s)); discriminate.
  - destruct pc; try discriminate. destruct m as [| |[]|]; discriminate.
Qed.

(** The callback pushes some elements, one or more (its calls appear as those of other threads than [t0]); nobody else is
    inside an operation and nobody else ever pops.  Then popOrCall, in at most 6 steps of its own, returns an element; it is
    one the callback pushed if nothing was held when the callback was called.
    Missing: other threads at work, see [C59_refuted]. *)
Theorem C59_no_wait_partial bp t0 s xs c H bs c1 H1 : rest bp s -> Forall (has_op bp) (calls xs) -> sole_consumer bp t0 xs -> bq_run bp (init s) xs = Some (c, H) ->
  th c t0 = Some CB -> (forall u, u <> t0 -> th c u = None) ->
  bs <> [] -> Forall (fun b => b.1.1 <> t0 /\ has_op bp b.1.2 /\ bval b.1.2 <> None) bs -> bq_run bp c (serial bs) = Some (c1, H1) ->
  exists n v c2, (n <= 6)%nat /\ bq_run bp c1 (repeat (t0, AInt CStep) n ++ [(t0, ARet)]) = Some (c2, [HRet t0 (BVal (Some v))]) /\
    (nothing_held (sh c) -> exists b, In b bs /\ bval b.1.2 = Some v).
Proof.
  intros Hs Hok Hso Er Et Hn Hne Hbs Er1.
  assert (Hok1 : Forall (has_op bp) (calls (serial bs))). { rewrite serial_calls. apply Forall_forall. intros o Ho. apply elem_of_list_In, in_map_iff in Ho as (b & <- & Hb). rewrite Forall_forall in Hbs. apply Hbs, elem_of_list_In, Hb. }
  assert (Hins : Forall (fun b => bval b.1.2 <> None) bs) by (eapply Forall_impl; [exact Hbs|cbn; tauto]).
  assert (Hso1 : sole_consumer bp t0 (serial bs)).
  { intros t o Hi Hu. apply serial_in in Hi as [ks Hi]. rewrite Forall_forall in Hins. specialize (Hins (t, o, ks) (proj2 (elem_of_list_In _ _) Hi)). cbn in Hins. destruct o; cbn in *; auto; congruence. }
  destruct (serial_insert bp bs c c1 H1 Hins Er1) as [Hth Hp].
  pose proof (bqI_run bp xs _ _ _ (bqI_init bp s Hs) Hok Er) as Hi. pose proof (wake_run bp t0 xs _ _ _ (bqI_init bp s Hs) (wake_init bp t0 s) Hok Hso Er) as Hk.
  pose proof (bqI_run bp _ _ _ _ Hi Hok1 Er1) as Hi1. pose proof (wake_run bp t0 _ _ _ _ Hi Hk Hok1 Hso1 Er1) as Hk1.
  assert (Et1 : th c1 t0 = Some CB) by (rewrite Hth; exact Et). assert (Hn1 : forall u, u <> t0 -> th c1 u = None) by (intros u Hu; rewrite Hth; auto).
  assert (Ha : avail (sh c1)).
  { destruct (k_wake _ _ _ Hk1 _ Et1 I) as [[_ (E1 & E2 & E3)]|[(u & pu & Eu & Hnu)|[_ [Ha|(u & pu & Eu & Hl)]]]]; [exfalso| | |].
    - rewrite E1, E2, E3 in Hp. cbn in Hp. apply Permutation_nil in Hp. destruct bs as [|b bs]; [congruence|]. cbn in Hp. apply Forall_cons in Hins as [Hb _]. unfold bvals in Hp. destruct (bval b.1.2); [discriminate|congruence].
    - destruct (Nat.eq_dec u t0) as [->|Hu]; [|rewrite Hn1 in Eu by exact Hu; discriminate]. rewrite Et1 in Eu. injection Eu as <-. destruct Hnu.
    - exact Ha.
    - destruct (Nat.eq_dec u t0) as [->|Hu]; [|rewrite Hn1 in Eu by exact Hu; discriminate]. rewrite Et1 in Eu. injection Eu as <-. destruct Hl. }
  destruct (after_callback bp c1 t0 Hn1 Hi1 Et1 Ha) as (n & v & c2 & Hle & E & Hv). exists n, v, c2. split; [exact Hle|]. split; [exact E|].
  intros (F1 & F2 & F3). rewrite F1, F2, F3 in Hp. cbn in Hp. rewrite app_nil_r in Hp.
  assert (Hin : In v (flat_map (fun b => bvals b.1.2) bs)). { eapply Permutation_in; [exact Hp|]. rewrite !in_app_iff. rewrite in_app_iff in Hv. tauto. }
  apply in_flat_map in Hin as (b & Hb & Hv'). exists b. split; [exact Hb|]. unfold bvals in Hv'. destruct (bval b.1.2); [|destruct Hv']. destruct Hv' as [->|[]]. reflexivity.
Qed.
End props.

(** ** What is not so *)
Definition steps (t n : nat) : list (nat * act cvc (bqop Z)) := repeat (t, AInt CStep) n.
Definition push_by (t : nat) (v : Z) (n : nat) : list (nat * act cvc (bqop Z)) := (t, ACall (BPush v)) :: steps t n ++ [(t, ARet)].

(** C46: consumers 1 and 2 find nothing; 10 is pushed; 2 takes it in its second test, leaving the flag false; 1 waits; 20 is
    pushed and nobody is notified. *)
Definition lost : list (nat * act cvc (bqop Z)) :=
  ([(1, ACall BPop); (2, ACall BPop)] ++ steps 1 8 ++ steps 2 8 ++ push_by 3 10 10 ++ steps 2 4 ++ [(2, ARet)] ++ steps 1 3 ++ push_by 4 20 6)%nat.

(** All producers and other consumers have returned, 20 is held, consumer 1 is blocked, nobody can move, and this stays so
    whatever anybody pushes. *)
Theorem C46_refuted : exists c H, bq_run false (init (bq0 (V := Z))) lost = Some (c, H) /\ bq_waits c 1%nat /\ (forall u, u <> 1%nat -> th c u = None) /\
  ~ nothing_held (sh c) /\ ~ progress false c /\
  forall xs c' H', (forall u a, In (u, a) xs -> u <> 1%nat /\ forall o, a = ACall o -> bval o <> None) -> bq_run false c xs = Some (c', H') -> bq_waits c' 1%nat /\ ~ nothing_held (sh c').
Proof.
  eassert (Er : bq_run false (init (bq0 (V := Z))) lost = Some (_, _)) by (vm_compute; reflexivity). eexists _, _. split; [exact Er|].
  assert (Hw : forall c : cfg (bqsh Z) (bqpc Z), th c 1%nat = Some (W5 MPop) -> bwait (sh c) = [1%nat] -> bq_waits c 1%nat). { intros c E1 E2. exists MPop. rewrite E2. split; [exact E1|left; reflexivity]. }
  split; [apply Hw; vm_compute; reflexivity|]. split; [intros u Hu; do 5 (destruct u as [|u]; [first [congruence|reflexivity]|]); reflexivity|]. split; [intros (_ & E & _); discriminate|].
  split.
  - intros (u & a & c' & e & Ha & Ex). do 5 (destruct u as [|u]; [destruct Ha as [-> | ->]; vm_compute in Ex; discriminate Ex|]). destruct Ha as [-> | ->]; vm_compute in Ex; discriminate Ex.
  - intros xs c' H' Hx Er'. eapply (missed_run false xs _ 1%nat) in Er'; [| |exact Hx].
    + destruct Er' as (H1 & _ & H2 & _). split; [exact H1|]. intros (_ & E & _). contradiction.
    + split; [apply Hw; vm_compute; reflexivity|]. split; [reflexivity|]. split; [discriminate|]. intros u pc Hu Eu. exfalso. do 5 (destruct u as [|u]; [first [congruence|discriminate Eu]|]). discriminate Eu.
Qed.

(** C50: also with one blocking consumer, if another thread takes a priority element with try_pop *)
Definition lost_prio : list (nat * act cvc (bqop Z)) :=
  ((1, ACall BPop) :: steps 1 9 ++ [(2, ACall (BPushPri 10%Z))] ++ steps 2 6 ++ [(2, ARet); (3, ACall BTryPop)] ++ steps 3 4 ++ [(3, ARet)] ++ steps 1 4 ++ push_by 4 20 6)%nat.
Theorem C50_refuted : exists c H, bq_run true (init (bq0 (V := Z))) lost_prio = Some (c, H) /\ bq_waits c 1%nat /\ (forall u, u <> 1%nat -> th c u = None) /\
  ~ nothing_held (sh c) /\ ~ progress true c /\
  forall xs c' H', (forall u a, In (u, a) xs -> u <> 1%nat /\ forall o, a = ACall o -> bval o <> None) -> bq_run true c xs = Some (c', H') -> bq_waits c' 1%nat /\ ~ nothing_held (sh c').
Proof.
  eassert (Er : bq_run true (init (bq0 (V := Z))) lost_prio = Some (_, _)) by (vm_compute; reflexivity). eexists _, _. split; [exact Er|].
  assert (Hw : forall c : cfg (bqsh Z) (bqpc Z), th c 1%nat = Some (W5 MPop) -> bwait (sh c) = [1%nat] -> bq_waits c 1%nat). { intros c E1 E2. exists MPop. rewrite E2. split; [exact E1|left; reflexivity]. }
  split; [apply Hw; vm_compute; reflexivity|]. split; [intros u Hu; do 5 (destruct u as [|u]; [first [congruence|reflexivity]|]); reflexivity|]. split; [intros (_ & E & _); discriminate|].
  split.
  - intros (u & a & c' & e & Ha & Ex). do 5 (destruct u as [|u]; [destruct Ha as [-> | ->]; vm_compute in Ex; discriminate Ex|]). destruct Ha as [-> | ->]; vm_compute in Ex; discriminate Ex.
  - intros xs c' H' Hx Er'. eapply (missed_run true xs _ 1%nat) in Er'; [| |exact Hx].
    + destruct Er' as (H1 & _ & H2 & _). split; [exact H1|]. intros (_ & E & _). contradiction.
    + split; [apply Hw; vm_compute; reflexivity|]. split; [reflexivity|]. split; [discriminate|]. intros u pc Hu Eu. exfalso. do 5 (destruct u as [|u]; [first [congruence|discriminate Eu]|]). discriminate Eu.
Qed.

(** C47: while a push is half way, another push has returned; try_peek finds nothing. *)
Definition blind : list (nat * act cvc (bqop Z)) := ((1, ACall (BPush 10%Z)) :: steps 1 4 ++ push_by 2 20 6 ++ [(3, ACall BPeek)] ++ steps 3 3 ++ [(3, ARet)])%nat.
Theorem C47_refuted : exists c H, bq_run false (init (bq0 (V := Z))) blind = Some (c, H) /\ ~ exists L q, linearization fifo_spec H [] L q.
Proof.
  eassert (Er : bq_run false (init (bq0 (V := Z))) blind = Some (_, _)) by (vm_compute; reflexivity). eexists _, _. split; [exact Er|].
  assert (Hr : forall H i t o r, H !! i = Some (HInv t o) -> H !! S i = Some (HRet t r) -> ret_of (Op := bqop Z) (Rt := bqret Z) H i (S i) t o r).
  { intros H i t o r E1 E2. split; [lia|]. split; [exact E1|]. split; [exact E2|]. intros k e Hk. lia. }
  apply (blind_peek _ 3 4 3 [1%nat] []); [apply Hr; reflexivity| | | | |cbn; lia].
  - intros k u E. do 5 (destruct k as [|k]; [discriminate E|]). discriminate E.
  - apply NoDup_ListNoDup. repeat constructor; cbn; intuition lia.
  - constructor; [|constructor]. exists 2%nat, 2%nat, (BPush 20%Z), BUnit. split; [apply Hr; reflexivity|]. split; [reflexivity|lia].
  - intros k u o E Ho. do 5 (destruct k as [|k]; [first [discriminate E|injection E as <- <-; discriminate Ho]|]). discriminate E.
Qed.

(** C47, a single thread: popOrCall whose callback pushes 10 and 20 returns 10; then try_peek finds nothing. *)
Definition blind_call : list (nat * act cvc (bqop Z)) :=
  ((1, ACall BPopCall) :: steps 1 8 ++ push_by 2 10 10 ++ push_by 2 20 6 ++ steps 1 5 ++ [(1, ARet); (1, ACall BPeek)] ++ steps 1 3 ++ [(1, ARet)])%nat.
Theorem C47_refuted_callback : exists c H, bq_run false (init (bq0 (V := Z))) blind_call = Some (c, H) /\ ~ exists L q, linearization fifo_spec H [] L q.
Proof.
  eassert (Er : bq_run false (init (bq0 (V := Z))) blind_call = Some (_, _)) by (vm_compute; reflexivity). eexists _, _. split; [exact Er|].
  assert (Hr : forall H i t o r, H !! i = Some (HInv t o) -> H !! S i = Some (HRet t r) -> ret_of (Op := bqop Z) (Rt := bqret Z) H i (S i) t o r).
  { intros H i t o r E1 E2. split; [lia|]. split; [exact E1|]. split; [exact E2|]. intros k e Hk. lia. }
  apply (blind_peek _ 6 7 1 [1%nat; 3%nat] [0%nat]); [apply Hr; reflexivity| | | | |cbn; lia].
  - intros k u E. do 8 (destruct k as [|k]; [discriminate E|]). discriminate E.
  - apply NoDup_ListNoDup. repeat constructor; cbn; intuition lia.
  - constructor; [|constructor; [|constructor]].
    + exists 2%nat, 2%nat, (BPush 10%Z), BUnit. split; [apply Hr; reflexivity|]. split; [reflexivity|lia].
    + exists 4%nat, 2%nat, (BPush 20%Z), BUnit. split; [apply Hr; reflexivity|]. split; [reflexivity|lia].
  - intros k u o E Ho. destruct k as [|k]; [left; reflexivity|]. do 7 (destruct k as [|k]; [first [discriminate E|injection E as <- <-; discriminate Ho]|]). discriminate E.
Qed.

(** C51: after pushPriority and try_pop the queue is empty, nobody is inside, empty() answers false. *)
Theorem C51_refuted : exists bs c H, bq_run true (init (bq0 (V := Z))) (serial bs) = Some (c, H) /\ nothing_held (sh c) /\ (forall t, th c t = None) /\
  exists c' , bq_run true c (block (1%nat, BEmpty, [CStep])) = Some (c', [HInv 1%nat BEmpty; HRet 1%nat (BBool false)]).
Proof.
  exists [(1%nat, BPushPri 10%Z, repeat CStep 6); (1%nat, BTryPop, repeat CStep 4)].
  eexists _, _. split; [vm_compute; reflexivity|]. split; [repeat split|]. split; [intros [|[|t]]; reflexivity|]. eexists. vm_compute. reflexivity.
Qed.

(** C59: 10 is pushed and taken by another consumer before the callback pushes 20; popOrCall waits. *)
Definition lost_call : list (nat * act cvc (bqop Z)) :=
  ([(1, ACall BPopCall); (2, ACall BPop)] ++ steps 1 8 ++ steps 2 8 ++ push_by 3 10 10 ++ steps 2 4 ++ [(2, ARet)])%nat.
Theorem C59_refuted : exists c H c1 H1 c2, bq_run false (init (bq0 (V := Z))) lost_call = Some (c, H) /\ th c 1%nat = Some CB /\ (forall u, u <> 1%nat -> th c u = None) /\
  bq_run false c (push_by 4 20 6) = Some (c1, H1) /\ bq_run false c1 (steps 1 4) = Some (c2, []) /\
  bq_waits c2 1%nat /\ (forall u, u <> 1%nat -> th c2 u = None) /\ pushE (sh c2) = [20%Z] /\ ~ progress false c2.
Proof.
  eassert (Er : bq_run false (init (bq0 (V := Z))) lost_call = Some (_, _)) by (vm_compute; reflexivity).
  eexists _, _, _, _, _. split; [exact Er|]. split; [reflexivity|]. split; [intros u Hu; do 5 (destruct u as [|u]; [first [congruence|reflexivity]|]); reflexivity|].
  split; [vm_compute; reflexivity|]. split; [vm_compute; reflexivity|]. split; [exists MCall; split; [reflexivity|left; reflexivity]|].
  split; [intros u Hu; do 5 (destruct u as [|u]; [first [congruence|reflexivity]|]); reflexivity|]. split; [reflexivity|].
  intros (u & a & c' & e & Ha & Ex). do 5 (destruct u as [|u]; [destruct Ha as [-> | ->]; vm_compute in Ex; discriminate Ex|]). destruct Ha as [-> | ->]; vm_compute in Ex; discriminate Ex.
Qed.

(** ** Cases meeting the hypotheses *)
(** C46, C50: a consumer waits, an element was pushed and taken by try_pop (C46) before *)
Definition waits_alone (bp : bool) : list (nat * act cvc (bqop Z)) := (push_by 2 10 10 ++ [(1, ACall BPop)] ++ steps 1 (if bp then 11 else 10) ++ [(1, ARet); (1, ACall BPop)] ++ steps 1 (if bp then 13 else 11))%nat.
Example C46_case : match bq_run false (init (bq0 (V := Z))) (waits_alone false) with Some (c, H) => bq_waits c 1%nat /\ th c 2%nat = None /\ length H = 5%nat | None => False end.
Proof. vm_compute. split; [|auto]. exists MPop. auto. Qed.
Example C50_case : match bq_run true (init (bq0 (V := Z))) (waits_alone true) with Some (c, H) => bq_waits c 1%nat /\ th c 2%nat = None /\ length H = 5%nat | None => False end.
Proof. vm_compute. split; [|auto]. exists MPop. auto. Qed.
(** ... and it is woken by the next push. *)
Example C46_case_woken : match bq_run false (init (bq0 (V := Z))) (waits_alone false ++ push_by 2 20 10 ++ steps 1 4 ++ [(1, ARet)])%nat with
  | Some (c, H) => last H = Some (HRet 1%nat (BVal (Some 20%Z))) | None => False end.
Proof. vm_compute. reflexivity. Qed.

Example C47_case : exists c, bq_run false (init (bq0 (V := Z))) (serial [(1, BPush 10%Z, repeat CStep 10); (2, BEmplace 20%Z, repeat CStep 6); (1, BSize, repeat CStep 5); (3, BTryPop, repeat CStep 11); (2, BPeek, repeat CStep 3); (1, BEmpty, [CStep])])%nat =
  Some (c, calls_of [(1, BPush 10%Z, BUnit); (2, BEmplace 20%Z, BUnit); (1, BSize, BNum 2); (3, BTryPop, BVal (Some 10%Z)); (2, BPeek, BVal (Some 20%Z)); (1, BEmpty, BBool false)]%nat).
Proof. eexists. vm_compute. reflexivity. Qed.
Example C51_case : exists c, bq_run true (init (bq0 (V := Z))) (serial [(1, BPush 10%Z, repeat CStep 10); (1, BEmpty, [CStep]); (3, BTryPop, repeat CStep 11); (1, BEmpty, [CStep])])%nat =
  Some (c, calls_of [(1, BPush 10%Z, BUnit); (1, BEmpty, BBool false); (3, BTryPop, BVal (Some 10%Z)); (1, BEmpty, BBool true)]%nat).
Proof. eexists. vm_compute. reflexivity. Qed.
(** C59: the callback of thread 1 pushes 10 and 20; popOrCall returns 10. *)
Example C59_case : match bq_run false (init (bq0 (V := Z))) ((1, ACall BPopCall) :: steps 1 8)%nat with
  | Some (c, _) => th c 1%nat = Some CB /\ nothing_held (sh c) /\
    match bq_run false c (serial [(2, BPush 10%Z, repeat CStep 10); (2, BPush 20%Z, repeat CStep 6)]%nat ++ steps 1 5 ++ [(1%nat, ARet)]) with
    | Some (_, H) => last H = Some (HRet 1%nat (BVal (Some 10%Z))) | None => False end
  | None => False end.
Proof. vm_compute. auto. Qed.

Print Assumptions C46_no_lost_wakeup_partial.
Print Assumptions C46_refuted.
Print Assumptions C47_exact_partial.
Print Assumptions C47_empty_true_partial.
Print Assumptions C47_refuted.
Print Assumptions C47_refuted_callback.
Print Assumptions C50_no_lost_wakeup_partial.
Print Assumptions C50_refuted.
Print Assumptions C51_true_partial.
Print Assumptions C51_exact_partial.
Print Assumptions C51_refuted.
Print Assumptions C59_callback_only_if_empty.
Print Assumptions C59_callback_after_try_pop.
Print Assumptions C59_no_wait_partial.
Print Assumptions C59_refuted.
