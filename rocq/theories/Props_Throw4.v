(** C62: the requests that may throw are those that a push makes *)
From stdpp Require Import gmap.
From Verif Require Import Base BlkHeap BlkProofs BlkMore VecModel VecThrow DeqModel DeqThrow DeqThrow2.
From Verif Require SqModel SqThrow BqModel BqThrow WbModel WbConc.

Section nx.
Context {V : Type}.
Variable P : params.
Implicit Types (h : bheap V).
Lemma nx_tset h p i c h1 : tset h p i c = Ok h1 -> nx h1 = nx h.
Proof. unfold tset. destruct p; [|discriminate]. destruct (tb h !! n); [|discriminate]. destruct (_ || _); [discriminate|]. intros [= <-]. reflexivity. Qed.
Lemma nx_tcopy h p i n q k h1 : tcopy h p i n q k = Ok h1 -> nx h1 = nx h.
Proof. unfold tcopy. destruct p as [t|]; [|discriminate]. destruct q as [u|]; [|discriminate]. destruct (tb h !! t); [|discriminate]. destruct (tb h !! u); [|discriminate]. destruct (_ && _); [|discriminate]. intros [= <-]. reflexivity. Qed.
Lemma nx_tdelete h p h1 : tdelete h p = Ok h1 -> nx h1 = nx h.
Proof. unfold tdelete. destruct p; [|intros [= <-]; reflexivity]. destruct (tb h !! n); [|discriminate]. intros [= <-]. reflexivity. Qed.
Lemma nx_tshift h p i n k h1 : tshift P h p i n k = Ok h1 -> nx h1 = nx h.
Proof. unfold tshift. destruct p as [t|]; [|discriminate]. destruct (tb h !! t); [|discriminate]. destruct (_ && _); [|discriminate]. intros [= <-]. reflexivity. Qed.
Lemma nx_emake h c j x h1 : emake P h c j x = Ok h1 -> nx h1 = nx h.
Proof. unfold emake. intros H. apply obind_ok in H as (b & _ & H). destruct (el h !! (b, j)); [discriminate|]. injection H as <-. reflexivity. Qed.
Lemma nx_get h f h1 f1 c : fl_get h f = Ok (h1, f1, c) -> nx h1 = (nx h + if (f_idx f =? 0)%Z then 1 else 0)%nat.
Proof.
  unfold fl_get. destruct (_ =? 0); [intros [= <- <- <-]; cbn; lia|]. intros H. apply obind_ok in H as (c' & _ & H). injection H as <- <- <-. lia.
Qed.
End nx.

Section props.
Context {V : Type}.
Variable P : params.
Notation B := (bsz P).
Implicit Types (h : bheap V).

(** Whether a request is made *)
Definition made {A} (r : option A) : nat := match r with Some _ => 1 | None => 0 end.

(** [nx] counts the memory requests.  A push makes exactly the requests whose failure is modelled, and that of a table is the
    one after which the number of slots is another. *)
Theorem C62_vector_asks h v x h1 v1 : vec_push P h v x = Ok (h1, v1) ->
  nx h1 = (nx h + made (vec_push_nomem P h v true) + made (vec_push_nomem P h v false))%nat /\
  (vec_push_nomem P h v true <> None <-> v_slots v1 <> v_slots v).
Proof.
  intros H. unfold vec_push in H. apply obind_ok in H as ([h2 v2] & Hc & H). cbn beta iota in H. apply obind_ok in H as (c & _ & H). apply obind_ok in H as (h3 & He & H). injection H as <- <-.
  cbn [v_slots]. rewrite (nx_emake P _ _ _ _ _ He). clear He. unfold vec_block_check in Hc. unfold vec_push_nomem.
  destruct (B <=? v_bsize v); cbn [negb]; [|injection Hc as <- <-; cbn; split; [lia|split; congruence]].
  apply obind_ok in Hc as ([h4 v4] & Ht & Hc). cbn beta iota in Hc. apply obind_ok in Hc as ([[h5 f] c5] & Hg & Hc). cbn beta iota in Hc. apply obind_ok in Hc as (h6 & Hs & Hc). injection Hc as <- <-.
  cbn [v_slots]. rewrite (nx_tset _ _ _ _ _ Hs), (nx_get _ _ _ _ _ Hg). clear Hs Hg.
  destruct (Z.eqb_spec (v_slots v) 0) as [E0|E0].
  - unfold talloc in Ht. injection Ht as <- <-. cbn [nx v_fl v_slots orb made]. destruct (f_idx (v_fl v) =? 0); cbn; (split; [lia|split; [lia|congruence]]).
  - destruct (v_slots v - 1 <=? v_idx v); cbn [orb].
    + unfold talloc in Ht. apply obind_ok in Ht as (h7 & H7 & Ht). apply obind_ok in Ht as (h8 & H8 & Ht). injection Ht as <- <-. rewrite (nx_tdelete _ _ _ H8), (nx_tcopy _ _ _ _ _ _ _ H7).
      cbn [nx v_fl v_slots made]. destruct (f_idx (v_fl v) =? 0); cbn; (split; [lia|split; [lia|congruence]]).
    + injection Ht as <- <-. cbn [made]. destruct (f_idx (v_fl v) =? 0); cbn; (split; [lia|split; congruence]).
Qed.

Theorem C62_deque_asks h d x h1 d1 : deq_push P h d x = Ok (h1, d1) ->
  nx h1 = (nx h + made (deq_push_nomem P h d true) + made (deq_push_nomem P h d false))%nat /\
  (deq_push_nomem P h d true <> None <-> d_slots d1 <> d_slots d).
Proof.
  intros H. unfold deq_push in H. apply obind_ok in H as ([h2 d2] & Hc & H). cbn beta iota in H. apply obind_ok in H as (c & _ & H). apply obind_ok in H as (h3 & He & H). injection H as <- <-.
  cbn [d_slots]. rewrite (nx_emake P _ _ _ _ _ He). clear He. unfold deq_check in Hc. unfold deq_push_nomem.
  destruct (B <=? d_bsize d); cbn [negb]; [|injection Hc as <- <-; cbn; split; [lia|split; congruence]].
  destruct (Z.eqb_spec (d_slots d) 0) as [E0|E0].
  - unfold deq_first_block, talloc in Hc. apply obind_ok in Hc as ([[h5 f] c5] & Hg & Hc). cbn beta iota in Hc. apply obind_ok in Hc as (h6 & Hs & Hc). injection Hc as <- <-.
    rewrite (nx_tset _ _ _ _ _ Hs), (nx_get _ _ _ _ _ Hg). cbn [nx d_slots orb made]. destruct (f_idx (d_fl d) =? 0); cbn; (split; [lia|split; [lia|congruence]]).
  - apply obind_ok in Hc as ([h4 d4] & Ht & Hc). cbn beta iota in Hc. apply obind_ok in Hc as ([[h5 f] c5] & Hg & Hc). cbn beta iota in Hc. apply obind_ok in Hc as (h6 & Hs & Hc). injection Hc as <- <-.
    cbn [d_slots]. rewrite (nx_tset _ _ _ _ _ Hs), (nx_get _ _ _ _ _ Hg). clear Hs Hg.
    destruct (d_slots d - 1 <=? d_back d); cbn [orb andb].
    + destruct (5 <? d_front d); cbn [negb].
      * apply obind_ok in Ht as (h7 & H7 & Ht). injection Ht as <- <-. rewrite (nx_tshift P _ _ _ _ _ _ H7). cbn [nx d_fl d_slots made]. destruct (f_idx (d_fl d) =? 0); cbn; (split; [lia|split; congruence]).
      * unfold talloc in Ht. apply obind_ok in Ht as (h7 & H7 & Ht). apply obind_ok in Ht as (h8 & H8 & Ht). injection Ht as <- <-. rewrite (nx_tdelete _ _ _ H8), (nx_tcopy _ _ _ _ _ _ _ H7).
        cbn [nx d_fl d_slots made]. destruct (f_idx (d_fl d) =? 0); cbn; (split; [lia|split; [lia|congruence]]).
    + injection Ht as <- <-. cbn [made]. destruct (f_idx (d_fl d) =? 0); cbn; (split; [lia|split; congruence]).
Qed.

Theorem C62_deque_front_asks h d x h1 d1 : deq_push_front P h d x = Ok (h1, d1) ->
  nx h1 = (nx h + made (deq_push_front_nomem P h d true) + made (deq_push_front_nomem P h d false))%nat /\
  (deq_push_front_nomem P h d true <> None <-> d_slots d1 <> d_slots d).
Proof.
  intros H. unfold deq_push_front in H. apply obind_ok in H as ([h2 d2] & Hc & H). cbn beta iota in H. apply obind_ok in H as (c & _ & H). apply obind_ok in H as (h3 & He & H). injection H as <- <-.
  cbn [d_slots]. rewrite (nx_emake P _ _ _ _ _ He). clear He. unfold deq_check_front in Hc. unfold deq_push_front_nomem.
  destruct (d_fsize d <? 0); cbn [negb]; [|injection Hc as <- <-; cbn; split; [lia|split; congruence]].
  destruct (Z.eqb_spec (d_slots d) 0) as [E0|E0].
  - unfold deq_first_block, talloc in Hc. apply obind_ok in Hc as ([[h5 f] c5] & Hg & Hc). cbn beta iota in Hc. apply obind_ok in Hc as (h6 & Hs & Hc). injection Hc as <- <-.
    rewrite (nx_tset _ _ _ _ _ Hs), (nx_get _ _ _ _ _ Hg). cbn [nx d_slots orb made]. destruct (f_idx (d_fl d) =? 0); cbn; (split; [lia|split; [lia|congruence]]).
  - apply obind_ok in Hc as ([h4 d4] & Ht & Hc). cbn beta iota in Hc. apply obind_ok in Hc as ([[h5 f] c5] & Hg & Hc). cbn beta iota in Hc. apply obind_ok in Hc as (h6 & Hs & Hc). injection Hc as <- <-.
    cbn [d_slots]. rewrite (nx_tset _ _ _ _ _ Hs), (nx_get _ _ _ _ _ Hg). clear Hs Hg.
    destruct (d_front d =? 0); cbn [orb andb].
    + destruct (d_back d <? d_slots d - 5); cbn [negb].
      * apply obind_ok in Ht as (h7 & H7 & Ht). injection Ht as <- <-. rewrite (nx_tshift P _ _ _ _ _ _ H7). cbn [nx d_fl d_slots made]. destruct (f_idx (d_fl d) =? 0); cbn; (split; [lia|split; congruence]).
      * unfold talloc in Ht. apply obind_ok in Ht as (h7 & H7 & Ht). apply obind_ok in Ht as (h8 & H8 & Ht). injection Ht as <- <-. rewrite (nx_tdelete _ _ _ H8), (nx_tcopy _ _ _ _ _ _ _ H7).
        cbn [nx d_fl d_slots made]. destruct (f_idx (d_fl d) =? 0); cbn; (split; [lia|split; [lia|congruence]]).
    + injection Ht as <- <-. cbn [made]. destruct (f_idx (d_fl d) =? 0); cbn; (split; [lia|split; congruence]).
Qed.
End props.

(** The first push asks for a table and a block, the next one for nothing; so does the first push_front (blocks of four). *)
Example C62_asks_ex : let P := Params 2 false true in exists h1 v1 h2 v2 h3 d3 h4 d4,
  vec_push P (@bheap0 Z) (vec_default P) 10 = Ok (h1, v1) /\ nx h1 = 2%nat /\ vec_push_nomem P (@bheap0 Z) (vec_default P) true <> None /\
  vec_push P h1 v1 20 = Ok (h2, v2) /\ nx h2 = 2%nat /\ vec_push_nomem P h1 v1 true = None /\ vec_push_nomem P h1 v1 false = None /\
  deq_push P (@bheap0 Z) (deq_default P) 10 = Ok (h3, d3) /\ nx h3 = 2%nat /\ deq_push_front P h3 d3 20 = Ok (h4, d4) /\ nx h4 = 2%nat.
Proof. eexists _, _, _, _, _, _, _, _. repeat (split; [vm_compute; first [reflexivity|discriminate]|]). reflexivity. Qed.

(** ** The steps of the queues at which an exception may start *)
Section steps.
Context {V : Type}.

(** C84: every step that adds elements to a SimpleQueue, that takes one out or copies one, and the one that reserves memory *)
Theorem C84_may_throw (s : SqModel.sqsh V) t pc s' pc' : SqModel.sq_step s t pc tt = Some (s', pc') ->
  (length (SqModel.pushE s') + length (SqModel.pullE s') <> length (SqModel.pushE s) + length (SqModel.pullE s) -> pc <> SqModel.L2 -> pc <> SqModel.L3 -> SqThrow.yunwind s pc <> None)%nat /\
  (forall v, pc' = SqModel.K2 (Some v) -> SqThrow.yunwind s pc <> None) /\ (forall n, pc' = SqModel.V3 n -> SqThrow.yunwind s pc <> None).
Proof.
  intros Es. destruct pc; cbn in Es; unfold SqModel.lock_push, SqModel.lock_pull in Es;
    repeat match type of Es with context [match ?x with _ => _ end] => let E := fresh "E" in destruct x eqn:E end; try discriminate Es; injection Es as <- <-; cbn;
    (split; [intros Hl H2 H3|split; intros; try discriminate]); try congruence; rewrite ?rev_length in *; try lia;
    try (destruct (SqModel.pullE s); discriminate).
  all: destruct k; discriminate.
Qed.

(** C71: every step that adds elements to a blocking queue, the one that reserves memory and the callback *)
Theorem C71_may_throw bp (s : BqModel.bqsh V) t pc k s' pc' : BqModel.bq_step bp s t pc k = Some (s', pc') ->
  (length (BqModel.pushE s) + length (BqModel.pullE s) + length (BqModel.prioE s) < length (BqModel.pushE s') + length (BqModel.pullE s') + length (BqModel.prioE s') -> BqThrow.unwind pc <> None)%nat /\
  (forall n, pc' = BqModel.V3 n -> BqThrow.unwind pc <> None) /\ (pc' = BqModel.W0 BqModel.MCall -> BqThrow.unwind pc <> None).
Proof.
  intros Es. unfold BqModel.bq_step in Es. destruct k, pc; try discriminate Es; cbn in Es; unfold BqModel.lock_push, BqModel.lock_pull in Es;
    repeat match type of Es with context [match ?x with _ => _ end] => let E := fresh "E" in destruct x eqn:E end; try discriminate Es; injection Es as <- <-; cbn;
    (split; [intros Hl|split; intros; try discriminate]); rewrite ?rev_length in *; cbn in *; try lia; try discriminate.
  all: repeat match goal with H : context [match ?x with _ => _ end] |- _ => destruct x end; try discriminate.
  all: try (match goal with E : BqModel.prioE _ = _ |- _ => rewrite E in *; cbn in *; lia end).
  all: try (match goal with E : rev (BqModel.pullE _) = _ |- _ => apply (f_equal (@length V)) in E; rewrite rev_length in E; cbn in E; lia end).
  all: unfold BqModel.test, BqModel.cont, BqModel.after in *; repeat match goal with H : context [match ?x with _ => _ end] |- _ => destruct x end; discriminate.
Qed.
End steps.

(** C58: after reset() the block is not finished, unless task.reset() threw, which changes nothing; if reset() does not throw,
    the future is a new one, of the task. *)
Theorem C58_reset S w S' w' e : WbModel.wb_reset S w = (S', w', e) ->
  (WbModel.finished w' = true -> WbModel.loaded w = true /\ WbModel.tk w = None /\ w' = w /\ S' = S /\ e <> None) /\
  (e = None -> WbModel.fut w' = WbModel.tk w' /\ WbModel.tk w' <> None) /\ (e <> None -> WbModel.fut w' = WbModel.fut w) /\ WbModel.loaded w' = WbModel.loaded w.
Proof.
  unfold WbModel.wb_reset. intros H. destruct w as [t f b l]. cbn in *. destruct l, t as [i|]; cbn in H.
  all: try destruct (WbModel.taken _); injection H as <- <- <-; cbn; repeat split; try congruence; try discriminate.
Qed.

(** C91: entering task() and its end are accesses that modify the task. *)
Theorem C91_runs s t pc s' pc' : WbConc.c_step s t pc tt = Some (s', pc') -> WbConc.go s' <> WbConc.go s \/ WbConc.rn s' <> WbConc.rn s ->
  In (WbConc.MTask, true) (WbConc.c_acc pc).
Proof.
  intros Es. destruct s as [S [k f fin l] g r]. destruct pc; cbn in *; unfold WbConc.take_future, WbConc.set_fin, WbConc.set_loaded in Es; cbn in Es;
    repeat match type of Es with context [match ?x with _ => _ end] => destruct x end; try discriminate Es; injection Es as <- <-; cbn; intros [Hn|Hn]; try congruence; auto.
Qed.

(** C84_may_throw, C71_may_throw, C58_reset, C91_runs: steps and a call that meet the hypotheses; reset() of a block that was
    run, and of one without work, which throws. *)
Example C84_may_throw_ex : exists s' pc', SqModel.sq_step (SqModel.SqSh (Some 1%nat) None [5] [4] false) 1%nat (SqModel.P10 (SqModel.QPush 6)) tt = Some (s', pc') /\ SqModel.pushE s' = [5; 6].
Proof. eexists _, _. split; reflexivity. Qed.
Example C71_may_throw_ex : exists s' pc', BqModel.bq_step true (BqModel.BqSh None (Some 1%nat) [] [4] [7] false []) 1%nat (BqModel.R6 (BqModel.BPushPri 6)) CondVar.CStep = Some (s', pc') /\ BqModel.prioE s' = [7; 6].
Proof. eexists _, _. split; reflexivity. Qed.
Example C58_reset_ex :
  (exists S' w', WbModel.wb_reset [WbModel.FS 3 (WbModel.FDone 3) true] (WbModel.WB (Some 0%nat) (Some 0%nat) true true) = (S', w', None) /\ WbModel.fut w' = Some 1%nat /\ WbModel.finished w' = false) /\
  (exists S' w' e, WbModel.wb_reset [] (WbModel.WB None None true false) = (S', w', Some e) /\ WbModel.finished w' = false).
Proof. split; [eexists _, _; repeat split|eexists _, _, _; repeat split]. Qed.
Example C91_runs_ex : exists s' pc', WbConc.c_step (WbConc.wc0 3) 1%nat WbConc.X3 tt = Some (s', pc') /\ WbConc.go s' = [0%nat].
Proof. eexists _, _. split; reflexivity. Qed.

Print Assumptions C62_vector_asks.
Print Assumptions C62_deque_asks.
Print Assumptions C62_deque_front_asks.
Print Assumptions C84_may_throw.
Print Assumptions C71_may_throw.
Print Assumptions C58_reset.
Print Assumptions C91_runs.
