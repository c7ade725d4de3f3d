(** BlockingQueue ([bp = false]) and BlockingPriorityQueue ([bp = true]): C118 *)
From stdpp Require Import list.
From Verif Require Import Base Conc CondVar BqModel BqSpec BqInv BqMore BqLin Props_Bq NestModel NestBq.
Local Open Scope nat_scope.

Section props.
Context {V : Type}.
Variable bp : bool.
Implicit Types (s : bqsh V) (N : ncfg (Sh := bqsh V) (Pc := bqpc V)) (zs : list (nat * nact (Ch := cvc) (Op := bqop V))) (H : list (hev (bqop V) (bqret V))).

(** C118.  The destructors of the elements a clear() destroys and the callback of popOrCall may use the queue: any thread, any nesting.

    Whatever they call, the history is one of an atomic queue (each nested call counts as a call of its own). *)
Theorem C118_bq_linearizable s zs N H : rest bp s -> Forall (has_op bp) (ncalls zs) -> bq_nrun bp (ninit s) zs = Some (N, H) -> linearizable bq_spec (bq_content s) H.
Proof.
  intros Hs Hok E. destruct (nrun_flat _ _ _ _ _ _ _ _ E) as (xs & Ex & Ec). rewrite <- Ec in Hok. destruct (bq_atomic bp _ _ _ _ Hs Hok Ex) as (_ & f & Ha & _). exists (held (fl N)), f. exact Ha.
Qed.

(** The points at which user code may make calls are that of the callback and those whose step destroys elements: all that lose elements
    but those of the pop operations. *)
Theorem C118_bq_runs s t pc : bq_runs s pc = true <->
  pc = CB \/ exists s' pc', bq_step bp s t pc CStep = Some (s', pc') /\ length (prioE s' ++ pullE s' ++ pushE s') < length (prioE s ++ pullE s ++ pushE s) /\
    (forall m, pc <> O2 m /\ pc <> OQ m /\ pc <> W2 m /\ pc <> WQ m).
Proof.
  split.
  - destruct pc; try discriminate; cbn [bq_runs nonempty]; [auto|destruct (pullE s) eqn:E|destruct (pushE s) eqn:E|destruct (prioE s) eqn:E]; try discriminate; intros _; right; do 2 eexists; (split; [reflexivity|]); (split; [|repeat split; discriminate]);
      cbn; rewrite ?E, ?app_length; cbn; rewrite ?app_length; lia.
  - intros [->|(s' & pc' & Es & Hl & Hne)]; [reflexivity|]. rewrite !app_length in Hl. destruct pc; cbn [bq_step bq_step0] in Es; try congruence;
      try (destruct (Hne m) as (? & ? & ? & ?); congruence); unfold lock_push, lock_pull in Es;
      try (destruct (pushL s); [discriminate|]); try (destruct (pullL s); [discriminate|]); try (destruct (inb t (bwait s)); [discriminate|]); try (destruct (pullL s); [discriminate|]); try (destruct (eflag s));
      injection Es as <- _; cbn in Hl; rewrite ?app_length, ?rev_length in Hl; try lia; cbn; match goal with |- nonempty ?l = true => destruct l end; cbn in *; try lia; reflexivity.
Qed.

(** If the destructors call nothing but empty() (the callbacks call what they like), then whenever the topmost call of a thread is not
    waiting for an element, the topmost call of some thread can make an ordinary step (no spurious wakeup, no timeout) or return. *)
Theorem C118_bq_partial s zs N H t u l : rest bp s -> Forall (has_op bp) (ncalls zs) -> bq_calm bp (ninit s) zs -> bq_nrun bp (ninit s) zs = Some (N, H) ->
  stk N t = u :: l -> ~ bq_waits (fl N) u ->
  exists t' a N' e, (a = NInt CStep \/ a = NRet) /\ bq_nexec bp N (t', a) = Some (N', e).
Proof.
  intros Hs Hok Hc E Es Hw. destruct (bq_nest_live _ _ _ _ _ _ _ _ Hs Hok Hc E Es Hw) as (t' & a & N' & e & Ha & Ex). exists t', a, N', e. split; [|exact Ex]. destruct Ha as [(k & -> & ->)| ->]; auto.
Qed.

(** Any other call of a destructor never returns, nor does the clear(), nor anything but empty() that any thread calls later. *)
Theorem C118_bq_stuck s zs N H t p pc l u o N1 e : rest bp s -> Forall (has_op bp) (ncalls zs) -> bq_nrun bp (ninit s) zs = Some (N, H) ->
  stk N t = p :: l -> th (fl N) p = Some pc -> (pc = L2 \/ pc = L3 \/ pc = LP) -> has_op bp o -> bq_nexec bp N (t, NCall u o) = Some (N1, e) -> o <> BEmpty ->
  forall zs' N' H', Forall (has_op bp) (ncalls zs') -> bq_nrun bp N1 zs' = Some (N', H') ->
    stk N' t = u :: p :: l /\ (forall v r, v ∈ u :: p :: l -> ~ In (HRet v r) H') /\
    forall t1 u1 o1 N2 e1, has_op bp o1 -> bq_nexec bp N' (t1, NCall u1 o1) = Some (N2, e1) -> o1 <> BEmpty ->
      forall zs2 N3 H3, Forall (has_op bp) (ncalls zs2) -> bq_nrun bp N2 zs2 = Some (N3, H3) -> stk N3 t1 = u1 :: stk N' t1 /\ forall v r, v ∈ u1 :: stk N' t1 -> ~ In (HRet v r) H3.
Proof. intros Hs Hok E Es Ep Hpc. apply (bq_nest_stuck bp s zs N H t p pc l u o N1 e Hs Hok E Es Ep). destruct Hpc as [->|[->| ->]]; reflexivity. Qed.

Lemma bq_before_bad (v : V) : exists zs N, bq_nrun bp (ninit bq0) zs = Some (N, [HInv 0 (BPush v); HRet 0 BUnit; HInv 1 BClear]) /\ Forall (has_op bp) (ncalls zs) /\
  stk N 0 = [1] /\ th (fl N) 1 = Some L2 /\ sh (fl N) = BqSh (Some 1) (Some 1) [] [v] [] false [] /\ th (fl N) 2 = None.
Proof.
  exists (((0, NCall 0 (BPush v)) :: repeat (0, NInt CStep) 10) ++ [(0, NRet); (0, NCall 1 BClear); (0, NInt CStep); (0, NInt CStep)]). eexists. split; [lazy; reflexivity|].
  split; [cbn; repeat constructor|]. repeat (split; [reflexivity|]). reflexivity.
Qed.

(** It happens: with one element in the queue, for every operation but empty(). *)
Theorem C118_bq_refuted (v : V) (o : bqop V) : has_op bp o -> o <> BEmpty ->
  exists zs N H, bq_nrun bp (ninit bq0) zs = Some (N, H) /\ H = [HInv 0 (BPush v); HRet 0 BUnit; HInv 1 BClear; HInv 2 o] /\ stk N 0 = [2; 1] /\
    forall zs' N' H', Forall (has_op bp) (ncalls zs') -> bq_nrun bp N zs' = Some (N', H') -> stk N' 0 = [2; 1] /\ forall r, ~ In (HRet 1 r) H' /\ ~ In (HRet 2 r) H'.
Proof.
  intros Hop Ho. destruct (bq_before_bad v) as (zs0 & N & E & Hok & E1 & E2 & E4 & E5).
  assert (Ec : bq_nexec bp N (0, NCall 2 o) = Some (NCfg (Cfg (sh (fl N)) (fupd 2 (Some (bq_start o)) (th (fl N)))) (fupd 0 (2 :: stk N 0) (stk N)), [HInv 2 o])).
  { unfold bq_nexec, nexec, flat_act, may_call. cbn [fst snd]. rewrite E1, E2, E4. cbn [bq_runs pullE nonempty exec new_stk fst snd]. rewrite E5, E4. reflexivity. }
  set (N1 := NCfg (Cfg (sh (fl N)) (fupd 2 (Some (bq_start o)) (th (fl N)))) (fupd 0 (2 :: stk N 0) (stk N))) in Ec.
  exists (zs0 ++ [(0, NCall 2 o)]), N1, ([HInv 0 (BPush v); HRet 0 BUnit; HInv 1 BClear] ++ [HInv 2 o]).
  split; [unfold bq_nrun in *; rewrite nrun_app, E; cbn [nrun]; unfold bq_nexec in Ec; rewrite Ec, app_nil_r; reflexivity|].
  split; [reflexivity|]. split; [cbn; rewrite E1; reflexivity|].
  intros zs' N' H' Hok' E'. assert (Hs : rest bp (bq0 (V := V))) by (repeat split; auto).
  destruct (C118_bq_stuck bq0 zs0 N _ 0 1 L2 [] 2 o N1 _ Hs Hok E E1 E2 (or_introl eq_refl) Hop Ec Ho _ _ _ Hok' E') as (H1 & H2 & _). split; [exact H1|]. intros r. split; apply H2; [right; left|left].
Qed.
End props.

(** Not empty: a callback pushes the element its popOrCall then returns, and an element's destructor calls empty(). *)
Example C118_ex_callback :
  let zs := ((0, NCall 0 BPopCall) :: repeat (0, NInt CStep) 8) ++ ((0, NCall 1 (BPush 7)) :: repeat (0, NInt CStep) 10) ++ [(0, NRet)] ++ repeat (0, NInt CStep) 5 ++ [(0, NRet)] in
  bq_calm false (ninit bq0) zs /\
  match bq_nrun false (ninit bq0) zs with
  | Some (N, H) => H = [HInv 0 BPopCall; HInv 1 (BPush 7); HRet 1 BUnit; HRet 0 (BVal (Some 7))] /\ stk N 0 = []
  | None => False
  end.
Proof. split; [apply calm_b_ok; vm_compute; reflexivity|vm_compute; auto]. Qed.
Example C118_ex_prio :
  let zs := ((0, NCall 0 (BPushPri 7)) :: repeat (0, NInt CStep) 6) ++ [(0, NRet); (0, NCall 1 BClear)] ++ repeat (0, NInt CStep) 4 ++ [(0, NCall 2 BEmpty); (0, NInt CStep); (0, NRet)] ++ repeat (0, NInt CStep) 4 ++ [(0, NRet)] in
  bq_calm true (ninit bq0) zs /\
  match bq_nrun true (ninit bq0) zs with
  | Some (N, H) => H = [HInv 0 (BPushPri 7); HRet 0 BUnit; HInv 1 BClear; HInv 2 BEmpty; HRet 2 (BBool false); HRet 1 BUnit] /\ stk N 0 = []
  | None => False
  end.
Proof. split; [apply calm_b_ok; vm_compute; reflexivity|vm_compute; auto]. Qed.

Print Assumptions C118_bq_linearizable.
Print Assumptions C118_bq_runs.
Print Assumptions C118_bq_partial.
Print Assumptions C118_bq_stuck.
Print Assumptions C118_bq_refuted.
