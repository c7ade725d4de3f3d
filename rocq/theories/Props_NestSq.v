(** SimpleQueue: C118 *)
From stdpp Require Import list.
From Verif Require Import Base Conc SqModel SqSpec SqProofs Props_Sq NestModel NestSq.
Local Open Scope nat_scope.

Section props.
Context {V : Type}.
Implicit Types (s : sqsh V) (N : ncfg (Sh := sqsh V) (Pc := sqpc V)) (zs : list (nat * nact (Ch := unit) (Op := sqop V))) (H : list (hev (sqop V) (sqret V))).

(** C118.  The destructors of the elements a clear() destroys may use the queue: any thread, any nesting.

    Whatever they call, the history is one of an atomic queue (each nested call counts as a call of its own). *)
Theorem C118_sq_linearizable s zs N H : sq_reach false s -> sq_nrun (ninit s) zs = Some (N, H) -> linearizable (sq_spec false) (sq_content s) H.
Proof. intros Hs E. destruct (nrun_flat _ _ _ _ _ _ _ _ E) as (xs & Ex & _). eapply C38_linearizable; eassumption. Qed.

(** The points at which user code may make calls are those whose step destroys elements: all that lose elements but pop. *)
Theorem C118_sq_runs s t pc : sq_runs s pc = true <->
  exists s' pc', sq_step s t pc tt = Some (s', pc') /\ length (pullE s' ++ pushE s') < length (pullE s ++ pushE s) /\ pc <> O2.
Proof.
  split.
  - destruct pc; try discriminate; cbn [sq_runs nonempty]; [destruct (pullE s) eqn:E|destruct (pushE s) eqn:E]; try discriminate; intros _; do 2 eexists; (split; [reflexivity|]); (split; [|discriminate]);
      cbn; rewrite ?E, ?app_length; cbn; lia.
  - intros (s' & pc' & Es & Hl & Hne). rewrite !app_length in Hl. destruct pc; cbn [sq_step] in Es; try congruence; unfold lock_push, lock_pull in Es; try (destruct (pushL s); [discriminate|]); try (destruct (pullL s); [discriminate|]);
      injection Es as <- _; cbn in Hl; rewrite ?app_length, ?rev_length in Hl; try lia; cbn; [destruct (pullE s)|destruct (pushE s)]; cbn in *; try lia; reflexivity.
Qed.

(** If they call nothing but empty(), then whenever a thread is inside a call the topmost call of some thread can make a step or return. *)
Theorem C118_sq_partial s zs N H t : sq_reach false s -> sq_calm (ninit s) zs -> sq_nrun (ninit s) zs = Some (N, H) -> stk N t <> [] ->
  exists t' a N' e, (a = NInt tt \/ a = NRet) /\ sq_nexec N (t', a) = Some (N', e).
Proof.
  intros Hs Hc E Ht. destruct (sq_nest_live _ _ _ _ _ (reach_rest _ _ Hs) Hc E Ht) as (t' & a & N' & e & Ha & Ex). exists t', a, N', e. split; [|exact Ex]. destruct Ha as [([] & _ & ->)| ->]; auto.
Qed.

(** Any other call never returns, nor does the clear(), nor anything but empty() that any thread calls later. *)
Theorem C118_sq_stuck s zs N H t p pc l u o N1 e : sq_reach false s -> sq_nrun (ninit s) zs = Some (N, H) ->
  stk N t = p :: l -> th (fl N) p = Some pc -> (pc = L2 \/ pc = L3) -> sq_nexec N (t, NCall u o) = Some (N1, e) -> o <> QEmpty ->
  forall zs' N' H', sq_nrun N1 zs' = Some (N', H') ->
    stk N' t = u :: p :: l /\ (forall v r, v ∈ u :: p :: l -> ~ In (HRet v r) H') /\
    forall t1 u1 o1 N2 e1, sq_nexec N' (t1, NCall u1 o1) = Some (N2, e1) -> o1 <> QEmpty ->
      forall zs2 N3 H3, sq_nrun N2 zs2 = Some (N3, H3) -> stk N3 t1 = u1 :: stk N' t1 /\ forall v r, v ∈ u1 :: stk N' t1 -> ~ In (HRet v r) H3.
Proof. intros Hs E Es Ep Hpc. apply (sq_nest_stuck s zs N H t p pc l u o N1 e (reach_rest _ _ Hs) E Es Ep). destruct Hpc as [->| ->]; reflexivity. Qed.

Lemma sq_before_bad (v : V) : exists zs N, sq_nrun (ninit sq0) zs = Some (N, [HInv 0 (QPush v); HRet 0 QUnit; HInv 1 QClear]) /\
  stk N 0 = [1] /\ th (fl N) 1 = Some L2 /\ (forall t, t <> 0 -> stk N t = []) /\ sh (fl N) = SqSh (Some 1) (Some 1) [] [v] false /\ th (fl N) 2 = None.
Proof.
  exists (((0, NCall 0 (QPush v)) :: repeat (0, NInt tt) 8) ++ [(0, NRet); (0, NCall 1 QClear); (0, NInt tt); (0, NInt tt)]). eexists. split; [lazy; reflexivity|].
  split; [reflexivity|]. split; [reflexivity|]. split; [|split; reflexivity]. intros [|t] Ht; [congruence|]. reflexivity.
Qed.

(** It happens: with one element in the queue, for every operation but empty(), and nobody can make a step. *)
Theorem C118_sq_refuted (v : V) (o : sqop V) : o <> QEmpty ->
  exists zs N H, sq_nrun (ninit sq0) zs = Some (N, H) /\ H = [HInv 0 (QPush v); HRet 0 QUnit; HInv 1 QClear; HInv 2 o] /\ stk N 0 = [2; 1] /\
    (forall t a, (a = NInt tt \/ a = NRet) -> sq_nexec N (t, a) = None) /\
    forall zs' N' H', sq_nrun N zs' = Some (N', H') -> stk N' 0 = [2; 1] /\ forall r, ~ In (HRet 1 r) H' /\ ~ In (HRet 2 r) H'.
Proof.
  intros Ho. destruct (sq_before_bad v) as (zs0 & N & E & E1 & E2 & E3 & E4 & E5). 
  assert (Ec : sq_nexec N (0, NCall 2 o) = Some (NCfg (Cfg (sh (fl N)) (fupd 2 (Some (sq_start o)) (th (fl N)))) (fupd 0 (2 :: stk N 0) (stk N)), [HInv 2 o])).
  { unfold sq_nexec, nexec, flat_act, may_call. cbn [fst snd]. rewrite E1, E2, E4. cbn [sq_runs pullE nonempty exec new_stk fst snd]. rewrite E5, E4. reflexivity. }
  set (N1 := NCfg (Cfg (sh (fl N)) (fupd 2 (Some (sq_start o)) (th (fl N)))) (fupd 0 (2 :: stk N 0) (stk N))) in Ec.
  exists (zs0 ++ [(0, NCall 2 o)]), N1, ([HInv 0 (QPush v); HRet 0 QUnit; HInv 1 QClear] ++ [HInv 2 o]).
  split; [unfold sq_nrun in *; rewrite nrun_app, E; cbn [nrun]; unfold sq_nexec in Ec; rewrite Ec, app_nil_r; reflexivity|].
  split; [reflexivity|]. split; [cbn; rewrite E1; reflexivity|]. split.
  - assert (Hst : forall t, stk N1 t = if t =? 0 then [2; 1] else []) by (intros t; cbn; unfold fupd; rewrite E1; destruct (Nat.eqb_spec t 0) as [->|Hne]; [reflexivity|apply E3, Hne]).
    intros t a Ha. unfold sq_nexec, nexec, flat_act. cbn [fst snd]. rewrite Hst. destruct (t =? 0); [|destruct Ha as [->| ->]; reflexivity].
    destruct Ha as [->| ->]; cbn [exec]; unfold N1; cbn [fl th sh]; rewrite fupd_same; [rewrite E4|]; destruct o; try congruence; reflexivity.
  - intros zs' N' H' E'. assert (Hs : sq_reach false (sq0 (V := V))) by constructor.
    destruct (C118_sq_stuck sq0 zs0 N _ 0 1 L2 [] 2 o N1 _ Hs E E1 E2 (or_introl eq_refl) Ec Ho _ _ _ E') as (H1 & H2 & _). split; [exact H1|]. intros r. split; apply H2; [right; left|left].
Qed.
End props.

(** Not empty: the destructor calls empty(), which says "not empty", and the clear goes on. *)
Example C118_ex_sq :
  let zs := ((0, NCall 0 (QPush 7)) :: repeat (0, NInt tt) 8) ++ [(0, NRet); (0, NCall 1 QClear); (0, NInt tt); (0, NInt tt); (0, NCall 2 QEmpty); (0, NInt tt); (0, NRet)] ++ repeat (0, NInt tt) 5 ++ [(0, NRet)] in
  sq_calm (ninit sq0) zs /\
  match sq_nrun (ninit sq0) zs with
  | Some (N, H) => H = [HInv 0 (QPush 7); HRet 0 QUnit; HInv 1 QClear; HInv 2 QEmpty; HRet 2 (QBool false); HRet 1 QUnit] /\ stk N 0 = []
  | None => False
  end.
Proof.
  split; [apply calm_b_ok; vm_compute; reflexivity|vm_compute; auto].
Qed.

Print Assumptions C118_sq_linearizable.
Print Assumptions C118_sq_runs.
Print Assumptions C118_sq_partial.
Print Assumptions C118_sq_stuck.
Print Assumptions C118_sq_refuted.
