(** Blocking queues: what std::reverse in checkPullAndSwap (BlockingQueue.hpp:331, BlockingPriorityQueue.hpp:409) handles
    in total *)
From stdpp Require Import list.
From Verif Require Import Base Conc CondVar WqCount ConcCost BqModel BqSpec BqInv.
Local Open Scope nat_scope.

Section bq.
Context {V : Type}.
Variable bp : bool.
Notation bqcfg := (cfg (bqsh V) (bqpc V)).
Implicit Types (s : bqsh V) (pc : bqpc V) (c : bqcfg).

(** The number of elements in the vector reversed by the step [C5] *)
Definition bq_rev_cost s pc : nat := match pc with C5 _ _ => length (pullE s) | _ => 0 end.
Definition bq_reversed (c : bqcfg) (xs : list (nat * act cvc (bqop V))) : nat := run_cost bq_start (bq_step bp) bq_fin bq_rev_cost c xs.

Definition bq_w pc : nat :=
  match pc with P0 _ | P1 _ | P2 _ | P3 _ | P4 _ | P5 _ | P6 _ | P7 _ | P8 _ | PA _ | PD _ | PH _ => 1 | _ => 0 end.
Definition turning (x : option (bqpc V)) : bool := match x with Some (C4 _ _) | Some (C5 _ _) => true | _ => false end.
Definition bq_U c : nat := length (pushE (sh c)) + (if turning (holder (pullL (sh c)) (th c)) then length (pullE (sh c)) else 0).

Lemma holder_at c t pc : bqI bp c -> th c t = Some pc -> hpull pc = true -> holder (pullL (sh c)) (th c) = Some pc.
Proof. intros R Et Hh. rewrite (lk_owner _ _ _ _ _ (i_pull _ _ R) Et Hh). exact Et. Qed.

Lemma bvals_le (o : bqop V) : length (bvals o) <= 1.
Proof. destruct o; cbn; lia. Qed.

Lemma bq_step_pull s t pc k s' pc' : bq_step bp s t pc k = Some (s', pc') ->
  (hpull pc = false -> pullE s' = pullE s) /\ (hpull pc = false -> hpull pc' = false -> pullL s' = pullL s) /\ (hpull pc = true -> hpull pc' = false -> pullL s' = None).
Proof.
  intros Es. destruct k as [|u| |]; cbn [bq_step] in Es; try discriminate; destruct pc; try discriminate; cbn [bq_step0] in Es; unfold lock_push, lock_pull, cont, after, test in Es;
    repeat match type of Es with context [match ?x with _ => _ end] => destruct x; try discriminate end;
    try discriminate; injection Es as <- <-; cbn; splits; try discriminate; reflexivity.
Qed.

Lemma bq_int_cost c t k pc s' pc' : bqI bp c -> th c t = Some pc -> bq_step bp (sh c) t pc k = Some (s', pc') ->
  bq_rev_cost (sh c) pc + bq_U (Cfg s' (fupd t (Some pc') (th c))) + bq_w pc' <= bq_U c + bq_w pc.
Proof.
  intros R Et Es. pose proof (bqI_int _ _ _ _ _ _ _ R Et Es) as R'.
  assert (Et' : th (Cfg s' (fupd t (Some pc') (th c))) t = Some pc') by apply fupd_same.
  destruct (bq_step_pull _ _ _ _ _ _ Es) as (F1 & F2 & F3).
  assert (HC3 : forall m k0, pc = C3 m k0 -> pullE (sh c) = []) by (intros m k0 ->; destruct (i_pc _ _ R _ _ Et) as [Hs _]; cbn in Hs; tauto).
  unfold bq_U. destruct (hpull pc) eqn:Eh.
  - rewrite (holder_at _ _ _ R Et Eh).
    assert (Eh' : turning (holder (pullL (sh (Cfg s' (fupd t (Some pc') (th c))))) (th (Cfg s' (fupd t (Some pc') (th c))))) = turning (Some pc')).
    { destruct (hpull pc') eqn:Ep; [rewrite (holder_at _ _ _ R' Et' Ep); reflexivity|]. cbn [sh]. rewrite (F3 eq_refl eq_refl). destruct pc'; try discriminate; reflexivity. }
    rewrite Eh'. clear R R' F1 F2 F3 Eh' Et'. cbn [sh].
    destruct k as [|u| |]; cbn [bq_step] in Es; try discriminate; destruct pc; try discriminate; cbn [bq_step0] in Es; unfold lock_push, lock_pull, cont, after, test in Es;
      try (rewrite (HC3 _ _ eq_refl) in *); try pose proof (bvals_le o);
      repeat match type of Es with context [match ?x with _ => _ end] => destruct x eqn:?; try discriminate end;
      try discriminate; injection Es as <- <-; cbn [turning bq_rev_cost bq_w pushE pullE set_push set_pull set_prio set_flag set_wait unlock_push unlock_pull length];
      rewrite ?app_length, ?rev_length; cbn [length]; lia.
  - assert (Hw : bq_rev_cost (sh c) pc = 0 /\ length (pushE s') + bq_w pc' <= length (pushE (sh c)) + bq_w pc /\ turning (Some pc') = false).
    { clear R R' Et' F1 F2 F3. destruct k as [|u| |]; cbn [bq_step] in Es; try discriminate; destruct pc; try discriminate; cbn [bq_step0] in Es; unfold lock_push, lock_pull, cont, after, test in Es;
      try pose proof (bvals_le o);
      repeat match type of Es with context [match ?x with _ => _ end] => destruct x; try discriminate end;
      try discriminate; injection Es as <- <-; cbn; rewrite ?app_length; splits; try lia; reflexivity. }
    destruct Hw as (-> & Hw & Ht). cbn [sh]. rewrite (F1 eq_refl).
    destruct (hpull pc') eqn:Ep.
    + pose proof (holder_at _ _ _ R' Et' Ep) as E. cbn [sh th] in E. cbn [sh th]. rewrite E, Ht. lia.
    + rewrite (F2 eq_refl eq_refl). cbn [sh th]. rewrite holder_other by (eapply lk_other; [exact (i_pull _ _ R)|exact Et|exact Eh]). destruct (turning (holder (pullL (sh c)) (th c))); lia.
Qed.

(** 1 for every element given to push or emplace *)
Definition ngain (o : bqop V) : nat := match o with BPush _ | BEmplace _ => 1 | _ => 0 end.

Theorem bq_reversed_le s xs c H : rest bp s -> Forall (has_op bp) (calls xs) -> bq_run bp (init s) xs = Some (c, H) ->
  bq_reversed (init s) xs + length (pushE (sh c)) <= length (pushE s) + list_sum (map ngain (calls xs)).
Proof.
  intros Hr Ho Er.
  assert (Hn : forall c0 t, bqI bp c0 -> (forall pc, th c0 t = Some pc -> hpull pc = false) -> pullL (sh c0) <> Some t).
  { intros c0 t R Hx E. apply (i_pull _ _ R) in E as (pc & E & Hp). apply Hx in E. congruence. }
  assert (L : bq_reversed (init s) xs + bq_U c <= bq_U (init s) + gains ngain (calls xs)).
  { apply (run_cost_le bq_start (bq_step bp) bq_fin bq_rev_cost (has_op bp) (bqI bp) bq_U bq_w ngain) with (H := H).
    - intros c0 t o R Hop Et. split; [apply bqI_call; assumption|].
      unfold bq_U. cbn [sh th]. rewrite holder_other by (eapply Hn; [exact R|congruence]). destruct o; cbn; lia.
    - intros c0 t k pc s' pc' R Et Es. split; [eapply bqI_int; eassumption|eapply bq_int_cost; eassumption].
    - intros c0 t pc r R Et Ef. split; [eapply bqI_ret; eassumption|].
      unfold bq_U. cbn [sh th]. rewrite holder_other; [lia|]. eapply Hn; [exact R|]. intros pc1 E1. rewrite Et in E1. injection E1 as <-. destruct pc; try discriminate; reflexivity.
    - apply bqI_init, Hr.
    - exact Ho.
    - exact Er. }
  unfold bq_U in L. cbn [init sh th] in L. destruct Hr as (_ & E & _). rewrite E in L. cbn [holder turning] in L. fold (gains ngain (calls xs)). lia.
Qed.
End bq.
