(** SimpleQueue: what std::reverse in checkPullandSwap (SimpleQueue.hpp:247) handles in total *)
From stdpp Require Import list.
From Verif Require Import Base Conc WqCount ConcCost SqModel SqSpec SqProofs.
Local Open Scope nat_scope.

Section sq.
Context {V : Type}.
Notation sqcfg := (cfg (sqsh V) (sqpc V)).
Implicit Types (s : sqsh V) (pc : sqpc V) (q : list V) (c : sqcfg).

(** The number of elements in the vector reversed by the step [C5] *)
Definition sq_rev_cost s pc : nat := match pc with C5 _ => length (pullE s) | _ => 0 end.
Definition sq_reversed (c : sqcfg) (xs : list (nat * act unit (sqop V))) : nat := run_cost sq_start sq_step sq_fin sq_rev_cost c xs.

(** Elements about to be put behind the others by a call *)
Definition sq_w pc : nat := match pc with P0 o | P1 o | P2 o | P3 o | P4 o | P5 o | P8 o | P9 o | P10 o => length (elems o) | _ => 0 end.
Definition turning (x : option (sqpc V)) : bool := match x with Some (C4 _) | Some (C5 _) => true | _ => false end.
Definition sq_U c : nat := length (pushE (sh c)) + (if turning (holder (pullL (sh c)) (th c)) then length (pullE (sh c)) else 0).

Lemma holder_at c q t pc : sqR false c q -> th c t = Some pc -> hpull pc = true -> holder (pullL (sh c)) (th c) = Some pc.
Proof. intros R Et Hh. rewrite (lk_owner _ _ _ _ _ (r_pull _ _ _ R) Et Hh). exact Et. Qed.

Lemma sq_step_pull s t pc k s' pc' : sq_step s t pc k = Some (s', pc') ->
  (hpull pc = false -> pullE s' = pullE s) /\ (hpull pc = false -> hpull pc' = false -> pullL s' = pullL s) /\ (hpull pc = true -> hpull pc' = false -> pullL s' = None).
Proof.
  intros Es. destruct pc; cbn [sq_step] in Es; unfold lock_push, lock_pull, cont in Es;
    repeat match type of Es with context [match ?x with _ => _ end] => destruct x; try discriminate end;
    try discriminate; injection Es as <- <-; cbn; splits; try discriminate; reflexivity.
Qed.

Lemma sq_int_cost c q t k pc s' pc' : sqR false c q -> th c t = Some pc -> sq_step (sh c) t pc k = Some (s', pc') ->
  exists q', sqR false (Cfg s' (fupd t (Some pc') (th c))) q' /\
    sq_rev_cost (sh c) pc + sq_U (Cfg s' (fupd t (Some pc') (th c))) + sq_w pc' <= sq_U c + sq_w pc.
Proof.
  intros R Et Es. destruct (sqR_int false _ _ _ _ _ _ _ R Et Es) as (q' & R' & _). exists q'. split; [exact R'|].
  assert (Et' : th (Cfg s' (fupd t (Some pc') (th c))) t = Some pc') by apply fupd_same.
  destruct (sq_step_pull _ _ _ _ _ _ Es) as (F1 & F2 & F3).
  assert (HC3 : forall k0, pc = C3 k0 -> pullE (sh c) = []).
  { intros k0 ->. pose proof (r_q _ _ _ R) as Hq. rewrite (holder_at _ _ _ _ R Et eq_refl) in Hq. destruct k0; cbn in Hq; [tauto|contradiction]. }
  unfold sq_U. destruct (hpull pc) eqn:Eh.
  - rewrite (holder_at _ _ _ _ R Et Eh).
    assert (Eh' : turning (holder (pullL (sh (Cfg s' (fupd t (Some pc') (th c))))) (th (Cfg s' (fupd t (Some pc') (th c))))) = turning (Some pc')).
    { destruct (hpull pc') eqn:Ep; [rewrite (holder_at _ _ _ _ R' Et' Ep); reflexivity|]. cbn [sh]. rewrite (F3 eq_refl eq_refl). destruct pc'; try discriminate; reflexivity. }
    rewrite Eh'. clear R R' F1 F2 F3 Eh' Et'. cbn [sh].
    destruct pc; try discriminate; cbn [sq_step] in Es; unfold lock_push, lock_pull, cont in Es;
      try (rewrite (HC3 _ eq_refl) in *);
      repeat match type of Es with context [match ?x with _ => _ end] => destruct x eqn:?; try discriminate end;
      try discriminate; injection Es as <- <-; cbn [turning sq_rev_cost sq_w pushE pullE set_push set_pull set_flag unlock_push unlock_pull length];
      rewrite ?app_length, ?rev_length; cbn [length]; lia.
  - assert (Hw : sq_rev_cost (sh c) pc = 0 /\ length (pushE s') + sq_w pc' <= length (pushE (sh c)) + sq_w pc /\ turning (Some pc') = false).
    { clear R R' Et' F1 F2 F3. destruct pc; try discriminate; cbn [sq_step] in Es; unfold lock_push, lock_pull, cont in Es;
      repeat match type of Es with context [match ?x with _ => _ end] => destruct x; try discriminate end;
      try discriminate; injection Es as <- <-; cbn; rewrite ?app_length; splits; try lia; reflexivity. }
    destruct Hw as (-> & Hw & Ht). cbn [sh]. rewrite (F1 eq_refl).
    destruct (hpull pc') eqn:Ep.
    + pose proof (holder_at _ _ _ _ R' Et' Ep) as E. cbn [sh th] in E. cbn [sh th]. rewrite E, Ht. lia.
    + rewrite (F2 eq_refl eq_refl). cbn [sh th]. rewrite holder_other by (eapply lk_other; [exact (r_pull _ _ _ R)|exact Et|exact Eh]). destruct (turning (holder (pullL (sh c)) (th c))); lia.
Qed.

Definition ngain (o : sqop V) : nat := length (elems o).

Theorem sq_reversed_le s xs c H : rest false s -> sq_run (init s) xs = Some (c, H) ->
  sq_reversed (init s) xs + length (pushE (sh c)) <= length (pushE s) + list_sum (map ngain (calls xs)).
Proof.
  intros Hr Er.
  assert (Hn : forall c0 q t, sqR false c0 q -> (forall pc, th c0 t = Some pc -> hpull pc = false) -> pullL (sh c0) <> Some t).
  { intros c0 q t R Hx E. apply (r_pull _ _ _ R) in E as (pc & E & Hp). apply Hx in E. congruence. }
  assert (L : sq_reversed (init s) xs + sq_U c <= sq_U (init s) + gains ngain (calls xs)).
  { apply (run_cost_le sq_start sq_step sq_fin sq_rev_cost (fun _ => True) (fun c => exists q, sqR false c q) sq_U sq_w ngain) with (H := H).
    - intros c0 t o [q R] _ Et. split.
      + exists q. apply (sqR_call false c0 q t o R); [discriminate|exact Et].
      + unfold sq_U. cbn [sh th]. rewrite holder_other by (eapply Hn; [exact R|congruence]). unfold ngain. destruct o; cbn; lia.
    - intros c0 t k pc s' pc' [q R] Et Es. destruct (sq_int_cost c0 q t k pc s' pc' R Et Es) as (q' & R' & Hc). eauto.
    - intros c0 t pc r [q R] Et Ef. split.
      + exists q. apply (sqR_ret false c0 q t pc r R Et Ef).
      + unfold sq_U. cbn [sh th]. rewrite holder_other; [lia|]. eapply Hn; [exact R|]. intros pc1 E1. rewrite Et in E1. injection E1 as <-. destruct pc; try discriminate; reflexivity.
    - exists (sq_content s). apply rest_R, Hr.
    - apply Forall_forall. auto.
    - exact Er. }
  unfold sq_U in L. cbn [init sh th] in L. destruct Hr as (_ & E & _). rewrite E in L. cbn [holder turning] in L. fold (gains ngain (calls xs)). lia.
Qed.
End sq.
