(** Blocking queues: answers "nothing", progress, use of the locks *)
From stdpp Require Import list.
From Verif Require Import Base Conc CondVar Herlihy BqModel BqSpec BqInv BqLin.

Section bq.
Context {V : Type}.
Notation bqcfg := (cfg (bqsh V) (bqpc V)).
Implicit Types (s : bqsh V) (pc : bqpc V) (c : bqcfg) (xs : list (nat * act cvc (bqop V))).

Ltac step_cases Es :=
  repeat lazymatch type of Es with
  | context [match ?x with _ => _ end] => destruct x eqn:?
  end; try discriminate Es; try (injection Es as <- <-).

(** All three containers are empty. *)
Definition nothing_held s : Prop := pullE s = [] /\ pushE s = [] /\ prioE s = [].

(** During [xs], thread [t] neither calls nor returns. *)
Definition inside (t : nat) xs : Prop := forall a, In (t, a) xs -> exists k, a = AInt k.

(** try_pop found nothing *)
Definition none_pc pc : bool := match pc with C7 _ None | O1 _ true | O3 _ None | Ret (BVal None) | CB => true | _ => false end.
Definition peek_pc pc : bool := match pc with K0 | K1 | K2 _ => true | _ => false end.

Lemma step_peek bp s t pc k s' pc' : bq_step bp s t pc k = Some (s', pc') -> peek_pc pc = false -> peek_pc pc' = false.
Proof.
  intros Es. destruct k as [|u| |]; cbn [bq_step] in Es; try discriminate.
  - destruct pc; cbn [bq_step0] in Es; unfold lock_push, lock_pull, cont, after, test in Es; step_cases Es; auto.
  - destruct pc; try discriminate. step_cases Es; auto.
  - destruct pc; try discriminate. step_cases Es; auto.
Qed.

Lemma step_none bp s t pc k s' pc' : bq_step bp s t pc k = Some (s', pc') -> sinv s pc -> peek_pc pc = false -> none_pc pc = false -> none_pc pc' = true -> nothing_held s.
Proof.
  intros Es Hs. unfold nothing_held. destruct k as [|u| |]; cbn [bq_step] in Es; try discriminate.
  - destruct pc; cbn [bq_step0] in Es; unfold lock_push, lock_pull, cont, after, test in Es; step_cases Es; subst; cbn; try discriminate; cbn in Hs; unfold noprio in Hs; try tauto.
    + destruct k; try discriminate. tauto.
    + apply nonempty_false in Heqb. destruct e; [discriminate|tauto].
  - destruct pc; try discriminate. step_cases Es; discriminate.
  - destruct pc; try discriminate. step_cases Es; discriminate.
Qed.

Lemma inside_app t xs ys : inside t (xs ++ ys) -> inside t xs /\ inside t ys.
Proof. intros Hi. split; intros a Ha; apply Hi, in_app_iff; auto. Qed.

Lemma none_moment bp xs : forall c c' H t pc pc', bqI bp c -> Forall (has_op bp) (calls xs) -> bq_run bp c xs = Some (c', H) -> inside t xs ->
  th c t = Some pc -> peek_pc pc = false -> none_pc pc = false -> th c' t = Some pc' -> none_pc pc' = true ->
  exists ys zs c1 H1, xs = ys ++ zs /\ bq_run bp c ys = Some (c1, H1) /\ nothing_held (sh c1).
Proof.
  induction xs as [|[u a] xs IH]; intros c c' H t pc pc' Hi Hok Er Hin Et Hp Hn Et' Hn'.
  - injection Er as <- _. congruence.
  - unfold bq_run in Er. cbn [run] in Er. destruct (exec bq_start (bq_step bp) bq_fin c (u, a)) as [[c1 e]|] eqn:Ex; [|discriminate].
    destruct (run bq_start (bq_step bp) bq_fin c1 xs) as [[c2 H2]|] eqn:Er2; [|discriminate]. injection Er as <- _.
    assert (Hok1 : (forall o, a = ACall o -> has_op bp o) /\ Forall (has_op bp) (calls xs)).
    { unfold calls in *. destruct a; cbn in Hok; [inversion Hok; subst; split; [intros ? [= <-]|]; auto|split; [discriminate|exact Hok]..]. }
    destruct Hok1 as [Hok1 Hok2].
    assert (Hi1 : bqI bp c1) by (eapply bqI_exec; [exact Hi| |exact Ex]; exact Hok1).
    assert (Hin2 : inside t xs) by (intros b Hb; apply Hin; right; exact Hb).
    assert (Hnext : exists pc1, th c1 t = Some pc1 /\ peek_pc pc1 = false /\ (none_pc pc1 = true -> nothing_held (sh c))).
    { destruct (Nat.eq_dec u t) as [->|Hne].
      - destruct (Hin a (or_introl eq_refl)) as [k ->]. cbn in Ex. rewrite Et in Ex. destruct (bq_step bp (sh c) t pc k) as [[s' pc1]|] eqn:Es; [|discriminate]. injection Ex as <- _.
        exists pc1. cbn. rewrite fupd_same. split; [reflexivity|]. split; [eapply step_peek; eassumption|]. intros Hx. eapply step_none; try eassumption. apply (i_pc _ _ Hi _ _ Et).
      - exists pc. split; [|split; [exact Hp|congruence]]. cbn in Ex. destruct a as [o|k|]; destruct (th c u) as [pu|] eqn:Eu; try discriminate.
        + injection Ex as <- _. cbn. rewrite fupd_other by congruence. exact Et.
        + destruct (bq_step bp (sh c) u pu k) as [[s' pc1]|]; [|discriminate]. injection Ex as <- _. cbn. rewrite fupd_other by congruence. exact Et.
        + destruct (bq_fin pu); [|discriminate]. injection Ex as <- _. cbn. rewrite fupd_other by congruence. exact Et. }
    destruct Hnext as (pc1 & Et1 & Hp1 & Hx). destruct (none_pc pc1) eqn:Hn1.
    + exists [], ((u, a) :: xs), c, []. split; [reflexivity|]. split; [reflexivity|auto].
    + destruct (IH _ _ _ _ _ _ Hi1 Hok2 Er2 Hin2 Et1 Hp1 Hn1 Et' Hn') as (ys & zs & c3 & H3 & -> & Er3 & Hh).
      exists ((u, a) :: ys), zs, c3, (e ++ H3). split; [reflexivity|]. split; [|exact Hh]. unfold bq_run. cbn [run]. rewrite Ex. unfold bq_run in Er3. rewrite Er3. reflexivity.
Qed.

(** *** Progress *)
Lemma push_holder_steps bp s t pc : sinv s pc -> hpush pc = true -> exists x, bq_step0 bp s t pc = Some x.
Proof.
  intros Hs Hh. destruct pc; try discriminate; cbn [bq_step0]; try match goal with |- context [eflag _] => destruct (eflag s) end; eauto.
Qed.
Lemma pull_holder_steps bp s t pc : sinv s pc -> hpull pc = true -> pushL s = None -> exists x, bq_step0 bp s t pc = Some x.
Proof.
  intros Hs Hh El. destruct pc; try discriminate; cbn [bq_step0]; unfold lock_push; rewrite ?El; try match goal with |- context [eflag _] => destruct (eflag s) end; eauto.
  - destruct (prioE s); eauto.
  - destruct (rev (pullE s)); eauto.
  - destruct (prioE s); eauto.
  - destruct (rev (pullE s)); eauto.
  - destruct Hs.
Qed.
Lemma free_steps bp s t pc : sinv s pc -> pushL s = None -> pullL s = None -> (forall m, pc = W5 m -> ~ In t (bwait s)) -> (forall r, pc <> Ret r) -> exists x, bq_step0 bp s t pc = Some x.
Proof.
  intros Hs E1 E2 Hw Hr. destruct pc; cbn [bq_step0]; unfold lock_push, lock_pull; rewrite ?E1, ?E2; try match goal with |- context [eflag _] => destruct (eflag s) end; eauto.
  - destruct (prioE s); eauto.
  - destruct (rev (pullE s)); eauto.
  - destruct (prioE s); eauto.
  - destruct (rev (pullE s)); eauto.
  - specialize (Hw m eq_refl). apply inb_false in Hw. rewrite Hw. eauto.
  - specialize (Hw m eq_refl). apply inb_false in Hw. rewrite Hw. eauto.
  - exfalso. eapply Hr. reflexivity.
  - destruct Hs.
Qed.

(** Somebody makes an ordinary step: not a spurious wakeup, not a timeout. *)
Definition progress bp c : Prop := exists u a c' e, (a = AInt CStep \/ a = ARet) /\ bq_exec bp c (u, a) = Some (c', e).

Lemma bq_live bp c t : bqI bp c -> th c t <> None -> ~ bq_waits c t -> progress bp c.
Proof.
  intros Hi Ht Hw.
  assert (Hgo : forall u pc, th c u = Some pc -> (exists x, bq_step0 bp (sh c) u pc = Some x) -> progress bp c).
  { intros u pc Eu [[s' pc'] Ex]. eexists u, (AInt CStep), _, _. split; [auto|]. unfold bq_exec, exec. rewrite Eu. cbn [bq_step]. rewrite Ex. reflexivity. }
  destruct (pushL (sh c)) as [u|] eqn:Ep.
  { destruct (proj1 (i_push _ _ Hi u) Ep) as (pc & Eu & Hh). eapply Hgo; [exact Eu|]. apply push_holder_steps; [apply (i_pc _ _ Hi _ _ Eu)|exact Hh]. }
  destruct (pullL (sh c)) as [u|] eqn:El.
  { destruct (proj1 (i_pull _ _ Hi u) El) as (pc & Eu & Hh). eapply Hgo; [exact Eu|]. apply pull_holder_steps; [apply (i_pc _ _ Hi _ _ Eu)|exact Hh|exact Ep]. }
  destruct (th c t) as [pc|] eqn:Et; [|congruence].
  assert (Hr : (exists r, pc = Ret r) \/ forall r, pc <> Ret r) by (destruct pc; (left; eexists; reflexivity) || (right; intros ?; discriminate)).
  destruct Hr as [[r ->]|Hr].
  - eexists t, ARet, _, _. split; [auto|]. unfold bq_exec, exec. rewrite Et. reflexivity.
  - eapply Hgo; [exact Et|]. apply free_steps; auto; [apply (i_pc _ _ Hi _ _ Et)|]. intros m -> Hin. apply Hw. exists m. auto.
Qed.

(** *** Locks *)
Lemma acc_locked pc x w : In (x, w) (bq_acc pc) -> match x with RPush => hpush pc = true | RPull | RPrio => hpull pc = true end.
Proof. destruct pc; cbn; try (intros []; fail); intros Hx; repeat (destruct Hx as [[= <- <-]|Hx]; [reflexivity|]); destruct Hx. Qed.

Lemma bq_norace bp c t u pt pu x w w' : bqI bp c -> th c t = Some pt -> th c u = Some pu -> In (x, w) (bq_acc pt) -> In (x, w') (bq_acc pu) -> t = u.
Proof.
  intros Hi Et Eu H1 H2. apply acc_locked in H1, H2.
  destruct x; [pose proof (lk_owner _ _ _ _ _ (i_push _ _ Hi) Et H1); pose proof (lk_owner _ _ _ _ _ (i_push _ _ Hi) Eu H2); congruence|
    pose proof (lk_owner _ _ _ _ _ (i_pull _ _ Hi) Et H1); pose proof (lk_owner _ _ _ _ _ (i_pull _ _ Hi) Eu H2); congruence..].
Qed.

(** *** Which elements are taken *)
Lemma snoc_neq {A} (l : list A) v : l ++ [v] <> l.
Proof. intros E. apply (f_equal length) in E. rewrite app_length in E. cbn in E. lia. Qed.

Lemma take_normal bp s t pc k s' pc' l v : bq_step bp s t pc k = Some (s', pc') -> sinv s pc -> pullE s = l ++ [v] -> pullE s' = l -> pc <> L2 -> prioE s = [].
Proof.
  intros Es Hs E1 E2 Hc. assert (Hd : pullE s' <> pullE s) by (rewrite E1, E2; intros E; symmetry in E; apply snoc_neq in E; exact E).
  destruct k as [|u| |]; cbn [bq_step] in Es; try discriminate.
  - destruct pc; cbn [bq_step0] in Es; unfold lock_push, lock_pull, cont, after, test in Es; step_cases Es; cbn in Hd; try congruence; cbn in Hs; unfold noprio in Hs; try tauto.
    + exfalso. rewrite Hs in E1. destruct l; discriminate.
    + exfalso. destruct Hs as (_ & E & _). rewrite E in E1. destruct l; discriminate.
    + cbn in E2. apply (f_equal length) in E2. rewrite rev_length, E1, app_length in E2. cbn in E2. lia.
  - destruct pc; try discriminate. step_cases Es; destruct (Hd eq_refl).
  - destruct pc; try discriminate. step_cases Es; destruct (Hd eq_refl).
Qed.

(** No thread calls clear: then none is clearing. *)
Definition clear_pc pc : bool := match pc with L0 | L1 | L2 | L3 | LP | L4 | L5 | L6 => true | _ => false end.
Lemma no_clear bp s xs c H : bq_run bp (init s) xs = Some (c, H) -> Forall (fun o => o <> BClear) (calls xs) -> forall t pc, th c t = Some pc -> clear_pc pc = false.
Proof.
  intros Er Hok. refine (inv_run bq_start (bq_step bp) bq_fin (fun o => o <> BClear) (fun c => forall t pc, th c t = Some pc -> clear_pc pc = false) _ _ _ xs _ _ _ _ Hok Er).
  - intros c0 t o Hi Ho Et u pc. cbn. unfold fupd. destruct (Nat.eqb u t); [|eauto]. intros [= <-]. destruct o; try reflexivity. congruence.
  - intros c0 t k pc s' pc' Hi Et Es u pcu. cbn. unfold fupd. destruct (Nat.eqb u t); [|eauto]. intros [= <-]. specialize (Hi _ _ Et).
    destruct k as [|v| |]; cbn [bq_step] in Es; try discriminate.
    + destruct pc; cbn [bq_step0] in Es; try discriminate; unfold lock_push, lock_pull, cont, after, test in Es; step_cases Es; auto.
    + destruct pc; try discriminate. step_cases Es; auto.
    + destruct pc; try discriminate. step_cases Es; auto.
  - intros c0 t pc r Hi Et Ef u pcu. cbn. unfold fupd. destruct (Nat.eqb u t); [discriminate|eauto].
  - intros t pc. discriminate.
Qed.

(** Somebody is in the middle of clear() or of checkPullAndSwap(). *)
Definition clearing c : Prop := exists t, th c t = Some L3 \/ th c t = Some LP.
Definition swapping c : Prop := exists t m k, th c t = Some (C4 m k) \/ th c t = Some (C5 m k).

Lemma kind_clearing c : ckind c = KClr -> clearing c.
Proof.
  unfold ckind. destruct (pullL (sh c)) as [t|]; [|discriminate]. cbn. destruct (th c t) as [pc|] eqn:E; [|discriminate]. intros Hk. exists t. destruct pc; try discriminate; auto.
Qed.
Lemma kind_swapping c : ckind c = KFwd -> swapping c.
Proof.
  unfold ckind. destruct (pullL (sh c)) as [t|]; [|discriminate]. cbn. destruct (th c t) as [pc|] eqn:E; [|discriminate]. intros Hk. exists t. destruct pc; try discriminate; eauto.
Qed.
Lemma held_perm c : ~ clearing c -> Permutation (fst (held c) ++ snd (held c)) (prioE (sh c) ++ pullE (sh c) ++ pushE (sh c)).
Proof.
  intros Hn. unfold held. destruct (ckind c) eqn:E; [| |destruct (Hn (kind_clearing _ E))]; cbn; apply Permutation_app_head, Permutation_app_tail; [symmetry; apply Permutation_rev|reflexivity].
Qed.
Lemma held_order c : ~ clearing c -> ~ swapping c -> held c = (prioE (sh c), rev (pullE (sh c)) ++ pushE (sh c)).
Proof. intros H1 H2. unfold held. destruct (ckind c) eqn:E; [reflexivity|destruct (H2 (kind_swapping _ E))|destruct (H1 (kind_clearing _ E))]. Qed.

(** *** The linearization of a run *)
(** The operations called in a history *)
Lemma run_calls bp xs : forall c c' H, bq_run bp c xs = Some (c', H) -> forall i t o, H !! i = Some (HInv t o) -> In o (calls xs).
Proof.
  unfold bq_run. induction xs as [|[u a] xs IH]; intros c c' H; cbn [run].
  - intros [= <- <-] i t o E. rewrite lookup_nil in E. discriminate.
  - destruct (exec bq_start (bq_step bp) bq_fin c (u, a)) as [[c1 e]|] eqn:Ex; [|discriminate].
    destruct (run bq_start (bq_step bp) bq_fin c1 xs) as [[c2 H2]|] eqn:Er; [|discriminate]. intros [= <- <-] i t o E.
    assert (Hin : forall j, H2 !! j = Some (HInv t o) -> In o (calls ((u, a) :: xs))).
    { intros j Ej. specialize (IH _ _ _ Er _ _ _ Ej). unfold calls in *. destruct a; cbn; auto. }
    cbn in Ex. destruct a as [o'|k|]; destruct (th c u) as [pc|]; try discriminate.
    + injection Ex as <- <-. destruct i as [|i]; [|eapply Hin, E]. injection E as <- <-. left. reflexivity.
    + destruct (bq_step bp (sh c) u pc k) as [[s' pc']|]; [|discriminate]. injection Ex as <- <-. eapply Hin, E.
    + destruct (bq_fin pc); [|discriminate]. injection Ex as <- <-. destruct i as [|i]; [discriminate|]. eapply Hin, E.
Qed.

Lemma bq_linearization bp s xs c H : rest bp s -> Forall (has_op bp) (calls xs) -> bq_run bp (init s) xs = Some (c, H) ->
  exists L, linearization bq_spec H (prioE s, rev (pullE s) ++ pushE s) L (held c) /\
    forall i o r, In (i, o, r) L -> (exists j t, ret_of H i j t o r) \/ (exists t, th c t <> None /\ last_ev H t i (HInv t o)).
Proof.
  intros Hs Hok Er. destruct (bq_atomic _ _ _ _ _ Hs Hok Er) as (Hi & f & Ha & Hf). destruct (atomic_hw _ _ _ _ _ Ha) as (L & HL & Hx).
  exists L. split; [exact HL|]. intros i o r Hin. destruct (Hx _ _ _ Hin) as [Hy|(t & Et & Hy)]; [auto|right]. exists t. split; [|exact Hy].
  intros E. rewrite Hf, E in Et. discriminate.
Qed.
End bq.
