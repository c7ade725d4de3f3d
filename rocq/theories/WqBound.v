(** WorkQueue: the number of steps left once the queue is halted *)
From stdpp Require Import list.
From Verif Require Import Base Conc CondVar Herlihy SqModel SqSpec SqProofs WqModel WqProofs WqCount WqMore.
Local Open Scope nat_scope.

Section wq.
Variable nw : nat.
Notation wqcfg := (cfg wqsh wqpc).
Implicit Types (s : wqsh) (pc : wqpc) (c : wqcfg) (H : list (hev wqop wqret)).

(** ** Tokens: what can still make a worker go round once more, i.e. elements, empty-flags that are off, and those to come *)
Definition qtok (q : sqsh ptr) : nat := length (pullE q) + length (pushE q) + (if eflag q then 0 else 1).
Definition toks s : nat := qtok (qH s) + qtok (qM s) + qtok (qL s).
Definition sq_ptok (p : sqpc ptr) : nat :=
  match p with
  | P0 o | P1 o | P2 o | P3 o | P4 o | P5 o | P8 o | P9 o | P10 o => length (elems o) + 1
  | P6 _ => 1
  | _ => 0
  end.
Definition atok (a : actx) : nat := match a with AUser => 0 | AClose r => 2 * r end.
Definition ptok pc : nat :=
  match pc with
  | Sub _ p (KSize _ a) => 2 + atok a
  | Sub _ p (KPush _ a) => sq_ptok p + atok a
  | Sub _ p KPushV => sq_ptok p
  | A0 _ _ => 2
  | AN a => atok a
  | CL0 | CL1 | CL2 | CL3 | Sub _ _ KClr | CN1 => 2 * nw
  | _ => 0
  end.

Lemma toks_set i q s : toks (set_q i q s) + qtok (qof i s) = toks s + qtok q.
Proof. unfold toks. destruct i; cbn; lia. Qed.
Lemma toks_log l s : toks (log_drop l s) = toks s.
Proof. reflexivity. Qed.

(** ** Steps *)
Definition lap : nat := 85.
Definition acost (a : actx) : nat := match a with AUser => 0 | AClose r => r * 21 + nw + 2 end.
Definition kcost (i : lvl) (k : kont) : nat :=
  match k with
  | KSize _ a => 13 + acost a
  | KPush _ a => 1 + acost a
  | KPushV => 1
  | KE _ => match i with Hi => 83 | Med => 81 | Lo => 79 end
  | KN _ => match i with Hi => 16 | Med => 8 | Lo => 0 end
  | KPop1 _ => 61 | KLowE _ => 57 | KPop2 _ => 39 | KPop3 _ => 21 | KPop4 _ => 3
  | KClr => match i with Hi => 16 | Med => 8 | Lo => 0 end + (nw * 21 + nw + 3)
  end.
Definition xcost (e : xctx) : nat := match e with XWork => 0 | XAdd xs => 1 + 3 * length xs end.
Definition steps pc : nat :=
  match pc with
  | Sub i p k => todo p + 1 + kcost i k
  | A0 _ _ => 22
  | AN a => 1 + acost a
  | NV => 1
  | XV xs => 1 + 3 * length xs
  | X1 _ e => 2 + xcost e | X2 _ e => 1 + xcost e
  | G1 _ => 61 | G1b _ _ => 60 | G2 _ _ => 4 | G3 _ _ => 4
  | W1 => 4 | W2 => 3 | W3 => 6 | W4 => 5 | W4b => 4 | W5 => 3 | W6 => 80 | W7 => 2 | W8 => 1 | WE => 0
  | X0 _ => 3
  | CL0 => nw * 21 + nw + 31 | CL1 => nw * 21 + nw + 30 | CL2 => nw * 21 + nw + 29 | CL3 => nw * 21 + nw + 28
  | CN1 => nw * 21 + nw + 3 | CN2 => nw + 2
  | CJ k h => (nw - k) + 1 + (if h then 1 else 0)
  | CU => 1 | R0 _ => 1 | H0 => 1 | Ret _ => 0 | Crash _ => 0
  end.

(** A worker owes nothing yet while the pop that will find an element, or turn the flag it saw off on, lies ahead of it. *)
Definition ahead s (i : lvl) : nat := if eflag (qof i s) then lap else 0.
Definition order (i : lvl) : nat := match i with Hi => 1 | Med => 3 | Lo => 4 end.
Definition gpaid (g : gctx) : nat := match g with GUser => 0 | GWork _ => lap end.
Definition gdebt s (g : gctx) (n : nat) : nat :=
  match g with GWork (Some i) => if n <=? order i then ahead s i else lap | _ => gpaid g end.
Definition popdebt s (p : sqpc ptr) (g : gctx) (n : nat) : nat :=
  match p with
  | C0 (Some _) | C1 (Some _) | C2 (Some _) | C3 (Some _) | C4 (Some _) | C5 (Some _) | C6 (Some _) | C7 (Some _) | O3 (Some _) | SqModel.Ret (QVal (Some _)) => gpaid g
  | O3 None | SqModel.Ret (QVal None) => gdebt s g (S n)
  | _ => gdebt s g n
  end.
Definition edebt s (i : lvl) (p : sqpc ptr) : nat := match p with SqModel.Ret (QBool false) => ahead s i | _ => 0 end.
Definition kdebt s (i : lvl) (p : sqpc ptr) (k : kont) : nat :=
  match k with
  | KE EWork => edebt s i p
  | KPop1 g => popdebt s p g 1 | KLowE g => gdebt s g 2 | KPop2 g => popdebt s p g 2 | KPop3 g => popdebt s p g 3 | KPop4 g => popdebt s p g 4
  | _ => 0
  end.
Definition debt s pc : nat :=
  match pc with
  | Sub i p k => kdebt s i p k
  | G1 g | G1b g _ => gdebt s g 2
  | G2 _ g | G3 _ g => gpaid g
  | W6 | X0 _ | X1 _ XWork | X2 _ XWork => lap
  | _ => 0
  end.
Definition phi s pc : nat := steps pc + debt s pc.

(** ** Flags *)
Lemma ahead_le s i : ahead s i <= lap.
Proof. unfold ahead. destruct (eflag _); unfold lap; lia. Qed.
Lemma gdebt_le s g n : gdebt s g n <= gpaid g.
Proof. destruct g as [|[i|]]; cbn; try lia. pose proof (ahead_le s i). destruct (n <=? order i); lia. Qed.
Lemma gdebt_S s g n : gdebt s g n <= gdebt s g (S n).
Proof. destruct g as [|[i|]]; cbn [gdebt]; try lia. pose proof (ahead_le s i). destruct (Nat.leb_spec n (order i)), (Nat.leb_spec (S n) (order i)); lia. Qed.

(** Turning a flag on is paid by a token. *)
Definition flags_paid s s' d : Prop := forall i, ahead s' i <= ahead s i + lap * d.
Lemma gdebt_paid s s' d g n : flags_paid s s' d -> gdebt s' g n <= gdebt s g n + lap * d.
Proof. intros Hf. destruct g as [|[i|]]; cbn [gdebt]; try lia. specialize (Hf i). destruct (n <=? order i); lia. Qed.
Lemma debt_paid s s' d pc : flags_paid s s' d -> debt s' pc <= debt s pc + lap * d.
Proof.
  intros Hf. pose proof (gdebt_paid s s' d) as Hg. assert (Hp : forall p g n, popdebt s' p g n <= popdebt s p g n + lap * d).
  { intros p g n. unfold popdebt. repeat match goal with |- context [match ?x with _ => _ end] => destruct x end; try lia; apply Hg, Hf. }
  assert (He : forall i p, edebt s' i p <= edebt s i p + lap * d).
  { intros i p. unfold edebt. repeat match goal with |- context [match ?x with _ => _ end] => destruct x end; try lia; apply Hf. }
  destruct pc; cbn [debt]; try lia; auto. destruct k; cbn [kdebt]; try lia; auto. destruct e; [lia|auto].
Qed.

(** ** One step *)
Lemma sq_tok q t p q' p' o : sq_step q t p tt = Some (q', p') -> sqat o p ->
  qtok q' + sq_ptok p' <= qtok q + sq_ptok p /\ (eflag q = false -> eflag q' = true -> qtok q' + sq_ptok p' + 1 <= qtok q + sq_ptok p).
Proof.
  intros Es Ha. destruct q as [a b l m f]. destruct p; cbn [sq_step] in Es; unfold lock_push, lock_pull in Es; cbn [pushL pullL pushE pullE eflag] in Es; try discriminate;
    repeat match type of Es with
    | context [match ?x with Some _ => _ | None => _ end] => is_var x; destruct x; try discriminate
    | context [if nonempty ?l then _ else _] => destruct (nonempty l)
    | context [if f then _ else _] => destruct f
    | context [match rev ?l with [] => _ | _ :: _ => _ end] => destruct (rev l) as [|v r] eqn:Er
    end; apply some_pair in Es as [-> ->]; unfold qtok; cbn [unlock_push unlock_pull set_push set_pull set_flag pushE pullE eflag sq_ptok]; try (split; [lia|congruence]).
  all: try (destruct k; cbn [cont sq_ptok]; split; [lia|congruence]).
  all: rewrite ?app_length, ?rev_length; try (split; [lia|congruence]).
  all: try (apply (f_equal (@length _)) in Er; rewrite rev_length in Er; cbn in Er; rewrite ?rev_length, Er).
  all: destruct f; cbn [length]; try (destruct k; cbn [cont sq_ptok]); split; intros; try lia; try congruence.
Qed.

Definition ktok (k : kont) : nat := match k with KSize _ a => 2 + atok a | KPush _ a => atok a | KClr => 2 * nw | _ => 0 end.
Lemma ptok_sub i p k : shape (Sub i p k) -> ptok (Sub i p k) = sq_ptok p + ktok k.
Proof.
  intros (o & Hk & Ho). destruct k; cbn [ptok ktok]; try lia; cbn in Hk.
  all: assert (E : sq_ptok p = 0 \/ is_push o) by (destruct p; cbn in Ho |- *; try (left; reflexivity); right; apply Ho).
  all: destruct E as [E|E]; [lia|]; exfalso; naive_solver.
Qed.

Lemma flags_same s s' : (forall i, qof i s' = qof i s) -> forall d, flags_paid s s' d.
Proof. intros E d i. unfold ahead. rewrite E. lia. Qed.
Lemma toks_same s s' : (forall i, qof i s' = qof i s) -> toks s' = toks s.
Proof. intros E. unfold toks. pose proof (E Hi). pose proof (E Med). pose proof (E Lo). cbn in *. congruence. Qed.
Lemma debt_same s s' pc : (forall i, qof i s' = qof i s) -> debt s' pc = debt s pc.
Proof.
  intros E. pose proof (debt_paid s s' 0 pc (flags_same s s' E 0)). pose proof (debt_paid s' s 0 pc (flags_same s' s (fun i => eq_sym (E i)) 0)). lia.
Qed.

Lemma gdebt_none s g n i : (forall j, order j = n -> j = i) -> eflag (qof i s) = true -> gdebt s g (S n) <= gdebt s g n.
Proof.
  intros Hj Ef. destruct g as [|[j|]]; cbn [gdebt]; try lia. destruct (Nat.leb_spec n (order j)), (Nat.leb_spec (S n) (order j)); try lia.
  rewrite (Hj j ltac:(lia)). unfold ahead. rewrite Ef. lia.
Qed.
Lemma gdebt_23 s g : gdebt s g 3 = gdebt s g 2.
Proof. destruct g as [|[[]|]]; reflexivity. Qed.

Lemma pop_debt s i l q' t p p' g n d : sq_step (qof i s) t p tt = Some (q', p') -> sqat QPop p -> (forall j, order j = n -> j = i) ->
  flags_paid s (log_drop l (set_q i q' s)) d -> qtok q' + d = qtok (qof i s) ->
  popdebt (log_drop l (set_q i q' s)) p' g n <= popdebt s p g n + lap * d.
Proof.
  intros Es Ha Hn Hf Hd. set (s' := log_drop l (set_q i q' s)) in *. pose proof (gdebt_paid s s' d g n Hf) as Hg.
  assert (Hgp : gpaid g <= lap) by (destruct g; cbn; lia).
  destruct p; cbn [sqat] in Ha; try discriminate; try contradiction; try (exfalso; exact (proj2 Ha)); cbn [sq_step] in Es; unfold lock_push, lock_pull in Es;
    repeat match type of Es with
    | context [match pushL ?x with Some _ => _ | None => _ end] => destruct (pushL x); try discriminate
    | context [match pullL ?x with Some _ => _ | None => _ end] => destruct (pullL x); try discriminate
    | context [if nonempty ?l then _ else _] => destruct (nonempty l)
    | context [if eflag ?x then _ else _] => destruct (eflag x) eqn:Ef
    | context [match rev ?l with [] => _ | _ :: _ => _ end] => destruct (rev l) as [|v r] eqn:Er
    end; try discriminate; injection Es as Eq Ep; subst p'; try (destruct k; cbn [cont popdebt]; lia); try (cbn [popdebt]; lia).
  - (* O1 *) cbn [popdebt]. pose proof (gdebt_paid s s' d g (S n) Hf). pose proof (gdebt_none s g n i Hn Ef). lia.
  - (* O2 *) cbn [popdebt]. subst q'. unfold qtok in Hd. cbn [set_pull pullE pushE eflag] in Hd. apply (f_equal (@length _)) in Er. rewrite rev_length in Er. cbn in Er. rewrite rev_length in Hd.
    unfold lap in *. lia.
  - (* O3 *) destruct r; cbn [popdebt]; [lia|]. apply (gdebt_paid s s' d g (S n) Hf).
Qed.

Lemma sub_phi s t i p k q' p' : sq_step (qof i s) t p tt = Some (q', p') -> shape (Sub i p k) ->
  let s' := log_drop (dropping (qof i s) p) (set_q i q' s) in
  exists d, toks s' + ptok (Sub i p' k) + d = toks s + ptok (Sub i p k) /\ flags_paid s s' d /\ phi s' (Sub i p' k) + 1 <= phi s (Sub i p k) + lap * d.
Proof.
  intros Es Hs s'. destruct Hs as (o & Hk & Ho). pose proof (sqat_step _ _ _ _ _ _ _ Es Ho) as Ho'. pose proof (sq_tok _ _ _ _ _ _ Es Ho) as [H1 H2].
  rewrite (ptok_sub i p k) by (exists o; auto). rewrite (ptok_sub i p' k) by (exists o; auto). pose proof (toks_set i q' s) as Ht.
  exists ((qtok (qof i s) + sq_ptok p) - (qtok q' + sq_ptok p')). set (d := (qtok (qof i s) + sq_ptok p) - (qtok q' + sq_ptok p')).
  assert (Hf : flags_paid s s' d).
  { intros j. unfold ahead. subst s'. cbn. assert (E : qof j (log_drop (dropping (qof i s) p) (set_q i q' s)) = qof j (set_q i q' s)) by (destruct j; reflexivity). rewrite E, qof_set.
    destruct (lvl_eqb_spec j i) as [->|]; [|lia]. destruct (eflag q') eqn:E1, (eflag (qof i s)) eqn:E2; try lia. pose proof (H2 eq_refl eq_refl). unfold lap, d. lia. }
  split; [subst s' d; rewrite toks_log; lia|]. split; [exact Hf|]. unfold phi. cbn [steps debt]. pose proof (todo_step _ _ _ _ _ _ Es) as Htd.
  enough (kdebt s' i p' k <= kdebt s i p k + lap * d) by lia.
  assert (Hz : sqat QPop p -> qtok q' + d = qtok (qof i s)).
  { intros Hq. pose proof (sqat_step _ _ _ _ _ _ _ Es Hq) as Hq'. assert (Z : forall x, sqat QPop x -> sq_ptok x = 0) by (intros x Hx; destruct x; cbn in *; try reflexivity; destruct Hx as [_ []]).
    pose proof (Z p Hq). pose proof (Z p' Hq'). unfold d. lia. }
  destruct k; cbn [kdebt]; try lia; cbn in Hk.
  - (* empty *) destruct e; [lia|]. subst o. destruct p; cbn in Ho; try discriminate; try contradiction; try (exfalso; exact (proj2 Ho)). cbn in Es. injection Es as Eq Ep. subst q' p'.
    cbn [edebt]. destruct (eflag (qof i s)) eqn:Ef; [lia|]. specialize (Hf i). unfold ahead in *. rewrite Ef in Hf. lia.
  - destruct Hk as [-> ->]. eapply pop_debt; eauto. intros [] E; cbn in E; congruence.
  - apply gdebt_paid, Hf.
  - destruct Hk as [-> ->]. eapply pop_debt; eauto. intros [] E; cbn in E; congruence.
  - destruct Hk as [-> ->]. eapply pop_debt; eauto. intros [] E; cbn in E; congruence.
  - destruct Hk as [-> ->]. eapply pop_debt; eauto. intros [] E; cbn in E; congruence.
Qed.

Ltac ph := unfold phi, loop; cbn [steps todo debt kdebt kcost popdebt edebt sq_start ptok gpaid xcost atok acost sq_ptok after_exec length]; unfold lap; try lia.
Lemma dummies_le r s : ptok (dummies r) = 2 * r /\ phi s (dummies r) = acost (AClose r).
Proof. destruct r; unfold phi; cbn [dummies ptok atok steps debt kdebt acost sq_start todo kcost]; lia. Qed.
Lemma after_add_le a s : ptok (after_add a) = atok a /\ phi s (after_add a) = acost a.
Proof. destruct a; [split; reflexivity|]. apply dummies_le. Qed.
Lemma loop_phi s : ptok loop = 0 /\ phi s loop = lap.
Proof. split; reflexivity. Qed.
Lemma gstart_phi s g : ptok (gstart g) = 0 /\ phi s (gstart g) = 79 + gdebt s g 1.
Proof. split; reflexivity. Qed.

Lemma resume_phi s t i p r k s' pc' : shape (Sub i p k) -> sq_fin p = Some r -> resume nw s t i r k = Some (s', pc') ->
  (forall j, qof j s' = qof j s) /\ ptok pc' <= ptok (Sub i p k) /\ phi s' pc' + 1 <= phi s (Sub i p k).
Proof.
  intros Hs Ef Er. destruct (resume_fresh nw _ _ _ _ _ _ _ Er) as [Hq _]. split; [exact Hq|].
  assert (Ep : p = SqModel.Ret r) by (destruct p; try discriminate; injection Ef as ->; reflexivity). subst p. clear Ef Hq.
  destruct k; wq_resume Er; cbn [ptok].
  - cbn [sq_start sq_ptok elems length]. unfold phi. cbn [steps debt kdebt todo kcost]. lia.
  - unfold phi at 2. cbn [steps debt kdebt todo kcost sq_ptok]. pose proof (after_add_le a s) as [E1 E2]. destruct few; [|lia]. unfold phi. cbn [ptok steps debt]. lia.
  - unfold phi. cbn. lia.
  - destruct bb.
    + destruct (nextq i) eqn:En.
      * destruct i; try discriminate; injection En as <-; destruct e; ph.
      * destruct e; destruct i; try discriminate; ph.
    + destruct e; [ph|]. rewrite (proj1 (gstart_phi s _)), (proj2 (gstart_phi s _)). unfold phi. cbn [steps todo debt kdebt edebt kcost]. cbn [gdebt].
      replace (1 <=? order i) with true by (destruct i; reflexivity). destruct i; lia.
  - destruct (nextq i) eqn:En; destruct i; try discriminate; try (injection En as <-); ph.
  - destruct g; ph.
  - ph.
  - destruct bb; unfold phi; cbn [steps todo debt kdebt kcost sq_start ptok popdebt]; [rewrite gdebt_23|]; lia.
  - ph.
  - ph.
  - ph.
  - ph.
  - destruct g as [|[[]|]]; ph; cbn [gdebt order Nat.leb gpaid]; unfold lap; lia.
  - destruct g as [|[[]|]]; ph; cbn [gdebt order Nat.leb gpaid]; unfold lap; lia.
  - destruct (nextq i) eqn:En; destruct i; try discriminate; try (injection En as <-); ph.
Qed.

Lemma step_phi s t pc k s' pc' : wq_step nw s t pc k = Some (s', pc') -> shape pc -> halt s = true ->
  exists d, toks s' + ptok pc' + d = toks s + ptok pc /\ flags_paid s s' d /\ phi s' pc' + 1 <= phi s pc + lap * d.
Proof.
  intros Es Hs Hh. destruct pc.
  1: { destruct k; cbn [wq_step wq_step0] in Es; try discriminate. destruct (sq_fin p) as [r|] eqn:Ef.
    - destruct (resume_phi _ _ _ _ _ _ _ _ Hs Ef Es) as (E1 & E2 & E3). exists (ptok (Sub i p k0) - ptok pc'). rewrite (toks_same _ _ E1). splits; [lia|apply flags_same, E1|unfold lap; lia].
    - destruct (sq_step (qof i s) t p tt) as [[q' p']|] eqn:Eq; [|discriminate]. inj Es. apply (sub_phi _ _ _ _ _ _ _ Eq Hs). }
  all: assert (E1 : forall j, qof j s' = qof j s) by (eapply (step_nosub nw); [exact Es|intros i; reflexivity]).
  all: match type of Es with wq_step _ _ _ ?pc _ = _ => enough (E2 : ptok pc' <= ptok pc /\ phi s pc' + 1 <= phi s pc);
    [exists (ptok pc - ptok pc'); rewrite (toks_same _ _ E1); unfold phi in *; rewrite (debt_same _ _ _ E1); splits; [lia|apply flags_same, E1|unfold lap; lia]|] end.
  all: clear E1; destruct k; cbn [wq_step wq_step0] in Es; try discriminate; wq_cases Es; inj Es.
  all: try rewrite Hh; try solve [ph].
  all: try (destruct (Nat.eqb nw 0); solve [ph]).
  all: try (match goal with |- context [after_add ?a] => pose proof (after_add_le a s) as [E1 E2] end; unfold phi at 2; cbn [ptok steps debt]; lia).
  all: try (destruct g as [|[[]|]]; solve [ph]).
  all: try (destruct h; solve [ph]).
  - destruct e; unfold phi; cbn; unfold lap; lia.
  - destruct e; unfold phi; cbn; unfold lap; lia.
  - destruct (ratio s <=? m)%Z; ph. rewrite gdebt_23. lia.
  - unfold phi; cbn; unfold lap; lia.
  - pose proof (dummies_le nw s) as [E1 E2]. unfold phi at 2. cbn [ptok steps debt]. unfold acost in E2. lia.
Qed.

(** ** Runs *)
Section runs.
Variable n : nat.
Definition alltok c : nat := toks (sh c) + tsum n (fun t => opt ptok (th c t)).
Definition own c t : nat := opt (phi (sh c)) (th c t).
Definition call_tok (xs : list (nat * act cvc wqop)) : nat :=
  fold_right (fun x m => match snd x with ACall o => ptok (wq_start nw o) | _ => 0 end + m) 0 xs.
Definition call_steps (t : nat) (xs : list (nat * act cvc wqop)) : nat :=
  fold_right (fun x m => match snd x with ACall o => if Nat.eqb (fst x) t then steps (wq_start nw o) else 0 | _ => 0 end + m) 0 xs.

Lemma start_debt s o : debt s (wq_start nw o) = 0.
Proof. destruct o; try reflexivity. cbn [wq_start]. destruct (Nat.eqb nw 0); reflexivity. Qed.

Lemma bound_run xs : forall c c' H t, shaped c -> halt (sh c) = true -> onn n xs -> wq_run nw c xs = Some (c', H) ->
  n_int t xs + lap * alltok c' + own c' t <= lap * (alltok c + call_tok xs) + own c t + call_steps t xs.
Proof.
  induction xs as [|x xs IH]; intros c c' H t Hs Hh Hx; unfold wq_run; cbn [run].
  - intros [= <- <-]. cbn. lia.
  - destruct (exec _ _ _ c x) as [[c1 e]|] eqn:Ex; [|discriminate]. destruct (run _ _ _ c1 xs) as [[c2 H2]|] eqn:Er; [|discriminate]. intros [= <- <-].
    inversion Hx as [|? ? Hx1 Hx2]; subst. assert (Hs1 : shaped c1) by (eapply shaped_exec; eassumption).
    assert (Hh1 : halt (sh c1) = true).
    { destruct x as [u [o|k|]]; cbn in Ex; (destruct (th c u) as [pc|] eqn:Et; [|]); try discriminate; [injection Ex as <- <-; exact Hh| |destruct (wq_fin pc); [injection Ex as <- <-; exact Hh|discriminate]].
      destruct (wq_step nw (sh c) u pc k) as [[s' pc']|] eqn:Es; [|discriminate]. injection Ex as <- <-. apply (proj1 (step_data _ _ _ _ _ _ _ Es)), Hh. }
    pose proof (IH c1 c2 H2 t Hs1 Hh1 Hx2 Er) as Hi. clear IH Er.
    enough (n_int t [x] + lap * alltok c1 + own c1 t <= lap * (alltok c + call_tok [x]) + own c t + call_steps t [x]) as E.
    { cbn [n_int call_tok call_steps fold_right] in *. fold (call_tok xs) (call_steps t xs) in *. unfold lap in *. destruct x as [u [o|k|]]; cbn [fst snd] in *; lia. }
    clear Hi. destruct x as [u [o|k|]]; cbn in Hx1, Ex; (destruct (th c u) as [pc|] eqn:Et; [|]); try discriminate.
    + injection Ex as <- <-. pose proof (tsum_upd n (opt ptok) (th c) u (Some (wq_start nw o)) Hx1) as E1. rewrite Et in E1. cbn [opt] in E1.
      unfold alltok, own. cbn [sh th call_tok call_steps fold_right fst snd n_int]. unfold fupd at 2. rewrite (Nat.eqb_sym u t). destruct (Nat.eqb_spec t u) as [->|Hne].
      * rewrite Et. cbn [opt]. unfold phi. rewrite start_debt. unfold lap. lia.
      * unfold lap. lia.
    + destruct (wq_step nw (sh c) u pc k) as [[s' pc']|] eqn:Es; [|discriminate]. injection Ex as <- <-.
      pose proof (tsum_upd n (opt ptok) (th c) u (Some pc') Hx1) as E1. rewrite Et in E1. cbn [opt] in E1.
      destruct (step_phi _ _ _ _ _ _ Es (Hs _ _ Et) Hh) as (d & D1 & D2 & D3).
      unfold alltok, own. cbn [sh th call_tok call_steps fold_right fst snd n_int]. unfold fupd at 2. rewrite (Nat.eqb_sym u t). destruct (Nat.eqb_spec t u) as [->|Hne].
      * rewrite Et. cbn [opt]. unfold lap in *. lia.
      * destruct (th c t) as [pt|]; cbn [opt]; [|unfold lap; lia]. pose proof (debt_paid (sh c) s' d pt D2). unfold phi, lap in *. lia.
    + destruct (wq_fin pc) as [r|] eqn:Ef; [|discriminate]. injection Ex as <- <-. destruct pc; try discriminate.
      pose proof (tsum_upd n (opt ptok) (th c) u None Hx1) as E1. rewrite Et in E1. cbn [opt ptok] in E1.
      unfold alltok, own. cbn [sh th call_tok call_steps fold_right fst snd n_int]. unfold fupd at 2. destruct (Nat.eqb_spec t u) as [->|Hne]; [cbn [opt]; unfold lap; lia|unfold lap; lia].
Qed.
End runs.

End wq.
