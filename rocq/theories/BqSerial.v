(** Blocking queues: calls that do not overlap *)
From stdpp Require Import list.
From Verif Require Import Base Conc CondVar Herlihy Serial BqModel BqSpec BqInv.

Section bq.
Context {V : Type}.
Variable bp : bool.
Implicit Types (s : bqsh V) (pc : bqpc V).
Notation solo := (solo (bq_step bp) bq_fin).

Definition in_order s : list V := rev (pullE s) ++ pushE s.
Definition seqI s : Prop := pushL s = None /\ pullL s = None /\ bwait s = [] /\ prioE s = [] /\ eflag s = negb (nonempty (pullE s)) /\ (pullE s = [] -> pushE s = []).
Definition unprio (o : bqop V) : Prop := match o with BPushPri _ | BEmplacePri _ => False | _ => True end.

(** A pop operation on an empty queue *)
Definition dry (o : bqop V) pc : Prop :=
  match pc with
  | O0 m | OP m | C0 m None | C1 m None | C2 m None | C6 m None | C7 m None | O1 m _ | O3 m None | W0 m | WP m _ | W1 m _ | W4 m | W5 m | W7 m => mop m = o
  | CB => o = BPopCall
  | Ret r => r = BVal None /\ (o = BTryPop \/ o = BPopFor)
  | _ => False
  end.
Definition alone s t pc : Prop :=
  pullL s = (if hpull pc then Some t else None) /\ pushL s = (if hpush pc then Some t else None) /\ (bwait s = [] \/ bwait s = [t] /\ exists m, pc = W5 m).

Lemma alone_step s t pc k s' pc' : bq_step bp s t pc k = Some (s', pc') -> alone s t pc -> alone s' t pc'.
Proof.
  intros Es (H1 & H2 & H3). destruct (step_locks _ _ _ _ _ _ _ Es) as [L1 L2]. unfold alone, lock_change in *.
  assert (Hw : bwait s' = [] \/ bwait s' = [t] /\ exists m, pc' = W5 m).
  { assert (In t (bwait s) -> exists m, pc = W5 m). { destruct H3 as [->|[_ ?]]; [intros []|auto]. }
    destruct k as [|u| |]; cbn [bq_step] in Es; try discriminate.
    - destruct H3 as [H3|[H3 [m ->]]].
      + destruct pc; cbn [bq_step0] in Es; unfold lock_push, lock_pull, cont, after, test in Es; repeat lazymatch type of Es with context [match ?x with _ => _ end] => destruct x eqn:? end;
          try discriminate Es; injection Es as <- <-; cbn; rewrite ?H3; auto; right; eauto.
      + cbn in Es. rewrite H3 in Es. cbn in Es. rewrite Nat.eqb_refl in Es. discriminate.
    - destruct pc; try discriminate. destruct (inb t (bwait s)); [|discriminate]. injection Es as <- <-. left. destruct H3 as [->|[-> _]]; cbn; [reflexivity|]. rewrite Nat.eqb_refl. reflexivity.
    - destruct pc; try discriminate. destruct m as [| |[]|]; try discriminate. injection Es as <- <-. left. destruct H3 as [->|[-> _]]; cbn; [reflexivity|]. rewrite Nat.eqb_refl. reflexivity. }
  split; [|split; [|exact Hw]].
  - destruct L1 as [[-> ->]|[(E1 & -> & E2 & ->)|(E1 & -> & ->)]]; [exact H1|reflexivity|reflexivity].
  - destruct L2 as [[-> ->]|[(E1 & -> & E2 & ->)|(E1 & -> & ->)]]; [exact H2|reflexivity|reflexivity].
Qed.

Lemma dry_step o s t pc k s' pc' : bq_step bp s t pc k = Some (s', pc') -> dry o pc -> pullE s = [] -> pushE s = [] -> prioE s = [] -> eflag s = true ->
  dry o pc' /\ pullE s' = [] /\ pushE s' = [] /\ prioE s' = [] /\ eflag s' = true.
Proof.
  intros Es Hd E1 E2 E3 E4. destruct k as [|u| |]; cbn [bq_step] in Es; try discriminate.
  - destruct pc; cbn [dry] in Hd; try contradiction; cbn [bq_step0] in Es; unfold lock_push, lock_pull, cont, after, test in Es; rewrite ?E1, ?E2, ?E3, ?E4 in Es; cbn [nonempty] in Es;
      repeat lazymatch type of Es with context [match ?x with _ => _ end] => destruct x eqn:? end;
      try discriminate Es; injection Es as <- <-; cbn; rewrite ?E1, ?E2, ?E3; auto; try contradiction; cbn in Hd; try (subst o; auto 10).
  - destruct pc; try discriminate. destruct (inb t (bwait s)); [|discriminate]. injection Es as <- <-. cbn. auto.
  - destruct pc; try discriminate. destruct m as [| |[]|]; try discriminate. injection Es as <- <-. cbn. auto.
Qed.

Lemma dry_solo o ks : forall s t pc s' r, dry o pc -> alone s t pc -> pullE s = [] -> pushE s = [] -> prioE s = [] -> eflag s = true -> solo s t pc ks = Some (s', r) ->
  seqI s' /\ pullE s' = [] /\ r = BVal None /\ (o = BTryPop \/ o = BPopFor).
Proof.
  induction ks as [|k ks IH]; intros s t pc s' r Hd Ha E1 E2 E3 E4; cbn [Serial.solo].
  - destruct (bq_fin pc) as [r'|] eqn:Ef; [|discriminate]. intros [= <- <-]. destruct pc; try discriminate. injection Ef as <-. destruct Ha as (A1 & A2 & A3). cbn in *.
    unfold seqI. destruct A3 as [A3|[_ [? ?]]]; [|discriminate]. rewrite E1, E4. intuition congruence.
  - destruct (bq_step bp s t pc k) as [[s1 pc1]|] eqn:Es; [|discriminate]. destruct (dry_step _ _ _ _ _ _ _ Es Hd E1 E2 E3 E4) as (D & F1 & F2 & F3 & F4).
    intros Er. eapply IH; [exact D|eapply alone_step; eassumption|assumption..|exact Er].
Qed.

Lemma ne_rev (l : list V) : nonempty (rev l) = nonempty l.
Proof. destruct l as [|x l]; [reflexivity|]. cbn. destruct (rev l); reflexivity. Qed.

Local Arguments rev : simpl never.
Ltac adv Es := match type of Es with Serial.solo _ _ _ _ _ ?ks = _ => destruct ks as [|[|?| |] ?] end;
  cbn [Serial.solo bq_step bq_step0 bq_fin bq_start lock_push lock_pull unlock_push unlock_pull set_push set_pull set_prio set_flag set_wait
       pushL pullL pushE pullE prioE eflag bwait nonempty cont after test negb] in Es; try discriminate Es;
  rewrite ?ne_rev, ?rev_involutive in Es; cbn [nonempty negb] in Es; try discriminate Es.
Ltac finish Es := match type of Es with Serial.solo _ _ _ _ _ ?ks = _ => destruct ks as [|[|?| |] ?] end; try discriminate Es; injection Es as <- <-; cbn.

Ltac fin2 Es := injection Es as <- <-; cbn.

Lemma seq_solo s t o ks s' r : seqI s -> has_op bp o -> unprio o -> solo s t (bq_start o) ks = Some (s', r) -> seqI s' /\ fifo_spec (in_order s) o r (in_order s').
Proof.
  intros (I1 & I2 & I3 & I4 & I5 & I6) Hop Hun Es. destruct s as [pl ql pu pq pr fl w]. cbn in *. subst pl ql w pr fl. unfold in_order. cbn [pullE pushE].
  assert (Hp : exists q, pq = rev q) by (exists (rev pq); rewrite rev_involutive; reflexivity). destruct Hp as [q ->]. rewrite ?rev_involutive, ne_rev in *.
  assert (Hq : q = [] -> pu = []). { intros ->. apply I6. reflexivity. } clear I6.
  assert (Hpop : pop_op o \/ ~ pop_op o). { destruct o; try (left; constructor); right; intros Hx; inversion Hx. }
  destruct Hpop as [Hpop|Hpop].
  { destruct q as [|v q].
    - rewrite Hq in * by reflexivity. assert (Hd : dry o (bq_start o)) by (destruct Hpop; exact eq_refl).
      assert (Ha : alone (BqSh None None [] (rev []) [] (negb (nonempty (V := V) [])) []) t (bq_start o)) by (destruct Hpop; repeat split; left; reflexivity).
      destruct (dry_solo o ks _ _ _ _ _ Hd Ha eq_refl eq_refl eq_refl eq_refl Es) as (Hs & E & -> & Ho).
      split; [exact Hs|]. unfold seqI in Hs. destruct Hs as (_ & _ & _ & _ & _ & Hs). rewrite E, (Hs E). destruct Ho as [-> | ->]; cbn; auto.
    - assert (Hm : exists m, bq_start o = O0 m) by (destruct Hpop; eexists; reflexivity). destruct Hm as [m Hm]. rewrite Hm in Es. clear Hm.
      assert (Hx : seqI s' /\ r = BVal (Some v) /\ rev (pullE s') ++ pushE s' = q ++ pu).
      { adv Es. destruct bp; [adv Es|]; do 3 adv Es.
        all: destruct q as [|v' q]; [do 2 adv Es; destruct pu as [|w pu]; [do 4 adv Es|do 5 adv Es]|do 2 adv Es].
        all: repeat adv Es.
        all: injection Es as <- <-; unfold seqI; cbn; rewrite ?rev_involutive, ?app_nil_r, ?ne_rev; cbn; splits; auto; try discriminate.
        all: intros E; apply rev_nil_inv in E; discriminate. }
      destruct Hx as (Hs & -> & E). split; [exact Hs|]. rewrite E. destruct Hpop; cbn; auto. }
  destruct q as [|v q]; [rewrite Hq in * by reflexivity; clear Hq pu|destruct pu as [|w pu]]; destruct bp; destruct o; try (destruct Hun; fail); try (exfalso; apply Hpop; constructor).
  all: try discriminate Hop. all: repeat adv Es.
  all: injection Es as <- <-; unfold seqI, zlen; cbn -[Z.of_nat]; rewrite ?rev_involutive, ?app_nil_r, ?app_length, ?rev_length, ?ne_rev; cbn -[Z.of_nat].
  all: splits; auto; try discriminate; try (intros E; apply rev_nil_inv in E; discriminate).
  all: try (f_equal; lia). all: try (rewrite <- app_assoc; reflexivity).
  all: f_equal; change (rev (v :: q)) with (rev q ++ [v]); apply last_snoc.
Qed.

Theorem seq_run s bs c H : seqI s -> Forall (fun b => has_op bp b.1.2 /\ unprio b.1.2) bs -> bq_run bp (init s) (serial bs) = Some (c, H) ->
  seqI (sh c) /\ (forall t, th c t = None) /\ exists L, H = calls_of L /\ legal fifo_spec (in_order s) L (in_order (sh c)).
Proof.
  intros Hs Hok Er. destruct (serial_run bq_start (bq_step bp) bq_fin fifo_spec seqI in_order (fun o => has_op bp o /\ unprio o)
    (fun s t o ks s' r Hj Hx => seq_solo s t o ks s' r Hj (proj1 Hx) (proj2 Hx)) bs (init s) c H Hs Hok Er) as (H1 & H2 & H3).
  split; [exact H1|]. split; [exact H2|exact H3].
Qed.

Lemma seqI_bq0 : seqI bq0.
Proof. repeat split. Qed.

(** Moving a queue at rest *)
Lemma seqI_move s : seqI s -> seqI (fst (bq_move s)).
Proof. intros (I1 & I2 & I3 & I4 & I5 & I6). unfold seqI. cbn. rewrite I4. cbn. rewrite andb_true_r. auto 8. Qed.
End bq.
