(** Move assignment to a blocking queue that threads are using: BlockingQueue.hpp [q 77-85], BlockingPriorityQueue.hpp
    [p 84-93].

    The assignment takes m_pullLock and m_pushLock of the destination, moves the vectors (and priorityQueue) of the source
    into it, stores the flag and lets go of the locks; nobody is notified.  It is one step here, possible when both locks are
    free.  While it holds the locks no other thread reads or writes the vectors; the accesses to the flag outside the locks
    (R0, E0, and P2, PE cannot happen: they own m_pushLock) see the old value until the store, so they come before this
    step, and everything else comes after it.  Nobody else uses the source, and it is not the destination. *)
From stdpp Require Import list.
From Verif Require Import Base Conc CondVar BqModel BqSpec BqInv BqMore BqLin BqWake BqMore2.

Section bq.
Context {V : Type}.
Variable bp : bool.
Notation bqcfg := (cfg (bqsh V) (bqpc V)).
Notation bast := (ast (bqop V) (bqret V)).
Notation hist := (hev (bqop V) (bqret V)).
Implicit Types (s src : bqsh V) (pc : bqpc V) (c : bqcfg).

(** The destination afterwards *)
Definition bq_assign s src : bqsh V :=
  BqSh (pushL s) (pullL s) (pushE src) (pullE src) (prioE src) (negb (nonempty (pullE src)) && negb (nonempty (prioE src))) (bwait s).

(** Executions with assignments *)
Inductive xact := XAct (x : nat * act cvc (bqop V)) | XMove (src : bqsh V).
Inductive xev := XEv (h : hist) | XMoved (src : bqsh V).

Definition x_exec c (x : xact) : option (bqcfg * list xev) :=
  match x with
  | XAct y => match bq_exec bp c y with Some (c', e) => Some (c', map XEv e) | None => None end
  | XMove src =>
      match pullL (sh c), pushL (sh c) with
      | None, None => Some (Cfg (bq_assign (sh c) src) (th c), [XMoved src])
      | _, _ => None
      end
  end.
Fixpoint x_run c (xs : list xact) : option (bqcfg * list xev) :=
  match xs with
  | [] => Some (c, [])
  | x :: xs => match x_exec c x with
               | Some (c1, e) => match x_run c1 xs with Some (c2, E) => Some (c2, e ++ E) | None => None end
               | None => None
               end
  end.

(** Only operations of the class are called; a BlockingQueue has no priority elements to move *)
Definition x_ok (x : xact) : Prop :=
  match x with
  | XAct (_, ACall o) => has_op bp o
  | XAct _ => True
  | XMove src => bp = false -> prioE src = []
  end.

Lemma x_split c x xs c' E : x_run c (x :: xs) = Some (c', E) -> exists c1 e E1, x_exec c x = Some (c1, e) /\ x_run c1 xs = Some (c', E1) /\ E = e ++ E1.
Proof.
  cbn [x_run]. destruct (x_exec c x) as [[c1 e]|]; [|discriminate]. destruct (x_run c1 xs) as [[c2 E1]|] eqn:E2; [|discriminate]. intros [= <- <-]. eauto 6.
Qed.
Lemma x_move_inv c src c' e : x_exec c (XMove src) = Some (c', e) ->
  pullL (sh c) = None /\ pushL (sh c) = None /\ c' = Cfg (bq_assign (sh c) src) (th c) /\ e = [XMoved src].
Proof. cbn. destruct (pullL (sh c)); [discriminate|]. destruct (pushL (sh c)); [discriminate|]. intros [= <- <-]. auto. Qed.

(** ** The invariant *)
Lemma free_lock (h : bqpc V -> bool) (f : nat -> option (bqpc V)) t pc : lk None h f -> f t = Some pc -> h pc = false.
Proof. intros Hl Et. destruct (h pc) eqn:E; [|reflexivity]. assert (X : None = Some t) by (apply Hl; eauto). discriminate. Qed.

Lemma bqI_assign c src : bqI bp c -> (bp = false -> prioE src = []) -> pullL (sh c) = None -> pushL (sh c) = None -> bqI bp (Cfg (bq_assign (sh c) src) (th c)).
Proof.
  intros [H1 H2 H3 H4 H5] Hb El Ep. split; cbn; [exact H1|exact H2| |exact H4|exact Hb]. intros t pc Et. rewrite El in H2. rewrite Ep in H1.
  destruct (H3 t pc Et) as [Hs Hk]. split; [|exact Hk]. eapply sinv_frame; [exact Hs| |].
  - rewrite (free_lock _ _ _ _ H2 Et). discriminate.
  - rewrite (free_lock _ _ _ _ H1 Et). discriminate.
Qed.
Lemma bqI_x c x c' e : bqI bp c -> x_ok x -> x_exec c x = Some (c', e) -> bqI bp c'.
Proof.
  intros Hi Hx Ex. destruct x as [[t a]|src].
  - cbn [x_exec] in Ex. destruct (bq_exec bp c (t, a)) as [[c1 e1]|] eqn:E; [|discriminate]. injection Ex as <- _. eapply bqI_exec; [exact Hi| |exact E]. intros o Eo. cbn in Eo. subst a. exact Hx.
  - apply x_move_inv in Ex as (El & Ep & -> & _). apply bqI_assign; assumption.
Qed.
Lemma bqI_xrun xs : forall c c' E, bqI bp c -> Forall x_ok xs -> x_run c xs = Some (c', E) -> bqI bp c'.
Proof.
  induction xs as [|x xs IH]; intros c c' E Hi Hok Er; [injection Er as <- _; exact Hi|].
  apply x_split in Er as (c1 & e & E1 & Ex & Er & _). inversion Hok; subst. eapply IH; [|eassumption|exact Er]. eapply bqI_x; eassumption.
Qed.

(** ** Atomic queues whose content is replaced now and then *)
Section atomicX.
Variable spec : list V * list V -> bqop V -> bqret V -> list V * list V -> Prop.
Inductive atomicX : list V * list V -> (nat -> bast) -> list xev -> list V * list V -> (nat -> bast) -> Prop :=
| ax_nil q f : atomicX q f [] q f
| ax_inv q f t o E q' f' : f t = AIdle -> atomicX q (fupd t (APend o) f) E q' f' -> atomicX q f (XEv (HInv t o) :: E) q' f'
| ax_eff q f t o r q1 E q' f' : f t = APend o -> spec q o r q1 -> atomicX q1 (fupd t (ADone r) f) E q' f' -> atomicX q f E q' f'
| ax_ret q f t r E q' f' : f t = ADone r -> atomicX q (fupd t AIdle f) E q' f' -> atomicX q f (XEv (HRet t r) :: E) q' f'
| ax_move q f src E q' f' : atomicX (prioE src, rev (pullE src) ++ pushE src) f E q' f' -> atomicX q f (XMoved src :: E) q' f'.

Lemma atomicX_ext q f E q' f' : atomicX q f E q' f' -> forall g, (forall t, f t = g t) -> exists g', atomicX q g E q' g' /\ forall t, f' t = g' t.
Proof.
  induction 1 as [q f|q f t o H q' f' E _ IH|q f t o r q1 H q' f' E Hs _ IH|q f t r H q' f' E _ IH|q f src H q' f' _ IH]; intros g Hg.
  - exists g. split; [constructor|exact Hg].
  - destruct (IH (fupd t (APend o) g)) as (g' & Ha & Hg'); [intros u; unfold fupd; destruct (Nat.eqb u t); auto|].
    exists g'. split; [apply ax_inv; [rewrite <- Hg; exact E|exact Ha]|exact Hg'].
  - destruct (IH (fupd t (ADone r) g)) as (g' & Ha & Hg'); [intros u; unfold fupd; destruct (Nat.eqb u t); auto|].
    exists g'. split; [eapply ax_eff; [rewrite <- Hg; exact E|exact Hs|exact Ha]|exact Hg'].
  - destruct (IH (fupd t AIdle g)) as (g' & Ha & Hg'); [intros u; unfold fupd; destruct (Nat.eqb u t); auto|].
    exists g'. split; [apply ax_ret; [rewrite <- Hg; exact E|exact Ha]|exact Hg'].
  - destruct (IH g Hg) as (g' & Ha & Hg'). exists g'. split; [apply ax_move; exact Ha|exact Hg'].
Qed.
Lemma atomic_app q f H q1 f1 E q' f' : (forall q o r q0, bq_spec q o r q0 -> spec q o r q0) -> atomic bq_spec q f H q1 f1 -> atomicX q1 f1 E q' f' -> atomicX q f (map XEv H ++ E) q' f'.
Proof.
  intros Hsp. induction 1 as [q f|q f t o H q1 f1 Ef _ IH|q f t o r q2 H q1 f1 Ef Hs _ IH|q f t r H q1 f1 Ef _ IH]; intros Hx; cbn; [exact Hx|apply ax_inv; auto|eapply ax_eff; eauto|apply ax_ret; auto].
Qed.

Definition backX c E q' f' : Prop := exists q f f1, bqB c q f /\ atomicX q f E q' f1 /\ forall t, f1 t = f' t.
Lemma backX_cons c H q1 f1 E q' f' f2 : back bq_spec bqB c H q1 f1 -> atomicX q1 f1 E q' f2 -> (forall t, f2 t = f' t) -> (forall q o r q0, bq_spec q o r q0 -> spec q o r q0) -> backX c (map XEv H ++ E) q' f'.
Proof.
  intros (q & f & f3 & HB & Ha & Hf) Hx Hf2 Hsp. destruct (atomicX_ext _ _ _ _ _ Hx f3) as (g & Hx' & Hg); [intros t; symmetry; apply Hf|].
  exists q, f, g. split; [exact HB|]. split; [eapply atomic_app; eassumption|]. intros t. rewrite <- Hg. apply Hf2.
Qed.
End atomicX.

(** Going back through an assignment whose source holds everything in pullElements: no push can have been inserted in front. *)
Lemma assign_back c src q' f' : pushE src = [] -> pullL (sh c) = None -> bqB (Cfg (bq_assign (sh c) src) (th c)) q' f' ->
  q' = (prioE src, rev (pullE src) ++ pushE src) /\ bqB c (held c) f'.
Proof.
  intros Es El [g [Hnd Hin Hne Hq Hf]]. assert (g = []) as ->. { destruct g as [|u g]; [reflexivity|]. destruct Hne as [Hne _]; [discriminate|]. cbn in Hne. congruence. }
  split.
  - rewrite Hq. unfold ckind. cbn. rewrite El. reflexivity.
  - exists []. split; [constructor|intros u []|congruence|reflexivity|exact Hf].
Qed.

Lemma x_back xs : forall c c' E, bqI bp c -> Forall x_ok xs -> (forall src, In (XMove src) xs -> pushE src = []) -> x_run c xs = Some (c', E) ->
  forall q' f', bqB c' q' f' -> backX bq_spec c E q' f'.
Proof.
  induction xs as [|x xs IH]; intros c c' E Hi Hok Hsrc Er q' f' HB.
  - injection Er as <- <-. exists q', f', f'. split; [exact HB|]. split; [constructor|reflexivity].
  - apply x_split in Er as (c1 & e & E1 & Ex & Er & ->). inversion Hok as [|? ? Hx Hok']; subst.
    assert (Hi1 : bqI bp c1) by (eapply bqI_x; eassumption).
    destruct (IH c1 c' E1 Hi1 Hok' (fun src Hs => Hsrc src (or_intror Hs)) Er q' f' HB) as (q1 & f1 & f2 & HB1 & Ha & Hf).
    destruct x as [[t a]|src].
    + cbn [x_exec] in Ex. destruct (bq_exec bp c (t, a)) as [[c2 H]|] eqn:Eq; [|discriminate]. injection Ex as <- <-.
      eapply backX_cons; [|exact Ha|exact Hf|auto].
      destruct (bsim_run (@bq_start V) (bq_step bp) bq_fin bq_spec (has_op bp) (bqI bp) bqB) with (xs := [(t, a)]) (c := c) (c' := c2) (H := H) as [_ Hb]; auto.
      * intros c0 y c3 e0. apply bqI_exec.
      * apply bqB_call.
      * apply bqB_int.
      * apply bqB_ret.
      * unfold calls. cbn. destruct a; cbn; auto.
      * cbn [run]. unfold bq_exec in Eq. rewrite Eq. rewrite app_nil_r. reflexivity.
    + apply x_move_inv in Ex as (El & Ep & -> & ->). destruct (assign_back _ _ _ _ (Hsrc src (or_introl eq_refl)) El HB1) as [-> HB0].
      exists (held c), f1, f2. split; [exact HB0|]. split; [apply ax_move; exact Ha|exact Hf].
Qed.

Lemma x_atomic s xs c E : rest bp s -> Forall x_ok xs -> (forall src, In (XMove src) xs -> pushE src = []) -> x_run (init s) xs = Some (c, E) ->
  exists f, atomicX bq_spec (prioE s, rev (pullE s) ++ pushE s) (fun _ => AIdle) E (held c) f.
Proof.
  intros Hs Hok Hsrc Er.
  destruct (x_back xs (init s) c E (bqI_init bp s Hs) Hok Hsrc Er (held c) (aview alpha ∘ th c)) as (q & f & f1 & HB & Ha & Hf).
  { exists []. split; [constructor|intros u []|congruence|reflexivity|reflexivity]. }
  destruct HB as [g [Hnd Hin Hne Hq Hfv]]. assert (g = []). { destruct g as [|u g]; [reflexivity|]. destruct (Hin u (or_introl eq_refl)) as (x & o & E0 & _). discriminate. }
  subst g q. destruct (atomicX_ext _ _ _ _ _ _ Ha (fun _ => AIdle)) as (f' & Ha' & Hf').
  { intros u. rewrite Hfv. reflexivity. }
  exists f'. replace (prioE s, rev (pullE s) ++ pushE s) with (absd (ckind (@init (bqsh V) (bqpc V) s)) (sh (@init (bqsh V) (bqpc V) s)) (gvals (th (@init (bqsh V) (bqpc V) s)) [])); [exact Ha'|].
  unfold ckind. cbn. destruct Hs as (_ & E0 & _). rewrite E0. reflexivity.
Qed.

(** *** Any source, when the order of the normal elements is left open *)
Definition same (q q' : list V * list V) : Prop := fst q = fst q' /\ Permutation (snd q) (snd q').
Definition bag_spec (q : list V * list V) (o : bqop V) (r : bqret V) (q' : list V * list V) : Prop :=
  exists q0 q0', same q q0 /\ bq_spec q0 o r q0' /\ same q0' q'.
Lemma same_refl q : same q q.
Proof. split; reflexivity. Qed.
Lemma same_trans q q1 q2 : same q q1 -> same q1 q2 -> same q q2.
Proof. intros [A1 A2] [B1 B2]. split; [congruence|]. rewrite A2. exact B2. Qed.
Lemma same_sym q q1 : same q q1 -> same q1 q.
Proof. intros [A1 A2]. split; [congruence|]. symmetry. exact A2. Qed.
Lemma bag_incl q o r q0 : bq_spec q o r q0 -> bag_spec q o r q0.
Proof. intros Hs. exists q, q0. split; [apply same_refl|]. split; [exact Hs|apply same_refl]. Qed.

Lemma atomicX_same q f E q' f' : atomicX bag_spec q f E q' f' -> forall q0, same q0 q -> exists q0', atomicX bag_spec q0 f E q0' f' /\ same q0' q'.
Proof.
  induction 1 as [q f|q f t o H q' f' E _ IH|q f t o r q1 H q' f' E Hs _ IH|q f t r H q' f' E _ IH|q f src H q' f' Ha IH]; intros q0 Hq.
  - exists q0. split; [constructor|exact Hq].
  - destruct (IH q0 Hq) as (q2 & Ha & H2). exists q2. split; [apply ax_inv; assumption|exact H2].
  - destruct (IH q1 (same_refl _)) as (q2 & Ha & H2). exists q2. split; [|exact H2]. eapply ax_eff; [exact E| |exact Ha].
    destruct Hs as (a & b & A1 & A2 & A3). exists a, b. split; [eapply same_trans; eassumption|auto].
  - destruct (IH q0 Hq) as (q2 & Ha & H2). exists q2. split; [apply ax_ret; assumption|exact H2].
  - exists q'. split; [apply ax_move; exact Ha|apply same_refl].
Qed.

Lemma push_bag P N o : is_push o -> bag_spec (P, N) o BUnit (P, N ++ bvals o).
Proof. intros Ho. apply bag_incl. destruct o; cbn in Ho; try contradiction; constructor. Qed.

(** The pushes of [g] take effect one after the other. *)
Lemma bag_effs th0 E q' P g : forall f' N f, NoDup g -> (forall u, In u g -> exists pc o, th0 u = Some pc /\ reg pc = Some o /\ is_push o /\ f u = APend o) ->
  atomicX bag_spec (P, N ++ gvals th0 g) (fun u => if inb u g then ADone BUnit else f u) E q' f' -> exists f2, atomicX bag_spec (P, N) f E q' f2 /\ forall t, f' t = f2 t.
Proof.
  induction g as [|u g IH]; intros f' N f Hnd Hg Ha.
  - cbn in Ha. rewrite app_nil_r in Ha. exact (atomicX_ext _ _ _ _ _ _ Ha f (fun t => eq_refl)).
  - apply NoDup_cons in Hnd as [Hu Hnd]. rewrite elem_of_list_In in Hu. destruct (Hg u (or_introl eq_refl)) as (pc & o & E1 & E2 & Ho & Ef).
    assert (Eg : gvals th0 (u :: g) = bvals o ++ gvals th0 g) by (unfold gvals, gv; cbn; rewrite E1, E2; reflexivity). rewrite Eg, app_assoc in Ha.
    destruct (atomicX_ext _ _ _ _ _ _ Ha (fun w => if inb w g then ADone BUnit else fupd u (ADone BUnit) f w)) as (f1 & Ha1 & Hf1).
    { intros w. unfold inb. cbn. fold (inb w g). unfold fupd. destruct (Nat.eqb_spec w u) as [->|]; cbn; [|reflexivity]. destruct (inb u g); reflexivity. }
    destruct (IH f1 (N ++ bvals o) (fupd u (ADone BUnit) f) Hnd) as (f2 & Ha2 & Hf2); [|exact Ha1|].
    + intros w Hw. destruct (Hg w (or_intror Hw)) as (pw & ow & X1 & X2 & X3 & X4). exists pw, ow. rewrite fupd_other by congruence. auto.
    + exists f2. split; [|intros t; rewrite Hf1; apply Hf2]. eapply ax_eff; [exact Ef|apply push_bag, Ho|exact Ha2].
Qed.

Lemma x_back_bag xs : forall c c' E, bqI bp c -> Forall x_ok xs -> x_run c xs = Some (c', E) ->
  forall q' f', bqB c' q' f' -> exists q'', same q'' q' /\ backX bag_spec c E q'' f'.
Proof.
  induction xs as [|x xs IH]; intros c c' E Hi Hok Er q' f' HB.
  - injection Er as <- <-. exists q'. split; [apply same_refl|]. exists q', f', f'. split; [exact HB|]. split; [constructor|reflexivity].
  - apply x_split in Er as (c1 & e & E1 & Ex & Er & ->). inversion Hok as [|? ? Hx Hok']; subst.
    assert (Hi1 : bqI bp c1) by (eapply bqI_x; eassumption).
    destruct (IH c1 c' E1 Hi1 Hok' Er q' f' HB) as (q2 & Hq2 & q1 & f1 & f2 & HB1 & Ha & Hf).
    destruct x as [[t a]|src].
    + exists q2. split; [exact Hq2|]. cbn [x_exec] in Ex. destruct (bq_exec bp c (t, a)) as [[c2 H]|] eqn:Eq; [|discriminate]. injection Ex as <- <-.
      eapply backX_cons; [|exact Ha|exact Hf|apply bag_incl].
      destruct (bsim_run (@bq_start V) (bq_step bp) bq_fin bq_spec (has_op bp) (bqI bp) bqB) with (xs := [(t, a)]) (c := c) (c' := c2) (H := H) as [_ Hb]; auto.
      * intros c0 y c3 e0. apply bqI_exec.
      * apply bqB_call.
      * apply bqB_int.
      * apply bqB_ret.
      * unfold calls. cbn. destruct a; cbn; auto.
      * cbn [run]. unfold bq_exec in Eq. rewrite Eq. rewrite app_nil_r. reflexivity.
    + apply x_move_inv in Ex as (El & Ep & -> & ->). destruct HB1 as [g [Hnd Hin Hne Hq Hfv]]. cbn [sh th] in *.
      assert (Eq1 : q1 = (prioE src, rev (pullE src) ++ gvals (th c) g ++ pushE src)). { rewrite Hq. unfold ckind. cbn. rewrite El. reflexivity. }
      destruct (atomicX_same _ _ _ _ _ Ha (prioE src, (rev (pullE src) ++ pushE src) ++ gvals (th c) g)) as (q3 & Ha3 & Hq3).
      { rewrite Eq1. split; [reflexivity|]. cbn. rewrite <- app_assoc. apply Permutation_app_head, Permutation_app_comm. }
      destruct (atomicX_ext _ _ _ _ _ _ Ha3 (fun u => if inb u g then ADone BUnit else aview alpha (th c u))) as (f3 & Ha4 & Hf3); [intros u; rewrite Hfv; reflexivity|].
      destruct (bag_effs (th c) E1 q3 (prioE src) g f3 (rev (pullE src) ++ pushE src) (aview alpha ∘ th c) Hnd) as (f4 & Ha5 & Hf4); [|exact Ha4|].
      { intros u Hu. destruct (Hin u Hu) as (pc & o & E0 & Er0). exists pc, o. split; [exact E0|]. split; [exact Er0|]. pose proof (proj2 (i_pc _ _ Hi _ _ E0)) as Hk. cbn. rewrite E0.
        destruct pc; try discriminate Er0; injection Er0 as ->; cbn in *; auto. }
      exists q3. split; [eapply same_trans; eassumption|]. exists (held c), (aview alpha ∘ th c), f4. split; [|split].
      * exists []. split; [constructor|intros u []|congruence|reflexivity|reflexivity].
      * apply ax_move. exact Ha5.
      * intros u. rewrite <- Hf4, <- Hf3. apply Hf.
Qed.

Lemma x_bag s xs c E : rest bp s -> Forall x_ok xs -> x_run (init s) xs = Some (c, E) ->
  exists q f, atomicX bag_spec (prioE s, rev (pullE s) ++ pushE s) (fun _ => AIdle) E q f /\ same q (held c).
Proof.
  intros Hs Hok Er.
  destruct (x_back_bag xs (init s) c E (bqI_init bp s Hs) Hok Er (held c) (aview alpha ∘ th c)) as (q2 & Hq2 & q & f & f1 & HB & Ha & Hf).
  { exists []. split; [constructor|intros u []|congruence|reflexivity|reflexivity]. }
  destruct HB as [g [Hnd Hin Hne Hq Hfv]]. assert (g = []). { destruct g as [|u g]; [reflexivity|]. destruct (Hin u (or_introl eq_refl)) as (x & o & E0 & _). discriminate. }
  subst g q. destruct (atomicX_ext _ _ _ _ _ _ Ha (fun _ => AIdle)) as (f' & Ha' & Hf').
  { intros u. rewrite Hfv. reflexivity. }
  exists q2, f'. split; [|exact Hq2]. replace (prioE s, rev (pullE s) ++ pushE s) with (absd (ckind (@init (bqsh V) (bqpc V) s)) (sh (@init (bqsh V) (bqpc V) s)) (gvals (th (@init (bqsh V) (bqpc V) s)) [])); [exact Ha'|].
  unfold ckind. cbn. destruct Hs as (_ & E0 & _). rewrite E0. reflexivity.
Qed.

(** ** Wakeups *)
Definition x_sole (t0 : nat) (xs : list xact) : Prop := forall t o, In (XAct (t, ACall o)) xs -> t <> t0 -> may bp o.
(** At each assignment the consumer is not inside a call, or there is nothing to move. *)
Definition x_calm (t0 : nat) c (xs : list xact) : Prop :=
  forall xs1 src xs2 c1 E1, xs = xs1 ++ XMove src :: xs2 -> x_run c xs1 = Some (c1, E1) -> th c1 t0 = None \/ nothing_held src.

Lemma wake_assign t0 c src : bqI bp c -> wake bp t0 c -> th c t0 = None \/ nothing_held src -> pullL (sh c) = None -> pushL (sh c) = None -> wake bp t0 (Cfg (bq_assign (sh c) src) (th c)).
Proof.
  intros Hi [H1 H2 H3] Hc El Ep. split; cbn; [exact H1| |].
  - intros t pc Et. pose proof (i_push _ _ Hi) as Hl. rewrite Ep in Hl. pose proof (free_lock _ _ _ _ Hl Et) as Hh. destruct pc; try exact I; discriminate.
  - intros pc Et _. destruct Hc as [E|(E1 & E2 & E3)]; [congruence|]. left. split; cbn; [rewrite E1, E3; reflexivity|]. split; auto.
Qed.
Lemma wake_xrun t0 xs : forall c c' E, bqI bp c -> wake bp t0 c -> Forall x_ok xs -> x_sole t0 xs -> x_calm t0 c xs -> x_run c xs = Some (c', E) -> wake bp t0 c'.
Proof.
  induction xs as [|x xs IH]; intros c c' E Hi Hw Hok Hso Hca Er; [injection Er as <- _; exact Hw|].
  apply x_split in Er as (c1 & e & E1 & Ex & Er & _). inversion Hok as [|? ? Hx Hok']; subst.
  eapply (IH c1); [eapply bqI_x; eassumption| |exact Hok'|intros t o Hin; apply Hso; right; exact Hin| |exact Er].
  - destruct x as [[t a]|src].
    + cbn [x_exec] in Ex. destruct (bq_exec bp c (t, a)) as [[c2 H]|] eqn:Eq; [|discriminate]. injection Ex as <- <-.
      eapply (wake_run bp t0 [(t, a)] c c2); [exact Hi|exact Hw| | |].
      * unfold calls. cbn. destruct a; cbn; auto.
      * intros u o [Ho|[]] Hne. injection Ho as -> ->. apply (Hso u o); [left; reflexivity|exact Hne].
      * unfold bq_run. cbn [run]. unfold bq_exec in Eq. rewrite Eq. reflexivity.
    + pose proof (Hca [] src xs c [] eq_refl eq_refl) as Hn. apply x_move_inv in Ex as (El & Ep & -> & _). apply wake_assign; assumption.
  - intros xs1 src xs2 c2 E2 -> Er2. apply (Hca (x :: xs1) src xs2 c2 (e ++ E2)); [reflexivity|]. cbn [x_run]. rewrite Ex, Er2. reflexivity.
Qed.

(** The call a thread is inside of, from the events *)
Definition x_doing (E : list xev) (t : nat) : option (bqop V) :=
  fold_left (fun d e => match e with
                        | XEv (HInv u o) => if Nat.eqb u t then Some o else d
                        | XEv (HRet u _) => if Nat.eqb u t then None else d
                        | XMoved _ => d
                        end) E None.
Definition doing_from (D : nat -> option (bqop V)) (E : list xev) (t : nat) : option (bqop V) :=
  fold_left (fun d e => match e with
                        | XEv (HInv u o) => if Nat.eqb u t then Some o else d
                        | XEv (HRet u _) => if Nat.eqb u t then None else d
                        | XMoved _ => d
                        end) E (D t).
Lemma doing_run xs : forall c c' E D, (forall t pc, th c t = Some pc -> exists o, D t = Some o /\ at_op o pc) -> x_run c xs = Some (c', E) ->
  forall t pc, th c' t = Some pc -> exists o, doing_from D E t = Some o /\ at_op o pc.
Proof.
  induction xs as [|x xs IH]; intros c c' E D HD Er t pc Et.
  - injection Er as <- <-. exact (HD t pc Et).
  - apply x_split in Er as (c1 & e & E1 & Ex & Er & ->).
    assert (Hd : doing_from D (e ++ E1) t = doing_from (doing_from D e) E1 t) by (unfold doing_from; rewrite fold_left_app; reflexivity).
    rewrite Hd. eapply (IH c1); [|exact Er|exact Et]. clear Hd t pc Et Er IH. intros t pc Et.
    destruct x as [[u a]|src]; [|apply x_move_inv in Ex as (_ & _ & -> & ->); exact (HD t pc Et)].
    cbn in Ex. destruct a as [o|k|]; destruct (th c u) as [pu|] eqn:Eu; cbn in Ex; try discriminate.
    + injection Ex as <- <-. cbn in *. unfold fupd in Et. rewrite Nat.eqb_sym. destruct (Nat.eqb_spec t u) as [->|]; [|exact (HD t pc Et)]. injection Et as <-. exists o. split; [reflexivity|apply at_op_start].
    + destruct (bq_step bp (sh c) u pu k) as [[s' pc']|] eqn:Es; [|discriminate]. injection Ex as <- <-. cbn in *. unfold fupd in Et. destruct (Nat.eqb_spec t u) as [->|]; [|exact (HD t pc Et)].
      injection Et as <-. destruct (HD u pu Eu) as (o & Ho & Hk). exists o. split; [exact Ho|]. eapply at_op_step; eassumption.
    + destruct (bq_fin pu); [|discriminate]. injection Ex as <- <-. cbn in *. unfold fupd in Et. rewrite Nat.eqb_sym. destruct (Nat.eqb_spec t u) as [->|]; [discriminate|exact (HD t pc Et)].
Qed.

Lemma x_wakeup t0 s xs c E : rest bp s -> Forall x_ok xs -> x_sole t0 xs -> x_calm t0 (init s) xs -> x_run (init s) xs = Some (c, E) ->
  bq_waits c t0 -> (forall t o, x_doing E t = Some o -> bval o = None) -> nothing_held (sh c).
Proof.
  intros Hs Hok Hso Hca Er (m & Em & Hw) Hno. pose proof (wake_xrun t0 xs _ _ _ (bqI_init bp s Hs) (wake_init bp t0 s) Hok Hso Hca Er) as Hk.
  destruct (k_wake _ _ _ Hk _ Em Hw) as [[_ Hc]|[(u & pu & Eu & Hn)|[He _]]]; [exact Hc| |destruct He].
  exfalso. destruct (doing_run xs (init s) c E (fun _ => None)) with (3 := Eu) as (o & Ho & Ha); [intros t pc; discriminate|exact Er|].
  specialize (Hno u o Ho). apply notif_ins in Hn as [Hi _]. unfold at_op, inserts in Ha. rewrite Hno in Ha. destruct pu; cbn in *; congruence.
Qed.

(** ** A consumer that was waiting stays asleep *)
Definition asleep (a : bool) c t : Prop :=
  bq_waits c t /\ (if a then eflag (sh c) = false /\ avail (sh c) else pushE (sh c) <> []) /\
  forall u pc, u <> t -> th c u = Some pc ->
    match pc with
    | P0 _ | P1 _ | PH _ | PG | Ret _ => True
    | P2 _ | PD _ | PE | R0 _ | R5 _ | R6 _ | R7 | R8 => a = true
    | _ => False
    end.
Definition pushes (a : bool) t (ys : list (nat * act cvc (bqop V))) : Prop :=
  forall u x, In (u, x) ys -> u <> t /\ forall o, x = ACall o -> bval o <> None /\ (a = false -> channel o = false).

Lemma asleep_exec a c t x c' e : asleep a c t -> x.1 <> t -> (forall o, x.2 = ACall o -> bval o <> None /\ (a = false -> channel o = false)) -> bq_exec bp c x = Some (c', e) -> asleep a c' t.
Proof.
  intros ((m & Em & Hw) & Hf & Ho) Hne Hok. destruct x as [u [o|k|]]; cbn in *.
  - destruct (th c u) eqn:Eu; [discriminate|]. intros [= <- _]. split; [exists m; cbn; rewrite fupd_other by congruence; auto|]. split; [exact Hf|].
    intros w pc Hwt Ew. cbn in Ew. unfold fupd in Ew. destruct (Nat.eqb_spec w u) as [->|]; [|exact (Ho _ _ Hwt Ew)]. injection Ew as <-. destruct (Hok o eq_refl) as [Hb Hc].
    destruct o; cbn in *; auto; try congruence; destruct a; auto; discriminate (Hc eq_refl).
  - destruct (th c u) as [pc|] eqn:Eu; [|discriminate]. destruct (bq_step bp (sh c) u pc k) as [[s' pc']|] eqn:Es; [|discriminate]. intros [= <- _].
    pose proof (Ho _ _ Hne Eu) as Hpc.
    assert (Hx : bwait s' = bwait (sh c) /\ (if a then eflag s' = false /\ avail s' else pushE s' <> []) /\
      match pc' with P0 _ | P1 _ | PH _ | PG | Ret _ => True | P2 _ | PD _ | PE | R0 _ | R5 _ | R6 _ | R7 | R8 => a = true | _ => False end).
    { destruct k; cbn [bq_step] in Es; try discriminate; [|destruct pc; try discriminate; contradiction..].
      assert (Happ : forall l l' : list V, l <> [] -> l ++ l' <> []) by (intros l l' Hl E; apply app_eq_nil in E; tauto). unfold avail in *.
      destruct pc; try contradiction; cbn [bq_step0] in Es; unfold lock_push, lock_pull in Es; destruct a; try discriminate Hpc; try (destruct Hf as [Hf Hav]; rewrite ?Hf in Es);
        repeat lazymatch type of Es with context [match ?x with _ => _ end] => destruct x eqn:? end; try discriminate Es; injection Es as <- <-; cbn; auto.
      - exfalso. apply Hf. apply nonempty_false. assumption.
      - split; [reflexivity|]. split; [|reflexivity]. split; [exact Hf|]. destruct Hav; auto. }
    destruct Hx as (X1 & X2 & X3). split; [exists m; cbn; rewrite fupd_other by congruence; rewrite X1; auto|]. split; [exact X2|].
    intros w pw Hwt Ew. cbn in Ew. unfold fupd in Ew. destruct (Nat.eqb_spec w u) as [->|]; [|exact (Ho _ _ Hwt Ew)]. injection Ew as <-. exact X3.
  - destruct (th c u) as [pc|] eqn:Eu; [|discriminate]. destruct (bq_fin pc) eqn:Ef; [|discriminate]. intros [= <- _].
    split; [exists m; cbn; rewrite fupd_other by congruence; auto|]. split; [exact Hf|].
    intros w pw Hwt Ew. cbn in Ew. unfold fupd in Ew. destruct (Nat.eqb_spec w u) as [->|]; [discriminate|exact (Ho _ _ Hwt Ew)].
Qed.
Lemma asleep_run a ys : forall c t c' H, asleep a c t -> pushes a t ys -> bq_run bp c ys = Some (c', H) -> asleep a c' t.
Proof.
  unfold bq_run. induction ys as [|[u x] ys IH]; intros c t c' H Hm Hx; cbn [run].
  - intros [= <- _]. exact Hm.
  - destruct (exec bq_start (bq_step bp) bq_fin c (u, x)) as [[c1 e]|] eqn:Ex; [|discriminate]. destruct (run bq_start (bq_step bp) bq_fin c1 ys) as [[c2 H2]|] eqn:Er; [|discriminate]. intros [= <- _].
    destruct (Hx u x (or_introl eq_refl)) as [Hu Ha]. eapply IH; [|intros w b Hb; apply Hx; right; exact Hb|exact Er]. apply (asleep_exec _ _ _ (u, x) _ _ Hm Hu Ha Ex).
Qed.
Lemma asleep_held a c t : asleep a c t -> ~ nothing_held (sh c).
Proof. intros (_ & Hf & _) (E1 & E2 & E3). unfold avail in Hf. destruct a; [destruct Hf as [_ [?|?]]|]; congruence. Qed.

(** [a]: the source has something in pullElements or in priorityQueue *)
Lemma assign_asleep (a : bool) c src t c1 e : bq_waits c t -> (forall u, u <> t -> th c u = None) -> (if a then avail src else pushE src <> []) ->
  x_exec c (XMove src) = Some (c1, e) -> asleep a c1 t.
Proof.
  intros (m & Em & Hw) Ho Ha Ex. apply x_move_inv in Ex as (_ & _ & -> & _). split; [exists m; auto|]. cbn. split.
  - destruct a; [|exact Ha]. split; [|exact Ha]. unfold avail in Ha. destruct (pullE src), (prioE src); try reflexivity. destruct Ha; congruence.
  - intros u pc Hu Eu. rewrite Ho in Eu by exact Hu. discriminate.
Qed.
Lemma asleep_stuck c t : bq_waits c t -> (forall u, u <> t -> th c u = None) -> ~ progress bp c.
Proof.
  intros (m & Em & Hw) Ho (u & a & c' & e & Ha & Ex). unfold bq_exec, exec in Ex. destruct (Nat.eq_dec u t) as [->|Hne].
  - rewrite Em in Ex. apply inb_spec in Hw. destruct Ha as [->| ->]; cbn in Ex; [rewrite Hw in Ex|]; discriminate.
  - rewrite (Ho u Hne) in Ex. destruct Ha as [->| ->]; discriminate.
Qed.
End bq.
