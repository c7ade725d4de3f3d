(** C124: moving a BlockingQueue or BlockingPriorityQueue that threads are using onto itself: BlockingQueue.hpp [77-85],
    BlockingPriorityQueue.hpp [84-93] with the source being [*this].

    As in Props_SqSelf.v: the vectors and priorityQueue keep their elements or are emptied by being moved onto themselves
    ([k]).  As in BqAssign.v the assignment is one step, possible when both locks are free; nobody is notified. *)
From stdpp Require Import list.
From Verif Require Import Base Conc CondVar BqModel BqSpec BqInv BqMore BqLin BqWake BqMore2 Props_Bq2 BqAssign.
From Verif Require Props_SqSelf.
Notation kept := Props_SqSelf.kept.

Section bq.
Context {V : Type}.
Variable bp : bool.
Notation bqcfg := (cfg (bqsh V) (bqpc V)).
Notation bast := (ast (bqop V) (bqret V)).
Implicit Types (s : bqsh V) (pc : bqpc V) (c : bqcfg).

Definition bq_self (k : bool) s : bqsh V :=
  BqSh (pushL s) (pullL s) (kept k (pushE s)) (kept k (pullE s)) (kept k (prioE s)) (negb (nonempty (kept k (pullE s))) && negb (nonempty (kept k (prioE s)))) (bwait s).

Inductive zact := ZAct (x : nat * act cvc (bqop V)) | ZSelf (k : bool).
Inductive zev := ZEv (h : hev (bqop V) (bqret V)) | ZSelfd (k : bool).
Definition z_exec c (x : zact) : option (bqcfg * list zev) :=
  match x with
  | ZAct y => match bq_exec bp c y with Some (c', e) => Some (c', map ZEv e) | None => None end
  | ZSelf k =>
      match pullL (sh c), pushL (sh c) with
      | None, None => Some (Cfg (bq_self k (sh c)) (th c), [ZSelfd k])
      | _, _ => None
      end
  end.
Fixpoint z_run c (xs : list zact) : option (bqcfg * list zev) :=
  match xs with
  | [] => Some (c, [])
  | x :: xs => match z_exec c x with
               | Some (c1, e) => match z_run c1 xs with Some (c2, E) => Some (c2, e ++ E) | None => None end
               | None => None
               end
  end.
Definition z_ok (x : zact) : Prop := match x with ZAct (_, ACall o) => has_op bp o | _ => True end.

Inductive atomicZ : list V * list V -> (nat -> bast) -> list zev -> list V * list V -> (nat -> bast) -> Prop :=
| az_nil q f : atomicZ q f [] q f
| az_inv q f t o E q' f' : f t = AIdle -> atomicZ q (fupd t (APend o) f) E q' f' -> atomicZ q f (ZEv (HInv t o) :: E) q' f'
| az_eff q f t o r q1 E q' f' : f t = APend o -> bq_spec q o r q1 -> atomicZ q1 (fupd t (ADone r) f) E q' f' -> atomicZ q f E q' f'
| az_ret q f t r E q' f' : f t = ADone r -> atomicZ q (fupd t AIdle f) E q' f' -> atomicZ q f (ZEv (HRet t r) :: E) q' f'
| az_keep q f E q' f' : atomicZ q f E q' f' -> atomicZ q f (ZSelfd true :: E) q' f'
| az_drop q f E q' f' : atomicZ ([], []) f E q' f' -> atomicZ q f (ZSelfd false :: E) q' f'.

Lemma atomicZ_ext q f E q' f' : atomicZ q f E q' f' -> forall g, (forall t, f t = g t) -> exists g', atomicZ q g E q' g' /\ forall t, f' t = g' t.
Proof.
  induction 1 as [q f|q f t o H q' f' E _ IH|q f t o r q1 H q' f' E Hs _ IH|q f t r H q' f' E _ IH|q f H q' f' _ IH|q f H q' f' _ IH]; intros g Hg.
  - exists g. split; [constructor|exact Hg].
  - destruct (IH (fupd t (APend o) g)) as (g' & Ha & Hg'); [intros u; unfold fupd; destruct (Nat.eqb u t); auto|].
    exists g'. split; [apply az_inv; [rewrite <- Hg; exact E|exact Ha]|exact Hg'].
  - destruct (IH (fupd t (ADone r) g)) as (g' & Ha & Hg'); [intros u; unfold fupd; destruct (Nat.eqb u t); auto|].
    exists g'. split; [eapply az_eff; [rewrite <- Hg; exact E|exact Hs|exact Ha]|exact Hg'].
  - destruct (IH (fupd t AIdle g)) as (g' & Ha & Hg'); [intros u; unfold fupd; destruct (Nat.eqb u t); auto|].
    exists g'. split; [apply az_ret; [rewrite <- Hg; exact E|exact Ha]|exact Hg'].
  - destruct (IH g Hg) as (g' & Ha & Hg'). exists g'. split; [apply az_keep; exact Ha|exact Hg'].
  - destruct (IH g Hg) as (g' & Ha & Hg'). exists g'. split; [apply az_drop; exact Ha|exact Hg'].
Qed.
Lemma atomic_appZ q f H q1 f1 E q' f' : atomic bq_spec q f H q1 f1 -> atomicZ q1 f1 E q' f' -> atomicZ q f (map ZEv H ++ E) q' f'.
Proof.
  induction 1 as [q f|q f t o H q1 f1 Ef _ IH|q f t o r q2 H q1 f1 Ef Hs _ IH|q f t r H q1 f1 Ef _ IH]; intros Hx; cbn; [exact Hx|apply az_inv; auto|eapply az_eff; eauto|apply az_ret; auto].
Qed.
Lemma z_split c x xs c' E : z_run c (x :: xs) = Some (c', E) -> exists c1 e E1, z_exec c x = Some (c1, e) /\ z_run c1 xs = Some (c', E1) /\ E = e ++ E1.
Proof.
  cbn [z_run]. destruct (z_exec c x) as [[c1 e]|]; [|discriminate]. destruct (z_run c1 xs) as [[c2 E1]|] eqn:E2; [|discriminate]. intros [= <- <-]. eauto 6.
Qed.
Lemma z_self_inv c k c' e : z_exec c (ZSelf k) = Some (c', e) ->
  pullL (sh c) = None /\ pushL (sh c) = None /\ c' = Cfg (bq_self k (sh c)) (th c) /\ e = [ZSelfd k].
Proof. cbn. destruct (pullL (sh c)); [discriminate|]. destruct (pushL (sh c)); [discriminate|]. intros [= <- <-]. auto. Qed.

(** The queue the step of BqAssign.v would be given *)
Definition src_of (k : bool) s : bqsh V := BqSh None None (kept k (pushE s)) (kept k (pullE s)) (kept k (prioE s)) false [].
Lemma self_assign k s : bq_self k s = bq_assign s (src_of k s).
Proof. reflexivity. Qed.

Lemma bqI_z c x c' e : bqI bp c -> z_ok x -> z_exec c x = Some (c', e) -> bqI bp c'.
Proof.
  intros Hi Hx Ex. destruct x as [y|k].
  - cbn in Ex. destruct (bq_exec bp c y) as [[c2 H]|] eqn:Eq; [|discriminate]. injection Ex as <- <-. refine (bqI_exec bp _ _ _ _ Hi _ Eq). intros o Eo. destruct y as [t a]. cbn in Eo. subst a. exact Hx.
  - apply z_self_inv in Ex as (El & Ep & -> & _). rewrite self_assign. apply bqI_assign; auto. intros Hb. destruct Hi as [_ _ _ _ H5]. cbn. rewrite (H5 Hb). destruct k; reflexivity.
Qed.
Lemma bqI_zrun xs : forall c c' E, bqI bp c -> Forall z_ok xs -> z_run c xs = Some (c', E) -> bqI bp c'.
Proof.
  induction xs as [|x xs IH]; intros c c' E Hi Hok Er; [injection Er as <- <-; exact Hi|].
  apply z_split in Er as (c1 & e & E1 & Ex & Er & ->). inversion Hok; subst. eapply IH; [eapply bqI_z|..]; eassumption.
Qed.

Lemma keep_back c q f : pullL (sh c) = None -> bqB (Cfg (bq_self true (sh c)) (th c)) q f -> bqB c q f.
Proof.
  intros El [g [Hnd Hin Hne Hq Hf]]. exists g. split; [exact Hnd|exact Hin| | |exact Hf].
  - intros Hg. specialize (Hne Hg). cbn in Hne. exact Hne.
  - rewrite Hq. unfold ckind. cbn. rewrite El. reflexivity.
Qed.

Definition backZ c E q' f' : Prop := exists q f f1, bqB c q f /\ atomicZ q f E q' f1 /\ forall t, f' t = f1 t.
Lemma z_back xs : forall c c' E, bqI bp c -> Forall z_ok xs -> z_run c xs = Some (c', E) -> forall q' f', bqB c' q' f' -> backZ c E q' f'.
Proof.
  induction xs as [|x xs IH]; intros c c' E Hi Hok Er q' f' HB.
  - injection Er as <- <-. exists q', f', f'. split; [exact HB|]. split; [constructor|reflexivity].
  - apply z_split in Er as (c1 & e & E1 & Ex & Er & ->). inversion Hok as [|? ? Hx Hok']; subst.
    assert (Hi1 : bqI bp c1) by (eapply bqI_z; eassumption).
    destruct (IH c1 c' E1 Hi1 Hok' Er q' f' HB) as (q1 & f1 & f2 & HB1 & Ha & Hf).
    destruct x as [[t a]|k].
    + cbn [z_exec] in Ex. destruct (bq_exec bp c (t, a)) as [[c2 H]|] eqn:Eq; [|discriminate]. injection Ex as <- <-.
      assert (Hb : back bq_spec bqB c H q1 f1).
      { destruct (bsim_run (@bq_start V) (bq_step bp) bq_fin bq_spec (has_op bp) (bqI bp) bqB) with (xs := [(t, a)]) (c := c) (c' := c2) (H := H) as [_ Hb]; auto.
        * intros c0 y c3 e0. apply bqI_exec.
        * apply bqB_call.
        * apply bqB_int.
        * apply bqB_ret.
        * unfold calls. cbn. destruct a; cbn; auto.
        * cbn [run]. unfold bq_exec in Eq. rewrite Eq. rewrite app_nil_r. reflexivity. }
      destruct Hb as (q & f & f3 & HBc & Hat & Hf3). destruct (atomicZ_ext _ _ _ _ _ Ha f3) as (f4 & Ha4 & Hf4); [intros u; symmetry; apply Hf3|].
      exists q, f, f4. split; [exact HBc|]. split; [eapply atomic_appZ; eassumption|]. intros u. rewrite Hf. apply Hf4.
    + apply z_self_inv in Ex as (El & Ep & -> & ->). destruct k.
      * exists q1, f1, f2. split; [apply keep_back; assumption|]. split; [apply az_keep; exact Ha|exact Hf].
      * rewrite self_assign in HB1. destruct (assign_back c (src_of false (sh c)) q1 f1 eq_refl El HB1) as [-> HBc]. exists (held c), f1, f2. split; [exact HBc|]. split; [apply az_drop; exact Ha|exact Hf].
Qed.

(** Every execution, with the queue moved onto itself at any moments, is one of an atomic queue that keeps what it holds (or is
    emptied, if the library empties vectors) at these moments.
    Missing: that nothing is lost whatever the library does, see [C124_blocking_refuted]. *)
Theorem C124_blocking_partial s xs c E : rest bp s -> Forall z_ok xs -> z_run (init s) xs = Some (c, E) ->
  exists q f, atomicZ (prioE s, rev (pullE s) ++ pushE s) (fun _ => AIdle) E q f /\
    (~ clearing c -> ~ swapping c -> q = (prioE (sh c), rev (pullE (sh c)) ++ pushE (sh c))).
Proof.
  intros Hs Hok Er.
  destruct (z_back xs (init s) c E (bqI_init bp s Hs) Hok Er (held c) (aview alpha ∘ th c)) as (q & f & f1 & HB & Ha & Hf).
  { exists []. split; [constructor|intros u []|congruence|reflexivity|reflexivity]. }
  destruct HB as [g [Hnd Hin Hne Hq Hfv]]. assert (g = []). { destruct g as [|u g]; [reflexivity|]. destruct (Hin u (or_introl eq_refl)) as (x & o & E0 & _). discriminate. }
  subst g q. destruct (atomicZ_ext _ _ _ _ _ Ha (fun _ => AIdle)) as (f' & Ha' & Hf').
  { intros u. rewrite Hfv. reflexivity. }
  exists (held c), f'. split; [|apply held_order]. replace (prioE s, rev (pullE s) ++ pushE s) with (absd (ckind (@init (bqsh V) (bqpc V) s)) (sh (@init (bqsh V) (bqpc V) s)) (gvals (th (@init (bqsh V) (bqpc V) s)) [])); [exact Ha'|].
  unfold ckind. cbn. destruct Hs as (_ & E0 & _). rewrite E0. reflexivity.
Qed.

(** No operation takes an element that is not there, a thread that is inside a call and not waiting on the condition means that
    somebody can make a step, and the queue can be moved onto itself if nobody is inside a call. *)
Theorem C124_blocking_safe s xs c E : rest bp s -> Forall z_ok xs -> z_run (init s) xs = Some (c, E) ->
  (forall t, th c t <> Some Crash) /\ (forall t, th c t <> None -> ~ bq_waits c t -> progress bp c) /\
  ((forall t, th c t = None) -> forall k, exists c1, z_exec c (ZSelf k) = Some (c1, [ZSelfd k])).
Proof.
  intros Hs Hok Er. pose proof (bqI_zrun xs _ _ _ (bqI_init bp s Hs) Hok Er) as Hi. split; [|split].
  - intros t Et. destruct (i_pc _ _ Hi _ _ Et) as [[] _].
  - intros t. apply bq_live. exact Hi.
  - intros Hn k. cbn. destruct (pullL (sh c)) as [u|] eqn:El.
    { destruct (proj1 (i_pull _ _ Hi u) El) as (pc & Eu & _). rewrite Hn in Eu. discriminate. }
    destruct (pushL (sh c)) as [u|] eqn:Ep; [|eauto].
    destruct (proj1 (i_push _ _ Hi u) Ep) as (pc & Eu & _). rewrite Hn in Eu. discriminate.
Qed.
End bq.

(** C124: a queue holding 30 is empty after x = std::move(x), if moving a vector onto itself empties it. *)
Theorem C124_blocking_refuted bp : exists xs c1 E1 c2 e, z_run bp (init (bq0 (V := Z))) xs = Some (c1, E1) /\ Forall (z_ok bp) xs /\ (forall t, th c1 t = None) /\
  rev (pullE (sh c1)) ++ pushE (sh c1) = [30%Z] /\ z_exec bp c1 (ZSelf false) = Some (c2, e) /\ rev (pullE (sh c2)) ++ pushE (sh c2) = [].
Proof.
  exists (map (@ZAct Z) (push_by 2 30 10)).
  destruct bp; (eexists _, _, _, _; split; [vm_compute; reflexivity|]; split; [repeat constructor|]; split; [intros [|[|[|t]]]; reflexivity|];
    split; [reflexivity|]; split; [vm_compute; reflexivity|reflexivity]).
Qed.

(** The queue is moved onto itself between the two locks of a push, with elements kept and with elements dropped; what is pushed
    is there in the end. *)
Example C124_blocking_ex bp k : exists c E, z_run bp (init (bq0 (V := Z)))
    (map (@ZAct Z) ((1, ACall (BPush 10%Z)) :: steps 1 4)%nat ++ [ZSelf k] ++ map (@ZAct Z) (steps 1 6 ++ [(1, ARet)])%nat) = Some (c, E) /\
  rev (pullE (sh c)) ++ pushE (sh c) = [10%Z] /\ (forall t, th c t = None).
Proof. destruct bp, k; (eexists _, _; split; [vm_compute; reflexivity|]; split; [reflexivity|]; intros [|[|t]]; reflexivity). Qed.

Print Assumptions C124_blocking_partial.
Print Assumptions C124_blocking_safe.
Print Assumptions C124_blocking_refuted.
