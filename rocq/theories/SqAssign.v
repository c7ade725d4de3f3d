(** Move assignment to a SimpleQueue that threads are using: SimpleQueue.hpp [69-77].

    The assignment takes m_pullLock and m_pushLock of the destination, moves both vectors of the source into it, stores the
    flag and lets go of the locks.  It is one step here, possible when both locks are free: while it holds them no other
    thread reads or writes the vectors, and empty(), which reads the flag without a lock, sees the old value until the store
    and so comes before this step.  Nobody else uses the source, and it is not the destination. *)
From stdpp Require Import list.
From Verif Require Import Base Conc SqModel SqSpec SqProofs.

Section sq.
Context {V : Type}.
Variable strict : bool.
Notation sqcfg := (cfg (sqsh V) (sqpc V)).
Notation sast := (ast (sqop V) (sqret V)).
Implicit Types (s src : sqsh V) (q : list V) (c : sqcfg) (f : nat -> sast).

(** The destination afterwards *)
Definition sq_assign s src : sqsh V := SqSh (pushL s) (pullL s) (pushE src) (pullE src) (negb (nonempty (pullE src))).

(** Executions with assignments *)
Inductive yact := YAct (x : nat * act unit (sqop V)) | YMove (src : sqsh V).
Inductive yev := YEv (h : hev (sqop V) (sqret V)) | YMoved (src : sqsh V).

Definition y_exec c (x : yact) : option (sqcfg * list yev) :=
  match x with
  | YAct y => match sq_exec c y with Some (c', e) => Some (c', map YEv e) | None => None end
  | YMove src =>
      match pullL (sh c), pushL (sh c) with
      | None, None => Some (Cfg (sq_assign (sh c) src) (th c), [YMoved src])
      | _, _ => None
      end
  end.
Fixpoint y_run c (xs : list yact) : option (sqcfg * list yev) :=
  match xs with
  | [] => Some (c, [])
  | x :: xs => match y_exec c x with
               | Some (c1, e) => match y_run c1 xs with Some (c2, E) => Some (c2, e ++ E) | None => None end
               | None => None
               end
  end.

(** Every source is a queue some program can have; with [strict] no empty batch is pushed *)
Definition y_ok (x : yact) : Prop :=
  match x with
  | YAct (_, ACall o) => strict = true -> no_empty_batch o
  | YAct _ => True
  | YMove src => sq_reach false src
  end.

(** Atomic queues whose content is replaced now and then *)
Inductive atomicY : list V -> (nat -> sast) -> list yev -> list V -> (nat -> sast) -> Prop :=
| ay_nil q f : atomicY q f [] q f
| ay_inv q f t o E q' f' : f t = AIdle -> atomicY q (fupd t (APend o) f) E q' f' -> atomicY q f (YEv (HInv t o) :: E) q' f'
| ay_eff q f t o r q1 E q' f' : f t = APend o -> sq_spec strict q o r q1 -> atomicY q1 (fupd t (ADone r) f) E q' f' -> atomicY q f E q' f'
| ay_ret q f t r E q' f' : f t = ADone r -> atomicY q (fupd t AIdle f) E q' f' -> atomicY q f (YEv (HRet t r) :: E) q' f'
| ay_move q f src E q' f' : atomicY (rev (pullE src) ++ pushE src) f E q' f' -> atomicY q f (YMoved src :: E) q' f'.

Lemma atomic_appY q f H q1 f1 E q' f' : atomic (sq_spec strict) q f H q1 f1 -> atomicY q1 f1 E q' f' -> atomicY q f (map YEv H ++ E) q' f'.
Proof.
  induction 1 as [q f|q f t o H q1 f1 Ef _ IH|q f t o r q2 H q1 f1 Ef Hs _ IH|q f t r H q1 f1 Ef _ IH]; intros Hx; cbn; [exact Hx|apply ay_inv; auto|eapply ay_eff; eauto|apply ay_ret; auto].
Qed.

Lemma y_split c x xs c' E : y_run c (x :: xs) = Some (c', E) -> exists c1 e E1, y_exec c x = Some (c1, e) /\ y_run c1 xs = Some (c', E1) /\ E = e ++ E1.
Proof.
  cbn [y_run]. destruct (y_exec c x) as [[c1 e]|]; [|discriminate]. destruct (y_run c1 xs) as [[c2 E1]|] eqn:E2; [|discriminate]. intros [= <- <-]. eauto 6.
Qed.
Lemma y_move_inv c src c' e : y_exec c (YMove src) = Some (c', e) ->
  pullL (sh c) = None /\ pushL (sh c) = None /\ c' = Cfg (sq_assign (sh c) src) (th c) /\ e = [YMoved src].
Proof. cbn. destruct (pullL (sh c)); [discriminate|]. destruct (pushL (sh c)); [discriminate|]. intros [= <- <-]. auto. Qed.

(** A queue at rest with an empty pullElements is empty, so a push between its two locks still comes after what is assigned. *)
Lemma sqR_assign c q src : sqR strict c q -> sq_reach false src -> pullL (sh c) = None -> pushL (sh c) = None -> sqR strict (Cfg (sq_assign (sh c) src) (th c)) (rev (pullE src) ++ pushE src).
Proof.
  intros [R1 R2 R3 R4] Hs El Ep. destruct (reach_rest false src Hs) as (_ & _ & _ & Hg & _). constructor; cbn [sh th sq_assign pushL pullL]; [exact R1|exact R2|exact R3|].
  rewrite El, Ep. cbn. unfold gen, flagok, sq_assign. cbn. split; [reflexivity|]. split; [intros E; destruct (Hg E); auto|]. destruct (pullE src) as [|v l]; cbn.
  - destruct (Hg eq_refl) as [-> _]. auto.
  - split; [discriminate|]. intros _ E. apply app_eq_nil in E as [E _]. apply app_eq_nil in E as [_ E]. discriminate.
Qed.

Lemma y_sim xs : forall c q f c' E, sqR strict c q -> (forall t, f t = aview alpha (th c t)) -> Forall y_ok xs -> y_run c xs = Some (c', E) ->
  exists q' f', atomicY q f E q' f' /\ sqR strict c' q' /\ forall t, f' t = aview alpha (th c' t).
Proof.
  induction xs as [|x xs IH]; intros c q f c' E HR Hf Hok Er.
  - injection Er as <- <-. exists q, f. split; [constructor|auto].
  - apply y_split in Er as (c1 & e & E1 & Ex & Er & ->). inversion Hok as [|? ? Hx Hok']; subst. destruct x as [[t a]|src].
    + cbn [y_exec] in Ex. destruct (sq_exec c (t, a)) as [[c2 H]|] eqn:Eq; [|discriminate]. injection Ex as <- <-.
      destruct (sim_run (@sq_start V) sq_step sq_fin (sq_spec strict) (sq_okop strict) (sqR strict) alpha) with (xs := [(t, a)]) (c := c) (q := q) (f := f) (c' := c2) (H := H) as (q1 & f1 & Ha & HR1 & Hf1); auto.
      * intros c0 q0 u o. apply sqR_call.
      * intros c0 q0 u k pc s' pc'. apply sqR_int.
      * intros c0 q0 u pc r. apply sqR_ret.
      * unfold calls. cbn. destruct a; cbn; repeat constructor. exact Hx.
      * cbn [run]. unfold sq_exec in Eq. rewrite Eq. rewrite app_nil_r. reflexivity.
      * destruct (IH c2 q1 f1 c' E1 HR1 Hf1 Hok' Er) as (q' & f' & Ha' & HR' & Hf'). exists q', f'. split; [eapply atomic_appY; eassumption|auto].
    + apply y_move_inv in Ex as (El & Ep & -> & ->). destruct (IH _ (rev (pullE src) ++ pushE src) f c' E1 (sqR_assign _ _ _ HR Hx El Ep) Hf Hok' Er) as (q' & f' & Ha' & HR' & Hf').
      exists q', f'. split; [apply ay_move; exact Ha'|auto].
Qed.
End sq.
