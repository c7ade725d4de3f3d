(** C124: moving a SimpleQueue that threads are using onto itself: SimpleQueue.hpp [69-77] with [&sq == this].

    The locks are those of the destination only, so they are taken once.  A vector moved onto itself is valid but has an
    unspecified value; here it either keeps its elements or is emptied (libstdc++), the same for both vectors ([k]).  As in
    SqAssign.v the assignment is one step, possible when both locks are free. *)
From stdpp Require Import list.
From Verif Require Import Base Conc SqModel SqSpec SqProofs SqAssign.

Definition kept {V} (k : bool) (l : list V) : list V := if k then l else [].

Section sq.
Context {V : Type}.
Variable strict : bool.
Notation sqcfg := (cfg (sqsh V) (sqpc V)).
Notation sast := (ast (sqop V) (sqret V)).
Implicit Types (s : sqsh V) (q : list V) (c : sqcfg) (f : nat -> sast).

Definition sq_self (k : bool) s : sqsh V :=
  SqSh (pushL s) (pullL s) (kept k (pushE s)) (kept k (pullE s)) (negb (nonempty (kept k (pullE s)))).

Inductive zact := ZAct (x : nat * act unit (sqop V)) | ZSelf (k : bool).
Inductive zev := ZEv (h : hev (sqop V) (sqret V)) | ZSelfd (k : bool).
Definition z_exec c (x : zact) : option (sqcfg * list zev) :=
  match x with
  | ZAct y => match sq_exec c y with Some (c', e) => Some (c', map ZEv e) | None => None end
  | ZSelf k =>
      match pullL (sh c), pushL (sh c) with
      | None, None => Some (Cfg (sq_self k (sh c)) (th c), [ZSelfd k])
      | _, _ => None
      end
  end.
Fixpoint z_run c (xs : list zact) : option (sqcfg * list zev) :=
  match xs with
  | [] => Some (c, [])
  | x :: xs => match z_exec c x with
               | Some (c1, e) => match z_run c1 xs with Some (c2, E) => Some (c2, e ++ E) | None => None end
               | None => None
               end
  end.
Definition z_ok (x : zact) : Prop := match x with ZAct (_, ACall o) => strict = true -> no_empty_batch o | _ => True end.

(** Atomic queues that may be moved onto themselves: they keep what they hold, or are emptied *)
Inductive atomicZ : list V -> (nat -> sast) -> list zev -> list V -> (nat -> sast) -> Prop :=
| az_nil q f : atomicZ q f [] q f
| az_inv q f t o E q' f' : f t = AIdle -> atomicZ q (fupd t (APend o) f) E q' f' -> atomicZ q f (ZEv (HInv t o) :: E) q' f'
| az_eff q f t o r q1 E q' f' : f t = APend o -> sq_spec strict q o r q1 -> atomicZ q1 (fupd t (ADone r) f) E q' f' -> atomicZ q f E q' f'
| az_ret q f t r E q' f' : f t = ADone r -> atomicZ q (fupd t AIdle f) E q' f' -> atomicZ q f (ZEv (HRet t r) :: E) q' f'
| az_keep q f E q' f' : atomicZ q f E q' f' -> atomicZ q f (ZSelfd true :: E) q' f'
| az_drop q f E q' f' : atomicZ [] f E q' f' -> atomicZ q f (ZSelfd false :: E) q' f'.

Lemma atomic_appZ q f H q1 f1 E q' f' : atomic (sq_spec strict) q f H q1 f1 -> atomicZ q1 f1 E q' f' -> atomicZ q f (map ZEv H ++ E) q' f'.
Proof.
  induction 1 as [q f|q f t o H q1 f1 Ef _ IH|q f t o r q2 H q1 f1 Ef Hs _ IH|q f t r H q1 f1 Ef _ IH]; intros Hx; cbn; [exact Hx|apply az_inv; auto|eapply az_eff; eauto|apply az_ret; auto].
Qed.
Lemma z_split c x xs c' E : z_run c (x :: xs) = Some (c', E) -> exists c1 e E1, z_exec c x = Some (c1, e) /\ z_run c1 xs = Some (c', E1) /\ E = e ++ E1.
Proof.
  cbn [z_run]. destruct (z_exec c x) as [[c1 e]|]; [|discriminate]. destruct (z_run c1 xs) as [[c2 E1]|] eqn:E2; [|discriminate]. intros [= <- <-]. eauto 6.
Qed.
Lemma z_self_inv c k c' e : z_exec c (ZSelf k) = Some (c', e) ->
  pullL (sh c) = None /\ pushL (sh c) = None /\ c' = Cfg (sq_self k (sh c)) (th c) /\ e = [ZSelfd k].
Proof. cbn. destruct (pullL (sh c)); [discriminate|]. destruct (pushL (sh c)); [discriminate|]. intros [= <- <-]. auto. Qed.

Lemma sqR_self k c q : sqR strict c q -> pullL (sh c) = None -> pushL (sh c) = None -> sqR strict (Cfg (sq_self k (sh c)) (th c)) (kept k q).
Proof.
  intros [R1 R2 R3 R4] El Ep. rewrite El, Ep in R4. cbn in R4. destruct R4 as (Hq & Hg & Hfl). constructor; cbn [sh th sq_self pushL pullL]; [exact R1|exact R2|exact R3|].
  rewrite El, Ep. cbn. unfold gen, flagok, sq_self, kept in *. cbn. destruct k; cbn; [|split; [reflexivity|auto]].
  split; [exact Hq|]. split; [intros E; destruct (Hg E); auto|]. destruct (pullE (sh c)) as [|v l] eqn:Epl; cbn.
  - destruct (Hg eq_refl) as [E0 _]. rewrite E0 in *. subst q. auto.
  - split; [discriminate|]. intros _ E. rewrite E in Hq. symmetry in Hq. apply app_eq_nil in Hq as [Hq _]. apply app_eq_nil in Hq as [_ Hq]. discriminate.
Qed.

Lemma z_sim xs : forall c q f c' E, sqR strict c q -> (forall t, f t = aview alpha (th c t)) -> Forall z_ok xs -> z_run c xs = Some (c', E) ->
  exists q' f', atomicZ q f E q' f' /\ sqR strict c' q' /\ forall t, f' t = aview alpha (th c' t).
Proof.
  induction xs as [|x xs IH]; intros c q f c' E HR Hf Hok Er.
  - injection Er as <- <-. exists q, f. split; [constructor|auto].
  - apply z_split in Er as (c1 & e & E1 & Ex & Er & ->). inversion Hok as [|? ? Hx Hok']; subst. destruct x as [[t a]|k].
    + cbn [z_exec] in Ex. destruct (sq_exec c (t, a)) as [[c2 H]|] eqn:Eq; [|discriminate]. injection Ex as <- <-.
      destruct (sim_run (@sq_start V) sq_step sq_fin (sq_spec strict) (sq_okop strict) (sqR strict) alpha) with (xs := [(t, a)]) (c := c) (q := q) (f := f) (c' := c2) (H := H) as (q1 & f1 & Ha & HR1 & Hf1); auto.
      * intros c0 q0 u o. apply sqR_call.
      * intros c0 q0 u k pc s' pc'. apply sqR_int.
      * intros c0 q0 u pc r. apply sqR_ret.
      * unfold calls. cbn. destruct a; cbn; repeat constructor. exact Hx.
      * cbn [run]. unfold sq_exec in Eq. rewrite Eq. rewrite app_nil_r. reflexivity.
      * destruct (IH c2 q1 f1 c' E1 HR1 Hf1 Hok' Er) as (q' & f' & Ha' & HR' & Hf'). exists q', f'. split; [eapply atomic_appZ; eassumption|auto].
    + apply z_self_inv in Ex as (El & Ep & -> & ->). destruct (IH _ (kept k q) f c' E1 (sqR_self k _ _ HR El Ep) Hf Hok' Er) as (q' & f' & Ha' & HR' & Hf').
      exists q', f'. split; [destruct k; [apply az_keep|apply az_drop]; exact Ha'|auto].
Qed.

(** Every execution, with the queue moved onto itself at any moments, is one of an atomic FIFO queue that keeps what it holds
    (or is emptied, if the library empties vectors) at these moments.
    Missing: that nothing is lost whatever the library does, see [C124_simple_refuted]. *)
Theorem C124_simple_partial s xs c E : sq_reach strict s -> Forall z_ok xs -> z_run (init s) xs = Some (c, E) ->
  exists q f, atomicZ (rev (pullE s) ++ pushE s) (fun _ => AIdle) E q f /\ ((forall t, th c t = None) -> q = rev (pullE (sh c)) ++ pushE (sh c)).
Proof.
  intros Hs Hok Er. destruct (z_sim xs (init s) (sq_content s) (fun _ => AIdle) c E) as (q & f & Ha & HR & _); [apply rest_R, reach_rest, Hs|reflexivity|exact Hok|exact Er|].
  exists q, f. split; [exact Ha|]. intros Hn. apply (R_rest _ _ _ HR Hn).
Qed.
End sq.

(** No operation takes an element that is not there, somebody can make a step if anybody is inside a call, and the queue can be
    moved onto itself if nobody is (the assignment does not wait for itself). *)
Theorem C124_simple_safe {V} (s : sqsh V) xs c E : sq_reach false s -> Forall (z_ok false) xs -> z_run (init s) xs = Some (c, E) ->
  (forall t, th c t <> Some Crash) /\ ((exists t, th c t <> None) -> exists t, can_step sq_start sq_step sq_fin c t) /\
  ((forall t, th c t = None) -> forall k, exists c1, z_exec c (ZSelf k) = Some (c1, [ZSelfd k])).
Proof.
  intros Hs Hok Er. destruct (z_sim false xs (init s) (sq_content s) (fun _ => AIdle) c E) as (q & f & Ha & HR & _); [apply rest_R, reach_rest, Hs|reflexivity|exact Hok|exact Er|].
  split; [|split].
  - intros t Et. exact (hinv_nocrash _ _ _ _ _ HR Et eq_refl).
  - apply (sq_live false c q HR).
  - intros Hn k. destruct (R_rest _ _ _ HR Hn) as [(E1 & E2 & _) _]. cbn. rewrite E1, E2. eauto.
Qed.

(** C124: a queue holding 5 and 6 is empty after x = std::move(x), if moving a vector onto itself empties it. *)
Definition zpush (t : nat) (v : Z) (n : nat) : list (@zact Z) := map (@ZAct Z) ((t, ACall (QPush v)) :: repeat (t, AInt tt) n ++ [(t, ARet)]).
Theorem C124_simple_refuted : exists xs c1 E1 c2 e, z_run (init (sq0 (V := Z))) xs = Some (c1, E1) /\ Forall (z_ok true) xs /\ (forall t, th c1 t = None) /\
  rev (pullE (sh c1)) ++ pushE (sh c1) = [5; 6] /\ z_exec c1 (ZSelf false) = Some (c2, e) /\ rev (pullE (sh c2)) ++ pushE (sh c2) = [].
Proof.
  exists (zpush 1 5 8 ++ zpush 1 6 9). eexists _, _, _, _. split; [vm_compute; reflexivity|]. split; [repeat constructor|]. split; [intros [|[|t]]; reflexivity|].
  split; [reflexivity|]. split; [vm_compute; reflexivity|reflexivity].
Qed.

(** The queue is moved onto itself between the two locks of the second push, and nothing is lost if vectors keep their elements. *)
Example C124_simple_ex : exists c E, z_run (init (sq0 (V := Z)))
    (zpush 1 5 8 ++ map (@ZAct Z) ((2, ACall (QPush 6%Z)) :: repeat (2, AInt tt) 3)%nat ++ [ZSelf true] ++ map (@ZAct Z) (repeat (2, AInt tt) 6 ++ [(2, ARet)])%nat) = Some (c, E) /\
  rev (pullE (sh c)) ++ pushE (sh c) = [5; 6] /\ (forall t, th c t = None).
Proof. eexists _, _. split; [vm_compute; reflexivity|]. split; [reflexivity|]. intros [|[|[|t]]]; reflexivity. Qed.

Print Assumptions C124_simple_partial.
Print Assumptions C124_simple_safe.
Print Assumptions C124_simple_refuted.
