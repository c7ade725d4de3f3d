(** Interleaving semantics of objects shared by any number of threads, and linearizability.

    Threads are natural numbers.  A thread is idle or inside one operation; what it is about to do is a value of [Pc].
    One step is one lock operation, one access to an atomic variable, one operation on a condition variable or one access
    to data guarded by a lock.  A schedule says which thread moves next; a thread that is idle may call any operation, so
    every program of every thread is covered.  Memory is sequentially consistent: all atomic operations of the modelled
    classes have the default ordering (in AirLock they have not; see AirWeak.v), and the other accesses are shown not to
    race. *)
From stdpp Require Import list.
From Verif Require Import Base.

Definition fupd {A} (t : nat) (x : A) (f : nat -> A) : nat -> A := fun u => if Nat.eqb u t then x else f u.
Lemma fupd_same {A} t (x : A) f : fupd t x f t = x.
Proof. unfold fupd. rewrite Nat.eqb_refl. reflexivity. Qed.
Lemma fupd_other {A} t u (x : A) f : u <> t -> fupd t x f u = f u.
Proof. intros Hne. unfold fupd. destruct (Nat.eqb_spec u t); [contradiction|reflexivity]. Qed.

Inductive hev (Op Rt : Type) := HInv (t : nat) (o : Op) | HRet (t : nat) (r : Rt).
Arguments HInv {Op Rt}. Arguments HRet {Op Rt}.

(** Locks: [L] is the owner of a lock, [h] says which program points hold it. *)
Section locks.
Context {Pc : Type}.
Implicit Types (L : option nat) (h : Pc -> bool) (f : nat -> option Pc).

Definition lk L h f : Prop := forall t, L = Some t <-> exists pc, f t = Some pc /\ h pc = true.

Lemma lk_acq h f t pc' : lk None h f -> h pc' = true -> lk (Some t) h (fupd t (Some pc') f).
Proof.
  intros Hl Hh u. unfold fupd. destruct (Nat.eqb_spec u t) as [->|Hne]; [split; eauto|]. split; [congruence|].
  intros Hx. apply Hl in Hx. discriminate.
Qed.
Lemma lk_rel L h f t pc pc' : lk L h f -> f t = Some pc -> h pc = true -> h pc' = false -> lk None h (fupd t (Some pc') f).
Proof.
  intros Hl Ht Hh Hh' u. unfold fupd. split; [discriminate|]. destruct (Nat.eqb_spec u t) as [->|Hne].
  - intros (x & [= <-] & E). congruence.
  - intros Hx. apply Hl in Hx. assert (L = Some t) by (apply Hl; eauto). congruence.
Qed.
Lemma lk_keep L h f t pc pc' : lk L h f -> f t = Some pc -> h pc' = h pc -> lk L h (fupd t (Some pc') f).
Proof.
  intros Hl Ht Hh u. unfold fupd. destruct (Nat.eqb_spec u t) as [->|Hne]; [|apply Hl]. rewrite (Hl t), Ht.
  split; intros (x & [= <-] & E); eexists; (split; [reflexivity|congruence]).
Qed.
Lemma lk_call L h f t pc' : lk L h f -> f t = None -> h pc' = false -> lk L h (fupd t (Some pc') f).
Proof.
  intros Hl Ht Hh u. unfold fupd. destruct (Nat.eqb_spec u t) as [->|Hne]; [|apply Hl]. rewrite (Hl t), Ht.
  split; intros (x & E1 & E); [discriminate|congruence].
Qed.
Lemma lk_ret L h f t pc : lk L h f -> f t = Some pc -> h pc = false -> lk L h (fupd t None f).
Proof.
  intros Hl Ht Hh u. unfold fupd. destruct (Nat.eqb_spec u t) as [->|Hne]; [|apply Hl]. rewrite (Hl t), Ht.
  split; intros (x & E1 & E); [congruence|discriminate].
Qed.
Lemma lk_owner L h f t pc : lk L h f -> f t = Some pc -> h pc = true -> L = Some t.
Proof. intros Hl Ht Hh. apply Hl. eauto. Qed.
Lemma lk_other L h f t pc : lk L h f -> f t = Some pc -> h pc = false -> L <> Some t.
Proof. intros Hl Ht Hh E. apply Hl in E as (x & E1 & E2). congruence. Qed.
Lemma lk_init h : lk None h (fun _ => None).
Proof. intros t. split; [discriminate|]. intros (x & E & _). discriminate. Qed.

(** The program point of the owner *)
Definition holder L f : option Pc := match L with Some t => f t | None => None end.

Lemma holder_self t pc f : holder (Some t) (fupd t (Some pc) f) = Some pc.
Proof. apply fupd_same. Qed.
Lemma holder_other L t x f : L <> Some t -> holder L (fupd t x f) = holder L f.
Proof. destruct L as [u|]; [|reflexivity]. intros Hne. cbn [holder]; apply (fupd_other t u x f). congruence. Qed.
Lemma holder_held L h f pc : lk L h f -> holder L f = Some pc -> h pc = true.
Proof. destruct L as [t|]; [|discriminate]. cbn. intros Hl E. destruct (proj1 (Hl t) eq_refl) as (x & E1 & E2). congruence. Qed.
End locks.

(** ** Atomic objects *)
Section atomic.
Context {Q Op Rt : Type}.
Variable spec : Q -> Op -> Rt -> Q -> Prop.   (* what one operation, taken alone, does and returns *)

Inductive ast := AIdle | APend (o : Op) | ADone (r : Rt).

(** [atomic q f H q' f']: starting with content [q] and threads [f], the events [H] can happen if every operation takes
    effect at one moment between its call and its return. *)
Inductive atomic : Q -> (nat -> ast) -> list (hev Op Rt) -> Q -> (nat -> ast) -> Prop :=
| at_nil q f : atomic q f [] q f
| at_inv q f t o H q' f' : f t = AIdle -> atomic q (fupd t (APend o) f) H q' f' -> atomic q f (HInv t o :: H) q' f'
| at_eff q f t o r q1 H q' f' : f t = APend o -> spec q o r q1 -> atomic q1 (fupd t (ADone r) f) H q' f' -> atomic q f H q' f'
| at_ret q f t r H q' f' : f t = ADone r -> atomic q (fupd t AIdle f) H q' f' -> atomic q f (HRet t r :: H) q' f'.

Definition linearizable (q0 : Q) (H : list (hev Op Rt)) : Prop := exists q' f', atomic q0 (fun _ => AIdle) H q' f'.

Lemma atomic_ext q f H q' f' : atomic q f H q' f' -> forall g, (forall t, f t = g t) -> exists g', atomic q g H q' g' /\ forall t, f' t = g' t.
Proof.
  induction 1 as [q f|q f t o H q' f' E _ IH|q f t o r q1 H q' f' E Hs _ IH|q f t r H q' f' E _ IH]; intros g Hg.
  - exists g. split; [constructor|exact Hg].
  - destruct (IH (fupd t (APend o) g)) as (g' & Ha & Hg'); [intros u; unfold fupd; destruct (Nat.eqb u t); auto|].
    exists g'. split; [apply at_inv; [rewrite <- Hg; exact E|exact Ha]|exact Hg'].
  - destruct (IH (fupd t (ADone r) g)) as (g' & Ha & Hg'); [intros u; unfold fupd; destruct (Nat.eqb u t); auto|].
    exists g'. split; [eapply at_eff; [rewrite <- Hg; exact E|exact Hs|exact Ha]|exact Hg'].
  - destruct (IH (fupd t AIdle g)) as (g' & Ha & Hg'); [intros u; unfold fupd; destruct (Nat.eqb u t); auto|].
    exists g'. split; [apply at_ret; [rewrite <- Hg; exact E|exact Ha]|exact Hg'].
Qed.

Lemma atomic_app q f H1 q1 f1 H2 q2 f2 : atomic q f H1 q1 f1 -> atomic q1 f1 H2 q2 f2 -> atomic q f (H1 ++ H2) q2 f2.
Proof. induction 1; cbn; [auto|intros; apply at_inv; auto|intros; eapply at_eff; eauto|intros; apply at_ret; auto]. Qed.

(** A lone call *)
Lemma atomic_lone q t o r q' f' : atomic q (fun _ => AIdle) [HInv t o; HRet t r] q' f' -> exists q1, spec q o r q1.
Proof.
  assert (H1 : forall q0 f0 H q f, atomic q0 f0 H q f -> forall r, (forall u, u <> t -> f0 u = AIdle) ->
            f0 t = ADone r -> forall r', H = [HRet t r'] -> r' = r).
  { induction 1 as [q1 f1|q1 f1 u o1 H1 q2 f2 E _ IH|q1 f1 u o1 r1 q3 H1 q2 f2 E Hsp _ IH|q1 f1 u r1 H1 q2 f2 E _ IH]; intros r0 Hf Hd r' EH; try discriminate.
    - destruct (Nat.eq_dec u t) as [->|Hne]; [congruence|]. rewrite Hf in E by exact Hne. discriminate.
    - injection EH as -> -> ->. congruence. }
  assert (H2 : forall q0 f0 H q f, atomic q0 f0 H q f -> (forall u, u <> t -> f0 u = AIdle) ->
            f0 t = APend o -> H = [HRet t r] -> exists q', spec q0 o r q').
  { induction 1 as [q1 f1|q1 f1 u o1 H3 q2 f2 E _ IH|q1 f1 u o1 r1 q3 H3 q2 f2 E Hsp Hat IH|q1 f1 u r1 H3 q2 f2 E _ IH]; intros Hf Hd EH; try discriminate.
    - destruct (Nat.eq_dec u t) as [->|Hne]; [|rewrite Hf in E by exact Hne; discriminate]. rewrite Hd in E. injection E as <-.
      rewrite (H1 _ _ _ _ _ Hat r1 ltac:(intros u Hu; rewrite fupd_other by exact Hu; apply Hf, Hu) ltac:(apply fupd_same) r EH). eauto.
    - injection EH as -> -> ->. congruence. }
  intros Ha. inversion Ha; subst; [|congruence]. eapply H2; [eassumption|intros u Hu; rewrite fupd_other by exact Hu; reflexivity|apply fupd_same|reflexivity].
Qed.

End atomic.
Arguments ast : clear implicits. Arguments AIdle {Op Rt}. Arguments APend {Op Rt}. Arguments ADone {Op Rt}.

(** ** Machines *)
Section machine.
Context {Sh Pc Ch Op Rt : Type}.
Variable start : Op -> Pc.
Variable istep : Sh -> nat -> Pc -> Ch -> option (Sh * Pc).
Variable fin : Pc -> option Rt.

Record cfg := Cfg { sh : Sh; th : nat -> option Pc }.

(** What the scheduler picks: thread [t] calls [o], makes an internal step (resolving a choice left open by the language
    or the library), or returns. *)
Inductive act := ACall (o : Op) | AInt (k : Ch) | ARet.

Definition exec (c : cfg) (x : nat * act) : option (cfg * list (hev Op Rt)) :=
  let '(t, a) := x in
  match a, th c t with
  | ACall o, None => Some (Cfg (sh c) (fupd t (Some (start o)) (th c)), [HInv t o])
  | AInt k, Some pc =>
      match istep (sh c) t pc k with
      | Some (s', pc') => Some (Cfg s' (fupd t (Some pc') (th c)), [])
      | None => None
      end
  | ARet, Some pc =>
      match fin pc with Some r => Some (Cfg (sh c) (fupd t None (th c)), [HRet t r]) | None => None end
  | _, _ => None
  end.

Fixpoint run (c : cfg) (xs : list (nat * act)) : option (cfg * list (hev Op Rt)) :=
  match xs with
  | [] => Some (c, [])
  | x :: xs' =>
      match exec c x with
      | Some (c1, e) => match run c1 xs' with Some (c2, H) => Some (c2, e ++ H) | None => None end
      | None => None
      end
  end.

(** The shared state and the history at the end *)
Definition result (c : cfg) (xs : list (nat * act)) : option (Sh * list (hev Op Rt)) :=
  match run c xs with Some (c', H) => Some (sh c', H) | None => None end.

Definition init (s : Sh) : cfg := Cfg s (fun _ => None).

(** The operations called in a schedule *)
Definition calls (xs : list (nat * act)) : list Op := omap (fun x => match snd x with ACall o => Some o | _ => None end) xs.

(** Thread [t] can do something other than wait. *)
Definition can_step (c : cfg) (t : nat) : Prop := exists a c' e, th c t <> None /\ exec c (t, a) = Some (c', e).

Lemma run_app c xs ys : run c (xs ++ ys) =
  match run c xs with Some (c1, H1) => match run c1 ys with Some (c2, H2) => Some (c2, H1 ++ H2) | None => None end | None => None end.
Proof.
  revert c. induction xs as [|x xs IH]; intros c; cbn.
  - destruct (run c ys) as [[c2 H2]|]; reflexivity.
  - destruct (exec c x) as [[c1 e]|]; [|reflexivity]. rewrite IH. destruct (run c1 xs) as [[c2 H2]|]; [|reflexivity].
    destruct (run c2 ys) as [[c3 H3]|]; [|reflexivity]. rewrite app_assoc. reflexivity.
Qed.

(** An invariant of the machine: calls of admissible operations, internal steps and returns keep it. *)
Section invariant.
Variable okop : Op -> Prop.
Variable I : cfg -> Prop.
Hypothesis I_call : forall c t o, I c -> okop o -> th c t = None -> I (Cfg (sh c) (fupd t (Some (start o)) (th c))).
Hypothesis I_int : forall c t k pc s' pc', I c -> th c t = Some pc -> istep (sh c) t pc k = Some (s', pc') -> I (Cfg s' (fupd t (Some pc') (th c))).
Hypothesis I_ret : forall c t pc r, I c -> th c t = Some pc -> fin pc = Some r -> I (Cfg (sh c) (fupd t None (th c))).

Lemma inv_exec c x c' e : I c -> (forall o, snd x = ACall o -> okop o) -> exec c x = Some (c', e) -> I c'.
Proof.
  destruct x as [t [o|k|]]; cbn; intros Hi Hok.
  - destruct (th c t) eqn:E; [discriminate|]. intros [= <- _]. apply I_call; auto.
  - destruct (th c t) as [pc|] eqn:E; [|discriminate]. destruct (istep (sh c) t pc k) as [[s' pc']|] eqn:Ei; [|discriminate]. intros [= <- _]. eauto.
  - destruct (th c t) as [pc|] eqn:E; [|discriminate]. destruct (fin pc) eqn:Ef; [|discriminate]. intros [= <- _]. eauto.
Qed.

Lemma inv_run xs : forall c c' H, I c -> Forall okop (calls xs) -> run c xs = Some (c', H) -> I c'.
Proof.
  induction xs as [|x xs IH]; intros c c' H Hi Hok; cbn.
  - intros [= <- _]. exact Hi.
  - destruct (exec c x) as [[c1 e]|] eqn:Ex; [|discriminate]. destruct (run c1 xs) as [[c2 H2]|] eqn:Er; [|discriminate]. intros [= <- _].
    assert (Hx : (forall o, snd x = ACall o -> okop o) /\ Forall okop (calls xs)).
    { unfold calls in Hok; cbn in Hok. destruct (snd x) eqn:Es; [inversion Hok; subst; split; [intros ? [= <-]; assumption|assumption]|split; [discriminate|exact Hok]..]. }
    destruct Hx. eapply IH; [|eassumption..]. eapply inv_exec; eassumption.
Qed.
End invariant.

(** Own internal steps and calls of a thread in a schedule *)
Fixpoint n_int (t : nat) (xs : list (nat * act)) : nat :=
  match xs with [] => 0 | (u, a) :: xs' => (match a with AInt _ => if Nat.eqb u t then 1 else 0 | _ => 0 end) + n_int t xs' end%nat.
Fixpoint n_call (t : nat) (xs : list (nat * act)) : nat :=
  match xs with [] => 0 | (u, a) :: xs' => (match a with ACall _ => if Nat.eqb u t then 1 else 0 | _ => 0 end) + n_call t xs' end%nat.

Section steps.
Variable todo : Pc -> nat.
Variable N : nat.
Hypothesis todo_start : forall o, (todo (start o) <= N)%nat.
Hypothesis todo_step : forall s t pc k s' pc', istep s t pc k = Some (s', pc') -> (todo pc' < todo pc)%nat.

Definition todo_at (c : cfg) (t : nat) : nat := match th c t with Some pc => todo pc | None => 0 end%nat.

Lemma steps_run xs : forall c c' H t, run c xs = Some (c', H) -> (n_int t xs + todo_at c' t <= todo_at c t + N * n_call t xs)%nat.
Proof.
  induction xs as [|[u a] xs IH]; intros c c' H t; cbn [run n_int n_call].
  - intros [= <- _]. lia.
  - destruct (exec c (u, a)) as [[c1 e]|] eqn:Ex; [|discriminate]. destruct (run c1 xs) as [[c2 H2]|] eqn:Er; [|discriminate]. intros [= <- _].
    specialize (IH _ _ _ t Er). cbn in Ex.
    assert (Hx : forall x, th c1 = fupd u x (th c) -> todo_at c1 t = if Nat.eqb u t then match x with Some pc => todo pc | None => 0%nat end else todo_at c t).
    { intros x E. unfold todo_at. rewrite E. unfold fupd. rewrite (Nat.eqb_sym t u). destruct (Nat.eqb u t); reflexivity. }
    destruct a as [o|k|].
    + destruct (th c u) eqn:Eu; [discriminate|]. injection Ex as <- _. rewrite (Hx (Some (start o)) eq_refl) in IH.
      specialize (todo_start o). destruct (Nat.eqb_spec u t) as [->|]; lia.
    + destruct (th c u) as [pc|] eqn:Eu; [|discriminate]. destruct (istep (sh c) u pc k) as [[s' pc']|] eqn:Ei; [|discriminate]. injection Ex as <- _.
      rewrite (Hx (Some pc') eq_refl) in IH. specialize (todo_step _ _ _ _ _ _ Ei). destruct (Nat.eqb_spec u t) as [->|]; [|lia].
      unfold todo_at at 2. rewrite Eu. lia.
    + destruct (th c u) as [pc|] eqn:Eu; [|discriminate]. destruct (fin pc); [|discriminate]. injection Ex as <- _. rewrite (Hx None eq_refl) in IH.
      destruct (Nat.eqb_spec u t) as [->|]; lia.
Qed.
End steps.

(** Linearizability by simulation: [R c q] relates the machine to the content of the atomic object, [alpha] tells how far
    each thread is; every internal step either takes no effect or is the effect of the stepping thread's operation. *)
Section simulation.
Context {Q : Type}.
Variable spec : Q -> Op -> Rt -> Q -> Prop.
Variable okop : Op -> Prop.
Variable R : cfg -> Q -> Prop.
Variable alpha : Pc -> ast Op Rt.
Hypothesis R_call : forall c q t o, R c q -> okop o -> th c t = None -> R (Cfg (sh c) (fupd t (Some (start o)) (th c))) q /\ alpha (start o) = APend o.
Hypothesis R_int : forall c q t k pc s' pc', R c q -> th c t = Some pc -> istep (sh c) t pc k = Some (s', pc') ->
  exists q', R (Cfg s' (fupd t (Some pc') (th c))) q' /\
    ((q' = q /\ alpha pc' = alpha pc) \/ exists o r, alpha pc = APend o /\ alpha pc' = ADone r /\ spec q o r q').
Hypothesis R_ret : forall c q t pc r, R c q -> th c t = Some pc -> fin pc = Some r -> R (Cfg (sh c) (fupd t None (th c))) q /\ alpha pc = ADone r.

Definition aview (x : option Pc) : ast Op Rt := match x with Some pc => alpha pc | None => AIdle end.

Lemma sim_run xs : forall c q f c' H, R c q -> (forall t, f t = aview (th c t)) -> Forall okop (calls xs) -> run c xs = Some (c', H) ->
  exists q' f', atomic spec q f H q' f' /\ R c' q' /\ forall t, f' t = aview (th c' t).
Proof.
  induction xs as [|[t a] xs IH]; intros c q f c' H Hr Hf Hok; cbn [run].
  - intros [= <- <-]. exists q, f. split; [constructor|]. auto.
  - destruct (exec c (t, a)) as [[c1 e]|] eqn:Ex; [|discriminate]. destruct (run c1 xs) as [[c2 H2]|] eqn:Er; [|discriminate]. intros [= <- <-].
    cbn in Ex. destruct a as [o|k|].
    + inversion Hok as [|? ? Ho Hok']; subst. destruct (th c t) eqn:Et; [discriminate|]. injection Ex as <- <-.
      destruct (R_call c q t o Hr Ho Et) as [Hr1 Ea].
      edestruct (IH _ q (fupd t (APend o) f) c2 H2 Hr1) as (q' & f' & Ha & Hr' & Hf'); [|exact Hok'|exact Er|].
      { intros u. cbn [th]. unfold fupd. destruct (Nat.eqb u t); [cbn; rewrite Ea; reflexivity|apply Hf]. }
      exists q', f'. split; [|auto]. apply at_inv; [rewrite Hf, Et; reflexivity|exact Ha].
    + destruct (th c t) as [pc|] eqn:Et; [|discriminate]. destruct (istep (sh c) t pc k) as [[s' pc']|] eqn:Ei; [|discriminate]. injection Ex as <- <-.
      destruct (R_int c q t k pc s' pc' Hr Et Ei) as (q1 & Hr1 & Hcase). cbn [app].
      destruct Hcase as [[-> Ea]|(o & r & E1 & E2 & Hs)].
      * eapply (IH _ q f c2 H2 Hr1); [|exact Hok|exact Er]. intros u. cbn [th]. unfold fupd. destruct (Nat.eqb_spec u t) as [->|]; [|apply Hf].
        rewrite Hf, Et. cbn. congruence.
      * edestruct (IH _ q1 (fupd t (ADone r) f) c2 H2 Hr1) as (q' & f' & Ha & Hr' & Hf'); [|exact Hok|exact Er|].
        { intros u. cbn [th]. unfold fupd. destruct (Nat.eqb u t); [cbn; rewrite E2; reflexivity|apply Hf]. }
        exists q', f'. split; [|auto]. eapply at_eff; [rewrite Hf, Et; exact E1|exact Hs|exact Ha].
    + destruct (th c t) as [pc|] eqn:Et; [|discriminate]. destruct (fin pc) as [r|] eqn:Ef; [|discriminate]. injection Ex as <- <-.
      destruct (R_ret c q t pc r Hr Et Ef) as [Hr1 Ea].
      edestruct (IH _ q (fupd t AIdle f) c2 H2 Hr1) as (q' & f' & Ha & Hr' & Hf'); [|exact Hok|exact Er|].
      { intros u. cbn [th]. unfold fupd. destruct (Nat.eqb u t); [reflexivity|apply Hf]. }
      exists q', f'. split; [|auto]. apply at_ret; [rewrite Hf, Et; exact Ea|exact Ha].
Qed.

Lemma sim_lin s q xs c' H : R (init s) q -> Forall okop (calls xs) -> run (init s) xs = Some (c', H) -> linearizable spec q H.
Proof.
  intros Hr Hok Er. edestruct (sim_run xs _ q (fun _ => AIdle) c' H Hr) as (q' & f' & Ha & _); [|exact Hok|exact Er|]; [reflexivity|].
  exists q', f'. exact Ha.
Qed.
End simulation.

(** Linearizability by backward simulation: [B c q f] relates the machine to possible states of the atomic object. *)
Section backward.
Context {Q : Type}.
Variable spec : Q -> Op -> Rt -> Q -> Prop.
Variable okop : Op -> Prop.
Variable I : cfg -> Prop.
Variable B : cfg -> Q -> (nat -> ast Op Rt) -> Prop.

Definition back (c : cfg) (e : list (hev Op Rt)) (q' : Q) (f' : nat -> ast Op Rt) : Prop :=
  exists q f f1, B c q f /\ atomic spec q f e q' f1 /\ forall t, f1 t = f' t.

Hypothesis I_exec : forall c x c' e, I c -> (forall o, snd x = ACall o -> okop o) -> exec c x = Some (c', e) -> I c'.
Hypothesis B_call : forall c t o q' f', I c -> okop o -> th c t = None -> B (Cfg (sh c) (fupd t (Some (start o)) (th c))) q' f' -> back c [HInv t o] q' f'.
Hypothesis B_int : forall c t k pc s' pc' q' f', I c -> th c t = Some pc -> istep (sh c) t pc k = Some (s', pc') ->
  B (Cfg s' (fupd t (Some pc') (th c))) q' f' -> back c [] q' f'.
Hypothesis B_ret : forall c t pc r q' f', I c -> th c t = Some pc -> fin pc = Some r -> B (Cfg (sh c) (fupd t None (th c))) q' f' -> back c [HRet t r] q' f'.

Lemma bsim_run xs : forall c c' H, I c -> Forall okop (calls xs) -> run c xs = Some (c', H) -> I c' /\ forall q' f', B c' q' f' -> back c H q' f'.
Proof.
  induction xs as [|x xs IH]; intros c c' H Hi Hok; cbn [run].
  - intros [= <- <-]. split; [exact Hi|]. intros q' f' Hb. exists q', f', f'. split; [exact Hb|]. split; [constructor|reflexivity].
  - destruct (exec c x) as [[c1 e]|] eqn:Ex; [|discriminate]. destruct (run c1 xs) as [[c2 H2]|] eqn:Er; [|discriminate]. intros [= <- <-].
    assert (Hx : (forall o, snd x = ACall o -> okop o) /\ Forall okop (calls xs)).
    { unfold calls in *. cbn in Hok. destruct (snd x) as [o|k|]; cbn in Hok; [inversion Hok; subst; split; [intros o' [= <-]|]; auto|split; [discriminate|exact Hok]..]. }
    destruct Hx as [Hx Hok']. destruct (IH _ _ _ (I_exec _ _ _ _ Hi Hx Ex) Hok' Er) as [Hi' Hb']. split; [exact Hi'|].
    intros q' f' Hb. destruct (Hb' q' f' Hb) as (q1 & f1 & f2 & Hb1 & Ha & Hf).
    assert (Hk : back c e q1 f1).
    { destruct x as [t a]. cbn in Ex, Hx. destruct a as [o|k|].
      - destruct (th c t) eqn:Et; [discriminate|]. injection Ex as <- <-. eapply B_call; eauto.
      - destruct (th c t) as [pc|] eqn:Et; [|discriminate]. destruct (istep (sh c) t pc k) as [[s' pc']|] eqn:Ei; [|discriminate]. injection Ex as <- <-. eapply B_int; eauto.
      - destruct (th c t) as [pc|] eqn:Et; [|discriminate]. destruct (fin pc) as [r|] eqn:Ef; [|discriminate]. injection Ex as <- <-. eapply B_ret; eauto. }
    destruct Hk as (q & f & f3 & Hbc & Ha1 & Hf1). destruct (atomic_ext spec _ _ _ _ _ Ha f3) as (f4 & Ha2 & Hf4); [intros t; symmetry; apply Hf1|].
    exists q, f, f4. split; [exact Hbc|]. split; [eapply atomic_app; eassumption|]. intros t. rewrite <- Hf4. apply Hf.
Qed.
End backward.

End machine.
Arguments cfg : clear implicits. Arguments act : clear implicits.
Arguments ACall {Ch Op}. Arguments AInt {Ch Op}. Arguments ARet {Ch Op}.
