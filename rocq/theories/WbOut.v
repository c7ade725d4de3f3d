(** What getReturnVal gives back when works can throw: WorkBlock [WorkQueue.hpp 95] and WorkBlock<void> [176]. *)
From stdpp Require Import list.
From Verif Require Import Base Conc WbModel.
Local Open Scope nat_scope.

Section out.
Variable raises : nat -> bool.        (* the work leaves by an exception, which packaged_task stores in the future *)

(** [GValue f]: the value of work [f]; [GDone]: returns (void); [GRethrows f]: the exception of work [f]; [GBroken]:
    std::future_error (broken_promise); [GUndef]: the future has no state, which is undefined. *)
Inductive gout := GBlocks | GValue (f : nat) | GDone | GRethrows (f : nat) | GBroken | GUndef.

(** std::shared_future::get() returns the value or throws what is stored *)
Definition fut_get (r : wbout) : gout :=
  match r with Value f => if raises f then GRethrows f else GValue f | Broken => GBroken | Blocks => GBlocks | _ => GUndef end.
(** std::shared_future::wait() only waits *)
Definition fut_wait (r : wbout) : gout :=
  match r with Value _ | Broken => GDone | Blocks => GBlocks | _ => GUndef end.

(** getReturnVal of block [b]: [return future_ret.get()] at line 95, [future_ret.wait()] at line 176 *)
Definition wb_get (void : bool) (W : world) (b : nat) : option gout :=
  match bl W b with
  | None => None
  | Some w => Some (if void then fut_wait (look (st W) (fut w)) else fut_get (look (st W) (fut w)))
  end.
End out.

(** Results in the store are those of works that were run. *)
Definition honest (S : store) (l : list nat) : Prop := Forall (fun x => match fstat_ x with FDone f => f ∈ l | _ => True end) S.

Lemma hon_at S l i f : honest S l -> fstat_ (at_ S i) = FDone f -> f ∈ l.
Proof.
  intros H E. unfold at_ in E. destruct (nth_in_or_default i S (FS 0 FBroken true)) as [Hi|Hi]; [|rewrite Hi in E; discriminate].
  unfold honest in H. rewrite List.Forall_forall in H. specialize (H _ Hi). rewrite E in H. exact H.
Qed.
Lemma hon_set S l i x : honest S l -> (forall f, fstat_ x = FDone f -> f ∈ l) -> honest (set_at S i x) l.
Proof. intros H Hx. apply Forall_insert; [exact H|]. destruct (fstat_ x) eqn:E; auto. Qed.
Lemma hon_more S l l' : honest S l -> honest S (l ++ l').
Proof. intros H. eapply Forall_impl; [exact H|]. intros x Hx. cbn in *. destruct (fstat_ x); auto. apply elem_of_app. left. exact Hx. Qed.
Lemma hon_abandon S l t : honest S l -> honest (abandon S t) l.
Proof. intros H. unfold abandon. destruct t; [|exact H]. destruct (fstat_ (at_ S n)) eqn:E; try exact H. apply hon_set; [exact H|]. discriminate. Qed.
Lemma hon_new S l f S' t : honest S l -> pt_new S f = (S', t) -> honest S' l.
Proof. intros H [= <- <-]. apply Forall_app. split; [exact H|]. repeat constructor. Qed.
Lemma hon_future S l t S' i e : honest S l -> pt_future S t = (S', i, e) -> honest S' l.
Proof.
  intros H. unfold pt_future. destruct t as [j|]; [|intros [= <- <- <-]; exact H]. destruct (taken (at_ S j)); intros [= <- <- <-]; [exact H|].
  apply hon_set; [exact H|]. intros f Hf. eapply hon_at; [exact H|exact Hf].
Qed.
Lemma hon_preset S l t S' t' e : honest S l -> pt_reset S t = (S', t', e) -> honest S' l.
Proof.
  intros H. unfold pt_reset. destruct t as [j|]; [|intros [= <- <- <-]; exact H]. destruct (pt_new S (fwork (at_ S j))) as [S1 t1] eqn:E. intros [= <- <- <-].
  apply (hon_abandon _ _ (Some j)). eapply hon_new; eassumption.
Qed.
Lemma hon_call S l t S' r e : honest S l -> pt_call S t = (S', r, e) -> honest S' (l ++ match r with Some f => [f] | None => [] end).
Proof.
  intros H. unfold pt_call. destruct t as [j|]; [|intros [= <- <- <-]; apply hon_more; exact H].
  destruct (fstat_ (at_ S j)) eqn:E; intros [= <- <- <-]; try (apply hon_more; exact H).
  apply hon_set; [apply hon_more; exact H|]. intros f [= <-]. apply elem_of_app. right. left.
Qed.
Lemma hon_reset S l w S' w' e : honest S l -> wb_reset S w = (S', w', e) -> honest S' l.
Proof.
  intros H. unfold wb_reset. destruct (if loaded w then pt_reset S (tk w) else (S, tk w, None)) as [[S1 t1] e1] eqn:E1.
  assert (H1 : honest S1 l) by (destruct (loaded w); [eapply hon_preset; eassumption|injection E1 as <- <- <-; exact H]).
  destruct e1; [intros [= <- <- <-]; exact H|]. destruct (pt_future S1 t1) as [[S2 f2] e2] eqn:E2. pose proof (hon_future _ _ _ _ _ _ H1 E2).
  destruct e2; intros [= <- <- <-]; assumption.
Qed.
Lemma hon_update S l w t S' w' e : honest S l -> wb_update S w t = (S', w', e) -> honest S' l.
Proof.
  intros H. unfold wb_update. destruct (wb_reset _ _) as [[S1 w1] e1] eqn:E. pose proof (hon_reset _ _ _ _ _ _ (hon_abandon _ _ _ H) E).
  destruct e1; intros [= <- <- <-]; assumption.
Qed.
Lemma hon_execute S l w S' w' r e : honest S l -> wb_execute S w = (S', w', r, e) -> honest S' (l ++ match r with Some f => [f] | None => [] end).
Proof.
  intros H. unfold wb_execute. destruct (finished w); [intros [= <- <- <- <-]; apply hon_more; exact H|].
  destruct (loaded w); [|intros [= <- <- <- <-]; apply hon_more; exact H].
  destruct (pt_call S (tk w)) as [[S1 r1] e1] eqn:E. pose proof (hon_call _ _ _ _ _ _ H E). destruct e1; intros [= <- <- <- <-]; assumption.
Qed.
Lemma hon_construct W S U b t ld mem W' r : honest S (ran W) -> construct W S U b t ld mem = (W', r) -> honest (st W') (ran W').
Proof.
  intros H. unfold construct. destruct (wb_reset _ _) as [[S1 w1] e1] eqn:E. pose proof (hon_reset _ _ _ _ _ _ H E).
  destruct e1; intros [= <- <-]; cbn; [apply hon_abandon|]; assumption.
Qed.

Lemma hon_step mem W o W' r : honest (st W) (ran W) -> wb_step mem W o = Some (W', r) -> honest (st W') (ran W').
Proof.
  intros H E. destruct o; cbn [wb_step] in E;
    repeat match type of E with
    | match ?x with Some _ => _ | None => _ end = _ => destruct x eqn:?; try discriminate E
    | (if ?x then _ else _) = _ => destruct x eqn:?; try discriminate E
    end;
    try (injection E as E; eapply hon_construct; [|exact E]; exact H);
    try (destruct (pt_new (st W) _) as [S1 t1] eqn:En);
    try (injection E as E; eapply hon_construct; [|exact E]; eapply hon_new; eassumption);
    try (destruct (wb_execute _ _) as [[[S2 w2] r2] e2] eqn:Ee);
    try (destruct (wb_reset _ _) as [[S2 w2] e2] eqn:Ee);
    try (destruct (wb_update _ _ _) as [[S2 w2] e2] eqn:Ee);
    try (destruct (pt_future _ _) as [[S2 i2] e2] eqn:Ee);
    try (destruct (pt_call _ _) as [[S2 i2] e2] eqn:Ee);
    injection E as <- <-; cbn [st ran put log];
    first [exact H|apply hon_abandon; exact H|apply hon_abandon; eapply hon_new; eassumption|eapply hon_future; eassumption|eapply hon_call; eassumption
      |eapply hon_reset; eassumption|eapply hon_execute; eassumption|eapply hon_update; [|exact Ee]; first [exact H|eapply hon_new; eassumption]].
Qed.
Lemma hon_run mem os : forall W W' rs, honest (st W) (ran W) -> wb_run mem W os = Some (W', rs) -> honest (st W') (ran W').
Proof.
  induction os as [|o os IH]; intros W W' rs H E; cbn [wb_run] in E; [injection E as <- <-; exact H|].
  destruct (wb_step mem W o) as [[W1 r]|] eqn:E1; [|discriminate]. destruct (wb_run mem W1 os) as [[W2 rs2]|] eqn:E2; [|discriminate]. injection E as <- <-.
  eapply IH; [|exact E2]. eapply hon_step; eassumption.
Qed.
