(** The blocking queues when something throws: copying or constructing an element, or growing a container, in push, emplace,
    pushPriority, emplacePriority and reserve; the callback of popOrCall.  Destructors of the locks then run, nothing is
    notified.  The containers are as before: push_back and emplace_back of std::vector and push of std::queue have the strong
    guarantee (for elements that can be copied, or moved without exceptions); reserve too.  Moving an element out does not
    throw. *)
From stdpp Require Import list.
From Verif Require Import Base Conc CondVar Herlihy Serial BqModel BqSpec BqInv BqLin BqMore BqWake BqFlag.

Section model.
Context {V : Type}.
Variable bp : bool.

(** [XU pc]: an exception is on its way; [pc] is what the thread is about to do *)
Inductive xpc := XP (pc : bqpc V) | XU (pc : bqpc V).
Inductive xch := XStep (k : cvc) | XThrow.

(** Where an exception may start, and the first destructor that then runs *)
Definition unwind (pc : bqpc V) : option (bqpc V) :=
  match pc with
  | P7 _ => Some (PB false)         (* [q 130, 167], [p 129, 191]: ~pullLock; the push lock is not held *)
  | PA _ => Some (PB true)          (* [q 133, 170], [p 133, 194]: ~pullLock, ~pushLock *)
  | PD _ | PH _ => Some PG          (* [q 139, 148, 177, 186], [p 138, 147, 200, 209]: ~pushLock *)
  | R3 _ | R6 _ => Some R8          (* [p 161, 166, 223, 228]: ~pullLock *)
  | V2 n => Some (V3 n)             (* [q 108-109], [p 107-108]: ~pushLock, ~pullLock *)
  | CB => Some (Ret BUnit)          (* [q 283], [p 356]: no lock is held *)
  | _ => None
  end.
(** ... of which after the thread has set queueEmptyFlag to false *)
Definition cleared (pc : bqpc V) : bool := match pc with P7 _ | PA _ | R3 _ => true | _ => false end.

(** With [late = false], pushes do not throw once they have set queueEmptyFlag to false. *)
Variable late : bool.

Definition x_start (o : bqop V) : xpc := XP (bq_start o).
Definition x_step (s : bqsh V) (t : nat) (x : xpc) (k : xch) : option (bqsh V * xpc) :=
  match k, x with
  | XStep k, XP pc => match bq_step bp s t pc k with Some (s', pc') => Some (s', XP pc') | None => None end
  | XStep k, XU pc => match bq_step bp s t pc k with Some (s', pc') => Some (s', XU pc') | None => None end
  | XThrow, XP pc => if cleared pc && negb late then None else match unwind pc with Some pc' => Some (s, XU pc') | None => None end
  | XThrow, XU _ => None
  end.
(** [None]: the operation threw *)
Definition x_fin (x : xpc) : option (option (bqret V)) :=
  match x with
  | XP pc => match bq_fin pc with Some r => Some (Some r) | None => None end
  | XU pc => match bq_fin pc with Some _ => Some None | None => None end
  end.

Definition x_run : cfg (bqsh V) xpc -> list (nat * act xch (bqop V)) -> option (cfg (bqsh V) xpc * list (hev (bqop V) (option (bqret V)))) := run x_start x_step x_fin.
Definition x_exec : cfg (bqsh V) xpc -> nat * act xch (bqop V) -> option (cfg (bqsh V) xpc * list (hev (bqop V) (option (bqret V)))) := exec x_start x_step x_fin.
End model.
Arguments xpc : clear implicits.

(** ** What it should do: an operation that throws does nothing else *)
Section spec.
Context {V : Type}.
Definition may_throw (o : bqop V) : Prop := match o with BPush _ | BEmplace _ | BPushPri _ | BEmplacePri _ | BReserve _ | BPopCall => True | _ => False end.
Definition x_spec (q : list V * list V) (o : bqop V) (r : option (bqret V)) (q' : list V * list V) : Prop :=
  match r with Some r => bq_spec q o r q' | None => may_throw o /\ q' = q end.
End spec.

Section proofs.
Context {V : Type}.
Notation bqcfg := (cfg (bqsh V) (bqpc V)).
Notation xcfg := (cfg (bqsh V) (xpc V)).
Notation bast := (ast (bqop V) (bqret V)).
Notation xast := (ast (bqop V) (option (bqret V))).
Implicit Types (s : bqsh V) (pc : bqpc V) (c : xcfg).

Definition pt (x : xpc V) : bqpc V := match x with XP pc | XU pc => pc end.
Definition is_up (x : xpc V) : bool := match x with XU _ => true | XP _ => false end.
(** The queue without exceptions *)
Definition er c : bqcfg := Cfg (sh c) (fun t => option_map pt (th c t)).
Definition up c (t : nat) : bool := match th c t with Some x => is_up x | None => false end.

Definition up_pc pc : Prop := match pc with PB _ | PC | PG | R8 | V3 _ | V4 _ | Ret BUnit => True | _ => False end.
Record xI bp c : Prop := { x_i : bqI bp (er c); x_up : forall t pc, th c t = Some (XU pc) -> up_pc pc }.

Lemma er_fupd s' t x c : forall u, th (er (Cfg s' (fupd t (Some x) (th c)))) u = fupd t (Some (pt x)) (th (er c)) u.
Proof. intros u. cbn. unfold fupd. destruct (Nat.eqb u t); reflexivity. Qed.
Lemma er_none t c : forall u, th (er (Cfg (sh c) (fupd t None (th c)))) u = fupd t None (th (er c)) u.
Proof. intros u. cbn. unfold fupd. destruct (Nat.eqb u t); reflexivity. Qed.

(** Invariants do not depend on the representation of the thread map. *)
Lemma lk_ext L (h : bqpc V -> bool) f g : (forall t, f t = g t) -> lk L h f -> lk L h g.
Proof. intros E Hl t. rewrite (Hl t), E. reflexivity. Qed.
Lemma bqI_ext bp s f g : (forall t, f t = g t) -> bqI bp (Cfg s f) -> bqI bp (Cfg s g).
Proof.
  intros E [H1 H2 H3 H4 H5]. split; cbn in *; try assumption.
  - eapply lk_ext; eassumption.
  - eapply lk_ext; eassumption.
  - intros t pc. rewrite <- E. apply H3.
  - intros t Ht. rewrite <- E. apply H4, Ht.
Qed.

Lemma up_step bp s t pc k s' pc' : bq_step bp s t pc k = Some (s', pc') -> up_pc pc -> up_pc pc'.
Proof.
  intros Es Hu. destruct pc; cbn in Hu; try contradiction; destruct k; cbn in Es; try discriminate; injection Es as <- <-; try exact I. destruct b; exact I.
Qed.
Lemma unwind_up pc pc' : unwind pc = Some pc' -> up_pc pc'.
Proof. destruct pc; cbn; try discriminate; intros [= <-]; exact I. Qed.

Ltac usplit pc E := destruct pc; cbn [unwind] in E; try discriminate E; injection E as <-.

Lemma bqI_throw bp (c : bqcfg) t pc pc' : bqI bp c -> th c t = Some pc -> unwind pc = Some pc' -> bqI bp (Cfg (sh c) (fupd t (Some pc') (th c))).
Proof.
  intros [H1 H2 H3 H4 H5] Et Eu. split; cbn [sh th].
  - eapply lk_keep; [exact H1|exact Et|]. usplit pc Eu; reflexivity.
  - eapply lk_keep; [exact H2|exact Et|]. usplit pc Eu; reflexivity.
  - intros u x Ex. unfold fupd in Ex. destruct (Nat.eqb_spec u t) as [->|]; [|exact (H3 _ _ Ex)]. injection Ex as <-. destruct (H3 _ _ Et) as [_ Ho].
    usplit pc Eu; cbn in *; auto; destruct o; cbn in Ho; tauto.
  - intros u Hu. destruct (H4 u Hu) as [m E]. exists m. rewrite fupd_other; [exact E|]. intros ->. usplit pc Eu; congruence.
  - exact H5.
Qed.

(** Every step is one of the queue without exceptions, or the start of an exception. *)
Lemma x_cases bp late s t x k s' x' : x_step bp late s t x k = Some (s', x') ->
  (exists k0, k = XStep k0 /\ bq_step bp s t (pt x) k0 = Some (s', pt x') /\ is_up x' = is_up x) \/
  (exists pc pc', k = XThrow /\ x = XP pc /\ x' = XU pc' /\ unwind pc = Some pc' /\ s' = s /\ (late = false -> cleared pc = false)).
Proof.
  destruct k as [k|], x as [pc|pc]; cbn [x_step]; try discriminate.
  - destruct (bq_step bp s t pc k) as [[s1 pc1]|] eqn:E; [|discriminate]. intros [= <- <-]. left. eauto.
  - destruct (bq_step bp s t pc k) as [[s1 pc1]|] eqn:E; [|discriminate]. intros [= <- <-]. left. eauto.
  - destruct (cleared pc && negb late) eqn:Ec; [discriminate|]. destruct (unwind pc) as [pc'|] eqn:E; [|discriminate]. intros [= <- <-]. right. exists pc, pc'.
    splits; auto. intros ->. rewrite andb_true_r in Ec. exact Ec.
Qed.
Lemma x_ret x r : x_fin x = Some r -> exists r0, bq_fin (pt x) = Some r0 /\ r = if is_up x then None else Some r0.
Proof. destruct x as [pc|pc]; cbn; destruct (bq_fin pc) as [r0|]; try discriminate; intros [= <-]; eauto. Qed.

Lemma xI_init bp s : rest bp s -> xI bp (init s).
Proof. intros Hs. split; [apply bqI_init in Hs; exact Hs|discriminate]. Qed.
Lemma xI_call bp c t o : xI bp c -> has_op bp o -> th c t = None -> xI bp (Cfg (sh c) (fupd t (Some (x_start o)) (th c))).
Proof.
  intros [Hi Hu] Ho Et. split.
  - eapply bqI_ext; [intros u; symmetry; apply er_fupd|]. apply (bqI_call bp (er c) t o Hi Ho). cbn. rewrite Et. reflexivity.
  - intros u pc Eu. cbn in Eu. unfold fupd in Eu. destruct (Nat.eqb u t); [discriminate|eauto].
Qed.
Lemma xI_int bp late c t k x s' x' : xI bp c -> th c t = Some x -> x_step bp late (sh c) t x k = Some (s', x') -> xI bp (Cfg s' (fupd t (Some x') (th c))).
Proof.
  intros [Hi Hu] Et Es. assert (Et' : th (er c) t = Some (pt x)) by (cbn; rewrite Et; reflexivity).
  destruct (x_cases _ _ _ _ _ _ _ _ Es) as [(k0 & -> & Eb & Ei)|(pc & pc' & -> & -> & -> & Ew & -> & _)].
  - split.
    + eapply bqI_ext; [intros u; symmetry; apply er_fupd|]. eapply (bqI_int bp (er c)); eassumption.
    + intros u pc Eu. cbn in Eu. unfold fupd in Eu. destruct (Nat.eqb u t); [|eauto]. injection Eu as ->. destruct x as [p|p]; [discriminate|].
      eapply up_step; [exact Eb|]. apply (Hu _ _ Et).
  - split.
    + eapply bqI_ext; [intros u; symmetry; apply er_fupd|]. eapply (bqI_throw bp (er c)); eassumption.
    + intros u p Eu. cbn in Eu. unfold fupd in Eu. destruct (Nat.eqb u t); [|eauto]. injection Eu as <-. eapply unwind_up, Ew.
Qed.
Lemma xI_ret bp c t x r : xI bp c -> th c t = Some x -> x_fin x = Some r -> xI bp (Cfg (sh c) (fupd t None (th c))).
Proof.
  intros [Hi Hu] Et Ef. apply x_ret in Ef as (r0 & Ef & _). split.
  - eapply bqI_ext; [intros u; symmetry; apply er_none|]. eapply (bqI_ret bp (er c)); [exact Hi| |exact Ef]. cbn. rewrite Et. reflexivity.
  - intros u p Eu. cbn in Eu. unfold fupd in Eu. destruct (Nat.eqb u t); [discriminate|eauto].
Qed.
Lemma xI_exec bp late c x c' e : xI bp c -> (forall o, snd x = ACall o -> has_op bp o) -> x_exec bp late c x = Some (c', e) -> xI bp c'.
Proof. apply inv_exec; eauto using xI_call, xI_int, xI_ret. Qed.
Lemma xI_run bp late xs c c' H : xI bp c -> Forall (has_op bp) (calls xs) -> x_run bp late c xs = Some (c', H) -> xI bp c'.
Proof. apply inv_run; eauto using xI_call, xI_int, xI_ret. Qed.

(** ** Backward simulation *)
Definition up_ast (a : bast) : xast := match a with AIdle => AIdle | APend o => APend o | ADone r => ADone (Some r) end.
Definition xf (T : nat -> bool) (f : nat -> bast) (t : nat) : xast := if T t then ADone None else up_ast (f t).
Definition xB c (q : list V * list V) (f : nat -> xast) : Prop := exists f0, bqB (er c) q f0 /\ forall t, f t = xf (up c) f0 t.

Lemma bqB_ext s f g q h : (forall t, f t = g t) -> bqB (Cfg s f) q h -> bqB (Cfg s g) q h.
Proof.
  intros E [l [Hnd Hin Hne Hq Hf]]. cbn [sh th] in *.
  assert (Ek : ckind (Cfg s g) = ckind (Cfg s f)) by (unfold ckind; cbn; destruct (pullL s); cbn; rewrite ?E; reflexivity).
  assert (Eg : gvals g l = gvals f l). { unfold gvals. apply flat_map_ext. intros u. unfold gv. rewrite E. reflexivity. }
  exists l. split; cbn [sh th]; auto.
  - intros u Hu. rewrite <- E. auto.
  - rewrite Ek. exact Hne.
  - rewrite Ek, Eg. exact Hq.
  - intros u. rewrite Hf. unfold bview. rewrite E. reflexivity.
Qed.
Lemma bqB_fun (c : bqcfg) q f g : (forall t, f t = g t) -> bqB c q f -> bqB c q g.
Proof. intros E [l [Hnd Hin Hne Hq Hf]]. exists l. split; auto. intros u. rewrite <- E. apply Hf. Qed.

Lemma lift_atomic T q (f : nat -> bast) H q' f' : atomic bq_spec q f H q' f' -> H = [] -> (forall t o, T t = true -> f t <> APend o) ->
  exists g, atomic x_spec q (xf T f) [] q' g /\ forall t, g t = xf T f' t.
Proof.
  induction 1 as [q f|q f t o H q' f' E _ IH|q f t o r q1 H q' f' E Hs _ IH|q f t r H q' f' E _ IH]; intros EH HT; try discriminate.
  - exists (xf T f). split; [constructor|reflexivity].
  - assert (Ht : T t = false) by (destruct (T t) eqn:Et; [destruct (HT t o Et E)|reflexivity]).
    destruct (IH EH) as (g & Ha & Hg).
    { intros u o' Hu. unfold fupd. destruct (Nat.eqb_spec u t) as [->|]; [discriminate|auto]. }
    destruct (atomic_ext _ _ _ _ _ _ Ha (fupd t (ADone (Some r)) (xf T f))) as (g' & Ha' & Hg').
    { intros u. unfold xf, fupd. destruct (Nat.eqb_spec u t) as [->|]; [rewrite Ht; reflexivity|reflexivity]. }
    exists g'. split; [|intros u; rewrite <- Hg'; apply Hg]. eapply at_eff; [|exact (Hs : x_spec q o (Some r) q1)|exact Ha']. unfold xf. rewrite Ht, E. reflexivity.
Qed.

Lemma up_alpha pc : up_pc pc -> alpha pc = ADone BUnit /\ reg pc = None.
Proof. destruct pc; cbn; try contradiction; auto. destruct r; try contradiction; auto. Qed.
Lemma up_not_pend bp c q f : xI bp c -> bqB (er c) q f -> forall t o, up c t = true -> f t <> APend o.
Proof.
  intros [_ Hu] [g [Hnd Hin Hne Hq Hf]] t o Ht E. unfold up in Ht. destruct (th c t) as [[pc|pc]|] eqn:Et; try discriminate.
  destruct (up_alpha _ (Hu _ _ Et)) as [Ha _]. rewrite Hf in E. unfold bview in E. destruct (inb t g); [discriminate|]. cbn in E. rewrite Et in E. cbn in E. congruence.
Qed.

Lemma up_fupd s' t x c : is_up x = up c t -> forall u, up (Cfg s' (fupd t (Some x) (th c))) u = up c u.
Proof. intros E u. unfold up at 1. cbn. unfold fupd. destruct (Nat.eqb_spec u t) as [->|]; [exact E|reflexivity]. Qed.

Notation xback := (back x_spec xB).

Lemma xB_int bp late c t k x s' x' q' f' : xI bp c -> th c t = Some x -> x_step bp late (sh c) t x k = Some (s', x') ->
  xB (Cfg s' (fupd t (Some x') (th c))) q' f' -> xback c [] q' f'.
Proof.
  intros Hi Et Es (f0 & HB & Hf). assert (Et' : th (er c) t = Some (pt x)) by (cbn; rewrite Et; reflexivity).
  apply (bqB_ext _ _ (fupd t (Some (pt x')) (th (er c)))) in HB; [|apply er_fupd]. cbn [sh] in HB.
  destruct (x_cases _ _ _ _ _ _ _ _ Es) as [(k0 & -> & Eb & Ei)|(pc & pc' & -> & -> & -> & Ew & -> & _)].
  - destruct (bqB_int bp (er c) t k0 (pt x) s' (pt x') q' f0 (x_i _ _ Hi) Et' Eb HB) as (q & f & f1 & HB1 & Ha & Hf1).
    destruct (lift_atomic (up c) _ _ _ _ _ Ha eq_refl (up_not_pend _ _ _ _ Hi HB1)) as (g & Hg & Eg).
    exists q, (xf (up c) f), g. split; [exists f; split; [exact HB1|reflexivity]|]. split; [exact Hg|].
    intros u. rewrite Eg, Hf. unfold xf. rewrite up_fupd by (unfold up; rewrite Et; exact Ei). rewrite Hf1. reflexivity.
  - cbn [pt] in *. destruct HB as [g [Hnd Hin Hne Hq Hf0]]. cbn [sh th] in *.
    assert (Hx : reg pc' = None /\ exists o, alpha pc = APend o /\ may_throw o /\ pkind pc = KRev /\ pkind pc' = KRev).
    { destruct (i_pc _ _ (x_i _ _ Hi) _ _ Et') as [_ Ho]. destruct pc; cbn in Ew; try discriminate; injection Ew as <-; (split; [reflexivity|]); eexists; (split; [reflexivity|]); cbn; auto;
        destruct o; cbn in Ho; try contradiction; cbn; auto. }
    destruct Hx as (Hr & o & Ea & Hmt & K1 & K2).
    assert (Hg : ~ In t g). { intros Hg. destruct (Hin t Hg) as (y & o' & E & Ho'). rewrite fupd_same in E. congruence. }
    assert (Ein : inb t g = false) by (apply inb_false; exact Hg).
    assert (Hgv : gvals (fupd t (Some pc') (th (er c))) g = gvals (th (er c)) g) by (apply gvals_fupd; assumption).
    assert (Hk : ckind (Cfg (sh c) (fupd t (Some pc') (th (er c)))) = ckind (er c)).
    { unfold ckind. cbn [sh th]. change (sh (er c)) with (sh c). destruct (pullL (sh c)) as [u|]; [|reflexivity]. cbn [holder]. unfold fupd. destruct (Nat.eqb_spec u t) as [->|]; [|reflexivity].
      rewrite Et'. cbn. congruence. }
    rewrite Hk, Hgv in *.
    assert (HB : bqB (er c) q' (bview (th (er c)) g)).
    { exists g. split; auto. intros u Hu. destruct (Hin u Hu) as (y & o' & E & Ho'). rewrite fupd_other in E by congruence. eauto. }
    assert (Hup : up c t = false) by (unfold up; rewrite Et; reflexivity).
    exists q', (xf (up c) (bview (th (er c)) g)), (fupd t (ADone None) (xf (up c) (bview (th (er c)) g))). split; [eexists; split; [exact HB|reflexivity]|]. split.
    + eapply (at_eff _ _ _ t o None); [|split; [exact Hmt|reflexivity]|constructor]. unfold xf. rewrite Hup. unfold bview. rewrite Ein, Et'. cbn [aview]. rewrite Ea. reflexivity.
    + intros u. rewrite Hf. unfold xf, fupd, up at 2. cbn. unfold fupd. destruct (Nat.eqb_spec u t) as [->|]; [reflexivity|]. fold (up c u). destruct (up c u); [reflexivity|].
      rewrite Hf0. unfold bview. destruct (inb u g); [reflexivity|]. rewrite fupd_other by assumption. reflexivity.
Qed.

Lemma xB_call bp c t o q' f' : xI bp c -> has_op bp o -> th c t = None -> xB (Cfg (sh c) (fupd t (Some (x_start o)) (th c))) q' f' -> xback c [HInv t o] q' f'.
Proof.
  intros Hi Hop Et (f0 & HB & Hf). assert (Et' : th (er c) t = None) by (cbn; rewrite Et; reflexivity).
  apply (bqB_ext _ _ (fupd t (Some (bq_start o)) (th (er c)))) in HB; [|apply er_fupd]. cbn [sh] in HB. destruct HB as [g [Hnd Hin Hne Hq Hf0]]. cbn [sh th] in *.
  destruct (reg_start o) as (Hr & Ha & Hh).
  assert (Hg : ~ In t g). { intros Hg. destruct (Hin t Hg) as (y & o' & E & Ho'). rewrite fupd_same in E. congruence. }
  assert (Ei : inb t g = false) by (apply inb_false; exact Hg).
  assert (Hgv : gvals (fupd t (Some (bq_start o)) (th (er c))) g = gvals (th (er c)) g) by (apply gvals_fupd; assumption).
  assert (Hk : ckind (Cfg (sh c) (fupd t (Some (bq_start o)) (th (er c)))) = ckind (er c)).
  { unfold ckind. cbn [sh]. change (sh (er c)) with (sh c). cbn [th]. rewrite holder_other; [reflexivity|]. intros E. apply (i_pull _ _ (x_i _ _ Hi)) in E as (y & E & _). congruence. }
  rewrite Hk, Hgv in *. assert (HB : bqB (er c) q' (bview (th (er c)) g)).
  { exists g. split; auto. intros u Hu. destruct (Hin u Hu) as (y & o' & E & Ho'). rewrite fupd_other in E by congruence. eauto. }
  assert (Hup : up c t = false) by (unfold up; rewrite Et; reflexivity).
  exists q', (xf (up c) (bview (th (er c)) g)), (fupd t (APend o) (xf (up c) (bview (th (er c)) g))). split; [eexists; split; [exact HB|reflexivity]|]. split.
  - apply at_inv; [|constructor]. unfold xf. rewrite Hup. unfold bview. rewrite Ei, Et'. reflexivity.
  - intros u. rewrite Hf. unfold xf. rewrite up_fupd by (rewrite Hup; reflexivity). unfold fupd. destruct (Nat.eqb_spec u t) as [->|].
    + rewrite Hup, Hf0. unfold bview. rewrite Ei, fupd_same. cbn [aview]. rewrite Ha. reflexivity.
    + rewrite Hf0. unfold bview. rewrite fupd_other by assumption. reflexivity.
Qed.

Lemma xB_ret bp c t x r q' f' : xI bp c -> th c t = Some x -> x_fin x = Some r -> xB (Cfg (sh c) (fupd t None (th c))) q' f' -> xback c [HRet t r] q' f'.
Proof.
  intros Hi Et Ef (f0 & HB & Hf). assert (Et' : th (er c) t = Some (pt x)) by (cbn; rewrite Et; reflexivity).
  apply (bqB_ext _ _ (fupd t None (th (er c)))) in HB; [|apply er_none]. cbn [sh] in HB. destruct HB as [g [Hnd Hin Hne Hq Hf0]]. cbn [sh th] in *.
  apply x_ret in Ef as (r0 & Ef & ->). assert (Ep : pt x = Ret r0) by (destruct (pt x); try discriminate; injection Ef as ->; reflexivity).
  assert (Hg : ~ In t g). { intros Hg. destruct (Hin t Hg) as (y & o' & E & Ho'). rewrite fupd_same in E. congruence. }
  assert (Ei : inb t g = false) by (apply inb_false; exact Hg).
  assert (Hgv : gvals (fupd t None (th (er c))) g = gvals (th (er c)) g) by (apply gvals_fupd; assumption).
  assert (Hk : ckind (Cfg (sh c) (fupd t None (th (er c)))) = ckind (er c)).
  { unfold ckind. cbn [sh]. change (sh (er c)) with (sh c). cbn [th]. rewrite holder_other; [reflexivity|]. intros E. apply (i_pull _ _ (x_i _ _ Hi)) in E as (y & E & Hy).
    rewrite Et', Ep in E. injection E as <-. discriminate. }
  rewrite Hk, Hgv in *. assert (HB : bqB (er c) q' (bview (th (er c)) g)).
  { exists g. split; auto. intros u Hu. destruct (Hin u Hu) as (y & o' & E & Ho'). rewrite fupd_other in E by congruence. eauto. }
  exists q', (xf (up c) (bview (th (er c)) g)), (fupd t AIdle (xf (up c) (bview (th (er c)) g))). split; [eexists; split; [exact HB|reflexivity]|]. split.
  - apply at_ret; [|constructor]. unfold xf, up. rewrite Et. destruct (is_up x); [reflexivity|]. unfold bview. rewrite Ei, Et', Ep. reflexivity.
  - intros u. rewrite Hf. unfold xf, fupd, up at 2. cbn. unfold fupd. destruct (Nat.eqb_spec u t) as [->|].
    + rewrite Hf0. unfold bview. rewrite Ei, fupd_same. reflexivity.
    + fold (up c u). rewrite Hf0. unfold bview. rewrite fupd_other by assumption. reflexivity.
Qed.

Definition x_held c : list V * list V := held (er c).

Lemma x_atomic bp late s xs c H : rest bp s -> Forall (has_op bp) (calls xs) -> x_run bp late (init s) xs = Some (c, H) ->
  xI bp c /\ exists f, atomic x_spec (prioE s, rev (pullE s) ++ pushE s) (fun _ => AIdle) H (x_held c) f /\ forall t, th c t = None -> f t = AIdle.
Proof.
  intros Hs Hok Hr.
  destruct (bsim_run (@x_start V) (x_step bp late) x_fin x_spec (has_op bp) (xI bp) xB) with (xs := xs) (c := @init (bqsh V) (xpc V) s) (c' := c) (H := H) as [Hi Hb]; auto.
  - intros c0 x c1 e. apply xI_exec.
  - apply xB_call.
  - apply xB_int.
  - apply xB_ret.
  - apply xI_init, Hs.
  - split; [exact Hi|]. destruct (Hb (x_held c) (xf (up c) (aview alpha ∘ th (er c)))) as (q & f & f1 & HB & Ha & Hf).
    { exists (aview alpha ∘ th (er c)). split; [|reflexivity]. exists []. split; [constructor|intros u []|congruence|reflexivity|reflexivity]. }
    destruct HB as (f2 & [g [Hnd Hin Hne Hq Hfv]] & Hf2). assert (g = []). { destruct g as [|u g]; [reflexivity|]. destruct (Hin u (or_introl eq_refl)) as (x & o & E & _). discriminate. }
    subst g q. destruct (atomic_ext x_spec _ _ _ _ _ Ha (fun _ => AIdle)) as (f' & Ha' & Hf').
    { intros u. rewrite Hf2. unfold xf. cbn. rewrite Hfv. reflexivity. }
    exists f'. split.
    + replace (prioE s, rev (pullE s) ++ pushE s) with (absd (ckind (er (@init (bqsh V) (xpc V) s))) (sh (er (@init (bqsh V) (xpc V) s))) (gvals (th (er (@init (bqsh V) (xpc V) s))) [])); [exact Ha'|].
      unfold ckind. cbn. destruct Hs as (_ & E & _). rewrite E. reflexivity.
    + intros t Et. rewrite <- Hf', Hf. unfold xf, up. cbn. rewrite Et. reflexivity.
Qed.
End proofs.
