(** CircularBuffer and StackBuffer, calls left by bad_alloc included: which memory is left at the end of a program. *)
From stdpp Require Import gmap.
From Verif Require Import Base Heap CircModel BufMem Leak CircLeak StackLeak.
From Verif Require CircBufModel StackModel.

Section circular.
Import CircBufModel.
(** [P] holds of every call of the program when it is made *)
Fixpoint walong (P : gmap nat cbuf -> wop -> Prop) (w : world) (ps : list (bool * wop)) : Prop :=
  match ps with
  | [] => True
  | (ok, p) :: ps' => P (w_objs w) p /\ forall w' x, cbm_step ok w p = Ok (w', x) -> walong P w' ps'
  end.

(** To check it by computation *)
Fixpoint walongb (f : gmap nat cbuf -> wop -> bool) (w : world) (ps : list (bool * wop)) : bool :=
  match ps with
  | [] => true
  | (ok, p) :: ps' => f (w_objs w) p && match cbm_step ok w p with Ok (w', _) => walongb f w' ps' | _ => true end
  end.
Lemma walongb_sound (f : gmap nat cbuf -> wop -> bool) (P : gmap nat cbuf -> wop -> Prop) : (forall m p, f m p = true -> P m p) ->
  forall ps w, walongb f w ps = true -> walong P w ps.
Proof.
  intros H. induction ps as [|[ok p] ps IH]; intros w E; cbn in *; [exact I|]. apply andb_prop in E as [E1 E2]. split; [auto|].
  intros w' x E. rewrite E in E2. auto.
Qed.
Definition wfreshb (objs : gmap nat cbuf) (p : wop) : bool :=
  match p with WDefault o | WNew o _ | WCopy o _ | WMove o _ => match objs !! o with None => true | Some _ => false end | _ => true end.
Lemma wfreshb_sound objs p : wfreshb objs p = true -> wfresh objs p.
Proof. destruct p; cbn; auto; destruct (objs !! o); congruence. Qed.
Definition wnozerob (objs : gmap nat cbuf) (p : wop) : bool :=
  match p with
  | WNew _ n => negb (n =? 0)
  | WCopy _ src => match objs !! src with Some b => match b_data b with Some _ => negb (b_asize b =? 0) | None => true end | None => true end
  | _ => true
  end.
Lemma wnozerob_sound objs p : wnozerob objs p = true -> wnozero objs p.
Proof.
  destruct p; cbn; auto.
  - destruct (Z.eqb_spec n 0); [discriminate|auto].
  - intros H b E. rewrite E in H. destruct (b_data b); [|congruence]. destruct (Z.eqb_spec (b_asize b) 0); [discriminate|auto].
Qed.

Lemma cbm_step_linv (strict : Prop) ok w p w' x : (strict -> wnozero (w_objs w) p) -> wfresh (w_objs w) p ->
  linv b_data b_acap strict (w_heap w) (w_objs w) -> cbm_step ok w p = Ok (w', x) -> linv b_data b_acap strict (w_heap w') (w_objs w').
Proof.
  intros Hz Hf I E. pose proof (cbm_step_inv _ _ _ _ _ E) as H. destruct x as [y|]; [eapply wstep_linv; eauto|].
  destruct H as [-> [Ha| ->]]; [|assumption]. destruct p as [| | | |o src| | | |]; try contradiction. cbn [cbm_step] in E.
  apply obind_ok in E as (bd & E1 & E). apply wget_some in E1. apply obind_ok in E as (bs & E2 & E). apply obind_ok in E as ([[h b] bad] & E3 & [= <- E4]).
  destruct bad; [|discriminate]. unfold cbm_copy_assign in E3. apply obind_ok in E3 as ([[h1 b1] bad] & E5 & E3). destruct bad; [|apply obind_ok in E3 as (h2 & _ & [=])].
  injection E3 as <- <-. apply cbm_memory_inv in E5 as [(_ & _ & _ & -> & ->)|[[=] _]]. cbn.
  eapply linv_update; [exact I|right; eauto|]. eapply (tr_same b_data b_acap strict (w_heap w) _ (w_objs w) o bd); eauto.
Qed.
Lemma cbm_run_linv (strict : Prop) ps : forall w w' tr, (strict -> walong wnozero w ps) -> walong wfresh w ps ->
  linv b_data b_acap strict (w_heap w) (w_objs w) -> cbm_run w ps = Ok (w', tr) -> linv b_data b_acap strict (w_heap w') (w_objs w').
Proof.
  induction ps as [|[ok p] ps IH]; intros w w' tr Hz Hf I E; cbn [cbm_run walong] in *; [injection E as <- <-; assumption|].
  apply obind_ok in E as ([w1 x] & E & F). apply obind_ok in F as ([w2 tr2] & F & [= <- <-]).
  eapply IH; [| | |exact F]; [intros S; destruct (Hz S) as [_ H]; eauto|destruct Hf as [_ H]; eauto|]. eapply cbm_step_linv; [| |exact I|exact E]; [intros S; apply (Hz S)|apply Hf].
Qed.
End circular.

Section stack.
Import StackModel.
Fixpoint swalong (P : gmap nat sbuf -> swop -> Prop) (w : sworld) (ps : list (bool * swop)) : Prop :=
  match ps with
  | [] => True
  | (ok, p) :: ps' => P (s_objs w) p /\ forall w' x, sbm_step ok w p = Ok (w', x) -> swalong P w' ps'
  end.

(** To check it by computation *)
Fixpoint swalongb (f : gmap nat sbuf -> swop -> bool) (w : sworld) (ps : list (bool * swop)) : bool :=
  match ps with
  | [] => true
  | (ok, p) :: ps' => f (s_objs w) p && match sbm_step ok w p with Ok (w', _) => swalongb f w' ps' | _ => true end
  end.
Lemma swalongb_sound (f : gmap nat sbuf -> swop -> bool) (P : gmap nat sbuf -> swop -> Prop) : (forall m p, f m p = true -> P m p) ->
  forall ps w, swalongb f w ps = true -> swalong P w ps.
Proof.
  intros H. induction ps as [|[ok p] ps IH]; intros w E; cbn in *; [exact I|]. apply andb_prop in E as [E1 E2]. split; [auto|].
  intros w' x E. rewrite E in E2. auto.
Qed.
Definition swfreshb (objs : gmap nat sbuf) (p : swop) : bool :=
  match p with SDefault o | SNew o _ | SCopy o _ | SMove o _ => match objs !! o with None => true | Some _ => false end | _ => true end.
Lemma swfreshb_sound objs p : swfreshb objs p = true -> swfresh objs p.
Proof. destruct p; cbn; auto; destruct (objs !! o); congruence. Qed.

Lemma sbm_step_linv (strict : Prop) ok w p w' x : (strict -> swnozero p) -> swfresh (s_objs w) p ->
  linv b_data b_acap strict (s_heap w) (s_objs w) -> sbm_step ok w p = Ok (w', x) -> linv b_data b_acap strict (s_heap w') (s_objs w').
Proof.
  intros Hz Hf I E. pose proof (sbm_step_inv _ _ _ _ _ E) as H. destruct x as [y|]; [eapply swstep_linv; eauto|].
  destruct H as [-> [Ha| ->]]; [|assumption]. destruct p as [| | | |o src| | | | |]; try contradiction. cbn [sbm_step] in E.
  apply obind_ok in E as (bd & E1 & E). apply sget_some in E1. apply obind_ok in E as (bs & E2 & E). apply obind_ok in E as ([[h b] bad] & E3 & [= <- E4]).
  destruct bad; [|discriminate]. unfold sbm_copy_assign in E3. apply obind_ok in E3 as ([[h1 b1] bad] & E5 & E3). destruct bad; [|apply obind_ok in E3 as (h2 & _ & [=])].
  injection E3 as <- <-. apply sbm_memory_inv in E5 as [(_ & _ & _ & -> & ->)|[[=] _]]. cbn.
  eapply linv_update; [exact I|right; eauto|]. eapply (tr_same b_data b_acap strict (s_heap w) _ (s_objs w) o bd); eauto.
Qed.
Lemma sbm_run_linv (strict : Prop) ps : forall w w' tr, (strict -> Forall (fun '(_, p) => swnozero p) ps) -> swalong swfresh w ps ->
  linv b_data b_acap strict (s_heap w) (s_objs w) -> sbm_run w ps = Ok (w', tr) -> linv b_data b_acap strict (s_heap w') (s_objs w').
Proof.
  induction ps as [|[ok p] ps IH]; intros w w' tr Hz Hf I E; cbn [sbm_run swalong] in *; [injection E as <- <-; assumption|].
  apply obind_ok in E as ([w1 x] & E & F). apply obind_ok in F as ([w2 tr2] & F & [= <- <-]).
  eapply IH; [| | |exact F]; [intros S; specialize (Hz S); inversion Hz; assumption|destruct Hf as [_ H]; eauto|].
  eapply sbm_step_linv; [| |exact I|exact E]; [intros S; specialize (Hz S); inversion Hz; assumption|apply Hf].
Qed.
End stack.
