(** WorkQueue: which blocks are turned down, when blocks are thrown away, and execution without workers *)
From stdpp Require Import list.
From Verif Require Import Base Conc CondVar Herlihy SqModel SqSpec SqProofs WqModel WqProofs WqCount.
Local Open Scope nat_scope.

(* all cases of a step *)
Ltac wq_cases Es :=
  unfold lock_q, hand in Es;
  repeat match type of Es with
  | context [match ?x with Some _ => _ | None => _ end] => is_var x; destruct x
  | context [match qlock ?s with _ => _ end] => destruct (qlock s) eqn:?
  | context [sq_step ?a ?b ?c ?d] => let q := fresh "q'" in let p := fresh "p'" in destruct (sq_step a b c d) as [[q p]|] eqn:?
  | context [notify1 ?a ?b] => destruct (notify1 a b) eqn:?
  | context [inb ?a ?b] => destruct (inb a b) eqn:?
  | context [Nat.ltb ?a ?b] => destruct (Nat.ltb a b) eqn:?
  | context [bfin ?s ?b] => destruct (bfin s b) eqn:?
  | context [match ?l with [] => _ | _ :: _ => _ end] => destruct l
  | context [match ?x with BNull => _ | BWork _ => _ end] => destruct x
  | context [match ?p with PMed => _ | PLow => _ | PHigh => _ | PReq => _ end] => destruct p
  | context [is_fin ?s ?y] => destruct (is_fin s y) eqn:?
  end; try discriminate.

Ltac wq_resume Er := cbn [resume] in Er;
  match type of Er with context [match ?r with QUnit => _ | _ => _ end] => destruct r as [|?v|?m|?bb] | _ => idtac end; try discriminate;
  try match type of Er with context [match ?v with Some _ => _ | None => _ end] => is_var v; destruct v end; inj Er; unfold hand.

Section wq.
Variable nw : nat.
Notation wqcfg := (cfg wqsh wqpc).
Implicit Types (s : wqsh) (pc : wqpc) (c : wqcfg) (H : list (hev wqop wqret)).

Lemma resume_data s t i r k s' pc' : resume nw s t i r k = Some (s', pc') ->
  halt s' = halt s /\ bfin s' = bfin s /\ ran s' = ran s /\ ign s' = ign s /\ dropped s' = dropped s /\ qlock s' = qlock s /\ waits s' = waits s /\ gone s' = gone s /\ joined s' = joined s.
Proof. intros Er. destruct k; wq_resume Er; repeat split. Qed.

Lemma resume_x2 s t i r k s' pc' : resume nw s t i r k = Some (s', pc') -> match pc' with X2 _ _ => False | _ => True end.
Proof.
  intros Er. destruct k; wq_resume Er; try exact I; try (destruct g; exact I).
  - destruct few; [exact I|]. destruct a as [|[|]]; exact I.
  - destruct bb; [destruct (nextq i); [|destruct e]|destruct e]; exact I.
  - destruct (nextq i); exact I.
  - destruct bb; exact I.
  - destruct (nextq i); exact I.
Qed.

Definition kclr pc : Prop := match pc with Sub _ _ KClr => True | _ => False end.

(** What a step changes *)
Lemma step_data s t pc k s' pc' : wq_step nw s t pc k = Some (s', pc') ->
  (halt s = true -> halt s' = true) /\ (forall b, bfin s b = true -> bfin s' b = true) /\ (forall b, In b (ran s) -> In b (ran s')) /\
  (forall b, bfin s' b = true -> bfin s b = true \/ exists e, pc = X2 b e) /\
  (forall b e, pc' = X2 b e -> In b (ran s')) /\
  (forall b, In (Some (BWork b)) (ign s') -> In (Some (BWork b)) (ign s) \/ bfin s b = true).
Proof.
  intros Es. assert (Hf : forall b0 s0, (forall b, bfin s0 b = true -> fupd b0 true (bfin s0) b = true) /\ forall b, fupd b0 true (bfin s0) b = true -> bfin s0 b = true \/ b = b0).
  { intros b0 s0. split; intros b; unfold fupd; destruct (Nat.eqb_spec b b0); auto. }
  destruct pc; destruct k; cbn [wq_step wq_step0] in Es; try discriminate.
  1: { destruct (sq_fin p) as [r|].
    - pose proof (resume_fresh _ _ _ _ _ _ _ _ Es) as [_ Hx]. apply resume_data in Es as E. destruct E as (-> & -> & -> & -> & _). splits; auto.
      intros b e E. apply resume_x2 in Es. rewrite E in Es. destruct Es.
    - wq_cases Es. inj Es. destruct i; cbn; splits; auto; intros ? ?; discriminate. }
  all: wq_cases Es; inj Es; cbn; splits; auto; try (intros ? ? E; discriminate).
  all: try (intros ? ? E; exfalso; repeat match type of E with
    | context [if ?z then _ else _] => destruct z
    | context [match ?g with GUser => _ | GWork _ => _ end] => destruct g
    | context [after_add ?a] => is_var a; destruct a as [|[|]]
    | context [after_exec ?e] => is_var e; destruct e
    | context [dummies ?r] => is_var r; destruct r
    end; discriminate E).
  all: try (intros b' Hb; apply in_app_or in Hb as [Hb|[[= ->]|[]]]; [auto|right; assumption]).
  all: try (intros b' Hb; apply in_app_or in Hb as [Hb|[[=]|[]]]; auto).
  - intros b' Hb. apply in_or_app. auto.
  - intros b' e' [= -> _]. apply in_or_app. right. left. reflexivity.
  - apply Hf.
  - intros b' Hb. apply Hf in Hb as [Hb| ->]; eauto.
Qed.

(** Finished blocks were finished from the start or have been run; only finished blocks are turned down. *)
Record finI (f : nat -> bool) c : Prop := {
  fi_fin : forall b, bfin (sh c) b = true -> f b = true \/ In b (ran (sh c));
  fi_ign : forall b, In (Some (BWork b)) (ign (sh c)) -> bfin (sh c) b = true;
  fi_x2 : forall t b e, th c t = Some (X2 b e) -> In b (ran (sh c));
}.

Lemma start_x2 o b e : wq_start nw o <> X2 b e.
Proof. destruct o; cbn; try discriminate. destruct (Nat.eqb nw 0); discriminate. Qed.

Lemma finI_run f xs c c' H : finI f c -> wq_run nw c xs = Some (c', H) -> finI f c'.
Proof.
  intros Hc Er. eapply (inv_run (wq_start nw) (wq_step nw) wq_fin (fun _ => True) (finI f)); [..|exact Hc| |exact Er].
  - intros c0 t o [I1 I2 I3] _ Et. constructor; cbn [sh th]; auto. intros u b e. unfold fupd. destruct (Nat.eqb u t); [|apply I3].
    intros [= E]. destruct (start_x2 o b e E).
  - intros c0 t k pc s' pc' [I1 I2 I3] Et Es. destruct (step_data _ _ _ _ _ _ Es) as (_ & D2 & D3 & D4 & D5 & D6). constructor; cbn [sh th].
    + intros b Hb. apply D4 in Hb as [Hb|[e ->]]; [apply I1 in Hb as [Hb|Hb]; auto|]. right. apply D3. eapply I3; exact Et.
    + intros b Hb. apply D6 in Hb as [Hb|Hb]; auto.
    + intros u b e. unfold fupd. destruct (Nat.eqb u t); [intros [= E]; eapply D5; exact E|]. intros Hu. apply D3. eapply I3; exact Hu.
  - intros c0 t pc r [I1 I2 I3] Et Ef. constructor; cbn [sh th]; auto. intros u b e. unfold fupd. destruct (Nat.eqb u t); [discriminate|apply I3].
  - apply Forall_forall. auto.
Qed.
Lemma finI_init f : finI f (wq_init nw f).
Proof.
  constructor; cbn [wq_init sh th wq0 bfin ran ign]; [auto|intros b []|]. intros t b e. destruct (Nat.ltb t nw); discriminate.
Qed.

(** Blocks are only thrown away after the halt flag has been set. *)
Definition closing pc : Prop :=
  match pc with
  | CL3 | Sub _ _ KClr | CN1 | Sub _ _ (KSize _ (AClose _)) | Sub _ _ (KPush _ (AClose _)) | AN (AClose _) | CN2 | CJ _ false => True
  | _ => False
  end.
Record dropI c : Prop := {
  di_clr : forall t pc, th c t = Some pc -> closing pc -> halt (sh c) = true;
  di_drop : dropped (sh c) <> [] -> halt (sh c) = true;
}.

Lemma closing_start o : ~ closing (wq_start nw o).
Proof. destruct o; cbn [wq_start]; try (intros []). destruct (Nat.eqb nw 0); intros []. Qed.

Lemma closing_dummies r : closing (dummies r).
Proof. destruct r; exact I. Qed.

Lemma step_close s t pc k s' pc' : wq_step nw s t pc k = Some (s', pc') -> shape pc ->
  (closing pc' -> closing pc \/ halt s' = true) /\ (dropped s' = dropped s \/ kclr pc).
Proof.
  intros Es Hs. destruct pc; destruct k; cbn [wq_step wq_step0] in Es; try discriminate.
  1: { destruct (sq_fin p) as [r|] eqn:Ef.
    - apply resume_data in Es as E. destruct E as (_ & _ & _ & _ & -> & _). split; [|auto]. intros Hc.
      destruct k0; wq_resume Es; cbn in Hc; try contradiction; try (left; exact I); try (left; exact Hc).
      + left. cbn. destruct a as [|r]; [|exact I]. destruct few; destruct Hc.
      + destruct bb; [destruct (nextq i); [|destruct e]|destruct e]; destruct Hc.
      + destruct (nextq i); destruct Hc.
      + destruct g; destruct Hc.
      + destruct bb; destruct Hc.
      + destruct g; destruct Hc.
      + destruct g; destruct Hc.
    - wq_cases Es. inj Es. split; [intros Hc; left; exact Hc|]. destruct Hs as (o & Hk & Ho).
      destruct p; try discriminate Ef; try (left; cbn; rewrite app_nil_r; destruct i; reflexivity); cbn in Ho; subst o; right; destruct k0; cbn in Hk; try exact I; naive_solver. }
  all: wq_cases Es; inj Es; (split; [|left; reflexivity]); cbn; intros Hc; auto; try contradiction; try (left; exact I).
  all: try (destruct (Nat.eqb nw 0); destruct Hc).
  all: try (destruct a as [|r]; [destruct Hc|left; exact I]).
  all: try (repeat match type of Hc with
    | context [if ?z then _ else _] => destruct z
    | context [match ?g with GUser => _ | GWork _ => _ end] => destruct g
    | context [after_exec ?e] => is_var e; destruct e
    end; solve [contradiction|auto]).
Qed.

Lemma dropI_run xs c c' H : shaped c -> dropI c -> wq_run nw c xs = Some (c', H) -> dropI c'.
Proof.
  intros Hs Hc Er. eapply (inv_run (wq_start nw) (wq_step nw) wq_fin (fun _ => True) (fun c => shaped c /\ dropI c)); [..|split; [exact Hs|exact Hc]| |exact Er].
  - intros c0 t o [I0 [I1 I2]] _ Et. split; [eapply (shaped_exec nw c0 (t, ACall o)); [exact I0|]; unfold wq_exec; cbn; rewrite Et; reflexivity|].
    constructor; cbn [sh th]; auto. intros u pc. unfold fupd. destruct (Nat.eqb u t); [|apply I1].
    intros [= <-] E. destruct (closing_start o E).
  - intros c0 t k pc s' pc' [I0 [I1 I2]] Et Es. split; [eapply (shaped_exec nw c0 (t, AInt k)); [exact I0|]; unfold wq_exec; cbn; rewrite Et, Es; reflexivity|].
    destruct (step_data _ _ _ _ _ _ Es) as (D1 & _). destruct (step_close _ _ _ _ _ _ Es (I0 _ _ Et)) as [D2 D3]. constructor; cbn [sh th].
    + intros u pu. unfold fupd. destruct (Nat.eqb u t); [|eauto]. intros [= <-] Hcl. apply D2 in Hcl as [Hcl|Hcl]; eauto.
    + intros Hd. destruct D3 as [D3|D3]; [rewrite D3 in Hd; auto|]. apply D1, (I1 _ _ Et). destruct pc; try destruct D3. destruct k0; try destruct D3. exact I.
  - intros c0 t pc r [I0 [I1 I2]] Et Ef. split; [eapply (shaped_exec nw c0 (t, ARet)); [exact I0|]; unfold wq_exec; cbn; rewrite Et, Ef; reflexivity|].
    constructor; cbn [sh th]; auto. intros u pu. unfold fupd. destruct (Nat.eqb u t); [discriminate|apply I1].
  - apply Forall_forall. auto.
Qed.
Lemma dropI_init f : dropI (wq_init nw f).
Proof. constructor; cbn [wq_init sh th wq0 dropped]; [|congruence]. intros t pc. destruct (Nat.ltb t nw); [intros [= <-] []|discriminate]. Qed.
End wq.

(** ** Without workers *)
Section zero.
Notation wqcfg := (cfg wqsh wqpc).
Implicit Types (s : wqsh) (pc : wqpc) (c : wqcfg) (H : list (hev wqop wqret)).

(** [pc] is a point of the call [o]; what [o] has passed is finished *)
Definition all_fin s (xs : list ptr) : Prop := forall b, In (Some (BWork b)) xs -> bfin s b = true.
Definition exec_at s (xs : list ptr) pc : Prop :=
  match pc with
  | XV ys | X1 _ (XAdd ys) | X2 _ (XAdd ys) =>
      exists zs, xs = zs ++ ys /\ forall b, In (Some (BWork b)) zs -> bfin s b = true \/ match pc with X1 b' _ | X2 b' _ => b' = b | _ => False end
  | Ret _ => all_fin s xs
  | Crash _ => True
  | _ => False
  end.
Definition zero_at s (o : wqop) pc : Prop :=
  match o with
  | OAdd x p => pc = A0 x p \/ exec_at s [x] pc
  | OAddV xs p => exec_at s xs pc
  | _ => True
  end.

Lemma exec_mono s s' xs pc : (forall b, bfin s b = true -> bfin s' b = true) -> exec_at s xs pc -> exec_at s' xs pc.
Proof.
  intros Hm. destruct pc; cbn; auto.
  - intros (zs & E & Hz). exists zs. split; [exact E|]. intros b Hb. destruct (Hz b Hb); auto.
  - destruct e; auto. intros (zs & E & Hz). exists zs. split; [exact E|]. intros b' Hb. destruct (Hz b' Hb); auto.
  - destruct e; auto. intros (zs & E & Hz). exists zs. split; [exact E|]. intros b' Hb. destruct (Hz b' Hb); auto.
  - intros Hz b Hb. auto.
Qed.
Lemma zero_mono s s' o pc : (forall b, bfin s b = true -> bfin s' b = true) -> zero_at s o pc -> zero_at s' o pc.
Proof. intros Hm. destruct o; cbn; auto; [|apply exec_mono, Hm]. intros [->|Hx]; [auto|right; eapply exec_mono; eassumption]. Qed.

Lemma exec_step s t pc k s' pc' xs : wq_step 0 s t pc k = Some (s', pc') -> exec_at s xs pc -> exec_at s' xs pc'.
Proof.
  intros Es Ha. destruct pc; cbn [exec_at] in Ha; try contradiction; destruct k; cbn [wq_step wq_step0] in Es; try discriminate.
  - destruct Ha as (zs & -> & Hz). destruct xs0 as [|[[|b]|] xs0]; inj Es; cbn [exec_at].
    + rewrite app_nil_r. intros b Hb. destruct (Hz b Hb) as [|[]]; auto.
    + exists (zs ++ [Some BNull]). rewrite <- app_assoc. split; [reflexivity|]. intros b Hb. apply in_app_or in Hb as [Hb|[[=]|[]]]. exact (Hz b Hb).
    + exists (zs ++ [Some (BWork b)]). rewrite <- app_assoc. split; [reflexivity|]. intros b' Hb. apply in_app_or in Hb as [Hb|[[= ->]|[]]]; [|auto]. destruct (Hz _ Hb) as [|[]]. left. assumption.
    + exact I.
  - destruct e as [|ys]; [contradiction|]. destruct Ha as (zs & -> & Hz). destruct (bfin s b) eqn:Eb; inj Es; cbn [exec_at after_exec].
    + exists zs. split; [reflexivity|]. intros b' Hb. left. destruct (Hz _ Hb) as [|E]; congruence.
    + exists zs. split; [reflexivity|]. intros b' Hb. apply Hz, Hb.
  - destruct e as [|ys]; [contradiction|]. destruct Ha as (zs & -> & Hz). inj Es. cbn [exec_at after_exec].
    exists zs. split; [reflexivity|]. intros b' Hb. left. cbn. unfold fupd. destruct (Nat.eqb_spec b' b) as [|Hne]; [reflexivity|]. destruct (Hz _ Hb); congruence.
Qed.

Lemma zero_step s t pc k s' pc' o : wq_step 0 s t pc k = Some (s', pc') -> zero_at s o pc -> zero_at s' o pc'.
Proof.
  intros Es. destruct o; cbn [zero_at]; auto; [|apply (exec_step _ _ _ _ _ _ _ Es)].
  intros [->|Hx]; [|right; eapply exec_step; eassumption]. right. destruct k; cbn [wq_step wq_step0] in Es; try discriminate.
  destruct x as [y|]; [|inj Es; cbn; intros b [[=]|[]]].
  assert (Hgo : exec_at s [Some y] (XV [Some y])) by (exists []; split; [reflexivity|intros b []]).
  assert (Hfin : is_fin s y = true -> all_fin s [Some y]). { intros E b [[= ->]|[]]. exact E. }
  cbn in Es. destruct p; try (destruct (is_fin s y) eqn:Ey); inj Es; try exact Hgo; exact (Hfin eq_refl).
Qed.

Lemma zero_start s o : zero_at s o (wq_start 0 o).
Proof. destruct o; cbn; auto. exists []. split; [reflexivity|]. intros b []. Qed.

(** When addWorkBlock returns without workers, the blocks given to it are finished. *)
Definition zeroI H c : Prop := forall t pc, th c t = Some pc -> exists i o, last_ev H t i (HInv t o) /\ zero_at (sh c) o pc.

Lemma zeroI_exec H c x c' e : zeroI H c -> wq_exec 0 c x = Some (c', e) -> zeroI (H ++ e) c'.
Proof.
  intros Hp. destruct x as [t [o|k|]]; unfold wq_exec; cbn.
  - destruct (th c t) eqn:Et; [discriminate|]. intros [= <- <-] u pc Eu. cbn in Eu. unfold fupd in Eu. destruct (Nat.eqb_spec u t) as [->|Hne].
    + injection Eu as <-. exists (length H), o. split; [apply last_new; reflexivity|apply zero_start].
    + destruct (Hp _ _ Eu) as (i & o' & Hl & Hk). exists i, o'. split; [|exact Hk]. apply last_old; [cbn; congruence|exact Hl].
  - destruct (th c t) as [pc|] eqn:Et; [|discriminate]. destruct (wq_step 0 (sh c) t pc k) as [[s' pc']|] eqn:Es; [|discriminate]. intros [= <- <-]. rewrite app_nil_r.
    pose proof (proj1 (proj2 (step_data _ _ _ _ _ _ _ Es))) as Hm.
    intros u pu Eu. cbn in Eu. unfold fupd in Eu. destruct (Nat.eqb_spec u t) as [->|Hne].
    + injection Eu as <-. destruct (Hp _ _ Et) as (i & o' & Hl & Hk). exists i, o'. split; [exact Hl|]. eapply zero_step; eassumption.
    + destruct (Hp _ _ Eu) as (i & o' & Hl & Hk). exists i, o'. split; [exact Hl|]. eapply zero_mono; eassumption.
  - destruct (th c t) as [pc|] eqn:Et; [|discriminate]. destruct (wq_fin pc) as [r|] eqn:Ef; [|discriminate]. intros [= <- <-] u pu Eu. cbn in Eu. unfold fupd in Eu.
    destruct (Nat.eqb_spec u t) as [->|Hne]; [discriminate|]. destruct (Hp _ _ Eu) as (i & o' & Hl & Hk). exists i, o'. split; [|exact Hk]. apply last_old; [cbn; congruence|exact Hl].
Qed.

Lemma zeroI_run xs : forall H c c' H', zeroI H c -> wq_run 0 c xs = Some (c', H') -> zeroI (H ++ H') c'.
Proof.
  induction xs as [|x xs IH]; intros H c c' H' Hp; unfold wq_run; cbn [run].
  - intros [= <- <-]. rewrite app_nil_r. exact Hp.
  - destruct (exec _ _ _ c x) as [[c1 e]|] eqn:Ex; [|discriminate]. destruct (run _ _ _ c1 xs) as [[c2 H2]|] eqn:Er; [|discriminate]. intros [= <- <-].
    rewrite app_assoc. eapply IH; [|exact Er]. eapply zeroI_exec; eassumption.
Qed.

Lemma zeroI_init f : zeroI [] (wq_init 0 f).
Proof. intros t pc. cbn. discriminate. Qed.
End zero.
