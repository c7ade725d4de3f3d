(** Property C106: what getReturnVal gives back. *)
From stdpp Require Import list.
From Verif Require Import Base Conc WbModel WbSpec WbProofs WbOut.
Local Open Scope nat_scope.

(** ** C106
    Full statement: getReturnVal() returns only after the work of the block has been run and has returned; if the work threw,
    it throws the same exception; if the work will never be run (the task was given up), it throws.

    WorkBlock<T>, T not void: so it is, after every program (blocks and tasks created, moved, updated, reset and executed in
    any order), whichever works throw.  [ran W] are the works run so far. *)
Theorem C106_value :
  forall raises mem os W rs b g, wb_run mem world0 os = Some (W, rs) -> wb_get raises false W b = Some g ->
    (forall f, g = GValue f -> f ∈ ran W /\ raises f = false) /\ (forall f, g = GRethrows f -> f ∈ ran W /\ raises f = true) /\ g <> GDone.
Proof.
  intros raises mem os W rs b g Er Eg. assert (H : honest (st W) (ran W)) by (eapply (hon_run mem os world0); [constructor|exact Er]).
  unfold wb_get in Eg. destruct (bl W b) as [w|]; [|discriminate]. injection Eg as <-. unfold look.
  destruct (fut w) as [j|]; cbn [fut_get]; [|repeat split; discriminate].
  destruct (fstat_ (at_ (st W) j)) as [|f|] eqn:E; cbn [fut_get]; try (repeat split; discriminate).
  pose proof (hon_at _ _ _ _ H E). destruct (raises f) eqn:Ef; repeat split; intros; congruence.
Qed.
Print Assumptions C106_value.

(** Blocks for which C58 makes promises: it gives the outcome of this very work, and blocks until it is there. *)
Theorem C106_value_good :
  forall raises mem os W rs b f d, wb_run mem world0 os = Some (W, rs) -> ib (ideals os) b = Some (Good f d) ->
    wb_get raises false W b = Some (if d then if raises f then GRethrows f else GValue f else GBlocks).
Proof.
  intros raises mem os W rs b f d Er Eb. pose proof (R_run mem os W rs Er) as HR.
  destruct (bl W b) as [w|] eqn:Ew.
  - assert (Hs : wb_step mem W (BGet b) = Some (W, look (st W) (fut w))) by (cbn [wb_step]; rewrite Ew; reflexivity).
    destruct (R_step mem _ W HR (BGet b) _ _ Hs) as [_ Hp]. cbn [promise] in Hp. rewrite Eb in Hp. specialize (Hp _ eq_refl).
    unfold wb_get. rewrite Ew, Hp. destruct d; cbn; reflexivity.
  - pose proof (r_b _ _ HR b) as Hb. rewrite Eb in Hb. cbn in Hb. destruct Hb as [i [Hb _]]. congruence.
Qed.
Print Assumptions C106_value_good.

(** WorkBlock<void>: it waits for the work, *)
Theorem C106_void_partial :
  forall raises mem os W rs b f d, wb_run mem world0 os = Some (W, rs) -> ib (ideals os) b = Some (Good f d) ->
    wb_get raises true W b = Some (if d then GDone else GBlocks).
Proof.
  intros raises mem os W rs b f d Er Eb. pose proof (R_run mem os W rs Er) as HR.
  destruct (bl W b) as [w|] eqn:Ew.
  - assert (Hs : wb_step mem W (BGet b) = Some (W, look (st W) (fut w))) by (cbn [wb_step]; rewrite Ew; reflexivity).
    destruct (R_step mem _ W HR (BGet b) _ _ Hs) as [_ Hp]. cbn [promise] in Hp. rewrite Eb in Hp. specialize (Hp _ eq_refl).
    unfold wb_get. rewrite Ew, Hp. destruct d; cbn; reflexivity.
  - pose proof (r_b _ _ HR b) as Hb. rewrite Eb in Hb. cbn in Hb. destruct Hb as [i [Hb _]]. congruence.
Qed.
Print Assumptions C106_void_partial.

(** but never throws, so an exception of the work is not seen by the caller, whichever work it is. *)
Theorem C106_void_refuted :
  forall raises W b g, wb_get raises true W b = Some g -> g = GBlocks \/ g = GDone \/ g = GUndef.
Proof. intros raises W b g E. unfold wb_get in E. destruct (bl W b) as [w|]; [|discriminate]. injection E as <-. destruct (look (st W) (fut w)); cbn; auto. Qed.
Print Assumptions C106_void_refuted.

(** A work that throws, and a work that is never run: updateTask with an empty task throws and gives up the old one. *)
Theorem C106_refuted :
  forall mem, exists W1 rs1 W2 rs2,
    wb_run mem world0 [BFunc 0 7; BExec 0] = Some (W1, rs1) /\
    wb_get (Nat.eqb 7) false W1 0 = Some (GRethrows 7) /\ wb_get (Nat.eqb 7) true W1 0 = Some GDone /\
    wb_run mem world0 [BFunc 0 7; BUpdT 0 0] = Some (W2, rs2) /\ ran W2 = [] /\
    wb_get (Nat.eqb 7) false W2 0 = Some GBroken /\ wb_get (Nat.eqb 7) true W2 0 = Some GDone.
Proof. intros mem. do 4 eexists. repeat (split; [reflexivity|]). reflexivity. Qed.
Print Assumptions C106_refuted.

(** Work 7 throws, work 8 does not; after a reset the block is waited for again. *)
Example C106_ex :
  let get os := match wb_run false world0 os with Some (W, _) => wb_get (Nat.eqb 7) false W 0 | None => None end in
  get [BFunc 0 8] = Some GBlocks /\ get [BFunc 0 8; BExec 0] = Some (GValue 8) /\ get [BFunc 0 7; BExec 0] = Some (GRethrows 7) /\
  get [BFunc 0 8; BExec 0; BReset 0] = Some GBlocks /\ get [BFunc 0 7; BExec 0; BUpdF 0 8; BExec 0] = Some (GValue 8) /\
  get [BFunc 0 7; BMoveC 1 0] = Some GUndef /\ ib (ideals [BFunc 0 7; BExec 0]) 0 = Some (Good 7 true).
Proof. vm_compute. repeat split. Qed.
