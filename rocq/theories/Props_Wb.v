(** C58: WorkBlock.  Programs are arbitrary sequences of calls on packaged tasks and blocks (WbModel.v); [ideals os] and
    [promise] (WbSpec.v) say from the calls alone what may be expected. *)
From stdpp Require Import list.
From Verif Require Import Base Conc WbModel WbSpec WbProofs.
Local Open Scope nat_scope.

(** Every answer promised is given: execute() of a good block runs its work iff it was not executed since the last reset() or
    update, isFinished() says so, getReturnVal() returns the work's result then and blocks otherwise, reset() and the updates
    succeed.  Constructors from a function or from a packaged task that holds one (whatever was done to it) succeed.

    Missing from the statement of C58: default construction, which always throws, and [Odd] blocks; see C58_refuted. *)
Theorem C58_promises_partial mem os W rs o W' r x :
  wb_run mem world0 os = Some (W, rs) -> wb_step mem W o = Some (W', r) -> promise (ideals os) o = Some x -> r = x.
Proof. intros Er Es. exact (proj2 (R_step mem _ W (R_run mem os W rs Er) o W' r Es) x). Qed.

(** Calls are possible on exactly the blocks the calls so far say exist. *)
Theorem C58_exists mem os W rs b : wb_run mem world0 os = Some (W, rs) ->
  (wb_step mem W (BExec b) <> None <-> ib (ideals os) b <> None).
Proof.
  intros Er. pose proof (R_run mem os W rs Er) as HR. pose proof (r_b _ _ HR b) as Hb. cbn [wb_step].
  destruct (ib (ideals os) b) as [[f d|]|]; cbn in Hb.
  - destruct Hb as [i [-> _]]. split; [discriminate|]. intros _. destruct (wb_execute _ _) as [[[? ?] ?] ?]. discriminate.
  - destruct Hb as [v [-> _]]. split; [discriminate|]. intros _. destruct (wb_execute _ _) as [[[? ?] ?] ?]. discriminate.
  - rewrite Hb. tauto.
Qed.

(** A future obtained from a good block is ready, as long as the block is not reset, updated, moved or destroyed, iff the
    block has been executed, and then holds the result of its work. *)
Theorem C58_future mem os1 W1 rs1 b i os2 W2 rs2 f d :
  wb_run mem world0 os1 = Some (W1, rs1) -> wb_step mem W1 (BFut b) = Some (W1, Fut i) ->
  wb_run mem W1 os2 = Some (W2, rs2) -> Forall (fun o => ~ renews b o) os2 -> ib (ideals (os1 ++ os2)) b = Some (Good f d) ->
  exists j, i = Some j /\ wb_step mem W2 (FGet j) = Some (W2, if d then Value f else Blocks).
Proof.
  intros E1 Ef E2 Hn Hi.
  assert (E12 : wb_run mem world0 (os1 ++ os2) = Some (W2, rs1 ++ rs2)).
  { revert E1 E2. generalize world0 as V. revert rs1. clear. induction os1 as [|o os IH]; intros rs1 V; cbn [wb_run app].
    - intros [= -> <-] E2. exact E2.
    - destruct (wb_step mem V o) as [[V1 r]|]; [|discriminate]. destruct (wb_run mem V1 os) as [[V2 rs]|] eqn:Ev; [|discriminate].
      intros [= -> <-] E2. rewrite (IH rs V1 Ev E2). reflexivity. }
  pose proof (r_b _ _ (R_run mem _ _ _ E12) b) as Hb. rewrite Hi in Hb. destruct Hb as [j [Hw [Hj Ha]]].
  cbn [wb_step] in Ef. destruct (bl W1 b) as [w1|] eqn:Eb; [|discriminate]. injection Ef as <-.
  destruct (calm_fut _ _ _ _ _ _ _ E2 Hn Eb) as [w2 [Hb2 Hf]]. rewrite Hb2 in Hw. injection Hw as ->. cbn in Hf. exists j. split; [congruence|].
  cbn. rewrite Ha. destruct d; reflexivity.
Qed.

(** Whatever the block (odd ones included) and whatever happened before: between two renewals its work is run at most once,
    and not at all once isFinished() is true. *)
Theorem C58_once mem W os W' rs b : wb_run mem W os = Some (W', rs) -> Forall (fun o => ~ renews b o) os ->
  forall fin, wb_step mem W (BFin b) = Some (W, Bool fin) -> runs b os rs <= (if fin then 0 else 1).
Proof.
  intros Er Hn fin Ef. cbn [wb_step] in Ef. destruct (bl W b) as [w|] eqn:Eb; [|discriminate]. injection Ef as <-. exact (calm_runs _ _ _ _ _ _ _ Er Hn Eb).
Qed.

(** execute() runs the work only if the block is loaded and not finished, in all states; it leaves the block finished unless
    it throws. *)
Theorem C58_execute S w S' w' r e : wb_execute S w = (S', w', r, e) ->
  (forall f, r = Some f -> loaded w = true /\ finished w = false /\ e = None) /\ (e = None -> finished w' = true) /\
  (finished w = true -> w' = w /\ S' = S /\ r = None /\ e = None).
Proof.
  unfold wb_execute. destruct (finished w) eqn:Ef; [intros [= <- <- <- <-]; splits; auto; discriminate|].
  destruct (loaded w); [|intros [= <- <- <- <-]; splits; auto; discriminate].
  destruct (pt_call S (tk w)) as [[S1 r1] e1] eqn:Ec. assert (forall f, r1 = Some f -> e1 = None) as Hr.
  { destruct (tk w) as [i|]; cbn in Ec; [|injection Ec as <- <- <-; discriminate]. destruct (fstat_ (at_ S i)); injection Ec as <- <- <-; congruence. }
  destruct e1; intros [= <- <- <- <-]; splits; auto; try discriminate; intros; try solve [match goal with H : _ = Some _ |- _ => discriminate (Hr _ H) end].
Qed.

(** What a program sees: the answers to the calls *)
Definition answers (mem : bool) (os : list wbop) : option (list wbout) := option_map snd (wb_run mem world0 os).

(** False parts of C58: the default constructor only throws.  updateTask with a task whose future was handed out throws and
    leaves the block unloaded: execute() then runs nothing but makes isFinished() true, and reset() always throws.  updateTask
    with a task that has run leaves a block that is loaded and not finished but whose execute() throws, without running the
    work.  A block that was moved from, if not finished, throws from execute() and reset(). *)
Theorem C58_refuted :
  (forall mem os W rs b W' r, wb_run mem world0 os = Some (W, rs) -> wb_step mem W (BNew b) = Some (W', r) -> r = Throws NoState) /\
  (forall mem, answers mem [BFunc 0 7; TNew 0 8; TFut 0; BUpdT 0 0; BExec 0; BFin 0; BReset 0; BReset 0; BGet 0] =
    Some [Nothing; Nothing; Fut (Some 2); Throws Retrieved; Nothing; Bool true; Throws Retrieved; Throws Retrieved; Broken]) /\
  (forall mem, answers mem [BFunc 0 7; TNew 0 8; TRun 0; BUpdT 0 0; BFin 0; BExec 0; BFin 0] =
    Some [Nothing; Nothing; Ran 8; Nothing; Bool false; Throws Satisfied; Bool false]) /\
  (forall mem, answers mem [BFunc 0 7; BMoveC 1 0; BFin 0; BExec 0; BReset 0; BGet 0; BExec 1] =
    Some [Nothing; Nothing; Bool false; Throws NoState; Throws NoState; Undef; Ran 7]) /\
  (forall mem, answers mem [TNew 0 5; TFut 0; BTask 0 0; BExec 0; FGet 0; BGet 0] =
    Some [Nothing; Fut (Some 0); Nothing; Ran 5; Broken; Value 5]).
Proof.
  split.
  { intros mem os W rs b W' r Er Es. exact (C58_promises_partial mem os W rs (BNew b) W' r _ Er Es eq_refl). }
  splits; intros []; vm_compute; reflexivity.
Qed.

(** Non-trivial programs: an execution, a second one, reset, execution, update, futures of both rounds. *)
Example C58_ex mem : answers mem [BFunc 0 7; BFut 0; BGet 0; BExec 0; BExec 0; BFin 0; BReset 0; BFin 0; BFut 0; BExec 0; BUpdF 0 9; BExec 0; BGet 0; FGet 1; FGet 2] =
  Some [Nothing; Fut (Some 1); Blocks; Ran 7; Nothing; Bool true; Nothing; Bool false; Fut (Some 2); Ran 7; Nothing; Ran 9; Value 9; Value 7; Value 7].
Proof. destruct mem; vm_compute; reflexivity. Qed.
Example C58_ex_good : ib (ideals [TNew 3 4; TRun 3; BTask 0 3; BFut 0; BExec 0; TNew 3 6; BUpdT 0 3; BMoveC 1 0]) 1 = Some (Good 6 false)
  /\ ib (ideals [BFunc 0 7; BFut 0; BExec 0]) 0 = Some (Good 7 true) /\ promise (ideals [BFunc 0 7]) (BExec 0) = Some (Ran 7).
Proof. vm_compute. auto. Qed.
Example C58_ex_future : exists W1 rs1 W2 rs2, wb_run false world0 [BFunc 0 7] = Some (W1, rs1) /\ wb_step false W1 (BFut 0) = Some (W1, Fut (Some 1)) /\
  wb_run false W1 [BFunc 1 8; BExec 0; BExec 1] = Some (W2, rs2) /\ Forall (fun o => ~ renews 0 o) [BFunc 1 8; BExec 0; BExec 1] /\ rs2 = [Nothing; Ran 7; Ran 8] /\ runs 0 [BFunc 1 8; BExec 0; BExec 1] rs2 = 1.
Proof.
  do 4 eexists. split; [reflexivity|]. split; [reflexivity|]. split; [reflexivity|]. split; [|split; reflexivity].
  repeat (apply Forall_cons; split; [cbn; intros H; solve [discriminate H|destruct H]|]). apply Forall_nil. exact I.
Qed.

Print Assumptions C58_promises_partial.
Print Assumptions C58_exists.
Print Assumptions C58_future.
Print Assumptions C58_once.
Print Assumptions C58_execute.
Print Assumptions C58_refuted.
