(** Property C104: CircularBuffer and StackBuffer when memory runs out. *)
From stdpp Require Import gmap.
From Verif Require Import Base Heap CircModel BufMem.
From Verif Require CircBufModel StackModel.

(** ** C104
    Full statement: a call that is left by std::bad_alloc has no effect: whatever is done afterwards goes as if the call had
    not been made.

    The partial forms: so it is in every program over any number of buffers, of which any calls are left by bad_alloc, as long as
    none of these is a copy assignment.  What such a program does is what the program without the calls that failed does, so
    the theorems about programs (C01-C06, C10-C12, C74, C75, C89, C93, C100-C102) apply to it. *)
Section circular.
Import CircBufModel.

Theorem C104_circ_partial :
  forall ps w w1 tr, cbm_run w ps = Ok (w1, tr) ->
    (forall p, (p, None) ∈ tr -> match p with WCopyAssign _ _ => False | _ => True end) ->
    wrun w (map fst (kept tr)) = Ok (w1, kept tr).
Proof.
  intros ps w w1 tr E Hf. eapply cbm_run_kept; [exact E|]. apply Forall_forall. intros p Hp Ha. unfold failed in Hp.
  apply elem_of_list_omap in Hp as ([p' [y|]] & Hin & G); [discriminate|]. injection G as <-. specialize (Hf _ Hin). destruct p'; contradiction.
Qed.
Print Assumptions C104_circ_partial.

(** [cbm_run] is [wrun] when memory never runs out. *)
Theorem C104_circ_no_failure :
  forall ps w, cbm_run w (map (pair true) ps) = ('(w1, tr) <-! wrun w ps ;; Ok (w1, map (fun '(p, x) => (p, Some x)) tr)).
Proof. exact cbm_run_true. Qed.
Print Assumptions C104_circ_no_failure.

(** Only a call during which memory runs out is left. *)
Theorem C104_circ_when :
  forall ps w w1 tr, cbm_run w ps = Ok (w1, tr) -> Forall2 (fun '(ok, p) '(p', x) => p = p' /\ (ok = true -> x <> None)) ps tr.
Proof.
  induction ps as [|[ok p] ps IH]; intros w w1 tr E; cbn [cbm_run] in E.
  - injection E as <- <-. constructor.
  - apply obind_ok in E as ([w2 x] & E & F). apply obind_ok in F as ([w3 tr2] & F & G). injection G as <- <-. apply cbm_step_inv in E.
    constructor; [|eapply IH; exact F]. split; [reflexivity|]. intros -> ->. destruct E as [E _]. discriminate.
Qed.
Print Assumptions C104_circ_when.

(** A copy assignment that is left leaves the destination in the memory of the source, for every source that does not fit: each
    call of the destination gives what it would give on the source, and does to the memory what it would do there. *)
Theorem C104_circ_shared_refuted :
  forall w o src bd bs, w_objs w !! o = Some bd -> w_objs w !! src = Some bs -> b_acap bd < b_asize bs ->
    exists w1 b1, cbm_step false w (WCopyAssign o src) = Ok (w1, None) /\ w_heap w1 = w_heap w /\ w_objs w1 = <[o := b1]> (w_objs w) /\
      b_org b1 = b_org bs /\
      forall c, match cb_op (w_heap w) bs c, cb_op (w_heap w1) b1 c with
                | Ok (h, b, x), Ok (h', b', x') => x' = x /\ h' = h /\ b_org b' = b_org b /\ b_w b' = b_w b /\ b_r b' = b_r b
                | Throw, Throw | UB, UB => True
                | _, _ => False
                end.
Proof.
  intros w o src bd bs Hd Hs Hl. eexists _, (cb_stolen bd bs). split; [apply cbm_assign_fail; eassumption|]. cbn [w_heap w_objs].
  split; [reflexivity|]. split; [reflexivity|]. split; [reflexivity|]. intros c. unfold cb_op. change (raw_of (w_heap w) (cb_stolen bd bs)) with (raw_of (w_heap w) bs).
  destruct (circ_step (raw_of (w_heap w) bs) c) as [[s x]| |]; cbn [obind]; auto.
Qed.
Print Assumptions C104_circ_shared_refuted.

(** So a buffer is popped from another one, and a buffer outlives its memory. *)
Theorem C104_circ_refuted :
  let ps := [(true, WNew 0 20); (true, WNew 1 40); (true, WCall 1 (CPush (Some [7; 8; 9]) 3)); (false, WCopyAssign 0 1)] in
  exists w tr, cbm_run (world0 (fun _ _ => 0)) ps = Ok (w, tr) /\
    (exists w1, wstep w (WCall 0 (CPop 10)) = Ok (w1, WRet (RPop 3 [7; 8; 9]))) /\
    (exists w1 tr1, wrun w [WCall 0 (CPush (Some [1; 2]) 2); WCall 1 (CPush (Some [5]) 1); WCall 0 (CPop 10); WCall 0 (CPop 10)] = Ok (w1, tr1) /\
       map snd tr1 = [WRet (CircModel.RBool true); WRet (CircModel.RBool true); WRet (RPop 3 [7; 8; 9]); WRet (RPop 1 [5])]) /\
    wrun w [WDestroy 1; WCall 0 (CPop 10)] = UB.
Proof.
  cbv zeta. eexists _, _. split; [vm_compute; reflexivity|]. split; [eexists; vm_compute; reflexivity|].
  split; [eexists _, _; split; vm_compute; reflexivity|vm_compute; reflexivity].
Qed.
Print Assumptions C104_circ_refuted.

(** The destination can be destroyed and assigned to: then all is as if the call that failed had not been made. *)
Theorem C104_circ_recover :
  forall w o src w1, cbm_step false w (WCopyAssign o src) = Ok (w1, None) -> o <> src ->
    wstep w1 (WDestroy o) = wstep w (WDestroy o) /\
    forall src', src' <> o -> wstep w1 (WCopyAssign o src') = wstep w (WCopyAssign o src') /\ wstep w1 (WMoveAssign o src') = wstep w (WMoveAssign o src').
Proof.
  intros w o src w1 E Hne. assert (exists bd bs, w_objs w !! o = Some bd /\ w1 = World (w_heap w) (<[o := cb_stolen bd bs]> (w_objs w))) as (bd & bs & Hd & ->).
  { cbn [cbm_step] in E. unfold wget in E. destruct (w_objs w !! o) as [bd|] eqn:Hd; [|discriminate]. cbn [obind] in E.
    destruct (w_objs w !! src) as [bs|] eqn:Hs; [|discriminate]. cbn [obind] in E. apply obind_ok in E as ([[h b] bad] & E & F).
    destruct bad; [|discriminate]. injection F as <-. exists bd, bs. split; [reflexivity|].
    unfold cbm_copy_assign in E. apply obind_ok in E as ([[h1 b1] bad1] & E & G). apply cbm_memory_inv in E. destruct E as [(-> & _ & _ & -> & ->)|(-> & E)].
    - injection G as <- <-. reflexivity.
    - apply obind_ok in G as (h2 & _ & G). discriminate. }
  cbn [wstep w_heap w_objs]. unfold wget. cbn [w_objs]. rewrite lookup_insert, Hd. cbn [obind]. split.
  - unfold cb_destroy. cbn [cb_stolen b_acap b_data]. destruct (if _ : bool then _ else _); cbn [obind]; [|reflexivity|reflexivity].
    rewrite delete_insert_delete. reflexivity.
  - intros src' Hsrc. rewrite lookup_insert_ne by congruence. destruct (w_objs w !! src') as [b2|]; cbn [obind]; [|split; reflexivity]. split.
    + unfold cb_copy_assign. cbn [cb_stolen b_data b_asize b_acap].
      destruct (cb_resize_memory _ _ _ _) as [[h1 b1]| |]; cbn [obind]; [|reflexivity|reflexivity].
      destruct (hcopy _ _ _ _); cbn [obind]; [|reflexivity|reflexivity]. rewrite insert_insert. reflexivity.
    + unfold cb_move_assign. cbn [cb_stolen b_data]. destruct (hfree _ _); cbn [obind]; [|reflexivity|reflexivity]. rewrite insert_insert. reflexivity.
Qed.
Print Assumptions C104_circ_recover.
End circular.

Section stack.
Import StackModel.

Theorem C104_stack_partial :
  forall ps w w1 tr, sbm_run w ps = Ok (w1, tr) ->
    (forall p, (p, None) ∈ tr -> match p with SCopyAssign _ _ => False | _ => True end) ->
    swrun w (map fst (kept tr)) = Ok (w1, kept tr).
Proof.
  intros ps w w1 tr E Hf. eapply sbm_run_kept; [exact E|]. apply Forall_forall. intros p Hp Ha. unfold failed in Hp.
  apply elem_of_list_omap in Hp as ([p' [y|]] & Hin & G); [discriminate|]. injection G as <-. specialize (Hf _ Hin). destruct p'; contradiction.
Qed.
Print Assumptions C104_stack_partial.

Theorem C104_stack_no_failure :
  forall ps w, sbm_run w (map (pair true) ps) = ('(w1, tr) <-! swrun w ps ;; Ok (w1, map (fun '(p, x) => (p, Some x)) tr)).
Proof. exact sbm_run_true. Qed.
Print Assumptions C104_stack_no_failure.

Theorem C104_stack_when :
  forall ps w w1 tr, sbm_run w ps = Ok (w1, tr) -> Forall2 (fun '(ok, p) '(p', x) => p = p' /\ (ok = true -> x <> None)) ps tr.
Proof.
  induction ps as [|[ok p] ps IH]; intros w w1 tr E; cbn [sbm_run] in E.
  - injection E as <- <-. constructor.
  - apply obind_ok in E as ([w2 x] & E & F). apply obind_ok in F as ([w3 tr2] & F & G). injection G as <- <-. apply sbm_step_inv in E.
    constructor; [|eapply IH; exact F]. split; [reflexivity|]. intros -> ->. destruct E as [E _]. discriminate.
Qed.
Print Assumptions C104_stack_when.

Theorem C104_stack_shared_refuted :
  forall w o src bd bs, s_objs w !! o = Some bd -> s_objs w !! src = Some bs -> b_acap bd < b_stated bs -> b_stated bd <> b_stated bs ->
    exists w1 b1, sbm_step false w (SCopyAssign o src) = Ok (w1, None) /\ s_heap w1 = s_heap w /\ s_objs w1 = <[o := b1]> (s_objs w) /\
      b_org b1 = b_org bs /\
      forall c, match sb_op (s_heap w) bs c, sb_op (s_heap w1) b1 c with
                | Ok (h, b, x), Ok (h', b', x') => x' = x /\ h' = h /\ b_org b' = b_org b /\ b_next b' = b_next b /\ b_count b' = b_count b
                | Throw, Throw | UB, UB => True
                | _, _ => False
                end.
Proof.
  intros w o src bd bs Hd Hs Hl Hne. eexists _, (sb_stolen bd bs). split; [apply sbm_assign_fail; eassumption|]. cbn [s_heap s_objs].
  split; [reflexivity|]. split; [reflexivity|]. split; [reflexivity|]. intros c. unfold sb_op. change (sraw_of (s_heap w) (sb_stolen bd bs)) with (sraw_of (s_heap w) bs).
  destruct (stk_step (sraw_of (s_heap w) bs) c) as [[s x]| |]; cbn [obind]; auto.
Qed.
Print Assumptions C104_stack_shared_refuted.

Theorem C104_stack_refuted :
  let ps := [(true, SNew 0 20); (true, SNew 1 40); (true, SCall 1 (KPush (Some [7; 8; 9]) 3)); (false, SCopyAssign 0 1)] in
  exists w tr, sbm_run (sworld0 (fun _ _ => 0)) ps = Ok (w, tr) /\
    (exists w1, swstep w (SCall 0 (KPop 10)) = Ok (w1, SRet (StackModel.RPop 3 [7; 8; 9]))) /\
    swrun w [SDestroy 1; SCall 0 (KPop 10)] = UB.
Proof.
  cbv zeta. eexists _, _. split; [vm_compute; reflexivity|]. split; [eexists; vm_compute; reflexivity|vm_compute; reflexivity].
Qed.
Print Assumptions C104_stack_refuted.

Theorem C104_stack_recover :
  forall w o src w1, sbm_step false w (SCopyAssign o src) = Ok (w1, None) -> o <> src ->
    swstep w1 (SDestroy o) = swstep w (SDestroy o) /\
    forall src', src' <> o -> swstep w1 (SCopyAssign o src') = swstep w (SCopyAssign o src') /\ swstep w1 (SMoveAssign o src') = swstep w (SMoveAssign o src').
Proof.
  intros w o src w1 E Hne. assert (exists bd bs, s_objs w !! o = Some bd /\ w1 = SWorld (s_heap w) (<[o := sb_stolen bd bs]> (s_objs w))) as (bd & bs & Hd & ->).
  { cbn [sbm_step] in E. unfold sget in E. destruct (s_objs w !! o) as [bd|] eqn:Hd; [|discriminate]. cbn [obind] in E.
    destruct (s_objs w !! src) as [bs|] eqn:Hs; [|discriminate]. cbn [obind] in E. apply obind_ok in E as ([[h b] bad] & E & F).
    destruct bad; [|discriminate]. injection F as <-. exists bd, bs. split; [reflexivity|].
    unfold sbm_copy_assign in E. apply obind_ok in E as ([[h1 b1] bad1] & E & G). apply sbm_memory_inv in E. destruct E as [(-> & _ & _ & -> & ->)|(-> & E)].
    - injection G as <- <-. reflexivity.
    - apply obind_ok in G as (h2 & _ & G). discriminate. }
  cbn [swstep s_heap s_objs]. unfold sget. cbn [s_objs]. rewrite lookup_insert, Hd. cbn [obind]. split.
  - unfold sb_destroy. cbn [sb_stolen b_data]. destruct (hfree _ _); cbn [obind]; [|reflexivity|reflexivity].
    rewrite delete_insert_delete. reflexivity.
  - intros src' Hsrc. rewrite lookup_insert_ne by congruence. destruct (s_objs w !! src') as [b2|]; cbn [obind]; [|split; reflexivity]. split.
    + unfold sb_copy_assign. cbn [sb_stolen b_data b_stated b_acap].
      destruct (sb_resize_memory _ _ _ _) as [[h1 b1]| |]; cbn [obind]; [|reflexivity|reflexivity].
      destruct (hcopy _ _ _ _); cbn [obind]; [|reflexivity|reflexivity]. rewrite insert_insert. reflexivity.
    + unfold sb_move_assign. cbn [sb_stolen b_data]. destruct (hfree _ _); cbn [obind]; [|reflexivity|reflexivity]. rewrite insert_insert. reflexivity.
Qed.
Print Assumptions C104_stack_recover.
End stack.

(** Programs meeting the hypotheses: a resize, a copy and a construction are left; a shrinking resize needs no memory. *)
Example C104_circ_case :
  let ps := [(true, CircBufModel.WNew 0 20); (true, CircBufModel.WCall 0 (CPush (Some [7; 8; 9]) 3)); (false, CircBufModel.WResize 0 50);
             (false, CircBufModel.WCopy 1 0); (false, CircBufModel.WNew 1 5); (false, CircBufModel.WResize 0 19); (true, CircBufModel.WCall 0 (CPop 10))] in
  match cbm_run (CircBufModel.world0 (fun _ _ => 0)) ps with
  | Ok (_, tr) => map snd tr = [Some CircBufModel.WDone; Some (CircBufModel.WRet (CircModel.RBool true)); None; None; None; Some CircBufModel.WDone;
                                Some (CircBufModel.WRet (RPop 3 [7; 8; 9]))]
  | _ => False
  end.
Proof. vm_compute. reflexivity. Qed.
Example C104_stack_case :
  let ps := [(true, StackModel.SNew 0 20); (true, StackModel.SCall 0 (StackModel.KPush (Some [7; 8; 9]) 3)); (false, StackModel.SResize 0 50);
             (false, StackModel.SCopy 1 0); (false, StackModel.SNew 1 5); (true, StackModel.SCall 0 (StackModel.KPop 10))] in
  match sbm_run (StackModel.sworld0 (fun _ _ => 0)) ps with
  | Ok (_, tr) => map snd tr = [Some StackModel.SDone; Some (StackModel.SRet (StackModel.RBool true)); None; None; None;
                                Some (StackModel.SRet (StackModel.RPop 3 [7; 8; 9]))]
  | _ => False
  end.
Proof. vm_compute. reflexivity. Qed.
