(** Property C112: the memory of CircularBuffer and StackBuffer is given back. *)
From stdpp Require Import gmap.
From Verif Require Import Base Heap CircModel BufMem Leak CircLeak StackLeak BufLeak.
From Verif Require CircBufModel StackModel.

(** ** C112
    Full statement: in every program over any number of buffers, calls left by bad_alloc included, that runs without undefined
    behaviour, every array that was asked for and not given back belongs to exactly one buffer, and when no buffer is left no
    array is left.

    It holds of arrays that are not of length 0 (the partial forms) and, of all arrays, in programs that leave none of
    length 0 to a buffer (the exact forms).  It is false of arrays of length 0: the refuted forms. *)

(** [owned h objs dat id]: block [id] is the [data] of one buffer and of no other *)
Definition owned {B : Type} (objs : gmap nat B) (dat : B -> ptr) (id : nat) : Prop :=
  exists o b, objs !! o = Some b /\ dat b = Some id /\ forall o' b', objs !! o' = Some b' -> dat b' = Some id -> o' = o.

Lemma linv_owned {B} dat cap strict h (objs : gmap nat B) : linv dat cap strict h objs ->
  forall id m, h_live h !! id = Some m -> 0 < zlen m -> owned objs dat id.
Proof.
  intros I id m E Hm. destruct (l_cov _ _ _ _ _ I id (zlen m)) as (o & b & Eo & Ed); [unfold hl; rewrite E; reflexivity|assumption|].
  exists o, b. split; [assumption|]. split; [assumption|]. intros o' b' E' D'. symmetry. eapply (l_uniq _ _ _ _ _ I); eassumption.
Qed.
Lemma linv0 {B} dat cap strict junk : @linv B dat cap strict (Heap ∅ 0 junk) ∅.
Proof. constructor; unfold hl; cbn; intros *; rewrite ?lookup_empty; try discriminate. Qed.
Lemma zlen0 {A} (l : list A) : ~ 0 < zlen l -> l = [].
Proof. unfold zlen. destruct l; cbn; [reflexivity|lia]. Qed.

Section circular.
Import CircBufModel.

Theorem C112_circ_partial :
  forall junk ps w tr, cbm_run (world0 junk) ps = Ok (w, tr) -> walong wfresh (world0 junk) ps ->
    (forall id m, h_live (w_heap w) !! id = Some m -> 0 < zlen m -> owned (w_objs w) b_data id) /\
    (w_objs w = ∅ -> forall id m, h_live (w_heap w) !! id = Some m -> m = []).
Proof.
  intros junk ps w tr E Hf. assert (I : linv b_data b_acap False (w_heap w) (w_objs w)) by (eapply cbm_run_linv; [| | |exact E]; [intros []|exact Hf|apply linv0]).
  pose proof (linv_owned _ _ _ _ _ I) as H. split; [exact H|]. intros E0 id m Em. apply zlen0. intros Hm.
  destruct (H _ _ Em Hm) as (o & b & Eo & _). rewrite E0, lookup_empty in Eo. discriminate.
Qed.
Print Assumptions C112_circ_partial.

Theorem C112_circ_exact :
  forall junk ps w tr, cbm_run (world0 junk) ps = Ok (w, tr) -> walong wfresh (world0 junk) ps -> walong wnozero (world0 junk) ps ->
    (forall id m, h_live (w_heap w) !! id = Some m -> owned (w_objs w) b_data id) /\
    (w_objs w = ∅ -> h_live (w_heap w) = ∅).
Proof.
  intros junk ps w tr E Hf Hz. assert (I : linv b_data b_acap True (w_heap w) (w_objs w)) by (eapply cbm_run_linv; [| | |exact E]; [auto|exact Hf|apply linv0]).
  assert (H : forall id m, h_live (w_heap w) !! id = Some m -> owned (w_objs w) b_data id).
  { intros id m Em. eapply linv_owned; eauto. eapply (l_pos _ _ _ _ _ I); [exact Logic.I|]. unfold hl. rewrite Em. reflexivity. }
  split; [exact H|]. intros E0. apply map_eq. intros id. rewrite lookup_empty. destruct (h_live (w_heap w) !! id) eqn:Em; [|reflexivity].
  destruct (H _ _ Em) as (o & b & Eo & _). rewrite E0, lookup_empty in Eo. discriminate.
Qed.
Print Assumptions C112_circ_exact.

(** CircularBuffer(0) and its destructor: the array of length 0 is never given back, as actualCapacity is 0.  The same of every copy
    of a buffer that was resized to 0. *)
Theorem C112_circ_refuted :
  forall junk, exists w tr, cbm_run (world0 junk) [(true, WNew 0 0); (true, WDestroy 0)] = Ok (w, tr) /\
    w_objs w = ∅ /\ h_live (w_heap w) !! 0%nat = Some [].
Proof. intros junk. eexists _, _. split; [reflexivity|]. split; [apply map_to_list_empty_iff; vm_compute; reflexivity|reflexivity]. Qed.
Print Assumptions C112_circ_refuted.
Theorem C112_circ_copy_refuted :
  forall junk, exists w tr, cbm_run (world0 junk) [(true, WNew 0 8); (true, WResize 0 0); (true, WCopy 1 0); (true, WDestroy 1); (true, WDestroy 0)] = Ok (w, tr) /\
    w_objs w = ∅ /\ h_live (w_heap w) !! 1%nat = Some [].
Proof. intros junk. eexists _, _. split; [reflexivity|]. split; [apply map_to_list_empty_iff; vm_compute; reflexivity|reflexivity]. Qed.
Print Assumptions C112_circ_copy_refuted.

(** Non-vacuity: constructions, growth, an assignment that replaces the memory, one left by bad_alloc, moves, a copy of an empty
    buffer, a throwing resize *)
Example C112_circ_nonvacuous :
  let ps := [(true, WNew 0 16); (true, WCall 0 (CPush (Some [1;2;3]) 3)); (true, WResize 0 32); (true, WDefault 1); (true, WCopy 2 1);
             (false, WCopyAssign 1 0); (true, WCopyAssign 1 0); (true, WCopy 3 0); (true, WMoveAssign 3 1); (false, WNew 4 9);
             (true, WMove 4 0); (true, WResize 4 0)] in
  let ds := [(true, WDestroy 0); (true, WDestroy 1); (true, WDestroy 2); (true, WDestroy 3); (true, WDestroy 4)] in
  let w0 := world0 (fun _ _ => 0) in
  walong wfresh w0 (ps ++ ds) /\ walong wnozero w0 (ps ++ ds) /\
  match cbm_run w0 ps with
  | Ok (w, tr) => (omap (fun id => h_live (w_heap w) !! id) (seq 0 9)) = [hget (w_heap w) (Some 1%nat); hget (w_heap w) (Some 3%nat)] /\ map snd tr !! 11%nat = Some (Some WThrew)
                  /\ h_next (w_heap w) = 5%nat
  | _ => False
  end /\
  match cbm_run w0 (ps ++ ds) with Ok (w, tr) => map_to_list (w_objs w) = [] /\ map_to_list (h_live (w_heap w)) = [] | _ => False end.
Proof.
  cbv zeta. split; [|split; [|split]].
  - apply (walongb_sound wfreshb); [exact wfreshb_sound|vm_compute; reflexivity].
  - apply (walongb_sound wnozerob); [exact wnozerob_sound|vm_compute; reflexivity].
  - vm_compute. auto.
  - vm_compute. auto.
Qed.
End circular.

Section stack.
Import StackModel.

Theorem C112_stack_partial :
  forall junk ps w tr, sbm_run (sworld0 junk) ps = Ok (w, tr) -> swalong swfresh (sworld0 junk) ps ->
    (forall id m, h_live (s_heap w) !! id = Some m -> 0 < zlen m -> owned (s_objs w) b_data id) /\
    (s_objs w = ∅ -> forall id m, h_live (s_heap w) !! id = Some m -> m = []).
Proof.
  intros junk ps w tr E Hf. assert (I : linv b_data b_acap False (s_heap w) (s_objs w)) by (eapply sbm_run_linv; [| | |exact E]; [intros []|exact Hf|apply linv0]).
  pose proof (linv_owned _ _ _ _ _ I) as H. split; [exact H|]. intros E0 id m Em. apply zlen0. intros Hm.
  destruct (H _ _ Em Hm) as (o & b & Eo & _). rewrite E0, lookup_empty in Eo. discriminate.
Qed.
Print Assumptions C112_stack_partial.

(** No guard on the state is needed here: a copy of length 0 is given back at once. *)
Theorem C112_stack_exact :
  forall junk ps w tr, sbm_run (sworld0 junk) ps = Ok (w, tr) -> swalong swfresh (sworld0 junk) ps ->
    (forall ok o, (ok, SNew o 0) ∉ ps) ->
    (forall id m, h_live (s_heap w) !! id = Some m -> owned (s_objs w) b_data id) /\
    (s_objs w = ∅ -> h_live (s_heap w) = ∅).
Proof.
  intros junk ps w tr E Hf Hz. assert (I : linv b_data b_acap True (s_heap w) (s_objs w)).
  { eapply sbm_run_linv; [| | |exact E]; [|exact Hf|apply linv0]. intros _. apply Forall_forall. intros [ok p] Hin. destruct p; cbn; auto. intros ->. eapply Hz; eassumption. }
  assert (H : forall id m, h_live (s_heap w) !! id = Some m -> owned (s_objs w) b_data id).
  { intros id m Em. eapply linv_owned; eauto. eapply (l_pos _ _ _ _ _ I); [exact Logic.I|]. unfold hl. rewrite Em. reflexivity. }
  split; [exact H|]. intros E0. apply map_eq. intros id. rewrite lookup_empty. destruct (h_live (s_heap w) !! id) eqn:Em; [|reflexivity].
  destruct (H _ _ Em) as (o & b & Eo & _). rewrite E0, lookup_empty in Eo. discriminate.
Qed.
Print Assumptions C112_stack_exact.

(** StackBuffer(0) that is resized: resizeMemory gives the old array back only if actualCapacity is not 0. *)
Theorem C112_stack_refuted :
  forall junk, exists w tr, sbm_run (sworld0 junk) [(true, SNew 0 0); (true, SResize 0 8); (true, SDestroy 0)] = Ok (w, tr) /\
    s_objs w = ∅ /\ h_live (s_heap w) !! 0%nat = Some [].
Proof. intros junk. eexists _, _. split; [reflexivity|]. split; [apply map_to_list_empty_iff; vm_compute; reflexivity|reflexivity]. Qed.
Print Assumptions C112_stack_refuted.

Example C112_stack_nonvacuous :
  let ps := [(true, SNew 0 32); (true, SCall 0 (KPush (Some [1;2;3]) 3)); (true, SResize 0 64); (true, SDefault 1); (true, SCopy 2 1);
             (false, SCopyAssign 1 0); (true, SCopyAssign 1 0); (true, SCopy 3 0); (true, SMoveAssign 3 1); (false, SNew 4 9);
             (true, SMove 4 0); (true, SSwap 4 2); (true, SResize 2 0)] in
  let ds := [(true, SDestroy 0); (true, SDestroy 1); (true, SDestroy 2); (true, SDestroy 3); (true, SDestroy 4)] in
  let w0 := sworld0 (fun _ _ => 0) in
  swalong swfresh w0 (ps ++ ds) /\ (forall ok o, (ok, SNew o 0) ∉ ps ++ ds) /\
  match sbm_run w0 ps with
  | Ok (w, tr) => (omap (fun id => h_live (s_heap w) !! id) (seq 0 9)) = [hget (s_heap w) (Some 1%nat); hget (s_heap w) (Some 3%nat)] /\ map snd tr !! 12%nat = Some (Some SThrew)
                  /\ h_next (s_heap w) = 5%nat
  | _ => False
  end /\
  match sbm_run w0 (ps ++ ds) with Ok (w, tr) => map_to_list (s_objs w) = [] /\ map_to_list (h_live (s_heap w)) = [] | _ => False end.
Proof.
  cbv zeta. split; [|split; [|split]].
  - apply (swalongb_sound swfreshb); [exact swfreshb_sound|vm_compute; reflexivity].
  - intros ok o H. cbn [app] in H. repeat (apply elem_of_cons in H as [H|H]; [discriminate|]). inversion H.
  - vm_compute. auto.
  - vm_compute. auto.
Qed.
End stack.
