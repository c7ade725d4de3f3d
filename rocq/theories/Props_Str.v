(** Property C35: the string mapped vectors own the text of their search terms. *)
From stdpp Require Import gmap.
From Verif Require Import Base BlkHeap BlkIter VecModel VecProofs VecWorld StrModel StrSpec StrProofs.

Definition chk {A : Type} (x : outcome A) (f : A -> bool) : bool := match x with Ok a => f a | _ => false end.

(** ** C35
    Full statement: in every history, including copies and moves of containers, every stored search term of a container
    refers to text owned by that container.  False for copies: the implicit copy operations copy the string_view keys,
    so those of the copy refer to the strings of the source ([C35_copies_refuted]; [C35_copies_share]: so it is for
    every copy of every container with a term).  Without copies the statement holds: no history of construction, moves,
    move assignments, destruction and member calls goes wrong, every look-up answers from the container's own dictionary,
    and every stored view is a live string of the container's own [names]. *)
Theorem C35_own_text_partial :
  forall (T : Type) `{Countable T} P, 0 <= expo P -> forall (empty_text : T) (dual : bool) ps,
    st_ok ∅ ps -> Forall no_copy ps ->
    exists w tr A, swrun P empty_text dual sworld0 ps = Ok (w, tr) /\ map fst tr = ps /\ st_trace empty_text dual ∅ tr A /\
      forall o s, sw_objs w !! o = Some s -> forall b j i, (b, j, i) ∈ s_nodes s ->
        (exists t, el (sw_heap w) !! (b, j) = Some t) /\
        exists k, 0 <= k < v_size (s_names s) /\ vec_at P (sw_heap w) (s_names s) k = Ok (Some b, j).
Proof.
  intros T E1 E2 P HP et du ps Hok Hnc.
  rewrite <- (stat0 (T := T)) in Hok.
  destruct (sw_run_ok P HP et du ps _ _ _ (sw_inv0 P HP) Hok Hnc) as (w & tr & A & G & E & Ht & Htr & Hw).
  exists w, tr, A. splits; try assumption. intros o. exact (inv_own P w A G o Hw).
Qed.
Print Assumptions C35_own_text_partial.

Global Instance sret_eq_dec : EqDecision sret.
Proof. solve_decision. Defined.

Definition NX (n : Z) : params := Params n false false.

Example C35_nonvacuous :
  let ps := [SNew 0%nat; SInsert 0%nat 5%nat; SInsert 0%nat 6%nat; SMove 1%nat 0%nat; STermIdx 1%nat 7%nat 0; SDestroy 0%nat;
             SNew 0%nat; SInsert 0%nat 5%nat; SMoveAssign 0%nat 1%nat; SRemove 0%nat 6%nat; SFind 0%nat 7%nat; SFind 0%nat 6%nat;
             SDestroy 1%nat; SFind 0%nat 5%nat; SClear 0%nat; SInsertNo 0%nat; SAssign 0%nat 6%nat] in
  st_ok ∅ ps /\ Forall no_copy ps /\
  chk (swrun (NX 0) 0%nat true sworld0 ps) (fun '(w, tr) => bool_decide (map snd tr = [SUnit; SIdx 0; SIdx 1; SUnit; SBool true; SUnit;
    SUnit; SIdx 0; SUnit; SUnit; SIdx 0; SNone; SUnit; SIdx 0; SUnit; SIdx 0; SIdx 1])) = true.
Proof.
  cbv zeta. split; [apply (bool_decide_unpack _); vm_compute; exact I|]. split; [repeat constructor|vm_compute; reflexivity].
Qed.

(** Whatever happened before (without copies), a copy of a container has the views of its source, and none of them refers
    to a string of the copy. *)
Theorem C35_copies_share :
  forall (T : Type) `{Countable T} P, 0 <= expo P <= 30 -> forall (empty_text : T) (dual : bool) ps w tr o src s,
    st_ok ∅ (ps ++ [SCopy o src]) -> Forall no_copy ps -> swrun P empty_text dual sworld0 ps = Ok (w, tr) ->
    sw_objs w !! src = Some s -> ~ vfull P (s_names s) ->
    forall w1 r s1, swstep P empty_text dual w (SCopy o src) = Ok (w1, r) -> sw_objs w1 !! o = Some s1 ->
      s_nodes s1 = s_nodes s /\
      forall b j i, (b, j, i) ∈ s_nodes s1 ->
        forall k j', 0 <= k < v_size (s_names s1) -> vec_at P (sw_heap w1) (s_names s1) k <> Ok (Some b, j').
Proof. intros T E1 E2 P HP et du. exact (copies_share P HP et du). Qed.
Print Assumptions C35_copies_share.

Example C35_copies_share_nonvacuous :
  let ps := [SNew 0%nat; SInsert 0%nat 5%nat] in
  st_ok ∅ (ps ++ [SCopy 1%nat 0%nat]) /\ Forall no_copy ps /\
  chk (swrun (NX 0) 0%nat false sworld0 ps) (fun '(w, _) =>
    chk (swstep (NX 0) 0%nat false w (SCopy 1%nat 0%nat)) (fun '(w1, _) =>
      match sw_objs w !! 0%nat, sw_objs w1 !! 1%nat with
      | Some s, Some s1 => bool_decide (s_nodes s1 = [(1%nat, 0, 0)]) && (v_idx (s_names s) + 1 <? v_slots (s_names s)) && (v_size (s_names s1) =? 1)
      | _, _ => false
      end)) = true.
Proof.
  cbv zeta. split; [apply (bool_decide_unpack _); vm_compute; exact I|]. split; [repeat constructor|vm_compute; reflexivity].
Qed.

(** A legal history that reads dead text: copy a container with one term, destroy the source, look the term up. *)
Theorem C35_copies_refuted :
  forall dual, exists ps : list (sop nat), st_ok ∅ ps /\ swrun (NX 5) 0%nat dual sworld0 ps = UB.
Proof.
  intros dual. exists [SNew 0%nat; SInsert 0%nat 5%nat; SCopy 1%nat 0%nat; SDestroy 0%nat; SFind 1%nat 5%nat].
  split; [apply (bool_decide_unpack _); vm_compute; exact I|]. destruct dual; vm_compute; reflexivity.
Qed.
Print Assumptions C35_copies_refuted.

(** The same by copy assignment *)
Theorem C35_copy_assign_refuted :
  forall dual, exists ps : list (sop nat), st_ok ∅ ps /\ swrun (NX 5) 0%nat dual sworld0 ps = UB.
Proof.
  intros dual. exists [SNew 0%nat; SNew 1%nat; SInsert 0%nat 5%nat; SCopyAssign 1%nat 0%nat; SDestroy 0%nat; SInsert 1%nat 6%nat].
  split; [apply (bool_decide_unpack _); vm_compute; exact I|]. destruct dual; vm_compute; reflexivity.
Qed.
Print Assumptions C35_copy_assign_refuted.
