(** Property C117: ownership in the pointer vectors (MappedPointerVector, DualMappedPointerVector).
    A program makes, moves, assigns, calls and destroys any number of containers of one class, and makes and destroys objects of
    its own, which it can give to insert and insert_or_assign.  [owned w]: the objects behind the unique_ptrs of the user, then
    those behind the unique_ptrs in the containers.  [dels]: the objects that were destroyed, in order. *)
From stdpp Require Import gmap.
From Verif Require Import Base BlkHeap VecModel MapStore MapModel DualModel OwnModel OwnProofs OwnWorld.

(** No object has two owners, none is without an owner, none is destroyed twice, none that is owned was destroyed. *)
Definition well_owned {W C} (cs_of : C -> list uptr) (w : ow W C) : Prop :=
  NoDup (owned cs_of w) /\
  (forall a, a ∈ owned cs_of w <-> is_Some (live (om w) !! a)) /\
  (forall a, (a < nxt (om w))%nat <-> is_Some (live (om w) !! a) \/ a ∈ dels (om w)) /\
  NoDup (dels (om w)) /\ (forall a, a ∈ dels (om w) -> live (om w) !! a = None).
Lemma ownI_well {W C} (cs_of : C -> list uptr) (w : ow W C) : ownI (om w) (owned cs_of w) -> well_owned cs_of w.
Proof. intros []. repeat split; try assumption; naive_solver. Qed.

Lemma owned_end {W C} (cs_of : C -> list uptr) (w : ow W C) : ownI (om w) (owned cs_of w) -> Forall (fun x => x = None) (conts w) -> Forall (fun x => x = None) (usr (om w)) ->
  live (om w) = ∅ /\ dels (om w) ≡ₚ seq 0 (nxt (om w)).
Proof.
  intros Ho Hc Hu. assert (Eo : owned cs_of w = []).
  { unfold owned. replace (hs (usr (om w))) with (@nil nat); [|induction Hu as [|x l -> _ IH]; cbn; auto]. cbn. induction Hc as [|x l -> _ IH]; cbn; auto. }
  rewrite Eo in Ho. assert (El : live (om w) = ∅). { apply map_empty. intros a. destruct (live (om w) !! a) eqn:Ea; [|reflexivity]. exfalso. assert (Ha : a ∈ @nil nat) by (apply (oi_live _ _ Ho); eauto). inversion Ha. }
  split; [exact El|]. apply NoDup_Permutation; [exact (oi_dels _ _ Ho)|apply NoDup_ListNoDup, seq_NoDup|]. intros a. rewrite elem_of_seq.
  pose proof (oi_nxt _ _ Ho a) as Hn. rewrite El, lookup_empty in Hn. split.
  - intros Ha. split; [lia|]. apply Hn. auto.
  - intros [_ Ha]. apply Hn in Ha as [[v Ev]|Ha]; [discriminate|exact Ha].
Qed.

Theorem C117_owned_single :
  forall (W K : Type) `{Countable K} (kdef : option K) (ps : list (wop W (pv K) (pcall W K))) w rs,
    ow_run cells (pv_step kdef) (Pv [] ∅) ow0 ps = Ok (w, rs) -> well_owned cells w.
Proof. intros W K ? ? kdef ps w rs E. apply ownI_well. eapply (run_ok cells (pv_step kdef) (Pv [] ∅) p_eff eq_refl (pv_effect kdef)); [|exact E]. apply own0. Qed.
Print Assumptions C117_owned_single.

(** A step destroys exactly the objects it should ([gone]), once; every other object that was alive is alive and has the content it had. *)
Theorem C117_step_single :
  forall (W K : Type) `{Countable K} (kdef : option K) (ps : list (wop W (pv K) (pcall W K))) w rs p w' r,
    ow_run cells (pv_step kdef) (Pv [] ∅) ow0 ps = Ok (w, rs) -> ow_step cells (pv_step kdef) (Pv [] ∅) w p = Ok (w', r) ->
    dels (om w') = dels (om w) ++ gone cells p_eff w p /\
    forall a v, a ∉ gone cells p_eff w p -> live (om w) !! a = Some v -> live (om w') !! a = Some v.
Proof.
  intros W K ? ? kdef ps w rs p w' r E Es. assert (Ho : ownI (om w) (owned cells w)) by (eapply (run_ok cells (pv_step kdef) (Pv [] ∅) p_eff eq_refl (pv_effect kdef)); [apply own0|exact E]).
  exact (proj2 (step_ok cells (pv_step kdef) (Pv [] ∅) p_eff eq_refl (pv_effect kdef) _ _ _ _ Ho Es)).
Qed.
Print Assumptions C117_step_single.

(** A call: the unique_ptrs in the container afterwards; where a new one comes from; what is returned is in the container; a refused
    insertion changes nothing at all: what the user offered is still theirs, and nothing was made. *)
Theorem C117_call_single :
  forall (W K : Type) `{Countable K} (kdef : option K) (ps : list (wop W (pv K) (pcall W K))) w rs o c a m' c' r,
    ow_run cells (pv_step kdef) (Pv [] ∅) ow0 ps = Ok (w, rs) -> conts w !! o = Some (Some c) -> pv_step kdef (om w) c a = Ok (m', c', r) ->
    cells c' = after (cells c) (eptr (om w) (p_eff c a)) (p_eff c a) /\ taken (om w) (p_eff c a) m' /\
    match r with
    | QPtr (Some x) => x ∈ hs (cells c') /\ is_Some (live m' !! x)
    | QList l => l = cells c'
    | QIdx None => m' = om w /\ c' = c
    | _ => True
    end.
Proof.
  intros W K ? ? kdef ps w rs o c a m' c' r E Ec Es. assert (Ho : ownI (om w) (owned cells w)) by (eapply (run_ok cells (pv_step kdef) (Pv [] ∅) p_eff eq_refl (pv_effect kdef)); [apply own0|exact E]).
  destruct (own_at _ _ _ _ Ho Ec) as [L HL]. pose proof ((pv_effect kdef) _ _ _ _ _ _ Es) as Ee. destruct (taken_ok _ _ _ _ _ _ HL Ee) as [Ht Ea]. split; [exact Ea|]. split; [exact Ht|].
  pose proof (pv_ret kdef _ _ _ _ _ _ Es) as Hr. destruct r as [|[i|]|[x|]| | |]; try exact I; try exact Hr; [exact (pv_refused kdef _ _ _ _ _ Es)|]. split; [exact Hr|].
  assert (Es2 : ow_step cells (pv_step kdef) (Pv [] ∅) w (OCall o a) = Ok (OW m' (<[o := Some c']> (conts w)), QPtr (Some x))) by (cbn [ow_step]; rewrite Ec, Es; reflexivity).
  destruct (step_ok cells (pv_step kdef) (Pv [] ∅) p_eff eq_refl (pv_effect kdef) _ _ _ _ Ho Es2) as (Ho2 & _). cbn [om] in Ho2. apply (oi_live _ _ Ho2). unfold owned. apply elem_of_app. right. cbn [conts].
  apply elem_of_list_In, in_concat. exists (hs (cells c')). split; [|apply elem_of_list_In, Hr]. apply in_map_iff. exists (Some c'). split; [reflexivity|]. apply elem_of_list_In, (elem_of_list_lookup_2 _ o), list_lookup_insert, (lookup_lt_Some _ _ _ Ec).
Qed.
Print Assumptions C117_call_single.

(** No destruction is undefined: a call has the results the model of the container without memory has (C27, C32), and is undefined only if
    that is; destroying a container, assigning to it and destroying an object of the user are always defined. *)
Theorem C117_defined_single :
  forall (W K : Type) `{Countable K} (kdef : option K) P (ps : list (wop W (pv K) (pcall W K))) w rs,
    ow_run cells (pv_step kdef) (Pv [] ∅) ow0 ps = Ok (w, rs) ->
    (forall o c a, conts w !! o = Some (Some c) ->
       forget (pv_step kdef (om w) c a) = ('(c', r) <-! (mv_step P kdef (Mv (SVec (cells c)) (p_lk c)) (p_mop (om w) a)) ;; Ok (p_of c', q_ret r))) /\
    (forall o c, conts w !! o = Some (Some c) -> exists w' r, ow_step cells (pv_step kdef) (Pv [] ∅) w (ODestroy o) = Ok (w', r)) /\
    (forall to from c d rest, to <> from -> conts w !! to = Some (Some d) -> conts w !! from = Some (Some c) -> cells rest = [] ->
       exists w' r, ow_step cells (pv_step kdef) (Pv [] ∅) w (OMoveTo to from rest) = Ok (w', r)) /\
    (forall x, is_Some (usr (om w) !! x) -> exists w' r, ow_step cells (pv_step kdef) (Pv [] ∅) w (OReset x) = Ok (w', r)).
Proof.
  intros W K ? ? kdef P ps w rs E. assert (Ho : ownI (om w) (owned cells w)) by (eapply (run_ok cells (pv_step kdef) (Pv [] ∅) p_eff eq_refl (pv_effect kdef)); [apply own0|exact E]).
  split; [|split; [|split]].
  - intros o c a Ec. destruct (own_at _ _ _ _ Ho Ec) as [L HL]. exact (pv_same kdef P _ _ _ L HL).
  - intros o c Ec. apply step_defined; [exact Ho|]. cbn [step_def]. eauto.
  - intros to from c d rest Hne Ed Ec Er. apply step_defined; [exact Ho|]. cbn [step_def]. eauto 6.
  - intros x Hx. apply step_defined; [exact Ho|]. exact Hx.
Qed.
Print Assumptions C117_defined_single.

(** Nothing leaks: once the containers are destroyed and the user has nothing left, every object that was ever made was destroyed, exactly once. *)
Theorem C117_end_single :
  forall (W K : Type) `{Countable K} (kdef : option K) (ps : list (wop W (pv K) (pcall W K))) w rs,
    ow_run cells (pv_step kdef) (Pv [] ∅) ow0 ps = Ok (w, rs) -> Forall (fun x => x = None) (conts w) -> Forall (fun x => x = None) (usr (om w)) ->
    live (om w) = ∅ /\ dels (om w) ≡ₚ seq 0 (nxt (om w)).
Proof.
  intros W K ? ? kdef ps w rs E Hc Hu. assert (Ho : ownI (om w) (owned cells w)) by (eapply (run_ok cells (pv_step kdef) (Pv [] ∅) p_eff eq_refl (pv_effect kdef)); [apply own0|exact E]).
  apply (owned_end _ _ Ho Hc Hu).
Qed.
Print Assumptions C117_end_single.

Theorem C117_owned_dual :
  forall (W K1 K2 : Type) `{Countable K1} `{Countable K2} (kd1 : option K1) (kd2 : option K2) (ps : list (wop W (pd K1 K2) (pdcall W K1 K2))) w rs,
    ow_run dcells (pd_step kd1 kd2) (Pd [] ∅ ∅) ow0 ps = Ok (w, rs) -> well_owned dcells w.
Proof. intros W K1 K2 ? ? ? ? kd1 kd2 ps w rs E. apply ownI_well. eapply (run_ok dcells (pd_step kd1 kd2) (Pd [] ∅ ∅) d_eff eq_refl (pd_effect kd1 kd2)); [|exact E]. apply own0. Qed.
Print Assumptions C117_owned_dual.

(** A step destroys exactly the objects it should ([gone]), once; every other object that was alive is alive and has the content it had. *)
Theorem C117_step_dual :
  forall (W K1 K2 : Type) `{Countable K1} `{Countable K2} (kd1 : option K1) (kd2 : option K2) (ps : list (wop W (pd K1 K2) (pdcall W K1 K2))) w rs p w' r,
    ow_run dcells (pd_step kd1 kd2) (Pd [] ∅ ∅) ow0 ps = Ok (w, rs) -> ow_step dcells (pd_step kd1 kd2) (Pd [] ∅ ∅) w p = Ok (w', r) ->
    dels (om w') = dels (om w) ++ gone dcells d_eff w p /\
    forall a v, a ∉ gone dcells d_eff w p -> live (om w) !! a = Some v -> live (om w') !! a = Some v.
Proof.
  intros W K1 K2 ? ? ? ? kd1 kd2 ps w rs p w' r E Es. assert (Ho : ownI (om w) (owned dcells w)) by (eapply (run_ok dcells (pd_step kd1 kd2) (Pd [] ∅ ∅) d_eff eq_refl (pd_effect kd1 kd2)); [apply own0|exact E]).
  exact (proj2 (step_ok dcells (pd_step kd1 kd2) (Pd [] ∅ ∅) d_eff eq_refl (pd_effect kd1 kd2) _ _ _ _ Ho Es)).
Qed.
Print Assumptions C117_step_dual.

(** A call: the unique_ptrs in the container afterwards; where a new one comes from; what is returned is in the container; a refused
    insertion changes nothing at all: what the user offered is still theirs, and nothing was made. *)
Theorem C117_call_dual :
  forall (W K1 K2 : Type) `{Countable K1} `{Countable K2} (kd1 : option K1) (kd2 : option K2) (ps : list (wop W (pd K1 K2) (pdcall W K1 K2))) w rs o c a m' c' r,
    ow_run dcells (pd_step kd1 kd2) (Pd [] ∅ ∅) ow0 ps = Ok (w, rs) -> conts w !! o = Some (Some c) -> pd_step kd1 kd2 (om w) c a = Ok (m', c', r) ->
    dcells c' = after (dcells c) (eptr (om w) (d_eff c a)) (d_eff c a) /\ taken (om w) (d_eff c a) m' /\
    match r with
    | QPtr (Some x) => x ∈ hs (dcells c') /\ is_Some (live m' !! x)
    | QList l => l = dcells c'
    | QIdx None => m' = om w /\ c' = c
    | _ => True
    end.
Proof.
  intros W K1 K2 ? ? ? ? kd1 kd2 ps w rs o c a m' c' r E Ec Es. assert (Ho : ownI (om w) (owned dcells w)) by (eapply (run_ok dcells (pd_step kd1 kd2) (Pd [] ∅ ∅) d_eff eq_refl (pd_effect kd1 kd2)); [apply own0|exact E]).
  destruct (own_at _ _ _ _ Ho Ec) as [L HL]. pose proof ((pd_effect kd1 kd2) _ _ _ _ _ _ Es) as Ee. destruct (taken_ok _ _ _ _ _ _ HL Ee) as [Ht Ea]. split; [exact Ea|]. split; [exact Ht|].
  pose proof (pd_ret kd1 kd2 _ _ _ _ _ _ Es) as Hr. destruct r as [|[i|]|[x|]| | |]; try exact I; try exact Hr; [exact (pd_refused kd1 kd2 _ _ _ _ _ Es)|]. split; [exact Hr|].
  assert (Es2 : ow_step dcells (pd_step kd1 kd2) (Pd [] ∅ ∅) w (OCall o a) = Ok (OW m' (<[o := Some c']> (conts w)), QPtr (Some x))) by (cbn [ow_step]; rewrite Ec, Es; reflexivity).
  destruct (step_ok dcells (pd_step kd1 kd2) (Pd [] ∅ ∅) d_eff eq_refl (pd_effect kd1 kd2) _ _ _ _ Ho Es2) as (Ho2 & _). cbn [om] in Ho2. apply (oi_live _ _ Ho2). unfold owned. apply elem_of_app. right. cbn [conts].
  apply elem_of_list_In, in_concat. exists (hs (dcells c')). split; [|apply elem_of_list_In, Hr]. apply in_map_iff. exists (Some c'). split; [reflexivity|]. apply elem_of_list_In, (elem_of_list_lookup_2 _ o), list_lookup_insert, (lookup_lt_Some _ _ _ Ec).
Qed.
Print Assumptions C117_call_dual.

(** No destruction is undefined: a call has the results the model of the container without memory has (C27, C32), and is undefined only if
    that is; destroying a container, assigning to it and destroying an object of the user are always defined. *)
Theorem C117_defined_dual :
  forall (W K1 K2 : Type) `{Countable K1} `{Countable K2} (kd1 : option K1) (kd2 : option K2) P (ps : list (wop W (pd K1 K2) (pdcall W K1 K2))) w rs,
    ow_run dcells (pd_step kd1 kd2) (Pd [] ∅ ∅) ow0 ps = Ok (w, rs) ->
    (forall o c a, conts w !! o = Some (Some c) ->
       forget (pd_step kd1 kd2 (om w) c a) = ('(c', r) <-! (dv_step P CPtr kd1 kd2 (Dv (SVec (dcells c)) (p_l1 c) (p_l2 c)) (d_dop (om w) a)) ;; Ok (d_of c', q_ret r))) /\
    (forall o c, conts w !! o = Some (Some c) -> exists w' r, ow_step dcells (pd_step kd1 kd2) (Pd [] ∅ ∅) w (ODestroy o) = Ok (w', r)) /\
    (forall to from c d rest, to <> from -> conts w !! to = Some (Some d) -> conts w !! from = Some (Some c) -> dcells rest = [] ->
       exists w' r, ow_step dcells (pd_step kd1 kd2) (Pd [] ∅ ∅) w (OMoveTo to from rest) = Ok (w', r)) /\
    (forall x, is_Some (usr (om w) !! x) -> exists w' r, ow_step dcells (pd_step kd1 kd2) (Pd [] ∅ ∅) w (OReset x) = Ok (w', r)).
Proof.
  intros W K1 K2 ? ? ? ? kd1 kd2 P ps w rs E. assert (Ho : ownI (om w) (owned dcells w)) by (eapply (run_ok dcells (pd_step kd1 kd2) (Pd [] ∅ ∅) d_eff eq_refl (pd_effect kd1 kd2)); [apply own0|exact E]).
  split; [|split; [|split]].
  - intros o c a Ec. destruct (own_at _ _ _ _ Ho Ec) as [L HL]. exact (pd_same kd1 kd2 P _ _ _ L HL).
  - intros o c Ec. apply step_defined; [exact Ho|]. cbn [step_def]. eauto.
  - intros to from c d rest Hne Ed Ec Er. apply step_defined; [exact Ho|]. cbn [step_def]. eauto 6.
  - intros x Hx. apply step_defined; [exact Ho|]. exact Hx.
Qed.
Print Assumptions C117_defined_dual.

(** Nothing leaks: once the containers are destroyed and the user has nothing left, every object that was ever made was destroyed, exactly once. *)
Theorem C117_end_dual :
  forall (W K1 K2 : Type) `{Countable K1} `{Countable K2} (kd1 : option K1) (kd2 : option K2) (ps : list (wop W (pd K1 K2) (pdcall W K1 K2))) w rs,
    ow_run dcells (pd_step kd1 kd2) (Pd [] ∅ ∅) ow0 ps = Ok (w, rs) -> Forall (fun x => x = None) (conts w) -> Forall (fun x => x = None) (usr (om w)) ->
    live (om w) = ∅ /\ dels (om w) ≡ₚ seq 0 (nxt (om w)).
Proof.
  intros W K1 K2 ? ? ? ? kd1 kd2 ps w rs E Hc Hu. assert (Ho : ownI (om w) (owned dcells w)) by (eapply (run_ok dcells (pd_step kd1 kd2) (Pd [] ∅ ∅) d_eff eq_refl (pd_effect kd1 kd2)); [apply own0|exact E]).
  apply (owned_end _ _ Ho Hc Hu).
Qed.
Print Assumptions C117_end_dual.

(** Programs.  Contents are numbers.  A container is filled (one element without a key, one offered by the user and refused, one replaced by
    an object of the user), moved into another container that had an element, and both are destroyed. *)
Definition ex_single : list (wop nat (pv nat) (pcall nat nat)) :=
  [ODefault; OMake 70; OMake 71; OCall 0 (PInsert 1 (SArgs 10)); OCall 0 (PInsert 1 (SUser 0)); OCall 0 (PInsertNo 11); OCall 0 (PInsert 2 (SUser 0));
   OCall 0 (PAssign 1 (SUser 1)); OCall 0 (PFind 1); OCall 0 PApply; OCall 0 (PRemove 2 [1; 2]); ODefault; OCall 1 (PInsert 5 (SArgs 12));
   OMoveTo 1 0 (Pv [] ∅); OCall 1 PApply; ODestroy 0; ODestroy 1]%nat.
Example C117_ex_single :
  match ow_run cells (pv_step None) (Pv [] ∅) ow0 ex_single with
  | Ok (w, rs) => rs = [QUnit; QUnit; QUnit; QIdx (Some 0); QIdx None; QIdx (Some 1); QIdx (Some 2); QIdx (Some 0); QPtr (Some 1%nat); QList [Some 1; Some 3; Some 0]%nat; QUnit;
        QUnit; QIdx (Some 0); QUnit; QList [Some 1; Some 3]%nat; QUnit; QUnit] /\
      dels (om w) = [2; 0; 4; 1; 3]%nat /\ nxt (om w) = 5%nat /\ usr (om w) = [None; None] /\ conts w = [None; None]
  | _ => False
  end.
Proof. vm_compute. repeat split. Qed.
Definition ex_dual : list (wop nat (pd nat nat) (pdcall nat nat nat)) :=
  [ODefault; OMake 70; OCall 0 (QInsert 1 2 (SArgs 10)); OCall 0 (QInsert 1 2 (SUser 0)); OCall 0 (QInsert 3 4 (SUser 0)); OCall 0 (QAssign 1 2 (SArgs 11));
   OCall 0 (QInsert1 5 12); OCall 0 (QFind (inr 4)); OCall 0 (QRemove (inl 1) [1; 3; 5] [2; 4]); OCall 0 QApply; OMove 0 (Pd [] ∅ ∅); ODestroy 1; ODestroy 0]%nat.
Example C117_ex_dual :
  match ow_run dcells (pd_step None (Some 2%nat)) (Pd [] ∅ ∅) ow0 ex_dual with
  | Ok (w, rs) => rs = [QUnit; QUnit; QIdx (Some 0); QIdx None; QIdx (Some 1); QIdx (Some 0); QIdx (Some 2); QPtr (Some 0%nat); QUnit; QList [Some 0; Some 3]%nat; QUnit; QUnit; QUnit] /\
      dels (om w) = [1; 2; 0; 3]%nat /\ nxt (om w) = 4%nat /\ usr (om w) = [None] /\ conts w = [None; None]
  | _ => False
  end.
Proof. vm_compute. repeat split. Qed.
