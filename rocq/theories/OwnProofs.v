(** Ownership in the pointer vectors: what each call destroys, and proofs *)
From stdpp Require Import gmap.
From Verif Require Import Base BlkHeap VecModel MapStore MapModel DualModel OwnModel.

(** The objects held by unique_ptrs *)
Definition hs (cs : list uptr) : list nat := omap id cs.

(** ** Specification: what a call means for the elements *)
Inductive eff (W : Type) := ENone | EPush (s : src W) | ESet (i : Z) (s : src W) | EErase (i : Z) | EClear.
Arguments ENone {W}. Arguments EPush {W} s. Arguments ESet {W} i s. Arguments EErase {W} i. Arguments EClear {W}.

Section spec.
Context {W : Type}.
(** The objects that are destroyed: what an assignment replaces, what a removal removes, everything for clear() *)
Definition killed (cs : list uptr) (e : eff W) : list nat :=
  match e with
  | ENone | EPush _ => []
  | ESet i _ | EErase i => hs (take 1 (drop (Z.to_nat i) cs))
  | EClear => hs cs
  end.
Definition after (cs : list uptr) (p : uptr) (e : eff W) : list uptr :=
  match e with
  | ENone => cs | EPush _ => cs ++ [p] | ESet i _ => <[Z.to_nat i := p]> cs | EErase i => delete (Z.to_nat i) cs | EClear => []
  end.

Context `{Countable K} `{Countable K2}.
Definition p_eff (c : pv K) (o : pcall W K) : eff W :=
  match o with
  | PInsert k s => match p_lk c !! k with Some _ => ENone | None => EPush s end
  | PInsertNo w => EPush (SArgs w)
  | PAssign k s => match p_lk c !! k with Some i => ESet i s | None => EPush s end
  | PRemoveIdx i _ => if i <? zlen (cells c) then EErase i else ENone
  | PRemove k _ => match p_lk c !! k with Some i => EErase i | None => ENone end
  | PClear => EClear
  | _ => ENone
  end.
Definition d_eff (c : pd K K2) (o : pdcall W K K2) : eff W :=
  match o with
  | QInsert k1 k2 s => match p_l1 c !! k1, p_l2 c !! k2 with Some _, Some _ => ENone | _, _ => EPush s end
  | QInsert1 k w => match p_l1 c !! k with Some _ => ENone | None => EPush (SArgs w) end
  | QInsert2 k w => match p_l2 c !! k with Some _ => ENone | None => EPush (SArgs w) end
  | QAssign k1 k2 s => match p_l1 c !! k1, p_l2 c !! k2 with Some i, Some j => if i =? j then ESet i s else EPush s | _, _ => EPush s end
  | QAssign1 k w => match p_l1 c !! k with Some i => ESet i (SArgs w) | None => EPush (SArgs w) end
  | QAssign2 k w => match p_l2 c !! k with Some i => ESet i (SArgs w) | None => EPush (SArgs w) end
  | QRemoveIdx i _ _ => if i <? zlen (dcells c) then EErase i else ENone
  | QRemove k _ _ => match (match k with inl k1 => p_l1 c !! k1 | inr k2 => p_l2 c !! k2 end) with Some i => EErase i | None => ENone end
  | QClear => EClear
  | _ => ENone
  end.
End spec.

Section mem.
Context {W : Type}.
Implicit Types (m : omem W) (cs : list uptr) (L : list nat).

(** ** Handles *)
Lemma hs_app cs ds : hs (cs ++ ds) = hs cs ++ hs ds.
Proof. unfold hs. apply omap_app. Qed.
Lemma hs_split cs i x : cs !! i = Some x -> hs cs = hs (take i cs) ++ hs [x] ++ hs (drop (S i) cs).
Proof. intros E. rewrite <- !hs_app. f_equal. symmetry. apply take_drop_middle, E. Qed.
Lemma hs_insert cs i x p : cs !! i = Some x -> hs (<[i := p]> cs) ++ hs [x] ≡ₚ hs [p] ++ hs cs.
Proof.
  intros E. pose proof (lookup_lt_Some _ _ _ E) as Hl. rewrite (insert_take_drop _ _ _ Hl). change (p :: drop (S i) cs) with ([p] ++ drop (S i) cs). rewrite !hs_app, (hs_split _ _ _ E). solve_Permutation.
Qed.
Lemma hs_delete cs i x : cs !! i = Some x -> hs cs ≡ₚ hs [x] ++ hs (delete i cs).
Proof. intros E. rewrite delete_take_drop, hs_app, (hs_split _ _ _ E). solve_Permutation. Qed.
Lemma take1 cs i x : cs !! i = Some x -> take 1 (drop i cs) = [x].
Proof. intros E. rewrite (drop_S _ _ _ E). cbn. reflexivity. Qed.

(** ** The invariant: [L] are all handles *)
Record ownI m L : Prop := {
  oi_dup : NoDup L;
  oi_live : forall a, a ∈ L <-> is_Some (live m !! a);
  oi_nxt : forall a, is_Some (live m !! a) \/ a ∈ dels m <-> (a < nxt m)%nat;
  oi_dels : NoDup (dels m);
  oi_dead : forall a, a ∈ dels m -> live m !! a = None;
}.
Lemma ownI_perm m L L' : L ≡ₚ L' -> ownI m L -> ownI m L'.
Proof. intros E [A1 A2 A3 A4 A5]. constructor; auto; [rewrite <- E; exact A1|]. intros a. rewrite <- E. apply A2. Qed.
Lemma ownI_usr m L u : ownI m L -> ownI (OM (live m) (nxt m) u (dels m)) L.
Proof. intros [A1 A2 A3 A4 A5]. constructor; auto. Qed.

Lemma del_ok m L p : ownI m (hs [p] ++ L) ->
  exists m', u_del p m = Ok m' /\ ownI m' L /\ dels m' = dels m ++ hs [p] /\ usr m' = usr m /\ nxt m' = nxt m /\
    forall a, a ∉ hs [p] -> live m' !! a = live m !! a.
Proof.
  intros Ho. destruct p as [b|]; cbn [u_del hs omap]; cbn in *.
  2: { exists m. splits; auto. rewrite app_nil_r. reflexivity. }
  destruct Ho as [A1 A2 A3 A4 A5]. destruct (proj1 (A2 b)) as [v Ev]; [left|]. rewrite Ev. eexists. split; [reflexivity|]. cbn. splits; try reflexivity.
  - apply NoDup_cons in A1 as [B1 B2]. constructor; cbn; auto.
    + intros a. rewrite lookup_delete_is_Some, <- A2, elem_of_cons. split; [intros Ha; split; [intros <-; contradiction|auto]|intros [Hne [->|]]; [congruence|assumption]].
    + intros a. rewrite lookup_delete_is_Some, elem_of_app, elem_of_list_singleton, <- A3. destruct (decide (b = a)) as [<-|Hne]; [|intuition congruence]. rewrite Ev. intuition eauto.
    + apply NoDup_app. splits; [exact A4| |apply NoDup_singleton]. intros a Ha Hb. apply elem_of_list_singleton in Hb as ->. apply A5 in Ha. congruence.
    + intros a. rewrite elem_of_app, elem_of_list_singleton. intros [Ha| ->]; [|apply lookup_delete]. rewrite lookup_delete_None. right. apply A5, Ha.
  - intros a Ha. apply lookup_delete_ne. intros ->. apply Ha. left.
Qed.
Lemma del_eq m p m' : u_del p m = Ok m' -> usr m' = usr m.
Proof. destruct p as [a|]; cbn; [destruct (live m !! a); [|discriminate]|]; intros [= <-]; reflexivity. Qed.

Lemma clear_ok cs : forall m L, ownI m (hs cs ++ L) ->
  exists m', c_clear m cs = Ok m' /\ ownI m' L /\ dels m' = dels m ++ hs cs /\ usr m' = usr m /\ nxt m' = nxt m /\ forall a, a ∉ hs cs -> live m' !! a = live m !! a.
Proof.
  induction cs as [|p cs IH]; intros m L Ho; cbn [c_clear].
  - exists m. splits; auto. cbn. rewrite app_nil_r. reflexivity.
  - change (p :: cs) with ([p] ++ cs) in *. rewrite hs_app in *. rewrite <- app_assoc in Ho. destruct (del_ok _ _ _ Ho) as (m1 & -> & H1 & E1 & E2 & E3 & E4). cbn [obind].
    destruct (IH _ _ H1) as (m2 & -> & H2 & F1 & F2 & F3 & F4). exists m2. splits; try congruence; try exact H2.
    + rewrite F1, E1, <- app_assoc. reflexivity.
    + intros a Ha. rewrite elem_of_app in Ha. rewrite F4, E4; [reflexivity|tauto|tauto].
Qed.

Lemma down_eq m x rest : c_down m x rest = (m1 <-! u_del x m ;; Ok (m1, rest)).
Proof.
  revert m x. induction rest as [|y rest IH]; intros m x; cbn [c_down]; [reflexivity|]. destruct (u_del x m) as [m1| |]; cbn [obind]; try reflexivity.
  rewrite IH. reflexivity.
Qed.
Lemma erase_eq m cs i x : 0 <= i -> cs !! Z.to_nat i = Some x -> c_erase m cs i = (m1 <-! u_del x m ;; Ok (m1, delete (Z.to_nat i) cs)).
Proof.
  intros Hi E. unfold c_erase. destruct (Z.leb_spec 0 i); [|lia]. rewrite (drop_S _ _ _ E), down_eq. destruct (u_del x m); cbn [obind]; try reflexivity. rewrite delete_take_drop. reflexivity.
Qed.
Lemma erase_ub m cs i : (i < 0 \/ cs !! Z.to_nat i = None) -> c_erase m cs i = UB.
Proof.
  intros Hi. unfold c_erase. destruct (Z.leb_spec 0 i); [|reflexivity]. destruct Hi as [|Hi]; [lia|]. apply lookup_ge_None in Hi. rewrite drop_ge by exact Hi. reflexivity.
Qed.

(** [s] as an argument: the unique_ptr, and what is left *)
Lemma src_ok m L s : ownI m (hs (usr m) ++ L) ->
  let '(m', p) := u_src s m in ownI m' (hs [p] ++ hs (usr m') ++ L) /\ dels m' = dels m /\ (forall a v, live m !! a = Some v -> live m' !! a = Some v).
Proof.
  intros Ho. destruct s as [w|x]; cbn [u_src u_new].
  - cbn. split; [|split; [reflexivity|]].
    + destruct Ho as [A1 A2 A3 A4 A5]. assert (Hn : live m !! nxt m = None). { apply eq_None_not_Some. intros Hs. assert (nxt m < nxt m)%nat by (apply A3; left; exact Hs). lia. }
      constructor; cbn [live nxt usr dels]; auto.
      * apply NoDup_cons. split; [|exact A1]. rewrite A2, Hn. intros []. discriminate.
      * intros a. rewrite elem_of_cons, A2, lookup_insert_is_Some. split; [intros [->|]; [auto|]|intros [->|[]]; auto]. destruct (decide (nxt m = a)); auto.
      * intros a. rewrite lookup_insert_is_Some. destruct (decide (nxt m = a)) as [<-|Hne]; [split; [lia|auto]|]. split; [intros [[E|[_ Hs]]|Hd]; [congruence| |]; apply Nat.lt_lt_succ_r, A3; auto|]. intros Hl. assert (Hl2 : (a < nxt m)%nat) by lia. apply A3 in Hl2. tauto.
      * intros a Ha. rewrite lookup_insert_None. split; [apply A5, Ha|]. intros <-. assert (nxt m < nxt m)%nat by (apply A3; right; exact Ha). lia.
    + intros a v Ev. cbn. rewrite lookup_insert_ne; [exact Ev|]. intros <-. assert (nxt m < nxt m)%nat by (apply (oi_nxt _ _ Ho); left; eauto). lia.
  - cbn [live nxt usr dels]. split; [|split; [reflexivity|auto]]. apply ownI_usr. destruct (usr m !! x) as [p|] eqn:Ex; cbn [default].
    + eapply ownI_perm; [|exact Ho]. pose proof (hs_insert _ _ _ None Ex) as Hp. cbn [hs omap app] in Hp. rewrite app_assoc. apply Permutation_app_tail. rewrite <- Hp. apply Permutation_app_comm.
    + cbn. rewrite list_insert_ge by (apply lookup_ge_None; exact Ex). exact Ho.
Qed.

Local Ltac sp := repeat match goal with |- _ /\ _ => split end.
(** ** One call: dataStorage and the objects *)
Definition mem_eff m cs (e : eff W) : outcome (omem W * list uptr) :=
  match e with
  | ENone => Ok (m, cs) | EPush s => Ok (c_push m cs s) | ESet i s => c_set m cs i s | EErase i => c_erase m cs i
  | EClear => m1 <-! c_clear m cs ;; Ok (m1, [])
  end.
Definition eptr m (e : eff W) : uptr := match e with EPush s | ESet _ s => (u_src s m).2 | _ => None end.
(** The index is one of the vector *)
Definition eff_ok cs (e : eff W) : Prop := match e with ESet i _ | EErase i => 0 <= i < zlen cs | _ => True end.

Lemma in_range cs i : 0 <= i < zlen cs -> exists x, cs !! Z.to_nat i = Some x.
Proof. intros Hi. apply lookup_lt_is_Some. unfold zlen in Hi. lia. Qed.

Lemma eff_sound m cs e L : ownI m (hs (usr m) ++ hs cs ++ L) -> eff_ok cs e ->
  exists m', mem_eff m cs e = Ok (m', after cs (eptr m e) e) /\ ownI m' (hs (usr m') ++ hs (after cs (eptr m e) e) ++ L) /\ dels m' = dels m ++ killed cs e /\
    forall a v, a ∉ killed cs e -> live m !! a = Some v -> live m' !! a = Some v.
Proof.
  intros Ho He. destruct e as [|s|i s|i|]; cbn [mem_eff after killed eptr eff_ok] in *.
  - exists m. sp; auto. rewrite app_nil_r. reflexivity.
  - pose proof (src_ok m (hs cs ++ L) s Ho) as Hs. unfold c_push. destruct (u_src s m) as [m1 p]. destruct Hs as (Hs & E1 & E2). exists m1. cbn [snd]. sp; [reflexivity| |rewrite E1, app_nil_r; reflexivity|auto].
    eapply ownI_perm; [|exact Hs]. rewrite hs_app. solve_Permutation.
  - pose proof (src_ok m (hs cs ++ L) s Ho) as Hs. unfold c_set. destruct (u_src s m) as [m1 p]. destruct Hs as (Hs & E1 & E2). cbn [snd]. destruct (in_range _ _ He) as [x Ex].
    destruct (Z.leb_spec 0 i); [|lia]. rewrite Ex, (take1 _ _ _ Ex). pose proof (hs_insert _ _ _ p Ex) as Hp.
    assert (Hs2 : ownI m1 (hs [x] ++ hs (usr m1) ++ hs (<[Z.to_nat i := p]> cs) ++ L)).
    { eapply ownI_perm; [|exact Hs]. transitivity (hs (usr m1) ++ (hs [p] ++ hs cs) ++ L); [solve_Permutation|]. rewrite <- Hp. solve_Permutation. }
    destruct (del_ok _ _ _ Hs2) as (m2 & -> & H2 & F1 & F2 & F3 & F4). cbn [obind]. exists m2. sp; [reflexivity|rewrite F2; exact H2|rewrite F1, E1; reflexivity|].
    intros a v Ha Ev. rewrite F4 by exact Ha. apply E2, Ev.
  - destruct (in_range _ _ He) as [x Ex]. rewrite (erase_eq _ _ _ _ (proj1 He) Ex), (take1 _ _ _ Ex). pose proof (hs_delete _ _ _ Ex) as Hp.
    assert (Hs2 : ownI m (hs [x] ++ hs (usr m) ++ hs (delete (Z.to_nat i) cs) ++ L)).
    { eapply ownI_perm; [|exact Ho]. rewrite Hp. solve_Permutation. }
    destruct (del_ok _ _ _ Hs2) as (m2 & -> & H2 & F1 & F2 & F3 & F4). cbn [obind]. exists m2. sp; [reflexivity|rewrite F2; exact H2|exact F1|]. intros a v Ha Ev. rewrite F4 by exact Ha. exact Ev.
  - assert (Hs2 : ownI m (hs cs ++ hs (usr m) ++ L)). { eapply ownI_perm; [|exact Ho]. solve_Permutation. }
    destruct (clear_ok _ _ _ Hs2) as (m2 & -> & H2 & F1 & F2 & F3 & F4). cbn [obind]. exists m2. sp; [reflexivity|rewrite F2; exact H2|exact F1|]. intros a v Ha Ev. rewrite F4 by exact Ha. exact Ev.
Qed.
Lemma eff_bad m cs e : ~ eff_ok cs e -> mem_eff m cs e = UB.
Proof.
  intros He. destruct e as [|s|i s|i|]; cbn [mem_eff eff_ok] in *; try (exfalso; apply He; exact I).
  - unfold c_set. destruct (u_src s m) as [m1 p]. destruct (Z.leb_spec 0 i); [|reflexivity]. destruct (cs !! Z.to_nat i) as [x|] eqn:Ex; [|reflexivity]. exfalso. apply He. apply lookup_lt_Some in Ex. unfold zlen. lia.
  - apply erase_ub. destruct (Z.ltb_spec i 0); [auto|]. right. apply lookup_ge_None. unfold zlen in He. lia.
Qed.
End mem.
