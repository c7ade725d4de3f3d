(** The mapped vectors as containers of CopyModel.v: final forms, and boolean checks for concrete programs. *)
From stdpp Require Import gmap.
From Verif Require Import Base BlkHeap BlkProofs BlkMore BlkRun BlkIter BlkIterProofs BlkWorld VecModel VecSpec VecProofs VecWorld VecFinal
  MapStore MapStoreProofs MapModel MapSpec MapRel MapProofs MapReach DualModel DualSpec DualProofs MapFinal MapCheck CopyModel CopyProofs.

(** The lookup maps against the specification's terms: the position stored is that of the element denoted *)
Definition terms_right {V} `{Countable K} (lkf : K -> option Z) (a : assoc V K) : Prop :=
  NoDup (as_ids a) /\ (forall u, u ∈ as_ids a -> (u < a_nx a)%nat) /\ (forall k u, a_tm a !! k = Some u -> u ∈ as_ids a) /\
  forall k, lkf k = (u ← a_tm a !! k; Z.of_nat <$> as_pos u a).

Lemma rel_split {V} `{Countable K} P (s : store V) (lkf : K -> option Z) (a : assoc V K) :
  rel P s lkf a <-> st_ok P s (as_vals a) /\ terms_right lkf a.
Proof.
  split.
  - intros [R1 R2 R3 R4 R5]. split; [exact R1|]. unfold terms_right. auto.
  - intros (R1 & R2 & R3 & R4 & R5). constructor; assumption.
Qed.

Section single.
Context {V : Type} `{Countable K}.
Variable P : params.
Hypothesis HP : 0 <= expo P <= 30.
Variable kdef : option K.
Variable stb : bool.

Definition m_ok (s : store V) (l : gmap K Z) (o : mop V K) : Prop := mv_legal (Mv s l) o /\ mv_guard P kdef (Mv s l) o.

(** The programs that respect the rules and the defects, from nothing *)
Definition m_prog (ps : list (cop V (gmap K Z) (mop V K))) : Prop :=
  cs_ok P ∅ (mcall P kdef) stb assoc0 (as_exec stb) m_ok MClear MUnit cworld0 ∅ ps.
Definition m_spec (ps : list (cop V (gmap K Z) (mop V K))) := cs_run assoc0 (as_exec stb) (@MUnit V) ∅ ps.

Lemma mcall_ok s l a o : st_ok P s (as_vals a) -> terms_right (fun k => l !! k) a -> st_stable s = stb -> m_ok s l o ->
  exists s' l', mcall P kdef s l o = Ok (s', l', (as_exec stb a o).2) /\ st_ok P s' (as_vals (as_exec stb a o).1) /\
    terms_right (fun k => l' !! k) (as_exec stb a o).1 /\ tracks P s s'.
Proof.
  intros Hs Hr Hb [Hl Hg]. assert (R : mrel P (Mv s l) a) by (apply rel_split; split; assumption).
  destruct (mv_step_ok P HP kdef (Mv s l) a o R Hl Hg) as (m' & E & R' & _). cbn [m_st] in *. rewrite Hb in *.
  unfold mcall. rewrite E. cbn [obind]. apply rel_split in R' as [R1 R2]. eexists _, _. splits; [exact R1|exact R2|].
  exact (mv_tracks P HP kdef (Mv s l) a o m' _ R E).
Qed.

Lemma m_run_ok ps : m_prog ps ->
  exists w, crun P ∅ (mcall P kdef) stb cworld0 ps = Ok (w, (m_spec ps).2) /\
    (forall o a, (m_spec ps).1 !! o = Some (Some a) -> exists x, cw_objs w !! o = Some x /\
       holds P (in_heap (cw_heap w) (c_st x)) (as_vals a) /\
       (forall k, c_lk x !! k = (u ← a_tm a !! k; Z.of_nat <$> as_pos u a)) /\
       mrel P (Mv (in_heap (cw_heap w) (c_st x)) (c_lk x)) a /\ st_stable (in_heap (cw_heap w) (c_st x)) = stb) /\
    (forall o, cw_objs w !! o = None <-> (m_spec ps).1 !! o = None) /\
    (cw_objs w = ∅ -> el (cw_heap w) = ∅ /\ bl (cw_heap w) = ∅ /\ tb (cw_heap w) = ∅).
Proof.
  intros Hp. unfold m_spec.
  destruct (cw_run_ok P HP ∅ (mcall P kdef) stb assoc0 as_vals (fun l a => terms_right (fun k => l !! k) a) (as_exec stb) m_ok MClear MUnit) with (ps := ps) (w := @cworld0 V (gmap K Z)) (W := ∅ : gmap nat (option (assoc V K))) (G := ∅ : gmap nat (list nat * list nat))
    as (w & G & E & Hw).
  - reflexivity.
  - repeat split; try (intros; cbn in *; rewrite ?lookup_empty in *; try discriminate; try reflexivity).
    + constructor.
    + inversion H0.
  - exact mcall_ok.
  - intros xs l. reflexivity.
  - apply cw_init.
  - exact Hp.
  - exists w. split; [exact E|]. splits.
    + intros o a Ha. destruct (cw_holds P HP stb as_vals _ _ _ _ _ _ Hw Ha) as (x & Ex & Hh & Hr & Hs & Hb). exists x. splits; try assumption; [apply Hr|].
      apply rel_split. split; assumption.
    + apply (wi_dom _ _ _ _ _ Hw).
    + intros Eo. eapply cw_gone; [exact Hw|exact Eo].
Qed.
End single.

Section dual.
Context {V : Type} `{Countable K1} `{Countable K2}.
Variable P : params.
Hypothesis HP : 0 <= expo P <= 30.
Variable cl : dcls.
Variable kd1 : option K1.
Variable kd2 : option K2.
Variable stb : bool.
Notation term := (K1 + K2)%type.
Notation assoc := (assoc V (K1 + K2)%type (EqDecision0 := sum_eq_dec) (H := sum_countable)).

Definition lk2 (l : gmap K1 Z * gmap K2 Z) (k : term) : option Z := match k with inl k1 => l.1 !! k1 | inr k2 => l.2 !! k2 end.
Definition d_ok (s : store V) (l : gmap K1 Z * gmap K2 Z) (o : dop V K1 K2) : Prop :=
  dv_legal cl (Dv s l.1 l.2) o /\ dv_guard P cl kd1 kd2 (Dv s l.1 l.2) o.
Definition d_prog (ps : list (cop V (gmap K1 Z * gmap K2 Z) (dop V K1 K2))) : Prop :=
  cs_ok P (∅, ∅) (dcall P cl kd1 kd2) stb assoc0 (as_dexec cl stb) d_ok DClear MUnit cworld0 ∅ ps.
Definition d_spec (ps : list (cop V (gmap K1 Z * gmap K2 Z) (dop V K1 K2))) := cs_run (assoc0 : assoc) (as_dexec cl stb) (@MUnit V) ∅ ps.

Lemma dcall_ok s l (a : assoc) o : st_ok P s (as_vals a) -> terms_right (lk2 l) a -> st_stable s = stb -> d_ok s l o ->
  exists s' l', dcall P cl kd1 kd2 s l o = Ok (s', l', (as_dexec cl stb a o).2) /\ st_ok P s' (as_vals (as_dexec cl stb a o).1) /\
    terms_right (lk2 l') (as_dexec cl stb a o).1 /\ tracks P s s'.
Proof.
  intros Hs Hr Hb [Hl Hg]. assert (R : drel P (Dv s l.1 l.2) a) by (apply rel_split; split; assumption).
  destruct (dv_step_ok P HP cl kd1 kd2 (Dv s l.1 l.2) a o R Hl Hg) as (d' & E & R' & _). cbn [d_st] in *. rewrite Hb in *.
  unfold dcall. rewrite E. cbn [obind]. apply rel_split in R' as [R1 R2]. eexists _, _. splits; [exact R1|exact R2|].
  exact (dv_tracks P HP cl kd1 kd2 (Dv s l.1 l.2) a o d' _ R E).
Qed.

Lemma d_run_ok ps : d_prog ps ->
  exists w, crun P (∅, ∅) (dcall P cl kd1 kd2) stb cworld0 ps = Ok (w, (d_spec ps).2) /\
    (forall o a, (d_spec ps).1 !! o = Some (Some a) -> exists x, cw_objs w !! o = Some x /\
       holds P (in_heap (cw_heap w) (c_st x)) (as_vals a) /\
       (forall k, lk2 (c_lk x) k = (u ← a_tm a !! k; Z.of_nat <$> as_pos u a)) /\
       drel P (Dv (in_heap (cw_heap w) (c_st x)) (c_lk x).1 (c_lk x).2) a /\ st_stable (in_heap (cw_heap w) (c_st x)) = stb) /\
    (forall o, cw_objs w !! o = None <-> (d_spec ps).1 !! o = None) /\
    (cw_objs w = ∅ -> el (cw_heap w) = ∅ /\ bl (cw_heap w) = ∅ /\ tb (cw_heap w) = ∅).
Proof.
  intros Hp. unfold d_spec.
  destruct (cw_run_ok P HP (∅, ∅) (dcall P cl kd1 kd2) stb (assoc0 : assoc) as_vals (fun l a => terms_right (lk2 l) a) (as_dexec cl stb) d_ok DClear MUnit) with (ps := ps) (w := @cworld0 V (gmap K1 Z * gmap K2 Z)) (W := ∅ : gmap nat (option assoc)) (G := ∅ : gmap nat (list nat * list nat))
    as (w & G & E & Hw).
  - reflexivity.
  - repeat split; try (intros; cbn in *; rewrite ?lookup_empty in *; try discriminate; try reflexivity).
    + constructor.
    + inversion H1.
    + destruct k; apply lookup_empty.
  - exact dcall_ok.
  - intros xs l. reflexivity.
  - apply cw_init.
  - exact Hp.
  - exists w. split; [exact E|]. splits.
    + intros o a Ha. destruct (cw_holds P HP stb as_vals _ _ _ _ _ _ Hw Ha) as (x & Ex & Hh & Hr & Hs & Hb). exists x. splits; try assumption; [apply Hr|].
      apply rel_split. split; assumption.
    + apply (wi_dom _ _ _ _ _ Hw).
    + intros Eo. eapply cw_gone; [exact Hw|exact Eo].
Qed.
End dual.

(** Checks *)
Section check.
Context {V L OP RET A : Type}.
Variable P : params.
Variable l0 : L.
Variable step : store V -> L -> OP -> outcome (store V * L * RET).
Variable stb : bool.
Variable a0 : A.
Variable exec : A -> OP -> A * RET.
Variable legal : store V -> L -> OP -> Prop.
Variable legalb : store V -> L -> OP -> bool.
Variable oclr : OP.
Variable isclr : OP -> bool.
Variable rclr : RET.
Hypothesis legalb_ok : forall s l o, legalb s l o = true -> legal s l o.
Hypothesis isclr_ok : forall o, isclr o = true -> o = oclr.
Implicit Types (w : cworld V L) (W : gmap nat (option A)).

Definition freeb W o : bool := match W !! o with None => true | _ => false end.
Definition heldb W o : bool := match W !! o with Some (Some _) => true | _ => false end.
Definition thereb W o : bool := match W !! o with Some _ => true | _ => false end.
Definition cs_legalb w W (p : cop V L OP) : bool :=
  match p with
  | CDefault o => freeb W o
  | CCopy o src | CMove o src _ _ => freeb W o && heldb W src
  | CCopyAssign o src => heldb W src && thereb W o && (negb stb || heldb W o)
  | CMoveAssign o src _ _ => thereb W o && heldb W src
  | CCall o c => match W !! o, cw_objs w !! o with
                 | Some (Some _), Some x => legalb (in_heap (cw_heap w) (c_st x)) (c_lk x) c
                 | Some None, _ => negb stb && isclr c
                 | _, _ => false
                 end
  | CDestroy o => thereb W o
  end.
Definition cs_guardb w (p : cop V L OP) : bool :=
  match p with
  | CCopy _ src | CCopyAssign _ src =>
      match cw_objs w !! src with
      | Some x => match c_st x with
                  | RVec _ => true
                  | RBlk v => roomb P (SBlk (cw_heap w) v) && (negb (v_size v =? 0) || match v_data v with None => true | _ => false end)
                  end
      | None => true
      end
  | _ => true
  end.

Lemma cs_legalb_ok w W p : cs_legalb w W p = true -> cs_legal stb legal oclr w W p.
Proof.
  assert (Hf : forall o, freeb W o = true -> W !! o = None) by (intros o; unfold freeb; destruct (W !! o); [discriminate|reflexivity]).
  assert (Hh : forall o, heldb W o = true -> exists a, W !! o = Some (Some a)) by (intros o; unfold heldb; destruct (W !! o) as [[a|]|]; [eauto|discriminate|discriminate]).
  assert (Ht : forall o, thereb W o = true -> is_Some (W !! o)) by (intros o; unfold thereb; destruct (W !! o); [eauto|discriminate]).
  destruct p as [o|o src|o src jx jl|o src|o src jx jl|o c|o]; cbn [cs_legalb cs_legal].
  - apply Hf.
  - intros E. apply andb_prop in E as [E1 E2]. auto.
  - intros E. apply andb_prop in E as [E1 E2]. auto.
  - intros E. apply andb_prop in E as [E E3]. apply andb_prop in E as [E1 E2]. split; [auto|]. destruct (Ht _ E2) as [d Hd]. exists d. split; [exact Hd|].
    intros ->. cbn in E3. destruct (Hh _ E3) as [a Ha]. congruence.
  - intros E. apply andb_prop in E as [E1 E2]. auto.
  - destruct (W !! o) as [[a|]|] eqn:Eo; [| |discriminate].
    + destruct (cw_objs w !! o) as [x|] eqn:Ex; [|discriminate]. intros E. left. exists a, x. auto.
    + intros E. apply andb_prop in E as [E1 E2]. right. splits; [destruct stb; [discriminate|reflexivity]|apply isclr_ok; exact E2].
  - apply Ht.
Qed.
Lemma cs_guardb_ok w p : cs_guardb w p = true -> cs_guard P w p.
Proof.
  destruct p as [o|o src|o src jx jl|o src|o src jx jl|o c|o]; cbn [cs_guardb cs_guard]; try (intros; exact I).
  - intros E x v Ex Es. rewrite Ex, Es in E. apply andb_prop in E as [E1 E2]. split; [exact (roomb_ok P (SBlk (cw_heap w) v) E1)|]. intros F. rewrite F in E2. cbn in E2. destruct (v_data v); [discriminate|reflexivity].
  - intros E x v Ex Es. rewrite Ex, Es in E. apply andb_prop in E as [E1 E2]. exact (roomb_ok P (SBlk (cw_heap w) v) E1).
Qed.
Fixpoint cs_chk w W (ps : list (cop V L OP)) : bool :=
  match ps with
  | [] => true
  | p :: ps' => cs_legalb w W p && cs_guardb w p &&
      match cstep P l0 step stb w p with Ok (w', _) => cs_chk w' (cs_exec a0 exec rclr W p).1 ps' | _ => true end
  end.
Lemma cs_chk_ok ps : forall w W, cs_chk w W ps = true -> cs_ok P l0 step stb a0 exec legal oclr rclr w W ps.
Proof.
  induction ps as [|p ps IH]; intros w W E; cbn [cs_chk cs_ok] in *; [exact I|]. apply andb_prop in E as [E E3]. apply andb_prop in E as [E1 E2].
  split; [apply cs_legalb_ok, E1|]. split; [apply cs_guardb_ok, E2|]. intros w' r F. rewrite F in E3. apply IH, E3.
Qed.
End check.

Definition m_chk {V} `{Countable K} P (kdef : option K) stb ps : bool :=
  cs_chk P ∅ (mcall P kdef) stb assoc0 (as_exec stb) (fun s l o => mv_legalb (Mv s l) o && mv_guardb P kdef (Mv s l) o)
    (fun o => match o with MClear => true | _ => false end) (@MUnit V) cworld0 ∅ ps.
Lemma m_chk_ok {V} `{Countable K} P (kdef : option K) stb (ps : list (cop V (gmap K Z) (mop V K))) : m_chk P kdef stb ps = true -> m_prog P kdef stb ps.
Proof.
  apply cs_chk_ok.
  - intros s l o E. apply andb_prop in E as [E1 E2]. split; [apply mv_legalb_ok, E1|apply mv_guardb_ok, E2].
  - intros o. destruct o; try discriminate. reflexivity.
Qed.
Definition d_chk {V} `{Countable K1} `{Countable K2} P cl (kd1 : option K1) (kd2 : option K2) stb ps : bool :=
  cs_chk P (∅, ∅) (dcall P cl kd1 kd2) stb assoc0 (as_dexec cl stb) (fun s l o => dv_legalb cl (Dv s l.1 l.2) o && dv_guardb P cl kd1 kd2 (Dv s l.1 l.2) o)
    (fun o => match o with DClear => true | _ => false end) (@MUnit V) cworld0 ∅ ps.
Lemma d_chk_ok {V} `{Countable K1} `{Countable K2} P cl (kd1 : option K1) (kd2 : option K2) stb (ps : list (cop V (gmap K1 Z * gmap K2 Z) (dop V K1 K2))) :
  d_chk P cl kd1 kd2 stb ps = true -> d_prog P cl kd1 kd2 stb ps.
Proof.
  apply cs_chk_ok.
  - intros s l o E. apply andb_prop in E as [E1 E2]. split; [apply dv_legalb_ok, E1|apply dv_guardb_ok, E2].
  - intros o. destruct o; try discriminate. reflexivity.
Qed.
