(** Ownership in the pointer vectors: both classes, and programs over several containers *)
From stdpp Require Import gmap.
From Verif Require Import Base BlkHeap VecModel MapStore MapModel DualModel OwnModel OwnProofs.

Local Ltac sp := repeat match goal with |- _ /\ _ => split end.
Local Ltac inv_ok E := apply obind_ok in E as (?z & ?Ez & E).

Section mem.
Context {W : Type}.
Implicit Types (m : omem W) (cs : list uptr).

(** A call changes dataStorage and the objects as its effect says. *)
Section single.
Context `{Countable K}.
Variable kdef : option K.
Lemma pv_effect m (c : pv K) o m' c' r : pv_step kdef m c o = Ok (m', c', r) -> mem_eff m (cells c) (p_eff c o) = Ok (m', cells c').
Proof.
  intros E. destruct o; cbn [pv_step p_eff] in *.
  - destruct (p_lk c !! k); [injection E as <- <- <-; reflexivity|]. cbn [mem_eff]. destruct (c_push m (cells c) s). injection E as <- <- <-. reflexivity.
  - cbn [mem_eff]. destruct (c_push m (cells c) (SArgs w)). injection E as <- <- <-. reflexivity.
  - destruct (p_lk c !! k) as [i|]; cbn [mem_eff].
    + inv_ok E. destruct z as [m1 cs]. injection E as <- <- <-. exact Ez.
    + destruct (c_push m (cells c) s). injection E as <- <- <-. reflexivity.
  - destruct (p_lk c !! k) as [i|]; [destruct (i <? 0); [discriminate|]; destruct (cells c !! Z.to_nat i); [|discriminate]|]; injection E as <- <- <-; reflexivity.
  - destruct (i <? zlen (cells c)); [destruct (i <? 0); [discriminate|]; destruct (cells c !! Z.to_nat i); [|discriminate]|]; injection E as <- <- <-; reflexivity.
  - destruct (last (cells c)); [|discriminate]. injection E as <- <- <-. reflexivity.
  - destruct (i <? zlen (cells c)); injection E as <- <- <-; reflexivity.
  - destruct (Z.leb_spec (zlen (cells c)) i), (Z.ltb_spec i (zlen (cells c))); try lia; [injection E as <- <- <-; reflexivity|]. cbn [mem_eff]. inv_ok E. destruct z as [m1 cs]. rewrite Ez.
    destruct (mp_shift true i ord (p_lk c) kdef) as [lk [k|]]; [|discriminate]. injection E as <- <- <-. reflexivity.
  - destruct (p_lk c !! k) as [i|]; [|injection E as <- <- <-; reflexivity]. cbn [mem_eff]. inv_ok E. destruct z as [m1 cs]. rewrite Ez. injection E as <- <- <-. reflexivity.
  - injection E as <- <- <-. reflexivity.
  - injection E as <- <- <-. reflexivity.
  - cbn [mem_eff]. inv_ok E. rewrite Ez. injection E as <- <- <-. reflexivity.
Qed.

(** The call of MapModel.v, with unique_ptrs as elements *)
Definition p_mop m (o : pcall W K) : mop uptr K :=
  match o with
  | PInsert k s => MInsert k (u_src s m).2 | PInsertNo w => MInsertNo (u_src (SArgs w) m).2 | PAssign k s => MAssign k (u_src s m).2
  | PFind k => MFindP k | PGet i => MGetP i | PBack => MBack | PAlias k i => MAlias k i | PRemoveIdx i ord => MRemoveIdx i ord
  | PRemove k ord => MRemove k ord | PApply => MApply | PSize => MSize | PClear => MClear
  end.
(** find and operator[] give a null pointer when there is no element *)
Definition q_ret (r : mret uptr) : pret :=
  match r with
  | MUnit => QUnit | MIdx i => QIdx i | MVal x => QPtr (default None x) | MBool b => QBool b | MInt n => QInt n | MList l => QList l | MOut => QUnit
  end.
Definition forget {A B} (x : outcome (omem W * A * B)) : outcome (A * B) := '(_, c, r) <-! x ;; Ok (c, r).
Definition p_of (m : mv uptr K) : pv K := Pv (match m_st m with SVec xs => xs | SBlk _ _ => [] end) (m_lk m).

Lemma set_same m cs i s L : ownI m (hs (usr m) ++ hs cs ++ L) ->
  ('(_, cs') <-! c_set m cs i s ;; Ok cs') = (if (0 <=? i) && (i <? zlen cs) then Ok (<[Z.to_nat i := (u_src s m).2]> cs) else UB).
Proof.
  intros Ho. destruct (decide (eff_ok cs (ESet i s))) as [He|He].
  - destruct (eff_sound _ _ _ _ Ho He) as (m' & E & _). cbn [mem_eff after eptr] in E. rewrite E. cbn [obind]. cbn [eff_ok] in He.
    destruct (Z.leb_spec 0 i), (Z.ltb_spec i (zlen cs)); cbn; try lia. reflexivity.
  - pose proof (eff_bad m _ _ He) as E. cbn [mem_eff] in E. rewrite E. cbn [eff_ok] in He. cbn. destruct (Z.leb_spec 0 i), (Z.ltb_spec i (zlen cs)); cbn; try reflexivity. lia.
Qed.
Lemma erase_same m cs i L : ownI m (hs (usr m) ++ hs cs ++ L) ->
  ('(_, cs') <-! c_erase m cs i ;; Ok cs') = (if (0 <=? i) && (i <? zlen cs) then Ok (delete (Z.to_nat i) cs) else UB).
Proof.
  intros Ho. destruct (decide (eff_ok (W:=W) cs (EErase i))) as [He|He].
  - destruct (eff_sound _ _ _ _ Ho He) as (m' & E & _). cbn [mem_eff after eptr] in E. rewrite E. cbn [obind]. cbn [eff_ok] in He.
    destruct (Z.leb_spec 0 i), (Z.ltb_spec i (zlen cs)); cbn; try lia. reflexivity.
  - pose proof (eff_bad m _ _ He) as E. cbn [mem_eff] in E. rewrite E. cbn [eff_ok] in He. cbn. destruct (Z.leb_spec 0 i), (Z.ltb_spec i (zlen cs)); cbn; try reflexivity. lia.
Qed.
Lemma clear_same m cs L : ownI m (hs (usr m) ++ hs cs ++ L) -> exists m', c_clear m cs = Ok m'.
Proof.
  intros Ho. destruct (eff_sound _ _ (EClear (W:=W)) _ Ho I) as (m' & E & _). cbn [mem_eff] in E. inv_ok E. eauto.
Qed.
Lemma push_same m cs s : (c_push m cs s).2 = cs ++ [(u_src s m).2].
Proof. unfold c_push. destruct (u_src s m). reflexivity. Qed.

Lemma pv_same P m (c : pv K) o L : ownI m (hs (usr m) ++ hs (cells c) ++ L) ->
  forget (pv_step kdef m c o) = ('(c', r) <-! mv_step P kdef (Mv (SVec (cells c)) (p_lk c)) (p_mop m o) ;; Ok (p_of c', q_ret r)).
Proof.
  intros Ho. destruct c as [cs lk]. cbn [cells p_lk] in *. destruct o; cbn [pv_step p_mop mv_step cells p_lk].
  - unfold mv_insert. cbn. destruct (lk !! k); [reflexivity|]. pose proof (push_same m cs s) as E. destruct (c_push m cs s). cbn in *. rewrite E. reflexivity.
  - pose proof (push_same m cs (SArgs w)) as E. destruct (c_push m cs (SArgs w)). cbn in *. rewrite E. reflexivity.
  - unfold mv_assign. cbn. destruct (lk !! k) as [i|].
    + pose proof (set_same m cs i s L Ho) as E. destruct (c_set m cs i s) as [[m1 cs1]| |]; cbn in *; (destruct ((0 <=? i) && (i <? zlen cs)); cbn in *; [|]); try discriminate; try reflexivity. injection E as ->. reflexivity.
    + pose proof (push_same m cs s) as E. destruct (c_push m cs s). cbn in *. rewrite E. reflexivity.
  - unfold mv_findp. cbn. destruct (lk !! k) as [i|]; [|reflexivity]. destruct (i <? 0); [reflexivity|]. destruct (cs !! Z.to_nat i); reflexivity.
  - unfold mv_getp, mv_get. cbn. destruct (i <? zlen cs); [|reflexivity]. destruct (i <? 0); [reflexivity|]. destruct (cs !! Z.to_nat i); reflexivity.
  - unfold mv_back. cbn. destruct (last cs); reflexivity.
  - unfold mv_alias. cbn. destruct (i <? zlen cs); reflexivity.
  - unfold mv_remove_idx. cbn. destruct (zlen cs <=? i); [reflexivity|]. pose proof (erase_same m cs i L Ho) as E.
    destruct (c_erase m cs i) as [[m1 cs1]| |]; cbn in *; (destruct ((0 <=? i) && (i <? zlen cs)); cbn in *; [|]); try discriminate; try reflexivity. injection E as ->. destruct (mp_shift true i ord lk kdef) as [lk' [k|]]; reflexivity.
  - unfold mv_remove. cbn. destruct (lk !! k) as [i|]; [|reflexivity]. pose proof (erase_same m cs i L Ho) as E.
    destruct (c_erase m cs i) as [[m1 cs1]| |]; cbn in *; (destruct ((0 <=? i) && (i <? zlen cs)); cbn in *; [|]); try discriminate; try reflexivity. injection E as ->. reflexivity.
  - reflexivity.
  - reflexivity.
  - destruct (clear_same _ _ _ Ho) as [m' E]. rewrite E. reflexivity.
Qed.

(** The pointers handed out are those of dataStorage. *)
Lemma pv_ret m (c : pv K) o m' c' r : pv_step kdef m c o = Ok (m', c', r) ->
  match r with QPtr (Some a) => a ∈ hs (cells c') | QList l => l = cells c' | _ => True end.
Proof.
  assert (Hh : forall cs i a, cs !! i = Some (Some a) -> a ∈ hs cs). { intros cs i a E. apply elem_of_list_omap. exists (Some a). split; [eapply elem_of_list_lookup_2, E|reflexivity]. }
  intros E. destruct o; cbn [pv_step] in E.
  - destruct (p_lk c !! k); [|destruct (c_push m (cells c) s)]; injection E as <- <- <-; exact I.
  - destruct (c_push m (cells c) (SArgs w)); injection E as <- <- <-; exact I.
  - destruct (p_lk c !! k) as [i|]; [inv_ok E; destruct z|destruct (c_push m (cells c) s)]; injection E as <- <- <-; exact I.
  - destruct (p_lk c !! k) as [i|]; [destruct (i <? 0); [discriminate|]; destruct (cells c !! Z.to_nat i) as [p|] eqn:Ep; [|discriminate]|]; injection E as <- <- <-; [destruct p; [eapply Hh, Ep|exact I]|exact I].
  - destruct (i <? zlen (cells c)); [destruct (i <? 0); [discriminate|]; destruct (cells c !! Z.to_nat i) as [p|] eqn:Ep; [|discriminate]|]; injection E as <- <- <-; [destruct p; [eapply Hh, Ep|exact I]|exact I].
  - destruct (last (cells c)) as [p|] eqn:Ep; [|discriminate]. injection E as <- <- <-. destruct p; [|exact I]. rewrite last_lookup in Ep. eapply Hh, Ep.
  - destruct (i <? zlen (cells c)); injection E as <- <- <-; exact I.
  - destruct (zlen (cells c) <=? i); [injection E as <- <- <-; exact I|]. inv_ok E. destruct z, (mp_shift true i ord (p_lk c) kdef) as [lk [k|]]; [|discriminate]. injection E as <- <- <-. exact I.
  - destruct (p_lk c !! k) as [i|]; [inv_ok E; destruct z|]; injection E as <- <- <-; exact I.
  - injection E as <- <- <-. reflexivity.
  - injection E as <- <- <-. exact I.
  - inv_ok E. injection E as <- <- <-. exact I.
Qed.
Lemma pv_refused m (c : pv K) o m' c' : pv_step kdef m c o = Ok (m', c', QIdx None) -> m' = m /\ c' = c.
Proof.
  intros E. destruct o; cbn [pv_step] in E; repeat (case_match; try discriminate); try (inv_ok E; repeat (case_match; try discriminate)); try discriminate; injection E as <- <-; auto.
Qed.
End single.

Section dual.
Context `{Countable K1} `{Countable K2}.
Variables (kd1 : option K1) (kd2 : option K2).
Implicit Types (c : pd K1 K2) (o : pdcall W K1 K2).
Lemma enter_cells k i cs c : dcells (pd_enter k i cs c) = cs.
Proof. destruct k; reflexivity. Qed.
Lemma ins1_effect m c k w m' c' r : pd_insert_one m c k w = Ok (m', c', r) ->
  mem_eff m (dcells c) (match pd_look c k with Some _ => ENone | None => EPush (SArgs w) end) = Ok (m', dcells c').
Proof.
  unfold pd_insert_one. intros E. destruct (pd_look c k); [injection E as <- <- <-; reflexivity|]. cbn [mem_eff]. destruct (c_push m (dcells c) (SArgs w)). injection E as <- <- <-. rewrite enter_cells. reflexivity.
Qed.
Lemma asg1_effect m c k w m' c' r : pd_assign_one m c k w = Ok (m', c', r) ->
  mem_eff m (dcells c) (match pd_look c k with Some i => ESet i (SArgs w) | None => EPush (SArgs w) end) = Ok (m', dcells c').
Proof.
  unfold pd_assign_one. intros E. destruct (pd_look c k) as [i|]; cbn [mem_eff].
  - inv_ok E. destruct z as [m1 cs]. injection E as <- <- <-. exact Ez.
  - destruct (c_push m (dcells c) (SArgs w)). injection E as <- <- <-. rewrite enter_cells. reflexivity.
Qed.
Lemma pd_effect m c o m' c' r : pd_step kd1 kd2 m c o = Ok (m', c', r) -> mem_eff m (dcells c) (d_eff c o) = Ok (m', dcells c').
Proof.
  intros E. destruct o; cbn [pd_step d_eff] in *.
  - destruct (p_l1 c !! k1), (p_l2 c !! k2); try (injection E as <- <- <-; reflexivity); cbn [mem_eff]; destruct (c_push m (dcells c) s); injection E as <- <- <-; reflexivity.
  - exact (ins1_effect _ _ _ _ _ _ _ E).
  - exact (ins1_effect _ _ _ _ _ _ _ E).
  - destruct (p_l1 c !! k1) as [i|], (p_l2 c !! k2) as [j|].
    1: { rewrite (Z.eqb_sym i j). destruct (j =? i); cbn [mem_eff].
      - inv_ok E. destruct z as [m1 cs]. injection E as <- <- <-. exact Ez.
      - destruct (c_push m (dcells c) s); injection E as <- <- <-; reflexivity. }
    all: cbn [mem_eff]; destruct (c_push m (dcells c) s); injection E as <- <- <-; reflexivity.
  - exact (asg1_effect _ _ _ _ _ _ _ E).
  - exact (asg1_effect _ _ _ _ _ _ _ E).
  - destruct (pd_look c k) as [i|]; [destruct (i <? 0); [discriminate|]; destruct (dcells c !! Z.to_nat i); [|discriminate]|]; injection E as <- <- <-; reflexivity.
  - destruct (zlen (dcells c) <=? i); [|destruct (i <? 0); [discriminate|]; destruct (dcells c !! Z.to_nat i); [|discriminate]]; injection E as <- <- <-; reflexivity.
  - destruct (last (dcells c)); [|discriminate]. injection E as <- <- <-. reflexivity.
  - destruct (Z.leb_spec (zlen (dcells c)) i), (Z.ltb_spec i (zlen (dcells c))); try lia; [injection E as <- <- <-; reflexivity|]. cbn [mem_eff]. inv_ok E. destruct z as [m1 cs]. rewrite Ez.
    destruct (mp_shift true i o1 (p_l1 c) kd1) as [l1 [k1|]], (mp_shift true i o2 (p_l2 c) kd2) as [l2 [k2|]]; try discriminate. injection E as <- <- <-. reflexivity.
  - change (match k with inl k1 => p_l1 c !! k1 | inr k2 => p_l2 c !! k2 end) with (pd_look c k). destruct (pd_look c k) as [i|]; [|injection E as <- <- <-; reflexivity]. cbn [mem_eff]. inv_ok E. destruct z as [m1 cs]. rewrite Ez.
    destruct k; [destruct (mp_shift true i o2 (p_l2 c) kd2) as [l2 [k2|]]|destruct (mp_shift true i o1 (p_l1 c) kd1) as [l1 [k1|]]]; try discriminate; injection E as <- <- <-; reflexivity.
  - injection E as <- <- <-. reflexivity.
  - injection E as <- <- <-. reflexivity.
  - cbn [mem_eff]. inv_ok E. rewrite Ez. injection E as <- <- <-. reflexivity.
Qed.

Definition d_dop m o : dop uptr K1 K2 :=
  match o with
  | QInsert k1 k2 s => DInsert k1 k2 (u_src s m).2 | QInsert1 k w => DInsert1 k (u_src (SArgs w) m).2 | QInsert2 k w => DInsert2 k (u_src (SArgs w) m).2
  | QAssign k1 k2 s => DAssign k1 k2 (u_src s m).2 | QAssign1 k w => DAssign1 k (u_src (SArgs w) m).2 | QAssign2 k w => DAssign2 k (u_src (SArgs w) m).2
  | QFind k => DFind k | QGet i => DGet i | QBack => DBack | QRemoveIdx i o1 o2 => DRemoveIdx i o1 o2 | QRemove k o1 o2 => DRemove k o1 o2
  | QApply => DApply | QSize => DSize | QClear => DClear
  end.
Definition d_of (d : dv uptr K1 K2) : pd K1 K2 := Pd (match d_st d with SVec xs => xs | SBlk _ _ => [] end) (d_l1 d) (d_l2 d).

Lemma pd_same P m c o L : ownI m (hs (usr m) ++ hs (dcells c) ++ L) ->
  forget (pd_step kd1 kd2 m c o) = ('(c', r) <-! dv_step P CPtr kd1 kd2 (Dv (SVec (dcells c)) (p_l1 c) (p_l2 c)) (d_dop m o) ;; Ok (d_of c', q_ret r)).
Proof.
  intros Ho. destruct c as [cs l1 l2]. cbn [dcells] in *.
  assert (Hi1 : forall k w, forget (pd_insert_one m (Pd cs l1 l2) k w) = ('(c', r) <-! dv_insert_one P (Dv (SVec cs) l1 l2) k (u_src (SArgs w) m).2 ;; Ok (d_of c', q_ret r))).
  { intros k w. unfold pd_insert_one, dv_insert_one, d_new. change (pd_look (Pd cs l1 l2) k) with (d_lk (Dv (SVec (V := uptr) cs) l1 l2) k). destruct (d_lk (Dv (SVec cs) l1 l2) k); [reflexivity|].
    cbn [dcells]. pose proof (push_same m cs (SArgs w)) as E. destruct (c_push m cs (SArgs w)). cbn in *. rewrite E. destruct k; reflexivity. }
  assert (Ha1 : forall k w, forget (pd_assign_one m (Pd cs l1 l2) k w) = ('(c', r) <-! dv_assign_one P (Dv (SVec cs) l1 l2) k (u_src (SArgs w) m).2 ;; Ok (d_of c', q_ret r))).
  { intros k w. unfold pd_assign_one, dv_assign_one, d_new. change (pd_look (Pd cs l1 l2) k) with (d_lk (Dv (SVec (V := uptr) cs) l1 l2) k). destruct (d_lk (Dv (SVec cs) l1 l2) k) as [i|]; cbn [dcells].
    - pose proof (set_same m cs i (SArgs w) L Ho) as E. destruct (c_set m cs i (SArgs w)) as [[m1 cs1]| |]; cbn in *; (destruct ((0 <=? i) && (i <? zlen cs)); cbn in *; [|]); try discriminate; try reflexivity. injection E as ->. reflexivity.
    - pose proof (push_same m cs (SArgs w)) as E. destruct (c_push m cs (SArgs w)). cbn in *. rewrite E. destruct k; reflexivity. }
  cbn [p_l1 p_l2 dcells].
  destruct o; cbn [pd_step d_dop dv_step p_l1 p_l2 dcells]; try apply Hi1; try apply Ha1; clear Hi1 Ha1.
  - unfold dv_insert, d_new. cbn. pose proof (push_same m cs s) as E. destruct (l1 !! k1), (l2 !! k2); cbn; [reflexivity|..]; destruct (c_push m cs s); cbn in *; rewrite E; reflexivity.
  - unfold dv_assign. cbn. pose proof (push_same m cs s) as E. destruct (l1 !! k1) as [i|], (l2 !! k2) as [j|]; cbn; [destruct (j =? i); cbn|..].
    1: { clear E. pose proof (set_same m cs i s L Ho) as E. destruct (c_set m cs i s) as [[m1 cs1]| |]; cbn in *; (destruct ((0 <=? i) && (i <? zlen cs)); cbn in *; [|]); try discriminate; try reflexivity. injection E as ->. reflexivity. }
    all: destruct (c_push m cs s); cbn in *; rewrite E; reflexivity.
  - unfold dv_find. change (pd_look (Pd cs l1 l2) k) with (d_lk (Dv (SVec (V := uptr) cs) l1 l2) k). destruct (d_lk (Dv (SVec cs) l1 l2) k) as [i|]; [|reflexivity]. cbn. destruct (i <? 0); [reflexivity|]. destruct (cs !! Z.to_nat i); reflexivity.
  - unfold dv_get. cbn. destruct (zlen cs <=? i); [reflexivity|]. cbn. destruct (i <? 0); [reflexivity|]. destruct (cs !! Z.to_nat i); reflexivity.
  - unfold dv_back. cbn. destruct (last cs); reflexivity.
  - unfold dv_remove_idx. cbn. destruct (zlen cs <=? i); [reflexivity|]. pose proof (erase_same m cs i L Ho) as E.
    destruct (c_erase m cs i) as [[m1 cs1]| |]; cbn in *; (destruct ((0 <=? i) && (i <? zlen cs)); cbn in *; [|]); try discriminate; try reflexivity. injection E as ->.
    destruct (mp_shift true i o1 l1 kd1) as [l1' [k1|]], (mp_shift true i o2 l2 kd2) as [l2' [k2|]]; reflexivity.
  - unfold dv_remove. change (pd_look (Pd cs l1 l2) k) with (d_lk (Dv (SVec (V := uptr) cs) l1 l2) k). destruct (d_lk (Dv (SVec cs) l1 l2) k) as [i|]; [|reflexivity]. pose proof (erase_same m cs i L Ho) as E. cbn.
    destruct (c_erase m cs i) as [[m1 cs1]| |]; cbn in *; (destruct ((0 <=? i) && (i <? zlen cs)); cbn in *; [|]); try discriminate; try reflexivity. injection E as ->.
    destruct k; cbn; [destruct (mp_shift true i o2 l2 kd2) as [l2' [k2|]]|destruct (mp_shift true i o1 l1 kd1) as [l1' [k1|]]]; reflexivity.
  - reflexivity.
  - reflexivity.
  - cbn. destruct (clear_same _ _ _ Ho) as [m' E]. rewrite E. reflexivity.
Qed.

Lemma pd_ret m c o m' c' r : pd_step kd1 kd2 m c o = Ok (m', c', r) ->
  match r with QPtr (Some a) => a ∈ hs (dcells c') | QList l => l = dcells c' | _ => True end.
Proof.
  assert (Hh : forall cs i a, cs !! i = Some (Some a) -> a ∈ hs cs). { intros cs i a E. apply elem_of_list_omap. exists (Some a). split; [eapply elem_of_list_lookup_2, E|reflexivity]. }
  intros E. destruct o; cbn [pd_step] in E; unfold pd_insert_one, pd_assign_one in E.
  - destruct (p_l1 c !! k1), (p_l2 c !! k2), (c_push m (dcells c) s); injection E as <- <- <-; exact I.
  - destruct (pd_look c (inl k1)), (c_push m (dcells c) (SArgs w)); injection E as <- <- <-; exact I.
  - destruct (pd_look c (inr k2)), (c_push m (dcells c) (SArgs w)); injection E as <- <- <-; exact I.
  - destruct (p_l1 c !! k1) as [i|], (p_l2 c !! k2) as [j|]; [destruct (j =? i); [inv_ok E; destruct z|destruct (c_push m (dcells c) s)]|destruct (c_push m (dcells c) s)..]; injection E as <- <- <-; exact I.
  - destruct (pd_look c (inl k1)); [apply obind_ok in E as ([] & _ & E)|destruct (c_push m (dcells c) (SArgs w))]; injection E as <- <- <-; exact I.
  - destruct (pd_look c (inr k2)); [apply obind_ok in E as ([] & _ & E)|destruct (c_push m (dcells c) (SArgs w))]; injection E as <- <- <-; exact I.
  - destruct (pd_look c k) as [i|]; [destruct (i <? 0); [discriminate|]; destruct (dcells c !! Z.to_nat i) as [p|] eqn:Ep; [|discriminate]|]; injection E as <- <- <-; [destruct p; [eapply Hh, Ep|exact I]|exact I].
  - destruct (zlen (dcells c) <=? i); [|destruct (i <? 0); [discriminate|]; destruct (dcells c !! Z.to_nat i) as [p|] eqn:Ep; [|discriminate]]; injection E as <- <- <-; [exact I|destruct p; [eapply Hh, Ep|exact I]].
  - destruct (last (dcells c)) as [p|] eqn:Ep; [|discriminate]. injection E as <- <- <-. destruct p; [|exact I]. rewrite last_lookup in Ep. eapply Hh, Ep.
  - destruct (zlen (dcells c) <=? i); [injection E as <- <- <-; exact I|]. apply obind_ok in E as ([] & _ & E). destruct (mp_shift true i o1 (p_l1 c) kd1) as [? [?|]], (mp_shift true i o2 (p_l2 c) kd2) as [? [?|]]; try discriminate. injection E as <- <- <-. exact I.
  - destruct (pd_look c k); [|injection E as <- <- <-; exact I]. apply obind_ok in E as ([] & _ & E). destruct k; [destruct (mp_shift true z o2 (p_l2 c) kd2) as [? [?|]]|destruct (mp_shift true z o1 (p_l1 c) kd1) as [? [?|]]]; try discriminate; injection E as <- <- <-; exact I.
  - injection E as <- <- <-. reflexivity.
  - injection E as <- <- <-. exact I.
  - inv_ok E. injection E as <- <- <-. exact I.
Qed.
Lemma pd_refused m c o m' c' : pd_step kd1 kd2 m c o = Ok (m', c', QIdx None) -> m' = m /\ c' = c.
Proof.
  intros E. destruct o; cbn [pd_step] in E; unfold pd_insert_one, pd_assign_one in E; repeat (case_match; try discriminate); try (inv_ok E; repeat (case_match; try discriminate)); try discriminate; injection E as <- <-; auto.
Qed.
End dual.

(** ** Programs *)
Section world.
Context {C O : Type}.
Variable cs_of : C -> list uptr.
Variable call : omem W -> C -> O -> outcome (omem W * C * pret).
Variable none : C.
Variable effect : C -> O -> eff W.
Hypothesis none_nil : cs_of none = [].
Hypothesis call_eff : forall m c o m' c' r, call m c o = Ok (m', c', r) -> mem_eff m (cs_of c) (effect c o) = Ok (m', cs_of c').
Implicit Types (w : ow W C) (p : wop W C O).

Definition held (x : option C) : list nat := match x with Some c => hs (cs_of c) | None => [] end.
(** Everything that is owned: by the user, by the containers *)
Definition owned w : list nat := hs (usr (om w)) ++ concat (map held (conts w)).

(** Specification: the objects a step destroys, in order *)
Definition gone w p : list nat :=
  match p with
  | OCall o a => match conts w !! o with Some (Some c) => killed (cs_of c) (effect c a) | _ => [] end
  | OMoveTo to _ _ => default [] (held <$> conts w !! to)
  | ODestroy o => default [] (held <$> conts w !! o)
  | OReset x => match usr (om w) !! x with Some (Some a) => [a] | _ => [] end
  | ODefault | OMove _ _ | OMake _ => []
  end.

Lemma held_insert (l : list (option C)) i x y : l !! i = Some x -> concat (map held (<[i := y]> l)) ++ held x ≡ₚ held y ++ concat (map held l).
Proof.
  revert i. induction l as [|z l IH]; intros [|i] E; cbn in *; try discriminate.
  - injection E as ->. solve_Permutation.
  - rewrite <- app_assoc, (IH _ E). solve_Permutation.
Qed.
Lemma held_at (l : list (option C)) i x : l !! i = Some x -> exists R, concat (map held l) ≡ₚ held x ++ R /\ forall y, concat (map held (<[i := y]> l)) ≡ₚ held y ++ R.
Proof.
  revert i. induction l as [|z l IH]; intros [|i] E; cbn in *; try discriminate.
  - injection E as ->. exists (concat (map held l)). auto.
  - destruct (IH _ E) as (R & E1 & E2). exists (held z ++ R). split; [rewrite E1; solve_Permutation|]. intros y. rewrite E2. solve_Permutation.
Qed.

Lemma step_ok w p w' r : ownI (om w) (owned w) -> ow_step cs_of call none w p = Ok (w', r) ->
  ownI (om w') (owned w') /\ dels (om w') = dels (om w) ++ gone w p /\ forall a v, a ∉ gone w p -> live (om w) !! a = Some v -> live (om w') !! a = Some v.
Proof.
  intros Ho E. destruct p; cbn [ow_step gone] in *.
  - injection E as <- <-. cbn [om]. split; [|rewrite app_nil_r; auto]. unfold owned. cbn [om conts]. rewrite map_app, concat_app. cbn. rewrite none_nil. cbn. rewrite app_nil_r. exact Ho.
  - destruct (conts w !! from) as [[c|]|] eqn:Ec; try discriminate. destruct (cs_of rest) eqn:Er; [|discriminate]. injection E as <- <-. cbn [om]. split; [|rewrite app_nil_r; auto]. eapply ownI_perm; [|exact Ho].
    unfold owned. cbn [om conts]. rewrite map_app, concat_app. apply Permutation_app_head. cbn [map concat]. rewrite app_nil_r.
    change (held (Some c)) with (held (Some c)). rewrite (held_insert _ _ _ _ Ec). cbn [held]. rewrite Er. reflexivity.
  - destruct (conts w !! to) as [[d|]|] eqn:Ed; try discriminate. destruct (conts w !! from) as [[c|]|] eqn:Ec; try discriminate. destruct (cs_of rest) eqn:Er; [|discriminate].
    destruct (Nat.eqb_spec to from) as [|Hne]; [discriminate|]. inv_ok E. injection E as <- <-. cbn [fmap option_fmap option_map default held].
    destruct (held_at _ _ _ Ed) as (R & F1 & F2). specialize (F2 (Some c)). cbn [held] in F1, F2.
    assert (Ho2 : ownI (om w) (hs (cs_of d) ++ hs (usr (om w)) ++ R)). { eapply ownI_perm; [|exact Ho]. unfold owned. rewrite F1. solve_Permutation. }
    destruct (clear_ok _ _ _ Ho2) as (m2 & Em & H2 & G1 & G2 & G3 & G4). rewrite Ez in Em. injection Em as ->. cbn [om]. split; [|split; [exact G1|intros a v Ha Ev; rewrite G4 by exact Ha; exact Ev]].
    eapply ownI_perm; [|exact H2]. unfold owned. cbn [om conts]. rewrite G2. apply Permutation_app_head.
    assert (Ec2 : <[to := Some c]> (conts w) !! from = Some (Some c)) by (rewrite list_lookup_insert_ne by congruence; exact Ec).
    pose proof (held_insert _ _ _ (Some rest) Ec2) as F3. cbn [held] in F3. rewrite Er in F3. change (hs []) with (@nil nat) in F3. cbn [app] in F3. rewrite F2 in F3.
    apply (Permutation_app_inv_r (hs (cs_of c))). rewrite F3. apply Permutation_app_comm.
  - destruct (conts w !! o) as [[c0|]|] eqn:Ec; try discriminate. inv_ok E. destruct z as [[m1 c1] r1]. injection E as <- <-. apply call_eff in Ez. destruct (held_at _ _ _ Ec) as (R & F1 & F2). specialize (F2 (Some c1)). cbn [held] in F1, F2.
    assert (Ho2 : ownI (om w) (hs (usr (om w)) ++ hs (cs_of c0) ++ R)). { eapply ownI_perm; [|exact Ho]. unfold owned. rewrite F1. reflexivity. }
    assert (Hd : Decision (eff_ok (cs_of c0) (effect c0 c))) by (unfold eff_ok; destruct (effect c0 c); apply _).
    destruct (decide (eff_ok (cs_of c0) (effect c0 c))) as [He|He]; [|rewrite (eff_bad _ _ _ He) in Ez; discriminate].
    destruct (eff_sound _ _ _ _ Ho2 He) as (m2 & Em & H2 & G1 & G2). rewrite Ez in Em. injection Em as -> Ecs. cbn [om]. split; [|auto].
    unfold owned. cbn [om conts]. rewrite <- Ecs in H2. eapply ownI_perm; [|exact H2]. rewrite F2. reflexivity.
  - destruct (conts w !! o) as [[c0|]|] eqn:Ec; try discriminate. inv_ok E. injection E as <- <-. cbn [fmap option_fmap option_map default held]. destruct (held_at _ _ _ Ec) as (R & F1 & F2). specialize (F2 None). cbn [held] in F1, F2.
    assert (Ho2 : ownI (om w) (hs (cs_of c0) ++ hs (usr (om w)) ++ R)). { eapply ownI_perm; [|exact Ho]. unfold owned. rewrite F1. solve_Permutation. }
    destruct (clear_ok _ _ _ Ho2) as (m2 & Em & H2 & G1 & G2 & G3 & G4). rewrite Ez in Em. injection Em as ->. cbn [om]. split; [|split; [exact G1|intros a v Ha Ev; rewrite G4 by exact Ha; exact Ev]].
    eapply ownI_perm; [|exact H2]. unfold owned. cbn [om conts]. rewrite G2, F2. reflexivity.
  - injection E as <- <-. pose proof (src_ok (om w) (concat (map held (conts w))) (SArgs w0) Ho) as Hs. cbn [u_src u_new] in Hs. destruct Hs as (Hs & E1 & E2). cbn in *. rewrite app_nil_r. split; [|split; [reflexivity|auto]].
    unfold owned. cbn [om conts usr]. rewrite hs_app. cbn. rewrite <- app_assoc. cbn. apply (ownI_usr _ _ (usr (om w) ++ [Some (nxt (om w))])) in Hs. eapply ownI_perm; [|exact Hs]. unfold hs. solve_Permutation.
  - destruct (usr (om w) !! x) as [q|] eqn:Ex; [|discriminate]. inv_ok E. injection E as <- <-. pose proof (hs_insert _ _ _ None Ex) as F. cbn [hs omap app] in F.
    assert (Ho2 : ownI (om w) (hs [q] ++ hs (<[x := None]> (usr (om w))) ++ concat (map held (conts w)))). { eapply ownI_perm; [|exact Ho]. unfold owned. fold (hs (usr (om w))) in F. rewrite <- F. solve_Permutation. }
    destruct (del_ok _ _ _ Ho2) as (m2 & Em & H2 & G1 & G2 & G3 & G4). rewrite Ez in Em. injection Em as ->. cbn [om dels live].
    assert (Eq : match q with Some a => [a] | None => [] end = hs [q]) by (destruct q; reflexivity). rewrite Eq. split; [|split; [exact G1|intros a v Ha Ev; rewrite G4 by exact Ha; exact Ev]].
    unfold owned. cbn [om conts usr]. rewrite G2. apply ownI_usr, H2.
Qed.
Lemma own0 : ownI (om (ow0 (W := W) (C := C))) (owned ow0).
Proof.
  clear call none effect none_nil call_eff.
  constructor; cbn.
  - constructor.
  - intros a. rewrite lookup_empty. split; [intros Ha; inversion Ha|intros []; discriminate].
  - intros a. rewrite lookup_empty. split; [intros [[]|Ha]; [discriminate|inversion Ha]|lia].
  - constructor.
  - intros a Ha. inversion Ha.
Qed.
Lemma run_ok ps : forall w w' rs, ownI (om w) (owned w) -> ow_run cs_of call none w ps = Ok (w', rs) -> ownI (om w') (owned w').
Proof.
  induction ps as [|p ps IH]; intros w w' rs Ho E; cbn [ow_run] in E; [injection E as <- <-; exact Ho|].
  inv_ok E. destruct z as [w1 r]. inv_ok E. destruct z as [w2 rs2]. injection E as <- <-. apply step_ok in Ez as (H1 & _); [|exact Ho]. eapply IH; eassumption.
Qed.
(** A call on a container of a world: everything else is as for one container. *)
Lemma own_at w o c : ownI (om w) (owned w) -> conts w !! o = Some (Some c) -> exists L, ownI (om w) (hs (usr (om w)) ++ hs (cs_of c) ++ L).
Proof. intros Ho Ec. destruct (held_at _ _ _ Ec) as (R & F1 & _). exists R. eapply ownI_perm; [|exact Ho]. unfold owned. rewrite F1. reflexivity. Qed.
(** No undefined destruction: what a step needs *)
Definition step_def w p : Prop :=
  match p with
  | ODefault | OMake _ => True
  | OMove from rest => (exists c, conts w !! from = Some (Some c)) /\ cs_of rest = []
  | OMoveTo to from rest => to <> from /\ (exists c, conts w !! to = Some (Some c)) /\ (exists c, conts w !! from = Some (Some c)) /\ cs_of rest = []
  | OCall o a => exists c, conts w !! o = Some (Some c) /\ is_ok (call (om w) c a) = true
  | ODestroy o => exists c, conts w !! o = Some (Some c)
  | OReset x => is_Some (usr (om w) !! x)
  end.
Lemma step_defined w p : ownI (om w) (owned w) -> step_def w p -> exists w' r, ow_step cs_of call none w p = Ok (w', r).
Proof.
  intros Ho Hd. destruct p; cbn [step_def ow_step] in *.
  - eauto.
  - destruct Hd as [[c ->] ->]. eauto.
  - destruct Hd as (Hne & [d Ed] & [c Ec] & Er). rewrite Ed, Ec, Er. rewrite (proj2 (Nat.eqb_neq _ _) Hne). destruct (own_at _ _ _ Ho Ed) as [L HL]. destruct (clear_same _ _ _ HL) as [m' ->]. cbn. eauto.
  - destruct Hd as (d & -> & Hd). destruct (call (om w) d c) as [[[m1 c1] r]| |]; try discriminate Hd. cbn. eauto.
  - destruct Hd as [d Ed]. rewrite Ed. destruct (own_at _ _ _ Ho Ed) as [L HL]. destruct (clear_same _ _ _ HL) as [m' ->]. cbn. eauto.
  - eauto.
  - destruct Hd as [q Eq]. rewrite Eq. destruct q as [a|]; cbn [u_del]; [|cbn; eauto].
    assert (Ha : a ∈ owned w). { unfold owned. apply elem_of_app. left. apply elem_of_list_omap. exists (Some a). split; [eapply elem_of_list_lookup_2, Eq|reflexivity]. }
    apply (oi_live _ _ Ho) in Ha as [v ->]. cbn. eauto.
Qed.
End world.

(** Where the new element comes from *)
Definition taken m (e : eff W) m' : Prop :=
  match e with
  | EPush (SUser x) | ESet _ (SUser x) => usr m' = <[x := None]> (usr m) /\ nxt m' = nxt m
  | EPush (SArgs v) | ESet _ (SArgs v) => usr m' = usr m /\ nxt m' = S (nxt m) /\ live m' !! nxt m = Some v
  | ENone | EErase _ | EClear => usr m' = usr m /\ nxt m' = nxt m
  end.
Lemma taken_ok m cs e m' cs' L : ownI m (hs (usr m) ++ hs cs ++ L) -> mem_eff m cs e = Ok (m', cs') -> taken m e m' /\ cs' = after cs (eptr m e) e.
Proof.
  intros Ho E. assert (Hd : Decision (eff_ok cs e)) by (unfold eff_ok; destruct e; apply _). destruct (decide (eff_ok cs e)) as [He|He]; [|rewrite (eff_bad _ _ _ He) in E; discriminate].
  destruct (eff_sound _ _ _ _ Ho He) as (m2 & Em & _ & _ & _). rewrite Em in E. injection E as -> ->. split; [|reflexivity].
  assert (Hu : forall p m m', u_del p m = Ok m' -> usr m' = usr m /\ nxt m' = nxt m). { intros [a|] n n' E; cbn in E; [destruct (live n !! a); [|discriminate]|]; injection E as <-; auto. }
  assert (Hl : forall p m m' a v, u_del p m = Ok m' -> p <> Some a -> live m !! a = Some v -> live m' !! a = Some v). { intros [b|] n n' a v E Hne Ea; cbn in E; [destruct (live n !! b); [|discriminate]|]; injection E as <-; [|exact Ea]. cbn. rewrite lookup_delete_ne; [exact Ea|congruence]. }
  assert (Hw : forall rest x (n n' : omem W) cs1, c_down n x rest = Ok (n', cs1) -> usr n' = usr n /\ nxt n' = nxt n).
  { induction rest as [|y rest IH]; intros x n n' cs1 E; cbn [c_down] in E; apply obind_ok in E as (n1 & E1 & E); apply Hu in E1 as [E1 E2]; [injection E as <- <-; auto|]. apply obind_ok in E as ([n2 cs2] & E3 & E). injection E as <- <-. apply IH in E3 as [E3 E4]. split; congruence. }
  assert (Hc : forall l (n n' : omem W), c_clear n l = Ok n' -> usr n' = usr n /\ nxt n' = nxt n).
  { induction l as [|y l IH]; intros n n' E; cbn [c_clear] in E; [injection E as <-; auto|]. apply obind_ok in E as (n1 & E1 & E). apply Hu in E1 as [E1 E2]. apply IH in E as [E3 E4]. split; congruence. }
  destruct e as [|s|i s|i|]; cbn [mem_eff taken] in *.
  - injection Em as <-. auto.
  - unfold c_push in Em. destruct s; cbn [u_src u_new] in Em; injection Em as <-; cbn; [rewrite lookup_insert; auto|auto].
  - unfold c_set in Em. destruct s; cbn [u_src u_new] in Em; (destruct (0 <=? i); [|discriminate]); (destruct (cs !! Z.to_nat i) as [old|] eqn:Eo; [|discriminate]); apply obind_ok in Em as (n & E1 & E); injection E as ->; pose proof (Hu _ _ _ E1) as [E2 E3]; cbn in E2, E3; [|auto].
    split; [exact E2|]. split; [exact E3|]. eapply Hl; [exact E1| |cbn; apply lookup_insert]. intros ->.
    assert (is_Some (live m !! nxt m)) as Hs. { apply (oi_live _ _ Ho). rewrite !elem_of_app. right. left. apply elem_of_list_omap. exists (Some (nxt m)). split; [eapply elem_of_list_lookup_2, Eo|reflexivity]. }
    assert (nxt m < nxt m)%nat by (apply (oi_nxt _ _ Ho); auto). lia.
  - unfold c_erase in Em. destruct (0 <=? i); [|discriminate]. destruct (drop (Z.to_nat i) cs); [discriminate|]. apply obind_ok in Em as ([n cs1] & E1 & E). injection E as -> _. exact (Hw _ _ _ _ _ E1).
  - apply obind_ok in Em as (n & E1 & E). injection E as ->. exact (Hc _ _ _ E1).
Qed.
End mem.
