(** Boolean checks of the hypotheses of the mapped vector theorems, used for concrete histories. *)
From stdpp Require Import gmap.
From Verif Require Import Base BlkHeap BlkIter VecModel VecWorld MapStore MapStoreProofs MapModel MapSpec MapProofs MapReach
  DualModel DualSpec DualProofs MapFinal DualReach.

Section keys.
Context `{Countable K}.
Implicit Types (lk : gmap K Z).
Definition keys_at lk i : list K := map fst (base.filter (fun kv => kv.2 = i) (map_to_list lk)).
Lemma keys_at_spec lk i k : lk !! k = Some i <-> k ∈ keys_at lk i.
Proof.
  unfold keys_at. rewrite elem_of_list_fmap. split.
  - intros E. exists (k, i). split; [reflexivity|]. apply elem_of_list_filter. split; [reflexivity|]. apply elem_of_map_to_list. exact E.
  - intros ([k' j] & -> & E). apply elem_of_list_filter in E as [E1 E2]. apply elem_of_map_to_list in E2. cbn in *. congruence.
Qed.
Definition ordb lk (ord : list K) : bool := bool_decide (NoDup ord) && bool_decide (map_Forall (fun k _ => k ∈ ord) lk).
Lemma ordb_ok lk ord : ordb lk ord = true -> ord_ok lk ord.
Proof.
  unfold ordb. intros E. apply andb_prop in E as [E1 E2]. apply bool_decide_eq_true in E1. apply bool_decide_eq_true in E2.
  split; [exact E1|]. intros k [j Hj]. exact (E2 _ _ Hj).
Qed.
Definition oneb (kd : option K) lk i : bool :=
  match keys_at lk i with
  | [] => match kd with Some d => bool_decide (lk !! d = None) | None => false end
  | [_] => true
  | _ => false
  end.
Lemma oneb_ok kd lk i : oneb kd lk i = true -> one_or_default kd lk i.
Proof.
  unfold oneb. intros E. pose proof (keys_at_spec lk i) as S. destruct (keys_at lk i) as [|k [|]]; [| |discriminate].
  - right. split; [intros k F; apply S in F; inversion F|]. destruct kd as [d|]; [|discriminate]. apply bool_decide_eq_true in E. eauto.
  - left. exists k. split; [apply S; constructor|]. intros k' F. apply S in F. apply elem_of_list_singleton in F. exact F.
Qed.
Definition onlyb lk (k : K) i : bool := forallb (fun k' => bool_decide (k' = k)) (keys_at lk i).
Lemma onlyb_ok lk k i : onlyb lk k i = true -> forall k', lk !! k' = Some i -> k' = k.
Proof.
  unfold onlyb. intros E k' F. apply keys_at_spec in F. rewrite forallb_forall in E. apply elem_of_list_In, E in F. apply bool_decide_eq_true in F. exact F.
Qed.
End keys.

Section map.
Context {V : Type} `{Countable K}.
Variable P : params.
Variable kdef : option K.
Implicit Types (m : mv V K).

Definition roomb (s : store V) : bool :=
  match s with SVec _ => true | SBlk _ v => match v_data v with None => true | Some _ => negb ((v_bsize v =? bsz P) && (v_idx v + 1 =? v_slots v)) end end.
Lemma roomb_ok s : roomb s = true -> st_room P s.
Proof.
  destruct s as [|h v]; cbn; [trivial|]. unfold vfull. intros E (F1 & F2 & F3). destruct (v_data v); [|congruence].
  rewrite F2, F3, !Z.eqb_refl in E. discriminate.
Qed.
Definition smallb (s : store V) : bool := roomb s && (negb (st_stable s) || (st_size s <=? 2147483648 - bsz P)).
Lemma smallb_ok s : smallb s = true -> st_room P s /\ (st_stable s = true -> st_size s <= 2147483648 - bsz P).
Proof.
  intros E. apply andb_prop in E as [E1 E2]. split; [apply roomb_ok, E1|]. intros F. rewrite F in E2. cbn in E2. lia.
Qed.

Definition mv_legalb m (o : mop V K) : bool :=
  match o with
  | MGet i => (0 <=? i) && (i <? st_size (m_st m))
  | MGetP i | MAt i | MAlias _ i => 0 <=? i
  | MBack => 0 <? st_size (m_st m)
  | MRemoveIdx i ord => (0 <=? i) && ordb (m_lk m) ord
  | MRemove _ ord => ordb (m_lk m) ord
  | _ => true
  end.
Lemma mv_legalb_ok m o : mv_legalb m o = true -> mv_legal m o.
Proof.
  destruct o; cbn; try (intros; exact I); try lia.
  - intros E. apply andb_prop in E as [E1 E2]. split; [lia|apply ordb_ok, E2].
  - apply ordb_ok.
Qed.
Definition mv_guardb m (o : mop V K) : bool :=
  match o with
  | MFind _ => smallb (m_st m)
  | MModify _ | MApply => roomb (m_st m)
  | MRemoveIdx i _ => (st_size (m_st m) <=? i) || oneb kdef (m_lk m) i
  | MRemove k _ => match m_lk m !! k with Some i => onlyb (m_lk m) k i | None => true end
  | _ => true
  end.
Lemma mv_guardb_ok m o : mv_guardb m o = true -> mv_guard P kdef m o.
Proof.
  destruct o; cbn [mv_guardb mv_guard]; try (intros; exact I); try apply smallb_ok; try apply roomb_ok.
  - intros E Hi. apply orb_prop in E as [E|E]; [lia|]. apply oneb_ok, E.
  - intros E i k' E1 E2. rewrite E1 in E. eapply onlyb_ok; eassumption.
Qed.
Fixpoint mv_chk m (ops : list (mop V K)) : bool :=
  match ops with
  | [] => true
  | o :: ops' => mv_legalb m o && mv_guardb m o && match mv_step P kdef m o with Ok (m', _) => mv_chk m' ops' | _ => true end
  end.
Lemma mv_chk_ok ops : forall m, mv_chk m ops = true -> mv_safe P kdef m ops.
Proof.
  induction ops as [|o ops IH]; intros m E; cbn in *; [exact I|]. apply andb_prop in E as [E E3]. apply andb_prop in E as [E1 E2].
  splits; [apply mv_legalb_ok, E1|apply mv_guardb_ok, E2|]. intros m' r F. rewrite F in E3. apply IH, E3.
Qed.

Definition rangeb m (o : mop V K) : bool :=
  match o with MAssign k _ => match m_lk m !! k with Some i => i <? st_size (m_st m) | None => true end | _ => true end.
Lemma rangeb_ok m o : rangeb m o = true -> in_range m o.
Proof. destruct o; cbn; try (intros; exact I). intros E i F. rewrite F in E. lia. Qed.
Fixpoint reach_chk m (ops : list (mop V K)) : option (mv V K) :=
  match ops with
  | [] => Some m
  | o :: ops' => if mv_legalb m o && rangeb m o then match mv_step P kdef m o with Ok (m', _) => reach_chk m' ops' | _ => None end else None
  end.
Lemma reach_chk_ok stb ops : forall m m', mreach P kdef stb m -> reach_chk m ops = Some m' -> mreach P kdef stb m'.
Proof.
  induction ops as [|o ops IH]; intros m m' Hr E; cbn in E; [congruence|]. destruct (mv_legalb m o && rangeb m o) eqn:El; [|discriminate].
  apply andb_prop in El as [E1 E2]. destruct (mv_step P kdef m o) as [[m1 r]| |] eqn:Es; try discriminate.
  eapply IH; [|exact E]. eapply mr_step; [exact Hr|apply mv_legalb_ok, E1|apply rangeb_ok, E2|exact Es].
Qed.
(** A history of legal calls that runs leads to a reachable state. *)
Lemma reach_run stb ops m : reach_chk (mv0 P stb) ops = Some m -> mreach P kdef stb m.
Proof. apply reach_chk_ok. constructor. Qed.
End map.

Section dual.
Context {V : Type} `{Countable K1} `{Countable K2}.
Variable P : params.
Variable cl : dcls.
Variable kd1 : option K1.
Variable kd2 : option K2.
Implicit Types (d : dv V K1 K2).

Definition rem_legalb d o1 o2 : bool :=
  ordb (d_l1 d) o1 && ordb (d_l2 d) o2 && match cl with CStr => st_stable (d_st d) | CPtr => negb (st_stable (d_st d)) | CMap => true end.
Lemma rem_legalb_ok d o1 o2 : rem_legalb d o1 o2 = true -> rem_legal cl d o1 o2.
Proof.
  intros E. apply andb_prop in E as [E E3]. apply andb_prop in E as [E1 E2]. unfold rem_legal.
  splits; [apply ordb_ok, E1|apply ordb_ok, E2| |]; intros ->; [exact E3|]. destruct (st_stable (d_st d)); [discriminate|reflexivity].
Qed.
Definition ptrb : bool := match cl with CPtr => true | _ => false end.
Lemma ptrb_ok : negb ptrb = true -> cl <> CPtr.
Proof. unfold ptrb. destruct cl; cbn; congruence. Qed.
Definition dv_legalb d (o : dop V K1 K2) : bool :=
  match o with
  | DInsert0 _ | DTerm _ _ => negb ptrb
  | DTermIdx _ i | DAt i => negb ptrb && (0 <=? i)
  | DGet i => (0 <=? i) && (ptrb || (i <? st_size (d_st d)))
  | DBack => 0 <? st_size (d_st d)
  | DRemoveIdx i o1 o2 => (0 <=? i) && rem_legalb d o1 o2
  | DRemove _ o1 o2 => rem_legalb d o1 o2
  | _ => true
  end.
Lemma dv_legalb_ok d o : dv_legalb d o = true -> dv_legal cl d o.
Proof.
  destruct o; cbn [dv_legalb dv_legal]; try (intros; exact I); try lia; try apply ptrb_ok; try apply rem_legalb_ok.
  - intros E. apply andb_prop in E as [E1 E2]. split; [apply ptrb_ok, E1|lia].
  - intros E. apply andb_prop in E as [E1 E2]. split; [lia|]. intros F. unfold ptrb in E2. destruct cl; [lia|lia|congruence].
  - intros E. apply andb_prop in E as [E1 E2]. split; [apply ptrb_ok, E1|lia].
  - intros E. apply andb_prop in E as [E1 E2]. split; [lia|apply rem_legalb_ok, E2].
Qed.
Definition drem_guardb d i : bool :=
  match cl with
  | CMap => true
  | CStr => (terms_at (d_l1 d) i <? 64 * bsz P) && (terms_at (d_l2 d) i <? 64 * bsz P)
  | CPtr => oneb kd1 (d_l1 d) i && oneb kd2 (d_l2 d) i
  end.
Lemma drem_guardb_ok d i : drem_guardb d i = true -> drem_guard P cl kd1 kd2 d i.
Proof.
  unfold drem_guardb, drem_guard. destruct cl; [trivial|lia|]. intros E. apply andb_prop in E as [E1 E2]. split; apply oneb_ok; assumption.
Qed.
Definition dkey_guardb d (k : K1 + K2) : bool :=
  match d_lk d k with
  | None => true
  | Some i =>
      match cl with
      | CPtr => match k with
                | inl k1 => onlyb (d_l1 d) k1 i && oneb kd2 (d_l2 d) i
                | inr k2 => onlyb (d_l2 d) k2 i && oneb kd1 (d_l1 d) i
                end
      | _ => drem_guardb d i
      end
  end.
Lemma dkey_guardb_ok d k : dkey_guardb d k = true -> dkey_guard P cl kd1 kd2 d k.
Proof.
  unfold dkey_guardb, dkey_guard. intros E i Ei. rewrite Ei in E. pose proof (drem_guardb_ok d i) as D. destruct cl; [exact (D E)|exact (D E)|].
  destruct k; apply andb_prop in E as [E1 E2]; (split; [intros k' F; eapply onlyb_ok; eassumption|apply oneb_ok, E2]).
Qed.
Definition dv_guardb d (o : dop V K1 K2) : bool :=
  match o with
  | DFind _ => ptrb || smallb P (d_st d)
  | DModify _ | DApply => roomb P (d_st d)
  | DRemoveIdx i _ _ => (st_size (d_st d) <=? i) || drem_guardb d i
  | DRemove k _ _ => dkey_guardb d k
  | _ => true
  end.
Lemma dv_guardb_ok d o : dv_guardb d o = true -> dv_guard P cl kd1 kd2 d o.
Proof.
  destruct o; cbn [dv_guardb dv_guard]; try (intros; exact I); try apply roomb_ok; try apply dkey_guardb_ok.
  - intros E F. unfold ptrb in E. destruct cl; [apply smallb_ok, E|apply smallb_ok, E|congruence].
  - intros E Hi. apply orb_prop in E as [E|E]; [lia|]. apply drem_guardb_ok, E.
Qed.
Fixpoint dv_chk d (ops : list (dop V K1 K2)) : bool :=
  match ops with
  | [] => true
  | o :: ops' => dv_legalb d o && dv_guardb d o && match dv_step P cl kd1 kd2 d o with Ok (d', _) => dv_chk d' ops' | _ => true end
  end.
Lemma dv_chk_ok ops : forall d, dv_chk d ops = true -> dv_safe P cl kd1 kd2 d ops.
Proof.
  induction ops as [|o ops IH]; intros d E; cbn in *; [exact I|]. apply andb_prop in E as [E E3]. apply andb_prop in E as [E1 E2].
  splits; [apply dv_legalb_ok, E1|apply dv_guardb_ok, E2|]. intros d' r F. rewrite F in E3. apply IH, E3.
Qed.
Fixpoint dreach_chk d (ops : list (dop V K1 K2)) : option (dv V K1 K2) :=
  match ops with
  | [] => Some d
  | o :: ops' => if dv_legalb d o then match dv_step P cl kd1 kd2 d o with Ok (d', _) => dreach_chk d' ops' | _ => None end else None
  end.
Lemma dreach_chk_ok stb ops : forall d d', dreach P cl kd1 kd2 stb d -> dreach_chk d ops = Some d' -> dreach P cl kd1 kd2 stb d'.
Proof.
  induction ops as [|o ops IH]; intros d d' Hr E; cbn in E; [congruence|]. destruct (dv_legalb d o) eqn:El; [|discriminate].
  destruct (dv_step P cl kd1 kd2 d o) as [[d1 r]| |] eqn:Es; try discriminate.
  eapply IH; [|exact E]. eapply dr_step; [exact Hr|apply dv_legalb_ok, El|exact Es].
Qed.
Lemma dreach_run stb ops d : dreach_chk (dv0 P stb) ops = Some d -> dreach P cl kd1 kd2 stb d.
Proof. apply dreach_chk_ok. constructor. Qed.
End dual.
