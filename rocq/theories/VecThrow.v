(** StableBlockVector when a push is left by an exception.

    Simplifications: the model has the C++17 order of evaluation (in dataptr[++dataSlotIndex] = getNewBlock() the right
    operand comes first; the address passed to placement new is complete before the constructor runs). *)
From stdpp Require Import gmap.
From Verif Require Import Base BlkHeap BlkProofs BlkMore BlkRun BlkIter VecModel VecSpec VecProofs VecFinal.

Section model.
Context {V : Type}.
Variable P : params.
Notation B := (bsz P).
Implicit Types (h : bheap V) (v : vec) (x : V).

(** StableBlockVector.hpp:135-157 when the constructor of the element throws: [bsize++] has happened, [++csize] has not,
    and no element lives in the slot. *)
Definition vec_push_throw h v : outcome (bheap V * vec) :=
  '(h1, v1) <-! vec_block_check P h v ;;
  c <-! tget h1 (v_data v1) (v_idx v1) ;;
  _ <-! slot P h1 c (v_bsize v1) ;;
  Ok (h1, Vec (v_size v1) (v_data v1) (v_slots v1) (v_idx v1) (v_bsize v1 + 1) (v_fl v1)).

(** StableBlockVector.hpp:378-396 when a memory request throws.  [first] tells whether it is that of a new table
    (:382, :386) or that of a block (:420).  [None]: the request is not made. *)
Definition vec_push_nomem h v (first : bool) : option (outcome (bheap V * vec)) :=
  if negb (B <=? v_bsize v) then None
  else if first then
    if (v_slots v =? 0) || (v_slots v - 1 <=? v_idx v) then Some (Ok (h, v)) else None
  else if negb (f_idx (v_fl v) =? 0) then None
  else Some
    (if v_slots v =? 0 then
       let '(h', t) := talloc h 64 in Ok (h', Vec (v_size v) t 64 (-1) (v_bsize v) (v_fl v))
     else if v_slots v - 1 <=? v_idx v then
       let '(h', t) := talloc h (v_slots v * 2) in
       h2 <-! tcopy h' (v_data v) 0 (v_slots v) t 0 ;;
       h3 <-! tdelete h2 (v_data v) ;;
       Ok (h3, Vec (v_size v) t (v_slots v * 2) (v_idx v) (v_bsize v) (v_fl v))
     else Ok (h, v)).
End model.

Section proofs.
Context {V : Type}.
Variable P : params.
Hypothesis HP : 0 <= expo P.
Notation B := (bsz P).
Implicit Types (h : bheap V) (v : vec) (ids frees : list nat) (xs : list V).

(** A slot outside the run of elements is empty. *)
Lemma bk_hole h t slots lo ids off xs f frees (i : nat) b j :
  blocks P h t slots lo ids off xs f frees -> ids !! i = Some b -> 0 <= j < B ->
  Z.of_nat i * B + j < off \/ off + zlen xs <= Z.of_nat i * B + j -> b ∈ bl h /\ el h !! (b, j) = None.
Proof.
  intros [_ [_ Hb He] _ _ _ _] Hi Hj Hp. split; [eauto|]. rewrite (He i b j Hi), sl_at by assumption.
  apply zl_none. lia.
Qed.

Lemma hole_kill h b j : b ∈ bl h -> el h !! (b, j) = None -> 0 <= j < B -> triv P = false -> ekill P h (Some b) j = UB.
Proof. intros Hb He Hj Ht. unfold ekill. rewrite slot_ok by assumption. cbn [obind]. rewrite He, Ht. reflexivity. Qed.

Lemma hole_get h b j : b ∈ bl h -> el h !! (b, j) = None -> 0 <= j < B -> eget P h (Some b) j = UB.
Proof. intros Hb He Hj. unfold eget. rewrite slot_ok by assumption. cbn [obind]. rewrite He. reflexivity. Qed.

(** The state after the exception: as after blockCheck, but one slot is counted that holds nothing. *)
Lemma vthrow_ok h v xs ids frees :
  vinv P h v xs ids frees ->
  exists h1 v1 t ids1 frees1, vec_push_throw P h v = Ok (h1, v1) /\ vroom P h1 v1 t xs ids1 frees1 1 /\ 0 < v_bsize v1 /\
    v_size v1 = zlen xs /\ 0 <= v_idx v1 /\ upd (frees ++ ids) (vts v) h (frees1 ++ ids1) (vts v1) h1 /\ mono ids ids1.
Proof.
  intros Hv. pose proof (B_pos P HP) as HB.
  destruct (vcheck_ok P HP h v xs ids frees 0 ltac:(lia) (vinv_room P _ _ _ _ _ Hv)) as
    (h1 & v1 & t & ids1 & frees1 & E & (Ed & Hbk & Hi & Hb & Hz & Hs) & Hsz & Hlt & Hge & U & Hm).
  rewrite (vinv_size P _ _ _ _ _ Hv) in Hsz.
  unfold vec_push_throw. rewrite E; cbn [obind]. rewrite Ed.
  destruct (lookup_lt_is_Some_2 ids1 (Z.to_nat (v_idx v1))) as [b Hlk]; [unfold zlen in Hi; lia|].
  rewrite (bk_get P h1 t (v_slots v1) 0 ids1 0 xs (v_fl v1) frees1 _ b _ Hbk Hlk) by lia. cbn [obind].
  destruct (bk_hole h1 t (v_slots v1) 0 ids1 0 xs (v_fl v1) frees1 _ b (v_bsize v1) Hbk Hlk) as [Hbl _]; [lia|nia|].
  rewrite slot_ok by (assumption || lia). cbn [obind].
  eexists h1, _, t, ids1, frees1. split; [reflexivity|]. splits; cbn; try assumption; try lia.
  - unfold vroom; cbn. splits; try assumption; lia.
  - unfold vts in *; cbn. rewrite Ed in U. exact U.
Qed.

Lemma vroom_get h v t xs ids frees k (n : nat) x :
  vroom P h v t xs ids frees k -> 0 <= k -> xs !! n = Some x -> vec_get P h v (Z.of_nat n) = Ok x.
Proof.
  intros (Ed & Hbk & Hi & Hb & Hz & Hs) Hk Hx. pose proof (lookup_lt_Some _ _ _ Hx). pose proof (B_pos P HP).
  destruct (bk_locate P HP h t (v_slots v) 0 ids 0 xs (v_fl v) frees (Z.of_nat n) Hbk) as (i & b & Hlk & Hdi & Hj & Hp & Et);
    [lia|unfold zlen in *; nia|unfold zlen; lia|].
  unfold vec_get, vec_at. rewrite shiftr_bsz, land_bsz by assumption. rewrite Ed.
  rewrite !Z.add_0_l in *. rewrite Et. cbn [obind]. eapply bk_read with (n := Z.of_nat n); try eassumption. rewrite zl_nat. exact Hx.
Qed.

(** Slots of elements are those of the state before. *)
Lemma vroom_at h v t xs ids frees k n :
  vroom P h v t xs ids frees k -> 0 <= k -> 0 <= n < zlen xs + k ->
  exists i b, ids !! i = Some b /\ Z.of_nat i = n / B /\ 0 <= n mod B < B /\ Z.of_nat i * B + n mod B = n /\
    vec_at P h v n = Ok (Some b, n mod B).
Proof.
  intros (Ed & Hbk & Hi & Hb & Hz & Hs) Hk Hn. pose proof (B_pos P HP).
  destruct (pos_split P HP n) as (H1 & H2 & H3); [lia|].
  assert (Hl : n / B < zlen ids) by (apply Z.div_lt_upper_bound; nia).
  destruct (lookup_lt_is_Some_2 ids (Z.to_nat (n / B))) as [b Hlk]; [unfold zlen in Hl; lia|].
  exists (Z.to_nat (n / B)), b. splits; try assumption; try lia.
  unfold vec_at. rewrite shiftr_bsz, land_bsz by assumption. rewrite Ed.
  rewrite (bk_get P h t (v_slots v) 0 ids 0 xs (v_fl v) frees _ b _ Hbk Hlk) by lia. reflexivity.
Qed.

(** pop_back and the destructor meet the empty slot. *)
Lemma vthrow_pop h v t xs ids frees :
  vroom P h v t xs ids frees 1 -> 0 < v_bsize v -> v_size v = zlen xs -> 0 <= v_idx v -> triv P = false -> xs <> [] ->
  vec_pop P h v = UB.
Proof.
  intros (Ed & Hbk & Hi & Hb & Hz & Hs) Hp Hsz Hge Ht Hne. unfold vec_pop. rewrite Hsz.
  destruct (Z.eqb_spec (zlen xs) 0) as [E0|_]; [apply zlen_0 in E0; congruence|].
  destruct (Z.ltb_spec 0 (v_bsize v)); [|lia]. cbn [obind v_data v_idx v_bsize]. rewrite Ed.
  destruct (lookup_lt_is_Some_2 ids (Z.to_nat (v_idx v))) as [b Hlk]; [unfold zlen in Hi; lia|].
  rewrite (bk_get P h t (v_slots v) 0 ids 0 xs (v_fl v) frees _ b _ Hbk Hlk) by lia. cbn [obind].
  destruct (bk_hole h t (v_slots v) 0 ids 0 xs (v_fl v) frees _ b (v_bsize v - 1) Hbk Hlk) as [Hbl He]; [lia|nia|].
  rewrite hole_kill by (assumption || lia). reflexivity.
Qed.

Lemma vthrow_kill h v t xs ids frees :
  vroom P h v t xs ids frees 1 -> 0 < v_bsize v -> 0 <= v_idx v -> triv P = false ->
  kill_down P h (v_data v) (v_idx v) 0 (Z.to_nat (v_bsize v)) = UB.
Proof.
  intros (Ed & Hbk & Hi & Hb & Hz & Hs) Hp Hge Ht. rewrite Ed.
  destruct (lookup_lt_is_Some_2 ids (Z.to_nat (v_idx v))) as [b Hlk]; [unfold zlen in Hi; lia|].
  replace (Z.to_nat (v_bsize v)) with (S (Z.to_nat (v_bsize v - 1))) by lia. cbn [kill_down].
  rewrite (bk_get P h t (v_slots v) 0 ids 0 xs (v_fl v) frees _ b _ Hbk Hlk) by lia. cbn [obind].
  destruct (bk_hole h t (v_slots v) 0 ids 0 xs (v_fl v) frees _ b (v_bsize v - 1) Hbk Hlk) as [Hbl He]; [lia|nia|].
  rewrite hole_kill; try assumption; try lia; [reflexivity|]. rewrite Z2Nat.id by lia. exact He.
Qed.

Lemma vthrow_free h v t xs ids frees :
  vroom P h v t xs ids frees 1 -> 0 < v_bsize v -> 0 <= v_idx v -> triv P = false -> vec_free_all P h v = UB.
Proof.
  intros Hr Hp Hge Ht. unfold vec_free_all. pose proof (vthrow_kill _ _ _ _ _ _ Hr Hp Hge Ht) as E.
  destruct Hr as (Ed & _). rewrite Ed in *. rewrite E. reflexivity.
Qed.

Lemma vthrow_clear h v t xs ids frees :
  vroom P h v t xs ids frees 1 -> 0 < v_bsize v -> 0 <= v_idx v -> triv P = false -> vec_clear P h v = UB.
Proof.
  intros Hr Hp Hge Ht. unfold vec_clear. rewrite (vthrow_kill _ _ _ _ _ _ Hr Hp Hge Ht).
  destruct Hr as (_ & _ & _ & _ & _ & Hs). destruct (Z.leb_spec (v_slots v) 0); [lia|]. reflexivity.
Qed.

(** The next push succeeds, but the element lands one slot too far. *)
Lemma vthrow_push h v t xs ids frees y :
  vroom P h v t xs ids frees 1 -> 0 <= v_idx v -> v_size v = zlen xs ->
  exists h2 v2, vec_push P h v y = Ok (h2, v2) /\ v_size v2 = zlen xs + 1 /\ vec_get P h2 v2 (zlen xs) = UB /\
    vec_back P h2 v2 = Ok y.
Proof.
  intros Hr Hge0 Hsz0. pose proof (B_pos P HP) as HB. pose proof (zlen_nonneg xs) as Hnn.
  destruct (vcheck_ok P HP h v xs ids frees 1 ltac:(lia)) as
    (h1 & v1 & t1 & ids1 & frees1 & E & Hr1 & Hsz & Hlt & Hge & U & Hm); [right; eauto|].
  destruct (vroom_at h1 v1 t1 xs ids1 frees1 1 (zlen xs) Hr1) as (i0 & b0 & Hl0 & Hd0 & Hj0 & Hp0 & Ea0); [lia|lia|].
  destruct Hr1 as (Ed & Hbk & Hi & Hb & Hz & Hs).
  unfold vec_push. rewrite E; cbn [obind]. rewrite Ed.
  destruct (lookup_lt_is_Some_2 ids1 (Z.to_nat (v_idx v1))) as [b Hlk]; [unfold zlen in Hi; lia|].
  rewrite (bk_get P h1 t1 (v_slots v1) 0 ids1 0 xs (v_fl v1) frees1 _ b _ Hbk Hlk) by lia. cbn [obind].
  destruct (bk_hole h1 t1 (v_slots v1) 0 ids1 0 xs (v_fl v1) frees1 _ b (v_bsize v1) Hbk Hlk) as [Hbl He]; [lia|nia|].
  destruct (bk_hole h1 t1 (v_slots v1) 0 ids1 0 xs (v_fl v1) frees1 _ b0 (zlen xs mod B) Hbk Hl0) as [Hbl0 He0]; [lia|lia|].
  unfold emake. rewrite slot_ok by (assumption || lia). cbn [obind]. rewrite He. cbn [obind].
  eexists _, _. split; [reflexivity|]. cbn [v_size]. splits; [lia| |].
  - unfold vec_get, vec_at in *. cbn [v_data]. rewrite shiftr_bsz, land_bsz in * by assumption. rewrite Ed in Ea0.
    unfold tget in *; cbn [tb]. destruct (tb h1 !! t1); [|discriminate]. destruct (zlen xs / B <? 0); [discriminate|].
    destruct (l !! _); [|discriminate]. cbn [obind] in *. injection Ea0 as ->.
    apply hole_get; cbn; try assumption. rewrite lookup_insert_ne; [exact He0|].
    intros [= -> Ej]. assert (i0 = Z.to_nat (v_idx v1)) as Ei.
    { eapply NoDup_lookup; [apply (ar_nodup _ _ _ _ _ (bk_area _ _ _ _ _ _ _ _ _ _ Hbk))|eassumption|eassumption]. }
    subst i0. rewrite Z2Nat.id in Hp0 by lia. lia.
  - unfold vec_back. cbn [v_bsize v_data v_idx]. destruct (Z.eqb_spec (v_bsize v1 + 1) 0); [lia|].
    replace (tget _ (Some t1) (v_idx v1)) with (tget h1 (Some t1) (v_idx v1)) by reflexivity.
    rewrite (bk_get P h1 t1 (v_slots v1) 0 ids1 0 xs (v_fl v1) frees1 _ b _ Hbk Hlk) by lia. cbn [obind].
    unfold eget. rewrite slot_ok; cbn; try assumption; try lia. rewrite Z.add_simpl_r, lookup_insert. reflexivity.
Qed.

(** Out of memory *)
Lemma vnomem_ok h v xs ids frees first r :
  vinv P h v xs ids frees -> vec_push_nomem P h v first = Some r ->
  exists h1 v1, r = Ok (h1, v1) /\ vinv P h1 v1 xs ids frees /\ (phantom v1 -> phantom v \/ (v = vec_default P /\ first = false)) /\
    upd (frees ++ ids) (vts v) h (frees ++ ids) (vts v1) h1.
Proof.
  intros Hv. pose proof (vinv_hok P _ _ _ _ _ Hv) as Hok0. unfold vec_push_nomem.
  destruct (Z.leb_spec B (v_bsize v)) as [Hfull|]; cbn [negb]; [|discriminate]. destruct first.
  { destruct (_ || _); [|discriminate]. intros [= <-]. exists h, v. splits; try assumption; [tauto|]. apply upd_refl. exact Hok0. }
  destruct (Z.eqb_spec (f_idx (v_fl v)) 0); cbn [negb]; [|discriminate]. intros Hr%(inj Some). rewrite <- Hr. clear Hr.
  destruct Hv as [(-> & -> & -> & -> & Hok)|(t & Hl)].
  - cbn [vec_default v_slots Z.eqb v_size v_bsize v_fl]. destruct (talloc h 64) as [h1 u] eqn:Ea.
    destruct (bk_fresh P h 64 0 h1 u Hok) as (t & -> & Hbk & U); [lia|assumption|].
    eexists h1, _. split; [reflexivity|]. splits; cbn; try assumption; [|tauto].
    right. exists t. unfold vlive; cbn. unfold zlen; cbn. pose proof (B_pos P HP). splits; try assumption; lia.
  - pose proof Hl as (E & Hbk & Hsz & Hi & Hb & Hz & Hs). destruct (Z.eqb_spec (v_slots v) 0); [lia|].
    destruct (Z.leb_spec (v_slots v - 1) (v_idx v)).
    + rewrite E. pose proof (row_lo_nonneg _ _ _ _ _ (bk_row _ _ _ _ _ _ _ _ _ _ Hbk)).
      destruct (bk_grow P HP h t (v_slots v) 0 ids 0 xs (v_fl v) frees (v_slots v * 2) 0 (v_slots v) 0 Hbk) as
        (h1 & u & h2 & h3 & -> & -> & E3 & Hbk' & U); try lia.
      cbn [obind]. rewrite E3. cbn [obind]. eexists h3, _. split; [reflexivity|]. splits; cbn.
      * right. exists u. unfold vlive; cbn. splits; try assumption; lia.
      * intros [_ Hn]. left. split; [congruence|exact Hn].
      * unfold vts; cbn. rewrite E. exact U.
    + exists h, v. splits; [right; eauto|tauto|]. apply upd_refl. exact Hok0.
Qed.

(** A vector with a table but no block cannot be destroyed. *)
Lemma phantom_free h v t xs ids frees : vlive P h v t xs ids frees -> phantom v -> vec_free_all P h v = UB.
Proof.
  intros (Ed & Hbk & Hsz & Hi & Hb & Hz & Hs) [_ Hn]. pose proof (B_pos P HP). pose proof (zlen_nonneg xs). pose proof (zlen_nonneg ids).
  unfold vec_free_all. rewrite Ed. replace (Z.to_nat (v_bsize v)) with (S (Z.to_nat (v_bsize v - 1))) by nia. cbn [kill_down].
  unfold tget. destruct (tb h !! t); [|reflexivity]. destruct (Z.ltb_spec (v_idx v) 0); [reflexivity|lia].
Qed.
End proofs.
