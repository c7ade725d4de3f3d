(** StableBlockDeque when a push at the front or a removal cannot get memory.  Simplifications as in VecThrow.v. *)
From stdpp Require Import gmap.
From Verif Require Import Base BlkHeap BlkProofs BlkMore BlkRun BlkIter VecModel VecProofs VecThrow DeqModel DeqProofs DeqThrow.

Section model.
Context {V : Type}.
Variable P : params.
Notation B := (bsz P).
Implicit Types (h : bheap V) (d : deq).

(** StableBlockDeque.hpp:510-549 when a memory request throws: that of a new table ([first], :515, :535) or that of a
    block.  The right side of the assignment of :546 is evaluated before [--dataSlotFront].  [None]: the request is not
    made. *)
Definition deq_push_front_nomem h d (first : bool) : option (outcome (bheap V * deq)) :=
  if negb (d_fsize d <? 0) then None
  else if first then
    if (d_slots d =? 0) || ((d_front d =? 0) && negb (d_back d <? d_slots d - 5)) then Some (Ok (h, d)) else None
  else if negb (f_idx (d_fl d) =? 0) then None
  else Some
    (if d_slots d =? 0 then Ok (deq_first_nomem P h d)
     else if d_front d =? 0 then
       if d_back d <? d_slots d - 5 then
         h' <-! tshift P h (d_data d) 0 (d_back d + 1) ((d_slots d - d_back d) / 2) ;;
         Ok (h', Deq (d_size d) (d_data d) (d_slots d) ((d_slots d - d_back d) / 2 + (d_back d - d_front d))
                     ((d_slots d - d_back d) / 2) (d_bsize d) (d_fsize d) (d_fl d))
       else
         let '(h', t) := talloc h (d_slots d * 2) in
         h2 <-! tcopy h' (d_data d) 0 (d_back d + 1) t (d_slots d) ;;
         h3 <-! tdelete h2 (d_data d) ;;
         Ok (h3, Deq (d_size d) t (d_slots d * 2) (d_slots d + (d_back d - d_front d)) (d_slots d) (d_bsize d) (d_fsize d) (d_fl d))
     else Ok (h, d)).

(** StableBlockDeque.hpp:201-214 when the table of the free blocks (:555, :559) cannot be had: [--csize] and
    [dataSlotBack--] have happened.  [None]: no memory is requested. *)
Definition deq_pop_nomem h d : option (outcome (bheap V * deq)) :=
  if d_size d =? 0 then None
  else if 0 <? d_bsize d then None
  else if negb (f_slots (d_fl d) <=? f_idx (d_fl d)) then None
  else Some
    (_ <-! tget h (d_data d) (d_back d) ;;
     Ok (h, Deq (d_size d - 1) (d_data d) (d_slots d) (d_back d - 1) (d_front d) (d_bsize d) (d_fsize d) (d_fl d))).

(** StableBlockDeque.hpp:238-251, the same: [--csize] and [dataSlotFront++] have happened *)
Definition deq_pop_front_nomem h d : option (outcome (bheap V * deq)) :=
  if d_size d =? 0 then None
  else if negb (d_fsize d =? B - 1) then None
  else if negb (f_slots (d_fl d) <=? f_idx (d_fl d)) then None
  else Some
    (_ <-! tget h (d_data d) (d_front d) ;;
     Ok (h, Deq (d_size d - 1) (d_data d) (d_slots d) (d_back d) (d_front d + 1) (d_bsize d) (d_fsize d) (d_fl d))).
End model.

Section proofs.
Context {V : Type}.
Variable P : params.
Hypothesis HP : 0 <= expo P.
Notation B := (bsz P).
Implicit Types (h : bheap V) (d : deq) (ids frees : list nat) (xs : list V).

Lemma dnomem_front_ok h d xs ids frees first r :
  dinv P h d xs ids frees -> deq_push_front_nomem P h d first = Some r -> r <> UB -> d <> deq_default P \/ first = true ->
  exists h1 d1, r = Ok (h1, d1) /\ dinv P h1 d1 xs ids frees /\ upd (frees ++ ids) (dts d) h (frees ++ ids) (dts d1) h1.
Proof.
  intros Hd. pose proof (dinv_hok P _ _ _ _ _ Hd) as Hok0. unfold deq_push_front_nomem.
  destruct (Z.ltb_spec (d_fsize d) 0) as [Hfull|]; cbn [negb]; [|discriminate]. destruct first.
  { destruct (_ || _); [|discriminate]. intros [= <-] _ _. exists h, d. splits; try assumption. apply upd_refl. exact Hok0. }
  destruct (Z.eqb_spec (f_idx (d_fl d)) 0); cbn [negb]; [|discriminate]. intros Hr%(inj Some) Hnu [Hne|?]; [|discriminate]. rewrite <- Hr in *. clear Hr.
  destruct Hd as [(-> & _)|(t & Hl)]; [congruence|]. pose proof (dlive_row P _ _ _ _ _ _ Hl) as [Hlo Hhi].
  pose proof Hl as (Ed & Hbk & Hsz & Hi & Hn & Hfs & Hbs & Hz & Hs). destruct (Z.eqb_spec (d_slots d) 0); [lia|].
  destruct (Z.eqb_spec (d_front d) 0) as [Hz0|Hnz].
  - destruct (Z.ltb_spec (d_back d) (d_slots d - 5)) as [Hfr|Hfr].
    + assert (Hdiv : 1 <= (d_slots d - d_back d) / 2 /\ (d_slots d - d_back d) / 2 * 2 <= d_slots d - d_back d).
      { pose proof (Z.div_mod (d_slots d - d_back d) 2 ltac:(lia)). pose proof (Z.mod_pos_bound (d_slots d - d_back d) 2 ltac:(lia)). lia. }
      set (k := (d_slots d - d_back d) / 2) in *.
      rewrite Ed in *. rewrite Hz0 in Hbk.
      assert (Hg2 : overlap_ok P = true \/ d_back d < k).
      { destruct (overlap_ok P) eqn:Eo; [left; reflexivity|]. destruct (Z.lt_ge_cases (d_back d) k) as [|Hge]; [right; assumption|]. exfalso. apply Hnu.
        unfold tshift. destruct (tb h !! t) as [cs|]; [|reflexivity]. rewrite Eo.
        rewrite (proj2 (Z.ltb_ge k 0)) by lia. rewrite (proj2 (Z.leb_gt (0 + (d_back d + 1)) k)) by lia. cbn [orb]. rewrite andb_false_r. reflexivity. }
      destruct (bk_shift P HP h t (d_slots d) 0 ids (d_fsize d + 1) xs (d_fl d) frees k (d_back d + 1) Hbk) as (h1 & -> & Hbk1 & U1); try lia.
      cbn [obind]. eexists h1, _. split; [reflexivity|]. split.
      * right. exists t. unfold dlive; cbn. splits; try assumption; lia.
      * unfold dts; cbn. rewrite Ed. exact U1.
    + rewrite Ed.
      destruct (bk_grow P HP h t (d_slots d) (d_front d) ids (d_fsize d + 1) xs (d_fl d) frees (d_slots d * 2) 0 (d_back d + 1) (d_slots d) Hbk) as
        (h1 & u & h2 & h3 & -> & -> & E3 & Hbk' & U'); try lia.
      cbn [obind]. rewrite E3. cbn [obind]. eexists h3, _. split; [reflexivity|]. split.
      * right. exists u. unfold dlive; cbn. replace (d_front d - 0 + d_slots d) with (d_slots d) in Hbk' by lia. splits; try assumption; lia.
      * unfold dts; cbn. rewrite Ed. exact U'.
  - exists h, d. splits; [right; eauto|]. apply upd_refl. exact Hok0.
Qed.

(** Removals *)
Lemma dpop_nomem_ok h d xs ids frees r :
  dinv P h d xs ids frees -> deq_pop_nomem h d = Some r ->
  exists d1, r = Ok (h, d1) /\ d_size d1 = zlen xs - 1 /\ d_bsize d1 = 0 /\ d_back d1 = d_back d - 1 /\
    (forall n : Z, deq_get P h d1 n = deq_get P h d n) /\ deq_front P h d1 = deq_front P h d.
Proof.
  intros Hd. pose proof (dinv_size P _ _ _ _ _ Hd) as Hsz0. unfold deq_pop_nomem.
  destruct (Z.eqb_spec (d_size d) 0) as [|Hnz]; [discriminate|].
  destruct (Z.ltb_spec 0 (d_bsize d)) as [|Hb]; [discriminate|].
  destruct (_ <=? _); cbn [negb]; [|discriminate]. intros Hr%(inj Some). rewrite <- Hr. clear Hr.
  destruct Hd as [(-> & -> & _)|(t & Hl)]; [cbn in Hnz; lia|].
  pose proof Hl as (Ed & Hbk & Hsz & Hi & Hn & Hfs & Hbs & Hz & Hs).
  destruct (lookup_lt_is_Some_2 ids (Z.to_nat (zlen ids - 1))) as [b Hlk]; [unfold zlen in *; lia|].
  rewrite Ed. rewrite (bk_get P h t _ _ ids _ xs _ frees _ b _ Hbk Hlk) by lia. cbn [obind].
  eexists. split; [reflexivity|]. cbn [d_size d_bsize d_back]. split; [lia|]. split; [lia|]. split; [reflexivity|].
  split; [intros n; unfold deq_get, deq_at|unfold deq_front]; cbn [d_data d_front d_fsize]; rewrite Ed; reflexivity.
Qed.

Lemma dpop_front_nomem_ok h d xs ids frees r :
  dinv P h d xs ids frees -> deq_pop_front_nomem P h d = Some r ->
  exists d1, r = Ok (h, d1) /\ d_size d1 = zlen xs - 1 /\ (forall n : Z, deq_get P h d1 n = deq_get P h d (n + B)).
Proof.
  intros Hd. pose proof (B_pos P HP) as HB. pose proof (dinv_size P _ _ _ _ _ Hd) as Hsz0. unfold deq_pop_front_nomem.
  destruct (Z.eqb_spec (d_size d) 0) as [|Hnz]; [discriminate|].
  destruct (Z.eqb_spec (d_fsize d) (B - 1)) as [Hf|]; cbn [negb]; [|discriminate].
  destruct (_ <=? _); cbn [negb]; [|discriminate]. intros Hr%(inj Some). rewrite <- Hr. clear Hr.
  destruct Hd as [(-> & -> & _)|(t & Hl)]; [cbn in Hnz; lia|].
  pose proof Hl as (Ed & Hbk & Hsz & Hi & Hn & Hfs & Hbs & Hz & Hs).
  destruct (lookup_lt_is_Some_2 ids 0%nat) as [b Hlk]; [unfold zlen in *; lia|].
  rewrite Ed. rewrite (bk_get P h t _ _ ids _ xs _ frees _ b _ Hbk Hlk) by lia. cbn [obind].
  eexists. split; [reflexivity|]. cbn [d_size]. split; [lia|]. intros n.
  unfold deq_get, deq_at. cbn [d_data d_front d_fsize]. rewrite Ed.
  replace (d_fsize d + (n + B) + 1) with (d_fsize d + n + 1 + 1 * B) by lia.
  assert (EB : B = 2 ^ expo P) by (unfold bsz; rewrite Z.shiftl_mul_pow2 by assumption; lia).
  rewrite !Z.shiftr_div_pow2 by assumption. rewrite <- EB, Z.div_add by lia.
  assert (EL : forall z, Z.land z (B - 1) = z mod B).
  { intros z. rewrite EB. rewrite <- Z.land_ones by assumption. rewrite Z.ones_equiv. reflexivity. }
  rewrite !EL, Z.mod_add by lia. replace (d_front d + 1 + (d_fsize d + n + 1) / B) with (d_front d + ((d_fsize d + n + 1) / B + 1)) by lia.
  reflexivity.
Qed.
End proofs.

Section after_pop.
Context {V : Type}.
Variable P : params.
Hypothesis HP : 0 <= expo P.
Notation B := (bsz P).
Implicit Types (h : bheap V) (d : deq) (ids frees : list nat) (xs : list V).

Lemma eget_el h b j (x : V) : eget P h (Some b) j = Ok x -> el h !! (b, j) = Some x /\ b ∈ bl h /\ 0 <= j < B.
Proof.
  unfold eget, slot. destruct (bool_decide_reflect (b ∈ bl h)); cbn [andb]; [|discriminate].
  destruct (Z.leb_spec 0 j); cbn [andb]; [|discriminate]. destruct (Z.ltb_spec j B); cbn [obind]; [|discriminate].
  destruct (el h !! (b, j)); [|discriminate]. intros [= ->]. auto.
Qed.

(** A push right after the failed pop_back constructs on a live element; back() reads a block too far *)
Lemma dpop_nomem_after h d xs ids frees h1 d1 :
  dinv P h d xs ids frees -> deq_pop_nomem h d = Some (Ok (h1, d1)) ->
  (B <= zlen xs -> forall y, deq_push P h1 d1 y = UB) /\ (forall x, zl xs (zlen xs - B - 1) = Some x -> deq_back P h1 d1 = Ok x).
Proof.
  intros Hd. pose proof (B_pos P HP) as HB. pose proof (dinv_size P _ _ _ _ _ Hd) as Hsz0. unfold deq_pop_nomem.
  destruct (Z.eqb_spec (d_size d) 0) as [|Hnz]; [discriminate|].
  destruct (Z.ltb_spec 0 (d_bsize d)) as [|Hb]; [discriminate|].
  destruct (_ <=? _); cbn [negb]; [|discriminate]. intros Hr%(inj Some).
  destruct Hd as [(-> & -> & _)|(t & Hl)]; [cbn in Hnz; lia|].
  pose proof Hl as (Ed & Hbk & Hsz & Hi & Hn & Hfs & Hbs & Hz & Hs). pose proof (zlen_nonneg xs).
  destruct (lookup_lt_is_Some_2 ids (Z.to_nat (zlen ids - 1))) as [b Hlk]; [unfold zlen in *; lia|].
  rewrite Ed in Hr. rewrite (bk_get P h t _ _ ids _ xs _ frees _ b _ Hbk Hlk) in Hr by lia. cbn [obind] in Hr.
  assert (2 <= zlen ids) by nia.
  injection Hr as <- <-. split.
  - intros Hge y. destruct (lookup_lt_is_Some_2 ids (Z.to_nat (zlen ids - 2))) as [b2 Hlk2]; [unfold zlen in *; lia|].
    destruct (lookup_lt_is_Some_2 xs (Z.to_nat (zlen xs - B))) as [x Hx]; [unfold zlen in *; lia|].
    assert (Hg : eget P h (Some b2) 0 = Ok x).
    { eapply bk_read with (n := zlen xs - B); [exact Hbk|exact Hlk2|lia| |]; [nia|].
      unfold zl. destruct (Z.ltb_spec (zlen xs - B) 0); [lia|exact Hx]. }
    destruct (eget_el _ _ _ _ Hg) as (He & Hin & _).
    unfold deq_push, deq_check. cbn [d_bsize]. destruct (Z.leb_spec B (d_bsize d)); [lia|]. cbn [obind d_data d_back d_bsize].
    rewrite (bk_get P h t _ _ ids _ xs _ frees _ b2 _ Hbk Hlk2) by lia. cbn [obind].
    replace (d_bsize d) with 0 by lia. unfold emake. rewrite slot_ok by (assumption || lia). cbn [obind]. rewrite He. reflexivity.
  - intros x Hx. assert (Hr : 0 <= zlen xs - B - 1).
    { unfold zl in Hx. destruct (Z.ltb_spec (zlen xs - B - 1) 0); [discriminate|lia]. }
    assert (3 <= zlen ids) by nia.
    destruct (lookup_lt_is_Some_2 ids (Z.to_nat (zlen ids - 3))) as [b2 Hlk2]; [unfold zlen in *; lia|].
    unfold deq_back. cbn [d_bsize d_data d_back]. destruct (Z.eqb_spec (d_bsize d) 0); [|lia].
    rewrite (bk_get P h t _ _ ids _ xs _ frees _ b2 _ Hbk Hlk2) by lia. cbn [obind].
    eapply bk_read with (n := zlen xs - B - 1); [exact Hbk|exact Hlk2|lia|nia|exact Hx].
Qed.
End after_pop.
