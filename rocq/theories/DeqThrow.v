(** StableBlockDeque when a push is left by an exception.  Simplifications as in VecThrow.v. *)
From stdpp Require Import gmap.
From Verif Require Import Base BlkHeap BlkProofs BlkMore BlkRun BlkIter VecModel VecProofs VecThrow DeqModel DeqProofs.

Section model.
Context {V : Type}.
Variable P : params.
Notation B := (bsz P).
Implicit Types (h : bheap V) (d : deq) (x : V).

(** StableBlockDeque.hpp:179-200 when the constructor of the element throws: [bsize++] has happened, [++csize] has not *)
Definition deq_push_throw h d : outcome (bheap V * deq) :=
  '(h1, d1) <-! deq_check P h d ;;
  c <-! tget h1 (d_data d1) (d_back d1) ;;
  _ <-! slot P h1 c (d_bsize d1) ;;
  Ok (h1, Deq (d_size d1) (d_data d1) (d_slots d1) (d_back d1) (d_front d1) (d_bsize d1 + 1) (d_fsize d1) (d_fl d1)).

(** StableBlockDeque.hpp:217-238 when the constructor throws: [fsize--] has happened, [++csize] has not *)
Definition deq_push_front_throw h d : outcome (bheap V * deq) :=
  '(h1, d1) <-! deq_check_front P h d ;;
  c <-! tget h1 (d_data d1) (d_front d1) ;;
  _ <-! slot P h1 c (d_fsize d1) ;;
  Ok (h1, Deq (d_size d1) (d_data d1) (d_slots d1) (d_back d1) (d_front d1) (d_bsize d1) (d_fsize d1 - 1) (d_fl d1)).

(** StableBlockDeque.hpp:479-485 and 514-520: the table of the first block is there, the block is not *)
Definition deq_first_nomem h d : bheap V * deq :=
  let '(h1, t) := talloc h 64 in (h1, Deq (d_size d) t 64 30 30 (B / 2 - 1 + 1) (B / 2 - 1) (d_fl d)).

(** StableBlockDeque.hpp:475-508 when a memory request throws: that of a new table ([first], :480, :498) or that of a
    block.  [None]: the request is not made. *)
Definition deq_push_nomem h d (first : bool) : option (outcome (bheap V * deq)) :=
  if negb (B <=? d_bsize d) then None
  else if first then
    if (d_slots d =? 0) || ((d_slots d - 1 <=? d_back d) && negb (5 <? d_front d)) then Some (Ok (h, d)) else None
  else if negb (f_idx (d_fl d) =? 0) then None
  else Some
    (if d_slots d =? 0 then Ok (deq_first_nomem h d)
     else if d_slots d - 1 <=? d_back d then
       if 5 <? d_front d then
         h' <-! tshift P h (d_data d) (d_front d) (d_back d + 1 - d_front d) (d_front d / 2) ;;
         Ok (h', Deq (d_size d) (d_data d) (d_slots d) (d_front d / 2 + (d_back d - d_front d)) (d_front d / 2)
                     (d_bsize d) (d_fsize d) (d_fl d))
       else
         let '(h', t) := talloc h (d_slots d * 2) in
         h2 <-! tcopy h' (d_data d) 0 (d_slots d) t 0 ;;
         h3 <-! tdelete h2 (d_data d) ;;
         Ok (h3, Deq (d_size d) t (d_slots d * 2) (d_back d) (d_front d) (d_bsize d) (d_fsize d) (d_fl d))
     else Ok (h, d)).
End model.

Section proofs.
Context {V : Type}.
Variable P : params.
Hypothesis HP : 0 <= expo P.
Notation B := (bsz P).
Implicit Types (h : bheap V) (d : deq) (ids frees : list nat) (xs : list V).

(** A deque with a table and [k] counted but empty slots at the back, [k'] at the front. *)
Definition droom h d t xs ids frees k k' : Prop :=
  d_data d = Some t /\ blocks P h t (d_slots d) (d_front d) ids (d_fsize d + 1 + k') xs (d_fl d) frees /\ d_size d = zlen xs /\
  d_back d = d_front d + zlen ids - 1 /\ 1 <= zlen ids /\ -1 <= d_fsize d < B /\ 0 <= d_bsize d <= B /\
  zlen xs + k + k' = (zlen ids - 1) * B + d_bsize d - (d_fsize d + 1) /\ 64 <= d_slots d.

Lemma dthrow_ok h d xs ids frees :
  dinv P h d xs ids frees ->
  exists h1 d1 t ids1 frees1, deq_push_throw P h d = Ok (h1, d1) /\ droom h1 d1 t xs ids1 frees1 1 0 /\ 0 < d_bsize d1 /\
    upd (frees ++ ids) (dts d) h (frees1 ++ ids1) (dts d1) h1 /\ mono ids ids1 /\ (ids <> [] -> d_fsize d1 = d_fsize d).
Proof.
  intros Hd. pose proof (B_pos P HP) as HB.
  destruct (dcheck_ok P HP h d xs ids frees Hd) as (h1 & d1 & t & ids1 & frees1 & E & (Ed & Hbk & Hsz & Hi & Hn & Hfs & Hbs & Hz & Hs) & Hlt & U & Hm & Hf).
  unfold deq_push_throw. rewrite E; cbn [obind]. rewrite Ed.
  destruct (lookup_lt_is_Some_2 ids1 (Z.to_nat (zlen ids1 - 1))) as [b Hlk]; [unfold zlen in *; lia|].
  rewrite (bk_get P h1 t _ _ ids1 _ xs _ frees1 _ b _ Hbk Hlk) by lia. cbn [obind].
  destruct (bk_hole P h1 t _ _ ids1 _ xs _ frees1 _ b (d_bsize d1) Hbk Hlk) as [Hbl _]; [lia|rewrite Z2Nat.id by lia; lia|].
  rewrite slot_ok by (assumption || lia). cbn [obind].
  eexists h1, _, t, ids1, frees1. split; [reflexivity|]. splits; cbn; try assumption; try lia.
  - unfold droom; cbn. rewrite Z.add_0_r. splits; try assumption; lia.
  - unfold dts in *; cbn. rewrite Ed in U. exact U.
Qed.

Lemma dthrow_front_ok h d xs ids frees :
  dinv P h d xs ids frees -> front_guard P d ->
  exists h1 d1 t ids1 frees1, deq_push_front_throw P h d = Ok (h1, d1) /\ droom h1 d1 t xs ids1 frees1 0 1 /\ d_fsize d1 < B - 1 /\
    upd (frees ++ ids) (dts d) h (frees1 ++ ids1) (dts d1) h1.
Proof.
  intros Hd Hg. pose proof (B_pos P HP) as HB.
  destruct (dcheck_front_ok P HP h d xs ids frees Hd Hg) as (h1 & d1 & t & ids1 & frees1 & E & (Ed & Hbk & Hsz & Hi & Hn & Hfs & Hbs & Hz & Hs) & Hlt & U & Hm).
  unfold deq_push_front_throw. rewrite E; cbn [obind]. rewrite Ed.
  destruct (lookup_lt_is_Some_2 ids1 0%nat) as [b Hlk]; [unfold zlen in *; lia|].
  rewrite (bk_get P h1 t _ _ ids1 _ xs _ frees1 _ b _ Hbk Hlk) by lia. cbn [obind].
  destruct (bk_hole P h1 t _ _ ids1 _ xs _ frees1 _ b (d_fsize d1) Hbk Hlk) as [Hbl _]; [lia|lia|].
  rewrite slot_ok by (assumption || lia). cbn [obind].
  eexists h1, _, t, ids1, frees1. split; [reflexivity|]. splits; cbn; try assumption; try lia.
  - unfold droom; cbn. replace (d_fsize d1 - 1 + 1 + 1) with (d_fsize d1 + 1) by lia. splits; try assumption; lia.
  - unfold dts in *; cbn. rewrite Ed in U. exact U.
Qed.

Lemma droom_at h d t xs ids frees k k' n :
  droom h d t xs ids frees k k' -> 0 <= n < zlen xs + k + k' ->
  exists i b, ids !! i = Some b /\ 0 <= (d_fsize d + 1 + n) mod B < B /\
    Z.of_nat i * B + (d_fsize d + 1 + n) mod B = d_fsize d + 1 + n /\ deq_at P h d n = Ok (Some b, (d_fsize d + 1 + n) mod B).
Proof.
  intros (Ed & Hbk & Hsz & Hi & Hn & Hfs & Hbs & Hz & Hs) Hr. pose proof (B_pos P HP).
  destruct (pos_split P HP (d_fsize d + 1 + n)) as (H1 & H2 & H3); [lia|].
  assert (Hl : (d_fsize d + 1 + n) / B < zlen ids) by (apply Z.div_lt_upper_bound; nia).
  destruct (lookup_lt_is_Some_2 ids (Z.to_nat ((d_fsize d + 1 + n) / B))) as [b Hlk]; [unfold zlen in Hl; lia|].
  exists (Z.to_nat ((d_fsize d + 1 + n) / B)), b. splits; try assumption; try lia.
  unfold deq_at. rewrite Ed, shiftr_bsz, land_bsz by assumption. replace (d_fsize d + n + 1) with (d_fsize d + 1 + n) by lia.
  rewrite (bk_get P h t _ _ ids _ xs _ frees _ b _ Hbk Hlk) by lia. reflexivity.
Qed.

Lemma droom_get h d t xs ids frees k k' (n : nat) x :
  droom h d t xs ids frees k k' -> 0 <= k -> 0 <= k' -> xs !! n = Some x -> deq_get P h d (Z.of_nat n + k') = Ok x.
Proof.
  intros Hr Hk Hk' Hx. pose proof (lookup_lt_Some _ _ _ Hx).
  destruct (droom_at _ _ _ _ _ _ _ _ (Z.of_nat n + k') Hr) as (i & b & Hlk & Hj & Hp & Ea); [unfold zlen; lia|].
  unfold deq_get. rewrite Ea. cbn [obind]. destruct Hr as (_ & Hbk & _).
  eapply bk_read with (n := Z.of_nat n); try eassumption; [lia|]. rewrite zl_nat. exact Hx.
Qed.

Lemma droom_hole h d t xs ids frees k k' n :
  droom h d t xs ids frees k k' -> 0 <= k -> 0 <= k' -> 0 <= n < k' \/ zlen xs + k' <= n < zlen xs + k + k' -> deq_get P h d n = UB.
Proof.
  intros Hr Hk Hk' Hn. pose proof (zlen_nonneg xs).
  destruct (droom_at _ _ _ _ _ _ _ _ n Hr) as (i & b & Hlk & Hj & Hp & Ea); [lia|].
  unfold deq_get. rewrite Ea. cbn [obind]. destruct Hr as (_ & Hbk & _).
  destruct (bk_hole P h t _ _ ids _ xs _ frees _ b _ Hbk Hlk Hj) as [Hbl He]; [lia|]. apply hole_get; assumption.
Qed.

(** pop_back, clear and the destructor after a failed push_back *)
Lemma dback_slot h d t xs ids frees :
  droom h d t xs ids frees 1 0 -> 0 < d_bsize d ->
  exists b, tget h (Some t) (d_back d) = Ok (Some b) /\ b ∈ bl h /\ el h !! (b, d_bsize d - 1) = None.
Proof.
  intros (Ed & Hbk & Hsz & Hi & Hn & Hfs & Hbs & Hz & Hs) Hp.
  destruct (lookup_lt_is_Some_2 ids (Z.to_nat (zlen ids - 1))) as [b Hlk]; [unfold zlen in *; lia|].
  exists b. split; [eapply bk_get; [exact Hbk|exact Hlk|lia]|]. eapply bk_hole; [exact Hbk|exact Hlk|lia|rewrite Z2Nat.id by lia; lia].
Qed.

Lemma dthrow_pop h d t xs ids frees :
  droom h d t xs ids frees 1 0 -> 0 < d_bsize d -> triv P = false -> xs <> [] -> deq_pop P h d = UB.
Proof.
  intros Hr Hp Ht Hne. destruct (dback_slot _ _ _ _ _ _ Hr Hp) as (b & Et & Hbl & He).
  destruct Hr as (Ed & Hbk & Hsz & Hi & Hn & Hfs & Hbs & Hz & Hs). unfold deq_pop. rewrite Hsz.
  destruct (Z.eqb_spec (zlen xs) 0) as [E0|_]; [apply zlen_0 in E0; congruence|].
  destruct (Z.ltb_spec 0 (d_bsize d)); [|lia]. cbn [obind d_data d_back d_bsize]. rewrite Ed, Et. cbn [obind].
  rewrite hole_kill by (assumption || lia). reflexivity.
Qed.

Lemma dthrow_kill h d t xs ids frees lo :
  droom h d t xs ids frees 1 0 -> 0 < d_bsize d -> triv P = false -> lo < d_bsize d ->
  kill_down P h (d_data d) (d_back d) lo (Z.to_nat (d_bsize d - lo)) = UB.
Proof.
  intros Hr Hp Ht Hlo. destruct (dback_slot _ _ _ _ _ _ Hr Hp) as (b & Et & Hbl & He).
  destruct Hr as (Ed & Hbk & Hsz & Hi & Hn & Hfs & Hbs & Hz & Hs). rewrite Ed.
  replace (Z.to_nat (d_bsize d - lo)) with (S (Z.to_nat (d_bsize d - lo - 1))) by lia. cbn [kill_down]. rewrite Et. cbn [obind].
  replace (lo + Z.of_nat (Z.to_nat (d_bsize d - lo - 1))) with (d_bsize d - 1) by lia.
  rewrite hole_kill by (assumption || lia). reflexivity.
Qed.

Lemma dthrow_free h d t xs ids frees :
  droom h d t xs ids frees 1 0 -> 0 < d_bsize d -> triv P = false -> deq_free_all P h d = UB.
Proof.
  intros Hr Hp Ht. unfold deq_free_all. pose proof (fun lo => dthrow_kill _ _ _ _ _ _ lo Hr Hp Ht) as Hk.
  destruct Hr as (Ed & Hbk & Hsz & Hi & Hn & Hfs & Hbs & Hz & Hs). rewrite Ed in *. pose proof (zlen_nonneg xs).
  destruct (Z.eqb_spec (d_back d) (d_front d)) as [E0|E0].
  - rewrite Hk by nia. reflexivity.
  - specialize (Hk 0). rewrite Z.sub_0_r in Hk. rewrite Hk by lia. reflexivity.
Qed.

Lemma dthrow_clear h d t xs ids frees :
  droom h d t xs ids frees 1 0 -> 0 < d_bsize d -> triv P = false -> xs <> [] -> deq_clear P h d = UB.
Proof.
  intros Hr Hp Ht Hne. unfold deq_clear. pose proof (dthrow_kill _ _ _ _ _ _ 0 Hr Hp Ht Hp) as Hk. rewrite Z.sub_0_r in Hk.
  destruct Hr as (Ed & Hbk & Hsz & Hi & Hn & Hfs & Hbs & Hz & Hs). rewrite Hsz.
  destruct (Z.eqb_spec (zlen xs) 0) as [E0|_]; [apply zlen_0 in E0; congruence|].
  destruct (Z.eqb_spec (d_slots d) 0); [lia|]. cbn [orb]. rewrite Hk. reflexivity.
Qed.

(** Destroying only removes elements. *)
Definition smaller h (r : outcome (bheap V)) : Prop :=
  match r with Ok h' => tb h' = tb h /\ el h' ⊆ el h | Throw => False | UB => True end.

Lemma smaller_bind h r (f : bheap V -> outcome (bheap V)) :
  smaller h r -> (forall h', r = Ok h' -> smaller h' (f h')) -> smaller h (h' <-! r ;; f h').
Proof.
  destruct r as [h'| |]; cbn [smaller obind]; try tauto. intros [E1 E2] H. specialize (H h' eq_refl).
  destruct (f h') as [h''| |]; cbn [smaller] in *; try tauto. destruct H as [E3 E4]. split; [congruence|]. etrans; eassumption.
Qed.

Lemma smaller_refl h : smaller h (Ok h).
Proof. split; reflexivity. Qed.

Lemma slot_nothrow h c j : slot P h c j <> Throw.
Proof. unfold slot. destruct c; [|discriminate]. destruct (_ && _); discriminate. Qed.
Lemma tget_nothrow h p i : tget h p i <> Throw.
Proof. unfold tget. destruct p; [|discriminate]. destruct (tb h !! _); [|discriminate]. destruct (i <? 0); [discriminate|]. destruct (_ !! _); discriminate. Qed.

Lemma smaller_kill h c j : smaller h (ekill P h c j).
Proof.
  unfold ekill. pose proof (slot_nothrow h c j). destruct (slot P h c j) as [b| |]; cbn [obind]; [|congruence|exact I].
  destruct (el h !! (b, j)); [split; [reflexivity|apply delete_subseteq]|]. destruct (triv P); [apply smaller_refl|exact I].
Qed.

Lemma smaller_free h c : smaller h (bfree h c).
Proof. unfold bfree. destruct c; [|exact I]. destruct (_ && _); [split; reflexivity|exact I]. Qed.

Lemma smaller_tget h p i (f : cell -> outcome (bheap V)) : (forall c, smaller h (f c)) -> smaller h (c <-! tget h p i ;; f c).
Proof. intros Hf. pose proof (tget_nothrow h p i). destruct (tget h p i); cbn [obind]; [apply Hf|congruence|exact I]. Qed.

Lemma smaller_kill_down k : forall h p i lo, smaller h (kill_down P h p i lo k).
Proof.
  induction k as [|k IH]; intros h p i lo; cbn [kill_down]; [apply smaller_refl|].
  apply smaller_tget. intros c. apply smaller_bind; [apply smaller_kill|]. intros h' _. apply IH.
Qed.

Lemma smaller_free_mid k : forall h p i, smaller h (deq_free_mid P h p i k).
Proof.
  induction k as [|k IH]; intros h p i; cbn [deq_free_mid]; [apply smaller_refl|].
  apply smaller_bind; [apply smaller_kill_down|]. intros h' _. apply smaller_tget. intros c.
  apply smaller_bind; [apply smaller_free|]. intros h'' _. apply IH.
Qed.

(** A range whose lowest slot is empty cannot be destroyed. *)
Lemma kill_hole h c j b : c = Some b -> el h !! (b, j) = None -> triv P = false -> ekill P h c j = UB.
Proof.
  intros -> He Ht. unfold ekill. destruct (slot P h (Some b) j) as [b'| |] eqn:Es; cbn [obind]; [|destruct (slot_nothrow _ _ _ Es)|reflexivity].
  unfold slot in Es. destruct (_ && _); [|discriminate]. injection Es as <-. rewrite He, Ht. reflexivity.
Qed.

Lemma kill_down_hole k : forall h p i lo b,
  tget h p i = Ok (Some b) -> el h !! (b, lo) = None -> triv P = false -> kill_down P h p i lo (S k) = UB.
Proof.
  induction k as [|k IH]; intros h p i lo b Et He Ht; cbn [kill_down]; rewrite Et; cbn [obind].
  - rewrite Z.add_0_r. erewrite kill_hole by eauto. reflexivity.
  - pose proof (smaller_kill h (Some b) (lo + Z.of_nat (S k))) as Hs.
    destruct (ekill P h (Some b) (lo + Z.of_nat (S k))) as [h'| |]; cbn [obind smaller] in *; [|tauto|reflexivity].
    destruct Hs as [E1 E2]. eapply (IH h' p i lo b); try assumption.
    + unfold tget in *. rewrite E1. exact Et.
    + destruct (el h' !! (b, lo)) eqn:E3; [|reflexivity]. eapply lookup_weaken in E3; [|exact E2]. congruence.
Qed.

Lemma dthrow_front_slot h d t xs ids frees :
  droom h d t xs ids frees 0 1 -> d_fsize d < B - 1 ->
  exists b, tget h (Some t) (d_front d) = Ok (Some b) /\ b ∈ bl h /\ el h !! (b, d_fsize d + 1) = None.
Proof.
  intros (Ed & Hbk & Hsz & Hi & Hn & Hfs & Hbs & Hz & Hs) Hf.
  destruct (lookup_lt_is_Some_2 ids 0%nat) as [b Hlk]; [unfold zlen in *; lia|].
  exists b. split; [eapply bk_get; [exact Hbk|exact Hlk|lia]|]. eapply bk_hole; [exact Hbk|exact Hlk|lia|lia].
Qed.

Lemma dthrow_front_pop h d t xs ids frees :
  droom h d t xs ids frees 0 1 -> d_fsize d < B - 1 -> triv P = false -> xs <> [] -> deq_pop_front P h d = UB.
Proof.
  intros Hr Hf Ht Hne. destruct (dthrow_front_slot _ _ _ _ _ _ Hr Hf) as (b & Et & Hbl & He).
  destruct Hr as (Ed & Hbk & Hsz & Hi & Hn & Hfs & Hbs & Hz & Hs). unfold deq_pop_front. rewrite Hsz.
  destruct (Z.eqb_spec (zlen xs) 0) as [E0|_]; [apply zlen_0 in E0; congruence|].
  destruct (Z.eqb_spec (d_fsize d) (B - 1)); [lia|]. cbn [negb obind d_data d_front d_fsize]. rewrite Ed, Et. cbn [obind].
  rewrite hole_kill by (assumption || lia). reflexivity.
Qed.

Lemma dthrow_front_free h d t xs ids frees :
  droom h d t xs ids frees 0 1 -> d_fsize d < B - 1 -> triv P = false -> deq_free_all P h d = UB.
Proof.
  intros Hr Hf Ht. destruct (dthrow_front_slot _ _ _ _ _ _ Hr Hf) as (b & Et & Hbl & He).
  destruct Hr as (Ed & Hbk & Hsz & Hi & Hn & Hfs & Hbs & Hz & Hs). unfold deq_free_all. rewrite Ed. pose proof (zlen_nonneg xs).
  destruct (Z.eqb_spec (d_back d) (d_front d)) as [E0|E0].
  - replace (Z.to_nat (d_bsize d - (d_fsize d + 1))) with (S (Z.to_nat (d_bsize d - (d_fsize d + 1) - 1))) by nia.
    rewrite E0, (kill_down_hole _ _ _ _ _ b) by assumption. reflexivity.
  - match goal with |- obind (obind ?a _) _ = _ => pose proof (smaller_kill_down (Z.to_nat (d_bsize d)) h (Some t) (d_back d) 0 : smaller h a) as S1;
      destruct a as [h1| |] eqn:E1; cbn [obind smaller] in *; [|tauto|reflexivity] end.
    pose proof (tget_nothrow h1 (Some t) (d_back d)). destruct (tget h1 (Some t) (d_back d)) as [c| |]; cbn [obind]; [|congruence|reflexivity].
    pose proof (smaller_free h1 c) as S2. destruct (bfree h1 c) as [h2| |]; cbn [obind smaller] in *; [|tauto|reflexivity].
    pose proof (smaller_free_mid (Z.to_nat (d_back d - 1 - d_front d)) h2 (Some t) (d_front d)) as S3.
    destruct (deq_free_mid P h2 (Some t) (d_front d) _) as [h3| |]; cbn [obind smaller] in *; [|tauto|reflexivity].
    replace (Z.to_nat (B - (d_fsize d + 1))) with (S (Z.to_nat (B - (d_fsize d + 1) - 1))) by lia.
    destruct S1 as [T1 L1], S2 as [T2 L2], S3 as [T3 L3].
    rewrite (kill_down_hole _ h3 _ _ _ b); [reflexivity| | |assumption].
    + unfold tget in *. rewrite T3, T2, T1. exact Et.
    + destruct (el h3 !! (b, d_fsize d + 1)) eqn:E3; [|reflexivity].
      eapply lookup_weaken in E3; [|exact L3]. eapply lookup_weaken in E3; [|exact L2]. eapply lookup_weaken in E3; [|exact L1]. congruence.
Qed.

(** Out of memory *)
Lemma dnomem_ok h d xs ids frees first r :
  dinv P h d xs ids frees -> deq_push_nomem P h d first = Some r -> d <> deq_default P \/ first = true ->
  exists h1 d1, r = Ok (h1, d1) /\ dinv P h1 d1 xs ids frees /\ upd (frees ++ ids) (dts d) h (frees ++ ids) (dts d1) h1.
Proof.
  intros Hd. pose proof (dinv_hok P _ _ _ _ _ Hd) as Hok0. unfold deq_push_nomem.
  destruct (Z.leb_spec B (d_bsize d)) as [Hfull|]; cbn [negb]; [|discriminate]. destruct first.
  { destruct (_ || _); [|discriminate]. intros [= <-] _. exists h, d. splits; try assumption. apply upd_refl. exact Hok0. }
  destruct (Z.eqb_spec (f_idx (d_fl d)) 0); cbn [negb]; [|discriminate]. intros Hr%(inj Some) [Hne|?]; [|discriminate]. rewrite <- Hr. clear Hr.
  destruct Hd as [(-> & _)|(t & Hl)]; [congruence|]. pose proof (dlive_row P _ _ _ _ _ _ Hl) as [Hlo Hhi].
  pose proof Hl as (Ed & Hbk & Hsz & Hi & Hn & Hfs & Hbs & Hz & Hs). destruct (Z.eqb_spec (d_slots d) 0); [lia|].
  destruct (Z.leb_spec (d_slots d - 1) (d_back d)) as [Hend|Hin].
  - destruct (Z.ltb_spec 5 (d_front d)) as [Hfr|Hfr].
    + assert (Hdiv : 0 <= d_front d / 2 < d_front d) by (split; [apply Z.div_pos; lia|apply Z.div_lt; lia]).
      rewrite Ed. destruct (bk_shift P HP h t (d_slots d) (d_front d) ids (d_fsize d + 1) xs (d_fl d) frees (d_front d / 2) (d_back d + 1 - d_front d) Hbk) as
        (h1 & -> & Hbk1 & U1); try lia.
      cbn [obind]. eexists h1, _. split; [reflexivity|]. splits.
      * right. exists t. unfold dlive; cbn. splits; try assumption; lia.
      * unfold dts; cbn. rewrite Ed. exact U1.
    + rewrite Ed.
      destruct (bk_grow P HP h t (d_slots d) (d_front d) ids (d_fsize d + 1) xs (d_fl d) frees (d_slots d * 2) 0 (d_slots d) 0 Hbk) as
        (h1 & u & h2 & h3 & -> & -> & E3 & Hbk' & U'); try lia.
      cbn [obind]. rewrite E3. cbn [obind]. eexists h3, _. split; [reflexivity|]. splits.
      * right. exists u. unfold dlive; cbn. replace (d_front d - 0 + 0) with (d_front d) in Hbk' by lia. splits; try assumption; lia.
      * unfold dts; cbn. rewrite Ed. exact U'.
  - exists h, d. splits; [right; eauto|]. apply upd_refl. exact Hok0.
Qed.

(** The first block of a deque: without it the deque can be neither destroyed nor filled. *)
Lemma dnomem_first h h1 d1 :
  deq_first_nomem P h (deq_default P) = (h1, d1) -> deq_free_all P h1 d1 = UB /\ forall y, deq_push P h1 d1 y = UB.
Proof.
  unfold deq_first_nomem, talloc. intros [<- <-]%pair_equal_spec. pose proof (B_pos P HP) as HB. cbn [deq_default d_size d_fl].
  assert (Eb : tget (BHeap (el h) (bl h) (<[nx h := replicate (Z.to_nat 64) None]> (tb h)) (S (nx h))) (Some (nx h)) 30 = Ok None).
  { unfold tget; cbn [tb]. rewrite lookup_insert. reflexivity. }
  split.
  - unfold deq_free_all. cbn [d_data d_back d_front d_bsize d_fsize Z.eqb]. change (30 =? 30) with true. cbn iota.
    replace (Z.to_nat (B / 2 - 1 + 1 - (B / 2 - 1 + 1))) with 0%nat by lia. cbn [kill_down obind]. rewrite Eb. reflexivity.
  - intros y. unfold deq_push, deq_check. cbn [d_bsize]. assert (B / 2 < B) by (apply Z.div_lt; lia).
    destruct (Z.leb_spec B (B / 2 - 1 + 1)); [lia|]. cbn [obind d_data d_back]. rewrite Eb. reflexivity.
Qed.
End proofs.
