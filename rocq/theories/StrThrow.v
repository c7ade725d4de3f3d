(** The string mapped vectors when storing a search term is left by an exception.

    Simplification: dataStorage is kept as in StrModel.v (its number of elements); what its own emplace_back does when it
    throws is modelled in MapThrow.v. *)
From stdpp Require Import gmap.
From Verif Require Import Base BlkHeap BlkIter BlkProofs BlkMore BlkRun BlkWorld VecModel VecProofs VecWorld VecThrow StrModel StrSpec StrProofs.

(** What throws in names.emplace_back(t); lookup.emplace(names.back(), i): the constructor of the string (TText), a request
    of [names] for memory (TMem; for a table if [first], for a block otherwise), or lookup.emplace (TNode). *)
Inductive tfault := TText | TMem (first : bool) | TNode.

Section model.
Context {T : Type} `{EqDecision T}.
Variable P : params.
Implicit Types (h : bheap T) (s : svec).

(** [n] is the number of elements then.  SMV:47-49, 80-82; DSMV:62-64, 86-88, 147-149, 170-172, 201-202, 215-216, 265-266.
    [None]: there is no such exception. *)
Definition stext_fail h s (t : T) (n : Z) (f : tfault) : option (outcome (bheap T * svec)) :=
  match f with
  | TText => Some ('(h1, v1) <-! vec_push_throw P h (s_names s) ;; Ok (h1, SVec n v1 (s_nodes s)))
  | TMem first => (fun r => '(h1, v1) <-! r ;; Ok (h1, SVec n v1 (s_nodes s))) <$> vec_push_nomem P h (s_names s) first
  | TNode => Some ('(h1, v1) <-! vec_push P h (s_names s) t ;; Ok (h1, SVec n v1 (s_nodes s)))
  end.

(** The call on the object [o]; [added]: has the call added an element (insert, insert_or_assign: yes; addSearchTerm,
    addSearchTermForIndex: no)? *)
Definition sw_fail (w : sworld T) (o : nat) (t : T) (added : bool) (f : tfault) : option (outcome (sworld T)) :=
  match sw_objs w !! o with
  | None => None
  | Some s =>
      (fun r => '(h1, s1) <-! r ;; Ok (SWorld h1 (<[o := s1]> (sw_objs w)))) <$>
      stext_fail (sw_heap w) s t (if added then s_num s + 1 else s_num s) f
  end.
End model.

Section str.
Context {T : Type} `{Countable T}.
Variable P : params.
Hypothesis HP : 0 <= expo P.
Variable empty_text : T.
Variable dual : bool.
Notation B := (bsz P).
Implicit Types (h : bheap T) (v : vec) (xs : list T) (ids frees : list nat) (l : list (T * Z)) (s : svec) (m : gmap T Z).

Lemma same_keeps h v xs ids frees h' v' frees' n p :
  vinv P h v xs ids frees -> vinv P h' v' xs ids frees' -> vok P h v (zlen xs) n p -> vok P h' v' (zlen xs) n p.
Proof.
  intros Hv Hv' (E1 & E2 & k & Hk & E3).
  destruct (lookup_lt_is_Some_2 xs (Z.to_nat k)) as [t Ht]; [unfold zlen in Hk; lia|].
  destruct (at_text P HP _ _ _ _ _ _ _ Hv Ht) as (i & b & F1 & F2 & F3 & F4). rewrite Z2Nat.id in * by lia.
  destruct (at_text P HP _ _ _ _ _ _ _ Hv' Ht) as (i' & b' & G1 & G2 & G3 & G4). rewrite Z2Nat.id in * by lia.
  assert (i' = i) as -> by lia. rewrite F2 in G2. injection G2 as <-.
  rewrite E3 in F1. destruct n as [[b0 j0] i0]. cbn in *. injection F1 as -> ->. split; [exact E1|]. split.
  - cbn. rewrite G4. congruence.
  - exists k. split; [lia|exact G1].
Qed.

Definition t_survives s (f : tfault) : Prop :=
  match f with TText => False | TMem false => s_names s <> vec_default P | _ => True end.

Lemma stext_fail_ok h s n m bs ts t n' f r :
  sst P h s n m bs ts -> t_survives s f -> stext_fail P h s t n' f = Some r ->
  exists h' s' bs' ts', r = Ok (h', s') /\ upd bs ts h bs' ts' h' /\ sst P h' s' n' m bs' ts'.
Proof.
  intros (E1 & E2 & xs & ids & frees & l & Hv & -> & -> & Hf & Hn & ->) Hsv. destruct f as [|first|]; cbn [stext_fail]; [destruct Hsv| |].
  - destruct (vec_push_nomem P h (s_names s) first) as [q|] eqn:Eq; [|discriminate]. intros [= <-].
    destruct (vnomem_ok P HP _ _ _ _ _ _ _ Hv Eq) as (h1 & v1 & Er & Hv1 & Hp & U). rewrite Er. cbn [obind]. eexists _, _, _, _. split; [reflexivity|]. split; [exact U|].
    split; [reflexivity|]. split.
    { intros X. destruct (Hp X) as [Y|[Y ->]]; [exact (E2 Y)|]. exact (Hsv Y). }
    exists xs, ids, frees, l. cbn. splits; try assumption. eapply Forall2_impl; [exact Hf|]. intros n0 p Hn0. exact (same_keeps _ _ _ _ _ _ _ _ _ _ Hv Hv1 Hn0).
  - intros [= <-]. destruct (vpush_ok P HP h (s_names s) xs ids frees t Hv) as (h' & v' & ids' & frees' & E & Hv' & Hp & U & Hm). rewrite E. cbn [obind].
    eexists _, _, _, _. split; [reflexivity|]. split; [exact U|]. split; [reflexivity|]. split; [exact Hp|].
    exists (xs ++ [t]), ids', frees', l. cbn. splits; try assumption. eapply Forall2_impl; [exact Hf|]. intros n0 p Hn0. eapply push_keeps; eassumption.
Qed.

(** The state goes on working. *)
Lemma sw_fail_ok w A G o n m t added f r :
  sw_inv P w A G -> A !! o = Some (Some (n, m)) -> (forall s, sw_objs w !! o = Some s -> t_survives s f) -> sw_fail P w o t added f = Some r ->
  exists w' G', r = Ok w' /\ sw_inv P w' (<[o := Some (if added then n + 1 else n, m)]> A) G'.
Proof.
  intros Hw Ha Hsv. destruct (wi_lookup _ _ _ _ _ _ _ Hw Ha) as (s & bs & ts & Es & Eg & Hs). unfold sw_fail. rewrite Es.
  assert (En : s_num s = n) by apply Hs. rewrite En. destruct (stext_fail P (sw_heap w) s t _ f) as [q|] eqn:Eq; [|discriminate]. intros [= <-].
  destruct (stext_fail_ok _ _ _ _ _ _ _ _ _ _ Hs (Hsv _ Es) Eq) as (h' & s' & bs' & ts' & -> & U & Hs'). cbn [obind].
  eexists _, _. split; [reflexivity|]. unfold sw_inv. cbn [sw_heap sw_objs].
  eapply (w_upd (sobj P)); [exact (sobj_frame P HP)|exact (sobj_hok P)|exact Hw|exact Eg|exact U|exact Hs'].
Qed.

Lemma stat_fail A o a : (exists a', A !! o = Some (Some a')) -> stat (<[o := Some a]> A : gmap nat (option (Z * gmap T Z))) = stat A.
Proof. intros [a' Ha]. unfold stat. rewrite fmap_insert. apply insert_id. rewrite lookup_fmap, Ha. reflexivity. Qed.

(** A string that throws: the look-ups still answer, but the container cannot be destroyed. *)
Lemma stext_throw_ok h s n m bs ts t n' :
  sst P h s n m bs ts ->
  exists h' s', stext_fail P h s t n' TText = Some (Ok (h', s')) /\ s_nodes s' = s_nodes s /\
    (forall u, sfind h' (s_nodes s) u = sfind h (s_nodes s) u) /\ (triv P = false -> vec_free_all P h' (s_names s') = UB).
Proof.
  intros (E1 & E2 & xs & ids & frees & l & Hv & -> & -> & Hf & Hn & ->). cbn [stext_fail].
  destruct (vthrow_ok P HP _ _ _ _ _ Hv) as (h1 & v1 & tb & ids1 & frees1 & E & Hr & Hb & Hz & Hi & U & Hm). rewrite E. cbn [obind].
  eexists h1, _. split; [reflexivity|]. cbn [s_nodes s_names]. split; [reflexivity|]. split; [|intros Ht; eapply vthrow_free; eassumption].
  assert (Hrd : forall n0, n0 ∈ s_nodes s -> sread h1 n0 = sread h n0).
  { intros n0 Hin. apply elem_of_list_lookup_1 in Hin as [q Hq]. destruct (Forall2_lookup_l _ _ _ _ _ Hf Hq) as (p & _ & F1 & F2 & k & Hk & F3).
    destruct (lookup_lt_is_Some_2 xs (Z.to_nat k)) as [x Hx]; [unfold zlen in Hk; lia|].
    destruct (at_text P HP _ _ _ _ _ _ _ Hv Hx) as (i & b & G1 & G2 & G3 & G4). rewrite Z2Nat.id in * by lia.
    pose proof (vroom_get P HP _ _ _ _ _ _ _ _ _ Hr ltac:(lia) Hx) as Hget. rewrite Z2Nat.id in Hget by lia.
    destruct (vroom_at P HP _ _ _ _ _ _ _ k Hr ltac:(lia)) as (i' & b' & L1 & L2 & L3 & L4 & L5); [lia|].
    assert (i' = i) as -> by lia. destruct Hm as [ids' ->]. rewrite (lookup_app_l_Some _ _ _ _ G2) in L1. injection L1 as <-.
    unfold vec_get in Hget. rewrite L5 in Hget. cbn [obind] in Hget. unfold eget, slot in Hget.
    rewrite F3 in G1. destruct n0 as [[b0 j0] i0]. cbn in *. injection G1 as -> ->. rewrite G4.
    repeat (case_match; cbn [obind] in Hget; try discriminate). congruence. }
  intros u. clear -Hrd. induction (s_nodes s) as [|n0 nd IH]; cbn [sfind]; [reflexivity|]. rewrite Hrd by constructor.
  rewrite IH; [reflexivity|]. intros n1 Hn1. apply Hrd. constructor. exact Hn1.
Qed.

Lemma sw_throw_ok w A G o n m t added :
  sw_inv P w A G -> A !! o = Some (Some (n, m)) ->
  exists w' s s', sw_fail P w o t added TText = Some (Ok w') /\ sw_objs w !! o = Some s /\ sw_objs w' !! o = Some s' /\ s_nodes s' = s_nodes s /\
    (forall u, sfind (sw_heap w') (s_nodes s) u = sfind (sw_heap w) (s_nodes s) u) /\
    (triv P = false -> swstep P empty_text dual w' (SDestroy o) = UB).
Proof.
  intros Hw Ha. destruct (wi_lookup _ _ _ _ _ _ _ Hw Ha) as (s & bs & ts & Es & Eg & Hs). unfold sw_fail. rewrite Es.
  destruct (stext_throw_ok _ _ _ _ _ _ t (if added then s_num s + 1 else s_num s) Hs) as (h' & s' & -> & E1 & E2 & E3). cbn [fmap option_fmap option_map obind].
  eexists _, s, s'. split; [reflexivity|]. cbn [sw_objs sw_heap]. splits; try assumption; [apply lookup_insert|].
  intros Ht. cbn [swstep sw_heap sw_objs]. unfold sget. cbn [sw_objs]. rewrite lookup_insert. cbn [obind]. rewrite E3 by exact Ht. reflexivity.
Qed.
End str.
