(** Storage plus lookup against the specification; shared by the single and dual key classes. *)
From stdpp Require Import gmap.
From Verif Require Import Base BlkHeap BlkIter VecModel VecFinal MapStore MapStoreProofs MapModel MapSpec.

Section rel.
Context {V : Type} `{Countable K}.
Variable P : params.
Implicit Types (s : store V) (a : assoc V K) (lkf : K -> option Z).

Record rel s lkf a : Prop := {
  r_st : st_ok P s (as_vals a);
  r_nd : NoDup (as_ids a);
  r_nx : forall u, u ∈ as_ids a -> (u < a_nx a)%nat;
  r_tm : forall k u, a_tm a !! k = Some u -> u ∈ as_ids a;
  r_lk : forall k, lkf k = (u ← a_tm a !! k; Z.of_nat <$> as_pos u a);
}.

Lemma as_len a : zlen (as_vals a) = zlen (a_el a).
Proof. unfold as_vals, zlen. rewrite map_length. reflexivity. Qed.
Lemma as_len_ids a : length (as_ids a) = length (a_el a).
Proof. unfold as_ids. apply map_length. Qed.

Lemma pos_lookup_el (el : list (nat * V)) u p : NoDup (map fst el) ->
  ((fst <$> list_find (fun e => e.1 = u) el) = Some p <-> map fst el !! p = Some u).
Proof.
  intros Hnd. split.
  - intros E. apply fmap_Some in E as ([p' e] & E & ->). apply list_find_Some in E as (E & <- & _). cbn. rewrite list_lookup_fmap, E. reflexivity.
  - intros E. rewrite list_lookup_fmap in E. apply fmap_Some in E as (e & E & ->).
    destruct (list_find (fun e' => e'.1 = e.1) el) as [[p' e']|] eqn:F.
    + cbn. f_equal. apply list_find_Some in F as (F & Fe & _). apply (NoDup_lookup (map fst el) p' p e.1); [exact Hnd| |].
      * rewrite list_lookup_fmap, F. cbn. congruence.
      * rewrite list_lookup_fmap, E. reflexivity.
    + exfalso. apply list_find_None in F. rewrite Forall_lookup in F. apply (F p e E). reflexivity.
Qed.

Lemma pos_lookup a u p : NoDup (as_ids a) -> (as_pos u a = Some p <-> as_ids a !! p = Some u).
Proof. apply pos_lookup_el. Qed.

Lemma pos_ex a u : u ∈ as_ids a -> NoDup (as_ids a) -> exists p, as_pos u a = Some p.
Proof. intros Hu Hnd. apply elem_of_list_lookup in Hu as [p Hp]. exists p. apply pos_lookup; assumption. Qed.

(** The position stored under a term is that of the element denoted. *)
Lemma rel_lk s lkf a k i : rel s lkf a -> (lkf k = Some i <-> exists u p, a_tm a !! k = Some u /\ as_ids a !! p = Some u /\ i = Z.of_nat p).
Proof.
  intros R. rewrite (r_lk _ _ _ R k). split.
  - intros E. destruct (a_tm a !! k) as [u|] eqn:Eu; [|discriminate]. cbn in E. apply fmap_Some in E as (p & Ep & ->).
    exists u, p. splits. apply pos_lookup; [apply R|exact Ep].
  - intros (u & p & -> & Ep & ->). cbn. apply pos_lookup in Ep; [|apply R]. rewrite Ep. reflexivity.
Qed.

Lemma rel_lk_none s lkf a k : rel s lkf a -> (lkf k = None <-> a_tm a !! k = None).
Proof.
  intros R. rewrite (r_lk _ _ _ R k). destruct (a_tm a !! k) as [u|] eqn:Eu; cbn; [|tauto].
  destruct (pos_ex a u) as [p ->]; [eapply r_tm; eassumption|apply R|]. cbn. split; discriminate.
Qed.

Lemma rel_range s lkf a k i : rel s lkf a -> lkf k = Some i -> 0 <= i < zlen (as_vals a).
Proof.
  intros R E. apply (rel_lk _ _ _ _ _ R) in E as (u & p & _ & Ep & ->). apply lookup_lt_Some in Ep. rewrite as_len_ids in Ep.
  rewrite as_len. unfold zlen. lia.
Qed.

Lemma rel_find s lkf a k i : rel s lkf a -> lkf k = Some i -> exists x, as_vals a !! Z.to_nat i = Some x /\ as_find k a = Some x.
Proof.
  intros R E. rewrite (r_lk _ _ _ R k) in E. unfold as_find. destruct (a_tm a !! k) as [u|] eqn:Eu; [|discriminate]. cbn in *.
  unfold as_pos in E. destruct (list_find (fun e => e.1 = u) (a_el a)) as [[p e]|] eqn:F; [|discriminate]. cbn in *. injection E as <-.
  exists e.2. split; [|reflexivity]. apply list_find_Some in F as (F & _ & _). unfold as_vals. rewrite Nat2Z.id, list_lookup_fmap, F. reflexivity.
Qed.

Lemma rel_find_none s lkf a k : rel s lkf a -> lkf k = None -> as_find k a = None.
Proof. intros R E. apply (rel_lk_none _ _ _ _ R) in E. unfold as_find. rewrite E. reflexivity. Qed.

Lemma foldr_lookup (tm : gmap K nat) u ks k : foldr (fun k tm => <[k := u]> tm) tm ks !! k = if decide (k ∈ ks) then Some u else tm !! k.
Proof.
  induction ks as [|k' ks IH]; cbn; [destruct (decide (k ∈ [])) as [F|]; [inversion F|reflexivity]|].
  destruct (decide (k = k')) as [->|Hne].
  - rewrite lookup_insert. destruct (decide (k' ∈ k' :: ks)) as [_|F]; [reflexivity|]. exfalso. apply F. constructor.
  - rewrite lookup_insert_ne by congruence. rewrite IH. destruct (decide (k ∈ ks)) as [F|F], (decide (k ∈ k' :: ks)) as [G|G]; try reflexivity.
    + exfalso. apply G. constructor. exact F.
    + exfalso. apply elem_of_cons in G as [G|G]; contradiction.
Qed.

Lemma ids_add a x ks : as_ids (as_add x ks a) = as_ids a ++ [a_nx a].
Proof. unfold as_ids, as_add; cbn. rewrite map_app. reflexivity. Qed.
Lemma vals_add a x ks : as_vals (as_add x ks a) = as_vals a ++ [x].
Proof. unfold as_vals, as_add; cbn. rewrite map_app. reflexivity. Qed.

Lemma rel_add s s' lkf lkf' a x ks :
  rel s lkf a -> st_ok P s' (as_vals a ++ [x]) ->
  (forall k, lkf' k = if decide (k ∈ ks) then Some (zlen (as_vals a)) else lkf k) ->
  rel s' lkf' (as_add x ks a).
Proof.
  intros R Hs Hlk. assert (Hfresh : a_nx a ∉ as_ids a) by (intros F; apply (r_nx _ _ _ R) in F; lia).
  assert (Hnd : NoDup (as_ids a ++ [a_nx a])).
  { apply NoDup_app. splits; [apply R| |apply NoDup_singleton]. intros u Hu F. apply elem_of_list_singleton in F as ->. contradiction. }
  constructor.
  - rewrite vals_add. exact Hs.
  - rewrite ids_add. exact Hnd.
  - intros u Hu. rewrite ids_add in Hu. cbn. apply elem_of_app in Hu as [Hu|Hu]; [apply (r_nx _ _ _ R) in Hu; lia|]. apply elem_of_list_singleton in Hu. lia.
  - intros k u E. cbn in E. rewrite foldr_lookup in E. rewrite ids_add. apply elem_of_app. destruct (decide (k ∈ ks)).
    + injection E as <-. right. constructor.
    + left. eapply r_tm; eassumption.
  - intros k. rewrite Hlk. change (a_tm (as_add x ks a)) with (foldr (fun k tm => <[k := a_nx a]> tm) (a_tm a) ks). rewrite foldr_lookup.
    destruct (decide (k ∈ ks)).
    + cbn [mbind option_bind]. assert (as_pos (a_nx a) (as_add x ks a) = Some (length (as_ids a))) as ->.
      { apply pos_lookup; rewrite ids_add; [exact Hnd|]. apply list_lookup_middle. reflexivity. }
      cbn. rewrite as_len, as_len_ids. reflexivity.
    + rewrite (r_lk _ _ _ R k). destruct (a_tm a !! k) as [u|] eqn:Eu; [|reflexivity]. cbn [mbind option_bind].
      destruct (pos_ex a u) as [p Ep]; [eapply r_tm; eassumption|apply R|].
      assert (as_pos u (as_add x ks a) = Some p) as ->; [|rewrite Ep; reflexivity].
      apply pos_lookup; rewrite ids_add; [exact Hnd|]. apply pos_lookup in Ep; [|apply R]. apply lookup_app_l_Some. exact Ep.
Qed.

Lemma ids_put a u x : as_ids (as_put u x a) = as_ids a.
Proof.
  unfold as_ids, as_put; cbn. rewrite map_map. apply map_ext. intros [v y]; cbn. destruct (decide (v = u)); cbn; congruence.
Qed.
Lemma vals_put_el (el : list (nat * V)) u x : forall p, NoDup (map fst el) -> map fst el !! p = Some u ->
  map snd (map (fun e => if decide (e.1 = u) then (u, x) else e) el) = <[p := x]> (map snd el).
Proof.
  induction el as [|[v y] el IH]; intros p Hnd Hp; [destruct p; discriminate Hp|]. cbn in Hnd. apply NoDup_cons in Hnd as [Hv Hnd]. cbn [map fst snd].
  destruct p as [|p]; cbn in Hp.
  - injection Hp as ->. rewrite decide_True by reflexivity. cbn. f_equal. rewrite map_map. clear IH. induction el as [|[w z] el IH]; [reflexivity|]. cbn in *.
    rewrite decide_False by (intros ->; apply Hv; constructor). cbn. f_equal. apply IH; [intros F; apply Hv; constructor; exact F|inversion Hnd; assumption].
  - rewrite decide_False. { cbn. f_equal. apply IH; assumption. }
    intros ->. apply Hv. apply elem_of_list_lookup. eauto.
Qed.
Lemma vals_put a u x p : NoDup (as_ids a) -> as_ids a !! p = Some u -> as_vals (as_put u x a) = <[p := x]> (as_vals a).
Proof. apply vals_put_el. Qed.

Lemma pos_ids a a' u : as_ids a' = as_ids a -> NoDup (as_ids a) -> as_pos u a' = as_pos u a.
Proof.
  intros E Hnd. destruct (as_pos u a) as [p|] eqn:Ep.
  - apply pos_lookup in Ep; [|exact Hnd]. apply pos_lookup; rewrite E; assumption.
  - destruct (as_pos u a') as [p|] eqn:Ep'; [|reflexivity]. apply pos_lookup in Ep'; [|rewrite E; exact Hnd]. rewrite E in Ep'.
    apply pos_lookup in Ep'; [congruence|exact Hnd].
Qed.

(** Same identities and terms, other values *)
Lemma rel_same_ids s s' lkf lkf' a a' :
  rel s lkf a -> as_ids a' = as_ids a -> a_tm a' = a_tm a -> a_nx a' = a_nx a -> st_ok P s' (as_vals a') -> (forall k, lkf' k = lkf k) -> rel s' lkf' a'.
Proof.
  intros R E1 E2 E3 Hs Hlk. constructor; rewrite ?E1, ?E2, ?E3; try apply R; [exact Hs|].
  intros k. rewrite Hlk, (r_lk _ _ _ R k). destruct (a_tm a !! k); [|reflexivity]. cbn. rewrite (pos_ids a a') by (try assumption; apply R). reflexivity.
Qed.

Lemma rel_put s s' lkf a u p x : rel s lkf a -> as_ids a !! p = Some u -> st_ok P s' (<[p := x]> (as_vals a)) -> rel s' lkf (as_put u x a).
Proof.
  intros R Ep Hs. eapply rel_same_ids; [exact R|apply ids_put|reflexivity|reflexivity| |reflexivity].
  rewrite (vals_put _ _ _ p); [exact Hs|apply R|exact Ep].
Qed.

Lemma rel_map s s' lkf a f : rel s lkf a -> st_ok P s' (map f (as_vals a)) -> rel s' lkf (as_map f a).
Proof.
  intros R Hs. eapply rel_same_ids; [exact R| |reflexivity|reflexivity| |reflexivity].
  - unfold as_ids, as_map; cbn. rewrite map_map. reflexivity.
  - unfold as_vals, as_map in *; cbn. rewrite map_map in *. exact Hs.
Qed.

(** Give [u] a further term (taking it from another element if it was one's term). *)
Lemma rel_alias s lkf lkf' a u p k0 :
  rel s lkf a -> as_ids a !! p = Some u -> (forall k, lkf' k = if decide (k = k0) then Some (Z.of_nat p) else lkf k) ->
  rel s lkf' (Assoc (a_el a) (<[k0 := u]> (a_tm a)) (a_nx a)).
Proof.
  intros R Ep Hlk. constructor; try apply R.
  - intros k v. cbn. destruct (decide (k = k0)) as [->|Hne].
    + rewrite lookup_insert. intros [= <-]. apply elem_of_list_lookup. eauto.
    + rewrite lookup_insert_ne by congruence. apply (r_tm _ _ _ R).
  - intros k. rewrite Hlk. cbn. destruct (decide (k = k0)) as [->|Hne].
    + rewrite lookup_insert. cbn. apply pos_lookup in Ep; [|apply R]. unfold as_pos in *. cbn. rewrite Ep. reflexivity.
    + rewrite lookup_insert_ne by congruence. rewrite (r_lk _ _ _ R k). reflexivity.
Qed.

(** What removal must do to the stored positions *)
Definition shifted (er : bool) (i : Z) (o : option Z) : option Z :=
  match o with Some j => if j =? i then None else if er && (i <? j) then Some (j - 1) else Some j | None => None end.

Lemma delete_map {A C} (f : A -> C) (l : list A) : forall p, map f (delete p l) = delete p (map f l).
Proof. induction l as [|x l IH]; intros [|p]; cbn; try reflexivity. f_equal. apply IH. Qed.

Lemma NoDup_delete {A} (l : list A) : forall p, NoDup l -> NoDup (delete p l).
Proof.
  induction l as [|x l IH]; intros [|p] Hl; cbn; try constructor; inversion Hl; subst; try assumption; [|apply IH; assumption].
  intros F. assert (x ∈ l); [|contradiction]. eapply elem_of_submseteq; [exact F|apply sublist_submseteq, sublist_delete].
Qed.

Lemma rel_remove s s' lkf lkf' a u p :
  rel s lkf a -> as_ids a !! p = Some u -> st_ok P s' (st_erased s (as_vals a) (Z.of_nat p)) ->
  (forall k, lkf' k = shifted (negb (st_stable s && negb (Z.of_nat p =? zlen (as_vals a) - 1))) (Z.of_nat p) (lkf k)) ->
  rel s' lkf' (as_remove (st_stable s) u p a).
Proof.
  intros R Ep Hs Hlk. pose proof (lookup_lt_Some _ _ _ Ep) as Hp. rewrite as_len_ids in Hp. pose proof (r_nd _ _ _ R) as Hnd.
  assert (Hb : bool_decide (S p = length (a_el a)) = (Z.of_nat p =? zlen (as_vals a) - 1)).
  { rewrite as_len. unfold zlen. destruct (Z.eqb_spec (Z.of_nat p) (Z.of_nat (length (a_el a)) - 1)); [apply bool_decide_eq_true|apply bool_decide_eq_false]; lia. }
  unfold st_erased in Hs.
  assert (Hids : as_ids (as_remove (st_stable s) u p a) =
            if st_stable s && negb (Z.of_nat p =? zlen (as_vals a) - 1) then as_ids a else delete p (as_ids a)).
  { unfold as_ids, as_remove; cbn. rewrite Hb. destruct (_ && _); [reflexivity|apply delete_map]. }
  assert (Hvals : as_vals (as_remove (st_stable s) u p a) =
            if st_stable s && negb (Z.of_nat p =? zlen (as_vals a) - 1) then as_vals a else delete p (as_vals a)).
  { unfold as_vals at 1, as_remove; cbn. rewrite Hb. destruct (_ && _); [reflexivity|apply delete_map]. }
  assert (Hmem : forall v, v ∈ as_ids a -> v <> u -> v ∈ as_ids (as_remove (st_stable s) u p a)).
  { intros v Hv Hne. rewrite Hids. destruct (_ && _); [exact Hv|]. apply elem_of_list_lookup in Hv as [q Hq].
    apply elem_of_list_lookup. destruct (Nat.lt_trichotomy q p) as [L|[->|L]]; [|congruence|].
    - exists q. rewrite lookup_delete_lt by assumption. exact Hq.
    - exists (q - 1)%nat. rewrite lookup_delete_ge by lia. replace (S (q - 1)) with q by lia. exact Hq. }
  assert (Hnd' : NoDup (as_ids (as_remove (st_stable s) u p a))).
  { rewrite Hids. destruct (_ && _); [exact Hnd|]. apply NoDup_delete. exact Hnd. }
  assert (Htm : forall k v, a_tm (as_remove (st_stable s) u p a) !! k = Some v <-> a_tm a !! k = Some v /\ v <> u).
  { intros k v. cbn. rewrite map_filter_lookup_Some. cbn. tauto. }
  constructor.
  - rewrite Hvals. rewrite Nat2Z.id in Hs. exact Hs.
  - exact Hnd'.
  - intros v Hv. cbn. apply (r_nx _ _ _ R). rewrite Hids in Hv. destruct (_ && _); [exact Hv|].
    eapply elem_of_submseteq; [exact Hv|]. apply sublist_submseteq, sublist_delete.
  - intros k v E. apply Htm in E as [E Hne]. apply Hmem; [|exact Hne]. eapply r_tm; eassumption.
  - intros k. rewrite Hlk. unfold shifted. destruct (lkf k) as [j|] eqn:Ej.
    + pose proof Ej as Ej'. apply (rel_lk _ _ _ _ _ R) in Ej' as (v & q & Ev & Eq & ->).
      destruct (Z.eqb_spec (Z.of_nat q) (Z.of_nat p)) as [E|Hne].
      * assert (q = p) as -> by lia. assert (v = u) as -> by congruence.
        destruct (a_tm (as_remove (st_stable s) u p a) !! k) as [w|] eqn:Ew; [|reflexivity].
        apply Htm in Ew as [Ew Hw]. congruence.
      * assert (Hvu : v <> u). { intros ->. assert (q = p) by (apply (NoDup_lookup (as_ids a) q p u); assumption). lia. }
        rewrite (proj2 (Htm k v) (conj Ev Hvu)). cbn [mbind option_bind].
        assert (Hlen : (q < length (a_el a))%nat) by (apply lookup_lt_Some in Eq; rewrite as_len_ids in Eq; exact Eq).
        destruct (st_stable s && negb (Z.of_nat p =? zlen (as_vals a) - 1)) eqn:Est; cbn [negb andb].
        -- assert (as_pos v (as_remove (st_stable s) u p a) = Some q) as ->; [|reflexivity]. apply pos_lookup; [exact Hnd'|]. rewrite Hids. exact Eq.
        -- destruct (Z.ltb_spec (Z.of_nat p) (Z.of_nat q)).
           ++ assert (as_pos v (as_remove (st_stable s) u p a) = Some (q - 1)%nat) as ->; [|cbn; f_equal; lia].
              apply pos_lookup; [exact Hnd'|]. rewrite Hids. rewrite lookup_delete_ge by lia. replace (S (q - 1)) with q by lia. exact Eq.
           ++ assert (as_pos v (as_remove (st_stable s) u p a) = Some q) as ->; [|reflexivity].
              apply pos_lookup; [exact Hnd'|]. rewrite Hids. rewrite lookup_delete_lt by lia. exact Eq.
    + apply (rel_lk_none _ _ _ _ R) in Ej. destruct (a_tm (as_remove (st_stable s) u p a) !! k) as [w|] eqn:Ew; [|reflexivity].
      apply Htm in Ew as [Ew _]. congruence.
Qed.

Lemma rel_clear s s' lkf lkf' a : rel s lkf a -> st_ok P s' [] -> (forall k, lkf' k = None) -> rel s' lkf' (Assoc [] ∅ (a_nx a)).
Proof.
  intros R Hs Hlk. constructor; cbn; try exact Hs.
  - constructor.
  - intros u Hu. inversion Hu.
  - intros k u E. rewrite lookup_empty in E. discriminate.
  - intros k. rewrite Hlk, lookup_empty. reflexivity.
Qed.

Lemma rel_empty stb lkf : 0 <= expo P <= 30 -> (forall k, lkf k = None) -> rel (m_st (mv0 (V := V) (K := K) P stb)) lkf assoc0.
Proof.
  intros HP Hlk. constructor; cbn.
  - destruct stb; [|reflexivity]. exists [], []. apply default_good. exact HP.
  - constructor.
  - intros u Hu. inversion Hu.
  - intros k u E. rewrite lookup_empty in E. discriminate.
  - intros k. rewrite Hlk, lookup_empty. reflexivity.
Qed.

End rel.
