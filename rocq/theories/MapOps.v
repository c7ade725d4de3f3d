(** mapOps.hpp.  A std::map or std::unordered_map is the sequence of its nodes in iteration order (the order does not
    matter here), an iterator is an index into it, end() is the index one past the last.  find is a search for the node
    with the key; the four overloads have the same code. *)
From stdpp Require Import base list.
From Verif Require Import Base.

Section ops.
Context {K V : Type} `{EqDecision K}.
Implicit Types (ns : list (K * V)).

Fixpoint node_find ns (k : K) : nat :=
  match ns with [] => 0 | n :: ns' => if decide (n.1 = k) then 0 else S (node_find ns' k) end.
Definition node_val ns (it : nat) : outcome V := match ns !! it with Some n => Ok n.2 | None => UB end.

(** mapOps.hpp:20-25 and 37-45 *)
Definition map_find_def ns k (d : V) : outcome V :=
  let it := node_find ns k in if decide (it <> length ns) then node_val ns it else Ok d.
(** mapOps.hpp:27-35 and 47-55 *)
Definition map_find_opt ns k : outcome (option V) :=
  let it := node_find ns k in if decide (it <> length ns) then v <-! node_val ns it ;; Ok (Some v) else Ok None.

Lemma node_find_spec ns k :
  (exists v, ns !! node_find ns k = Some (k, v) /\ node_find ns k <> length ns) \/ (node_find ns k = length ns /\ k ∉ map fst ns).
Proof.
  induction ns as [|[k' v] ns IH]; cbn; [right; split; [reflexivity|apply not_elem_of_nil]|].
  destruct (decide (k' = k)) as [->|Hne]; [left; exists v; split; [reflexivity|discriminate]|].
  destruct IH as [(w & E & N)|[E N]]; [left; exists w; split; [exact E|congruence]|right; split; [congruence|]].
  apply not_elem_of_cons. split; [congruence|exact N].
Qed.

Lemma map_find_def_ok ns k d v : NoDup (map fst ns) ->
  map_find_def ns k d = Ok v <-> (k, v) ∈ ns \/ (k ∉ map fst ns /\ v = d).
Proof.
  intros Hnd. unfold map_find_def, node_val. destruct (node_find_spec ns k) as [(w & E & N)|[E N]].
  - destruct (decide (node_find ns k <> length ns)); [|contradiction]. rewrite E. cbn. assert (Hin : (k, w) ∈ ns) by (apply elem_of_list_lookup; eauto).
    split; [intros [= <-]; left; exact Hin|]. intros [Hin'|[F _]].
    + f_equal. apply elem_of_list_lookup in Hin' as [i Hi]. pose proof (NoDup_lookup _ i (node_find ns k) k Hnd) as Hu.
      rewrite !list_lookup_fmap, E, Hi in Hu. specialize (Hu eq_refl eq_refl). subst i. congruence.
    + exfalso. apply F. apply elem_of_list_fmap. exists (k, w). auto.
  - destruct (decide (node_find ns k <> length ns)); [contradiction|]. split; [intros [= ->]; right; auto|]. intros [Hin|[_ ->]]; [|reflexivity].
    exfalso. apply N. apply elem_of_list_fmap. exists (k, v). auto.
Qed.

Lemma map_find_opt_ok ns k o : NoDup (map fst ns) ->
  map_find_opt ns k = Ok o <-> match o with Some v => (k, v) ∈ ns | None => k ∉ map fst ns end.
Proof.
  intros Hnd. unfold map_find_opt, node_val. destruct (node_find_spec ns k) as [(w & E & N)|[E N]].
  - destruct (decide (node_find ns k <> length ns)); [|contradiction]. rewrite E. cbn. assert (Hin : (k, w) ∈ ns) by (apply elem_of_list_lookup; eauto).
    split; [intros [= <-]; exact Hin|]. destruct o as [v|].
    + intros Hin'. do 2 f_equal. apply elem_of_list_lookup in Hin' as [i Hi]. pose proof (NoDup_lookup _ i (node_find ns k) k Hnd) as Hu.
      rewrite !list_lookup_fmap, E, Hi in Hu. specialize (Hu eq_refl eq_refl). subst i. congruence.
    + intros F. exfalso. apply F. apply elem_of_list_fmap. exists (k, w). auto.
  - destruct (decide (node_find ns k <> length ns)); [contradiction|]. split; [intros [= <-]; exact N|]. destruct o as [v|]; [|reflexivity].
    intros Hin. exfalso. apply N. apply elem_of_list_fmap. exists (k, v). auto.
Qed.

Lemma map_find_defined ns k d : (exists v, map_find_def ns k d = Ok v) /\ (exists o, map_find_opt ns k = Ok o).
Proof.
  unfold map_find_def, map_find_opt, node_val. destruct (node_find_spec ns k) as [(w & E & N)|[E N]].
  - destruct (decide (node_find ns k <> length ns)); [|contradiction]. rewrite E. cbn. eauto.
  - destruct (decide (node_find ns k <> length ns)); [contradiction|]. eauto.
Qed.
End ops.
