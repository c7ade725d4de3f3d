(** Specification of the mapped vectors: a sequence of elements, each with an identity of its own, and search terms that
    name identities.  Nothing in it mentions positions stored under a term. *)
From stdpp Require Import gmap.
From Verif Require Import Base BlkHeap BlkIter VecModel MapStore MapModel.

Section spec.
Context {V : Type} `{Countable K}.

Record assoc := Assoc { a_el : list (nat * V); a_tm : gmap K nat; a_nx : nat }.

Definition as_ids (a : assoc) : list nat := map fst (a_el a).
Definition as_vals (a : assoc) : list V := map snd (a_el a).
Definition assoc0 : assoc := Assoc [] ∅ 0.

(** The place of the element with identity [u] *)
Definition as_pos (u : nat) (a : assoc) : option nat := fst <$> list_find (fun e => e.1 = u) (a_el a).
(** The element a term denotes *)
Definition as_find (k : K) (a : assoc) : option V :=
  u ← a_tm a !! k; e ← list_find (fun e => e.1 = u) (a_el a); Some e.2.2.

Definition as_add (x : V) (ks : list K) (a : assoc) : assoc :=
  Assoc (a_el a ++ [(a_nx a, x)]) (foldr (fun k tm => <[k := a_nx a]> tm) (a_tm a) ks) (S (a_nx a)).

(** Remove the element [u] at place [p].  In stable storage only the last element is taken out of the sequence; the
    others stay, without search terms. *)
Definition as_remove (stb : bool) (u p : nat) (a : assoc) : assoc :=
  Assoc (if stb && negb (bool_decide (S p = length (a_el a))) then a_el a else delete p (a_el a))
        (filter (fun kv => kv.2 <> u) (a_tm a)) (a_nx a).

(** Replace the value of element [u]; its identity and terms stay. *)
Definition as_put (u : nat) (x : V) (a : assoc) : assoc :=
  Assoc (map (fun e => if decide (e.1 = u) then (u, x) else e) (a_el a)) (a_tm a) (a_nx a).
Definition as_map (f : V -> V) (a : assoc) : assoc := Assoc (map (fun e => (e.1, f e.2)) (a_el a)) (a_tm a) (a_nx a).

Definition as_exec (stb : bool) (a : assoc) (o : mop V K) : assoc * mret V :=
  match o with
  | MInsert k x => match a_tm a !! k with Some _ => (a, MIdx None) | None => (as_add x [k] a, MIdx (Some (zlen (a_el a)))) end
  | MInsertNo x => (as_add x [] a, MIdx (Some (zlen (a_el a))))
  | MAssign k x =>
      match a_tm a !! k with
      | Some u => (as_put u x a, MIdx (Z.of_nat <$> as_pos u a))
      | None => (as_add x [k] a, MIdx (Some (zlen (a_el a))))
      end
  | MFind k | MFindP k => (a, MVal (as_find k a))
  | MGet i | MGetP i => (a, MVal (as_vals a !! Z.to_nat i))
  | MAt i => (a, match as_vals a !! Z.to_nat i with Some x => MVal (Some x) | None => MOut end)
  | MBack => (a, MVal (last (as_vals a)))
  | MAlias k i =>
      match as_ids a !! Z.to_nat i, a_tm a !! k with
      | Some u, None => (Assoc (a_el a) (<[k := u]> (a_tm a)) (a_nx a), MBool true)
      | _, _ => (a, MBool false)
      end
  | MRemoveIdx i _ => (match as_ids a !! Z.to_nat i with Some u => as_remove stb u (Z.to_nat i) a | None => a end, MUnit)
  | MRemove k _ =>
      (match a_tm a !! k with
       | Some u => match as_pos u a with Some p => as_remove stb u p a | None => a end
       | None => a
       end, MUnit)
  | MModify f => (as_map f a, MList (as_vals a))
  | MApply => (a, MList (as_vals a))
  | MSize => (a, MInt (zlen (a_el a)))
  | MClear => (Assoc [] ∅ (a_nx a), MUnit)
  end.

Fixpoint as_run (stb : bool) (a : assoc) (ops : list (mop V K)) : assoc * list (mop V K * mret V) :=
  match ops with
  | [] => (a, [])
  | o :: ops' => let '(a1, r) := as_exec stb a o in let '(a2, tr) := as_run stb a1 ops' in (a2, (o, r) :: tr)
  end.

End spec.
Arguments assoc V K {_ _} : assert.
