(** Specification of the two-key mapped vectors, over [assoc] with terms of both kinds.  Where the classes deal differently
    with a key that is already in use, the specification says so (there is no position in it). *)
From stdpp Require Import gmap.
From Verif Require Import Base BlkHeap BlkIter VecModel MapStore MapModel MapSpec DualModel.

Section spec.
Context {V : Type} `{Countable K1} `{Countable K2}.
Notation term := (K1 + K2)%type.
Notation assoc := (assoc V (K1 + K2)%type (EqDecision0 := sum_eq_dec) (H := sum_countable)).
Notation dop := (dop V K1 K2).

Definition unused (a : assoc) (k : term) : bool := match a_tm a !! k with Some _ => false | None => true end.
Definition some_len (a : assoc) : mret V := MIdx (Some (zlen (a_el a))).

(** The keys a successful insert enters *)
Definition ins_keys (cl : dcls) (a : assoc) (k1 : K1) (k2 : K2) : list term :=
  match cl with
  | CMap => [inl k1; inr k2]
  | CStr => if unused a (inl k1) then [inl k1; inr k2] else [inr k2]
  | CPtr => base.filter (fun k => unused a k = true) [inl k1; inr k2]
  end.

Definition as_insert1 (k : term) (x : V) (a : assoc) : assoc * mret V :=
  if unused a k then (as_add x [k] a, some_len a) else (a, MIdx None).
Definition as_assign1 (k : term) (x : V) (a : assoc) : assoc * mret V :=
  match a_tm a !! k with
  | Some u => (as_put u x a, MIdx (Z.of_nat <$> as_pos u a))
  | None => (as_add x [k] a, some_len a)
  end.
Definition as_alias (k : term) (u : nat) (a : assoc) : assoc := Assoc (a_el a) (<[k := u]> (a_tm a)) (a_nx a).
Definition as_term (k : term) (ou : option nat) (a : assoc) : assoc * mret V :=
  match ou with
  | Some u => if unused a k then (as_alias k u a, MBool true) else (a, MBool false)
  | None => (a, MBool false)
  end.

Definition as_dexec (cl : dcls) (stb : bool) (a : assoc) (o : dop) : assoc * mret V :=
  match o with
  | DInsert k1 k2 x =>
      if negb (unused a (inl k1)) && negb (unused a (inr k2)) then (a, MIdx None) else (as_add x (ins_keys cl a k1 k2) a, some_len a)
  | DInsert1 k1 x => as_insert1 (inl k1) x a
  | DInsert2 k2 x => as_insert1 (inr k2) x a
  | DInsert0 x => (as_add x [] a, some_len a)
  | DAssign k1 k2 x =>
      let app := (as_add x [inl k1; inr k2] a, some_len a) in
      match cl with
      | CPtr =>
          match a_tm a !! inl k1, a_tm a !! inr k2 with
          | Some u, Some v => if decide (u = v) then (as_put u x a, MIdx (Z.of_nat <$> as_pos u a)) else app
          | _, _ => app
          end
      | _ =>
          match a_tm a !! inl k1 with
          | Some u => (as_alias (inr k2) u (as_put u x a), MIdx (Z.of_nat <$> as_pos u a))
          | None => app
          end
      end
  | DAssign1 k1 x => as_assign1 (inl k1) x a
  | DAssign2 k2 x => as_assign1 (inr k2) x a
  | DTermIdx k i => as_term k (as_ids a !! Z.to_nat i) a
  | DTerm k old => as_term k (a_tm a !! old) a
  | DFind k => (a, MVal (as_find k a))
  | DGet i => (a, MVal (as_vals a !! Z.to_nat i))
  | DAt i => (a, match as_vals a !! Z.to_nat i with Some x => MVal (Some x) | None => MOut end)
  | DBack => (a, MVal (last (as_vals a)))
  | DRemoveIdx i _ _ => (match as_ids a !! Z.to_nat i with Some u => as_remove stb u (Z.to_nat i) a | None => a end, MUnit)
  | DRemove k _ _ =>
      (match a_tm a !! k with
       | Some u => match as_pos u a with Some p => as_remove stb u p a | None => a end
       | None => a
       end, MUnit)
  | DModify f => (as_map f a, MList (as_vals a))
  | DApply => (a, MList (as_vals a))
  | DSize => (a, MInt (zlen (a_el a)))
  | DClear => (Assoc [] ∅ (a_nx a), MUnit)
  end.

Fixpoint as_drun (cl : dcls) (stb : bool) (a : assoc) (ops : list dop) : assoc * list (dop * mret V) :=
  match ops with
  | [] => (a, [])
  | o :: ops' => let '(a1, r) := as_dexec cl stb a o in let '(a2, tr) := as_drun cl stb a1 ops' in (a2, (o, r) :: tr)
  end.
End spec.
