(** Model of DualMappedVector.hpp (DMV), DualStringMappedVector.hpp (DSMV; the storage of the key text is in StrModel.v) and
    DualMappedPointerVector.hpp (DMPV).

    - As in MapModel.v lookup maps are finite maps, and a loop over one visits the keys in an order chosen by the environment.
    - [kd1], [kd2] are what "searchType1 ind1;", "searchType2 ind2;" yield in the pointer class.
    - A search term is [inl k1] or [inr k2]; the overloads of find, remove, addSearchTerm are selected by it.
    - DMPV has no insert without any key, no addSearchTerm and addSearchTermForIndex, and its at() does not compile
      (DMPV:242 converts a unique_ptr to a raw pointer); DSMV with unstable storage has no localErase, so its removals do
      not compile.  [dv_legal] in DualProofs.v excludes these calls. *)
From stdpp Require Import gmap.
From Verif Require Import Base BlkHeap BlkIter VecModel MapStore MapModel.

Inductive dcls := CMap | CStr | CPtr.

(** The loop of removeIndex, DMV:307-314, DSMV:314-321: the new map, and the keys found with the removed index in order *)
Fixpoint dm_shift `{Countable K} (er : bool) (i : Z) (ord : list K) (lk : gmap K Z) : gmap K Z * list K :=
  match ord with
  | [] => (lk, [])
  | k :: ord' =>
      match lk !! k with
      | Some j => if er && (i <? j) then dm_shift er i ord' (<[k := j - 1]> lk)
                  else if j =? i then let '(lk', ks) := dm_shift er i ord' lk in (lk', k :: ks)
                  else dm_shift er i ord' lk
      | None => dm_shift er i ord' lk
      end
  end.

(** DMV:324-329, DSMV:331-336: look each of the keys up and erase it if found *)
Definition dm_del `{Countable K} (ks : list K) (lk : gmap K Z) : gmap K Z := foldl (fun lk k => delete k lk) lk ks.

Section dual.
Context {V : Type} `{Countable K1} `{Countable K2}.
Variable P : params.
Variable cl : dcls.
Variable kd1 : option K1.
Variable kd2 : option K2.

(** DMV:427-441, DSMV:427-440, DMPV:370-381 *)
Record dv := Dv { d_st : store V; d_l1 : gmap K1 Z; d_l2 : gmap K2 Z }.
Notation term := (K1 + K2)%type.

Inductive dop :=
| DInsert (k1 : K1) (k2 : K2) (x : V) | DInsert1 (k1 : K1) (x : V) | DInsert2 (k2 : K2) (x : V) | DInsert0 (x : V)
| DAssign (k1 : K1) (k2 : K2) (x : V) | DAssign1 (k1 : K1) (x : V) | DAssign2 (k2 : K2) (x : V)
| DTermIdx (k : term) (i : Z) | DTerm (k old : term)
| DFind (k : term) | DGet (i : Z) | DAt (i : Z) | DBack
| DRemoveIdx (i : Z) (o1 : list K1) (o2 : list K2) | DRemove (k : term) (o1 : list K1) (o2 : list K2)
| DModify (f : V -> V) | DApply | DSize | DClear.

Definition d_lk (d : dv) (k : term) : option Z := match k with inl k1 => d_l1 d !! k1 | inr k2 => d_l2 d !! k2 end.
(** emplace on the map the term belongs to *)
Definition d_emplace (k : term) i (d : dv) : dv :=
  match k with
  | inl k1 => Dv (d_st d) (mp_emplace k1 i (d_l1 d)) (d_l2 d)
  | inr k2 => Dv (d_st d) (d_l1 d) (mp_emplace k2 i (d_l2 d))
  end.
Definition d_new (d : dv) k : bool := match d_lk d k with Some _ => false | None => true end.

Definition d_push d x : outcome (dv * Z) :=
  '(s, _) <-! st_step P (d_st d) (VPush x) ;; Ok (Dv s (d_l1 d) (d_l2 d), st_size (d_st d)).

(** DMV:48-66, DSMV:48-67, DMPV:47-85 (both overloads).  The three classes differ in how the keys are entered. *)
Definition dv_insert d k1 k2 x : outcome (dv * mret V) :=
  if negb (d_new d (inl k1)) && negb (d_new d (inr k2)) then Ok (d, MIdx None)
  else
    '(d1, index) <-! d_push d x ;;
    Ok (match cl with
        | CMap => Dv (d_st d1) (<[k1 := index]> (d_l1 d1)) (<[k2 := index]> (d_l2 d1))
        | CStr => Dv (d_st d1) (mp_emplace k1 index (d_l1 d1)) (<[k2 := index]> (d_l2 d1))
        | CPtr => Dv (d_st d1) (mp_emplace k1 index (d_l1 d1)) (mp_emplace k2 index (d_l2 d1))
        end, MIdx (Some index)).

(** DMV:74-110, DSMV:75-112, DMPV:88-121 *)
Definition dv_insert_one d (k : term) x : outcome (dv * mret V) :=
  if negb (d_new d k) then Ok (d, MIdx None)
  else '(d1, index) <-! d_push d x ;; Ok (d_emplace k index d1, MIdx (Some index)).
(** DMV:116-125, DSMV:118-127 *)
Definition dv_insert0 d x : outcome (dv * mret V) := '(d1, index) <-! d_push d x ;; Ok (d1, MIdx (Some index)).

(** DMV:132-149, DSMV:134-152, DMPV:125-170 (both overloads) *)
Definition dv_assign d k1 k2 x : outcome (dv * mret V) :=
  match cl with
  | CMap | CStr =>
      match d_l1 d !! k1 with
      | Some i => '(s, _) <-! st_step P (d_st d) (VSet i x) ;; Ok (Dv s (d_l1 d) (<[k2 := i]> (d_l2 d)), MIdx (Some i))
      | None =>
          '(d1, index) <-! d_push d x ;;
          Ok (Dv (d_st d1) (match cl with CStr => mp_emplace k1 index (d_l1 d1) | _ => <[k1 := index]> (d_l1 d1) end)
                 (<[k2 := index]> (d_l2 d1)), MIdx (Some index))
      end
  | CPtr =>
      let app := '(d1, index) <-! d_push d x ;; Ok (Dv (d_st d1) (<[k1 := index]> (d_l1 d1)) (<[k2 := index]> (d_l2 d1)), MIdx (Some index)) in
      match d_l1 d !! k1, d_l2 d !! k2 with
      | Some i, Some j => if j =? i then '(s, _) <-! st_step P (d_st d) (VSet i x) ;; Ok (Dv s (d_l1 d) (d_l2 d), MIdx (Some i)) else app
      | _, _ => app
      end
  end.

(** DMV:155-191, DSMV:158-195, DMPV:173-210 *)
Definition dv_assign_one d (k : term) x : outcome (dv * mret V) :=
  match d_lk d k with
  | Some i => '(s, _) <-! st_step P (d_st d) (VSet i x) ;; Ok (Dv s (d_l1 d) (d_l2 d), MIdx (Some i))
  | None => '(d1, index) <-! d_push d x ;; Ok (d_emplace k index d1, MIdx (Some index))
  end.

(** DMV:194-201, 217-224, DSMV:198-206, 223-230 *)
Definition dv_term_idx d k i : outcome (dv * mret V) :=
  if i <? st_size (d_st d) then Ok (d_emplace k i d, MBool (d_new d k)) else Ok (d, MBool false).
(** DMV:204-214, 227-263, DSMV:209-220, 233-270: the four overloads *)
Definition dv_term d k old : outcome (dv * mret V) :=
  match d_lk d old with Some i => Ok (d_emplace k i d, MBool (d_new d k)) | None => Ok (d, MBool false) end.

(** DMV:264-298, DSMV:271-305 used as in [mv_find_use]; DMPV:215-234 *)
Definition dv_find d k : outcome (dv * mret V) :=
  match cl with
  | CPtr =>
      match d_lk d k with
      | Some i => '(_, r) <-! st_step P (d_st d) (VGet i) ;; match r with VVal x => Ok (d, MVal (Some x)) | _ => UB end
      | None => Ok (d, MVal None)
      end
  | _ =>
      it <-! match d_lk d k with Some i => st_iter P (d_st d) i | None => st_end P (d_st d) end ;;
      last <-! st_end P (d_st d) ;;
      if si_eq it last then Ok (d, MVal None) else x <-! st_deref P (d_st d) it ;; Ok (d, MVal (Some x))
  end.

(** DMV:358-363, DSMV:365-370, DMPV:236-240 *)
Definition dv_get d i : outcome (dv * mret V) :=
  if match cl with CPtr => st_size (d_st d) <=? i | _ => false end then Ok (d, MVal None)
  else '(_, r) <-! st_step P (d_st d) (VGet i) ;; match r with VVal x => Ok (d, MVal (Some x)) | _ => UB end.
(** DMV:365-367, DSMV:372-374 *)
Definition dv_at d i : outcome (dv * mret V) :=
  '(_, r) <-! st_step P (d_st d) (VAt i) ;;
  match r with VVal x => Ok (d, MVal (Some x)) | VOutOfRange => Ok (d, MOut) | _ => UB end.
(** DMV:369-371, DSMV:376-378, DMPV:245 *)
Definition dv_back d : outcome (dv * mret V) :=
  '(_, r) <-! st_step P (d_st d) VBack ;; match r with VVal x => Ok (d, MVal (Some x)) | _ => UB end.

(** The keys to be erased: a std::vector in DMV, in DSMV a StableBlockVector filled with push_back and read with
    begin()/end() (DSMV:314, 322, 331, 338) *)
Definition sbv_read {K : Type} (ks : list K) : outcome (list K) :=
  '(h, v) <-! vec_pushes P bheap0 (vec_default P) ks ;; vec_walk P h v.
Definition d_keys {K : Type} (ks : list K) : outcome (list K) := match cl with CStr => sbv_read ks | _ => Ok ks end.

(** DMV:300-337, DSMV:307-344; DMPV:248-278 *)
Definition dv_remove_idx d i o1 o2 : outcome (dv * mret V) :=
  if st_size (d_st d) <=? i then Ok (d, MUnit)
  else
    '(s, er) <-! st_erase P (d_st d) i ;;
    match cl with
    | CPtr =>
        let '(l1, i1) := mp_shift er i o1 (d_l1 d) kd1 in
        let '(l2, i2) := mp_shift er i o2 (d_l2 d) kd2 in
        match i1, i2 with Some k1, Some k2 => Ok (Dv s (delete k1 l1) (delete k2 l2), MUnit) | _, _ => UB end
    | _ =>
        let '(l1, ks1) := dm_shift er i o1 (d_l1 d) in
        let '(l2, ks2) := dm_shift er i o2 (d_l2 d) in
        ks1 <-! d_keys ks1 ;; ks2 <-! d_keys ks2 ;;
        Ok (Dv s (dm_del ks1 l1) (dm_del ks2 l2), MUnit)
    end.

(** DMV:339-357, DSMV:346-364; DMPV:280-334 *)
Definition dv_remove d (k : term) o1 o2 : outcome (dv * mret V) :=
  match d_lk d k with
  | None => Ok (d, MUnit)
  | Some i =>
      match cl with
      | CPtr =>
          '(s, _) <-! st_erase P (d_st d) i ;;
          match k with
          | inl k1 =>
              let l1 := delete k1 (mp_dec i o1 (d_l1 d)) in
              let '(l2, i2) := mp_shift true i o2 (d_l2 d) kd2 in
              match i2 with Some k2 => Ok (Dv s l1 (delete k2 l2), MUnit) | None => UB end
          | inr k2 =>
              let l2 := delete k2 (mp_dec i o2 (d_l2 d)) in
              let '(l1, i1) := mp_shift true i o1 (d_l1 d) kd1 in
              match i1 with Some k1 => Ok (Dv s (delete k1 l1) l2, MUnit) | None => UB end
          end
      | _ => dv_remove_idx d i o1 o2
      end
  end.

(** DMV:382-395, DSMV:388-400, DMPV:338-344 *)
Definition dv_modify d f : outcome (dv * mret V) :=
  '(s, l) <-! st_modify P (d_st d) f ;; Ok (Dv s (d_l1 d) (d_l2 d), MList l).
(** DMV:374-378, 397-398, DSMV:381-385, 402-403, DMPV:348-358 *)
Definition dv_apply d : outcome (dv * mret V) :=
  '(_, r) <-! st_step P (d_st d) VWalk ;; match r with VList l => Ok (d, MList l) | _ => UB end.
(** DMV:402-407, DSMV:407-412, DMPV:362-367 *)
Definition dv_clear d : outcome (dv * mret V) := '(s, _) <-! st_step P (d_st d) VClear ;; Ok (Dv s ∅ ∅, MUnit).

Definition dv_step d (o : dop) : outcome (dv * mret V) :=
  match o with
  | DInsert k1 k2 x => dv_insert d k1 k2 x
  | DInsert1 k1 x => dv_insert_one d (inl k1) x
  | DInsert2 k2 x => dv_insert_one d (inr k2) x
  | DInsert0 x => dv_insert0 d x
  | DAssign k1 k2 x => dv_assign d k1 k2 x
  | DAssign1 k1 x => dv_assign_one d (inl k1) x
  | DAssign2 k2 x => dv_assign_one d (inr k2) x
  | DTermIdx k i => dv_term_idx d k i
  | DTerm k old => dv_term d k old
  | DFind k => dv_find d k
  | DGet i => dv_get d i
  | DAt i => dv_at d i
  | DBack => dv_back d
  | DRemoveIdx i o1 o2 => dv_remove_idx d i o1 o2
  | DRemove k o1 o2 => dv_remove d k o1 o2
  | DModify f => dv_modify d f
  | DApply => dv_apply d
  | DSize => Ok (d, MInt (st_size (d_st d)))
  | DClear => dv_clear d
  end.

Fixpoint dv_run d (ops : list dop) : outcome (dv * list (dop * mret V)) :=
  match ops with
  | [] => Ok (d, [])
  | o :: ops' => '(d1, r) <-! dv_step d o ;; '(d2, tr) <-! dv_run d1 ops' ;; Ok (d2, (o, r) :: tr)
  end.

Definition dv0 (stb : bool) : dv := Dv (if stb then SBlk bheap0 (vec_default P) else SVec []) ∅ ∅.

End dual.
Arguments dv V K1 {_ _} K2 {_ _} : assert. Arguments dop : clear implicits.
