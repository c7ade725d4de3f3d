(** The dataStorage member of the mapped vectors: std::vector (modelled as a list) or StableBlockVector (modelled in its
    own block memory, VecModel.v).  MappedVector.hpp:230-234, DualMappedVector.hpp:427-431, StringMappedVector.hpp:217-221,
    DualStringMappedVector.hpp:427-431. *)
From stdpp Require Import gmap.
From Verif Require Import Base BlkHeap BlkIter VecModel.

Section store.
Context {V : Type}.
Variable P : params.
Notation B := (bsz P).

Inductive store := SVec (xs : list V) | SBlk (h : bheap V) (v : vec).

Definition st_stable (s : store) : bool := match s with SVec _ => false | SBlk _ _ => true end.

(** std::vector: the calls used, with the bounds the standard demands *)
Definition lst_step (xs : list V) (o : vop V) : outcome (list V * vret V) :=
  match o with
  | VPush x => Ok (xs ++ [x], VUnit)
  | VPop => match xs with [] => UB | _ => Ok (removelast xs, VUnit) end
  | VClear => Ok ([], VUnit)
  | VShrink => Ok (xs, VUnit)
  | VAssign ys => Ok (ys, VUnit)
  | VSet n x => if (0 <=? n) && (n <? zlen xs) then Ok (<[Z.to_nat n := x]> xs, VUnit) else UB
  | VGet n => if n <? 0 then UB else match xs !! Z.to_nat n with Some x => Ok (xs, VVal x) | None => UB end
  | VAt n => match xs !! Z.to_nat n with Some x => Ok (xs, VVal x) | None => Ok (xs, VOutOfRange) end
  | VBack => match last xs with Some x => Ok (xs, VVal x) | None => UB end
  | VFront => match xs with x :: _ => Ok (xs, VVal x) | [] => UB end
  | VSize => Ok (xs, VInt (zlen xs))
  | VEmpty => Ok (xs, VBool (match xs with [] => true | _ => false end))
  | VWalk => Ok (xs, VList xs)
  end.

Definition st_step (s : store) (o : vop V) : outcome (store * vret V) :=
  match s with
  | SVec xs => '(xs', r) <-! lst_step xs o ;; Ok (SVec xs', r)
  | SBlk h v => '(h', v', r) <-! vec_step P h v o ;; Ok (SBlk h' v', r)
  end.

Definition st_size (s : store) : Z := match s with SVec xs => zlen xs | SBlk _ v => v_size v end.

(** localErase: MappedVector.hpp:213-227, DualMappedVector.hpp:410-424, StringMappedVector.hpp:204-213,
    DualStringMappedVector.hpp:415-425.  (size() - 1 is unsigned in C++: for size 0 it equals no index.) *)
Definition st_erase (s : store) (i : Z) : outcome (store * bool) :=
  match s with
  | SVec xs => if (0 <=? i) && (i <? zlen xs) then Ok (SVec (delete (Z.to_nat i) xs), true) else UB
  | SBlk h v => if i =? v_size v - 1 then '(h', v') <-! vec_pop P h v ;; Ok (SBlk h' v', true) else Ok (s, false)
  end.

(** An iterator into the storage *)
Inductive siter := IVec (i : Z) | IBlk (it : biter).

(** dataStorage.begin() + i *)
Definition st_iter (s : store) (i : Z) : outcome siter :=
  match s with
  | SVec xs => if (0 <=? i) && (i <=? zlen xs) then Ok (IVec i) else UB
  | SBlk h v => first <-! vec_begin P h v ;; it <-! it_add P h first i ;; Ok (IBlk it)
  end.
Definition st_end (s : store) : outcome siter :=
  match s with
  | SVec xs => Ok (IVec (zlen xs))
  | SBlk h v => it <-! vec_end P h v ;; Ok (IBlk it)
  end.
Definition si_eq (a b : siter) : bool :=
  match a, b with IVec i, IVec j => i =? j | IBlk i, IBlk j => it_eq i j | _, _ => false end.
Definition st_deref (s : store) (it : siter) : outcome V :=
  match s, it with
  | SVec xs, IVec i => match xs !! Z.to_nat i with Some x => Ok x | None => UB end
  | SBlk h _, IBlk i => it_read P h i
  | _, _ => UB
  end.

(** for (; it != last; ++it) *it = f( *it ); the values read, in order *)
Fixpoint it_map (h : bheap V) (it last : biter) (fuel : nat) (f : V -> V) : outcome (bheap V * list V) :=
  if it_eq it last then Ok (h, [])
  else match fuel with
       | O => UB
       | S k =>
           x <-! it_read P h it ;;
           h1 <-! match i_ptr it with PSlot b j => eset P h (Some b) j (f x) | _ => UB end ;;
           it' <-! it_add P h1 it 1 ;;
           '(h2, l) <-! it_map h1 it' last k f ;; Ok (h2, x :: l)
       end.

(** std::for_each with a modifying function, std::transform in place: MappedVector.hpp:178-190.  The list of arguments the
    function received is returned. *)
Definition st_modify (s : store) (f : V -> V) : outcome (store * list V) :=
  match s with
  | SVec xs => Ok (SVec (map f xs), xs)
  | SBlk h v =>
      first <-! vec_begin P h v ;; last <-! vec_end P h v ;;
      '(h', l) <-! it_map h first last (Z.to_nat (v_size v)) f ;; Ok (SBlk h' v, l)
  end.

End store.
Arguments store : clear implicits.
