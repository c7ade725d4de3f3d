(** Memory of the block containers (StableBlockVector.hpp, StableBlockDeque.hpp): blocks of [B] element slots obtained
    from the allocator and tables of block pointers obtained with new[].

    Simplifications: allocation never fails; element constructors, destructors and assignments never throw; identities
    of allocations are never reused.  Besides undefined behaviour of the language, [UB] is also the outcome of
    constructing over a live element and of releasing a block that still holds one, so that an [Ok] run destroys
    every element it constructed. *)
From stdpp Require Import gmap.
From Verif Require Import Base.

(** An entry of a table: a block, or [None] if it was never written. *)
Notation cell := (option nat).

Record bheap (V : Type) := BHeap {
  el : gmap (nat * Z) V;            (* live elements: block and slot *)
  bl : gset nat;                    (* allocated blocks *)
  tb : gmap nat (list cell);        (* allocated tables *)
  nx : nat;                         (* next fresh identity *)
}.
Arguments BHeap {V}. Arguments el {V}. Arguments bl {V}. Arguments tb {V}. Arguments nx {V}.

Definition bheap0 {V} : bheap V := BHeap ∅ ∅ ∅ 0.

(** [blk_size]: slots of a block.  [triv]: the element type has a trivial destructor, so that destroying an empty slot
    goes unnoticed. *)
Record params := Params { expo : Z; triv : bool; overlap_ok : bool }.
Definition bsz (P : params) : Z := Z.shiftl 1 (expo P).

Section prim.
Context {V : Type}.
Variable P : params.
Notation B := (bsz P).
Implicit Types (h : bheap V) (p : option nat) (c : cell) (i j : Z).

(** table[i] *)
Definition tget h p i : outcome cell :=
  match p with
  | Some t => match tb h !! t with
              | Some cs => if i <? 0 then UB else match cs !! Z.to_nat i with Some c => Ok c | None => UB end
              | None => UB
              end
  | None => UB
  end.

(** table[i] = c *)
Definition tset h p i c : outcome (bheap V) :=
  match p with
  | Some t => match tb h !! t with
              | Some cs => if (i <? 0) || (zlen cs <=? i) then UB
                           else Ok (BHeap (el h) (bl h) (<[t := <[Z.to_nat i := c]> cs]> (tb h)) (nx h))
              | None => UB
              end
  | None => UB
  end.

(** new X*[n] *)
Definition talloc h n : bheap V * option nat :=
  (BHeap (el h) (bl h) (<[nx h := replicate (Z.to_nat n) None]> (tb h)) (S (nx h)), Some (nx h)).

(** delete[] p *)
Definition tdelete h p : outcome (bheap V) :=
  match p with
  | None => Ok h
  | Some t => match tb h !! t with Some _ => Ok (BHeap (el h) (bl h) (delete t (tb h)) (nx h)) | None => UB end
  end.

(** std::copy(a + i, a + i + n, d + k) between two different tables *)
Definition tcopy h p i n q k : outcome (bheap V) :=
  match p, q with
  | Some t, Some u =>
      match tb h !! t, tb h !! u with
      | Some cs, Some ds =>
          if (0 <=? i) && (0 <=? n) && (i + n <=? zlen cs) && (0 <=? k) && (k + n <=? zlen ds) then
            Ok (BHeap (el h) (bl h)
                  (<[u := take (Z.to_nat k) ds ++ take (Z.to_nat n) (drop (Z.to_nat i) cs) ++ drop (Z.to_nat (k + n)) ds]> (tb h))
                  (nx h))
          else UB
      | _, _ => UB
      end
  | _, _ => UB
  end.

(** A.allocate(blockSize) *)
Definition balloc h : bheap V * cell := (BHeap (el h) ({[nx h]} ∪ bl h) (tb h) (S (nx h)), Some (nx h)).

(** A.deallocate(c, blockSize) *)
Definition bfree h c : outcome (bheap V) :=
  match c with
  | Some b => if bool_decide (b ∈ bl h) && bool_decide (map_Forall (fun k _ => k.1 <> b) (el h))
              then Ok (BHeap (el h) (bl h ∖ {[b]}) (tb h) (nx h)) else UB
  | None => UB
  end.

(** the slot c[j] *)
Definition slot h c j : outcome nat :=
  match c with
  | Some b => if bool_decide (b ∈ bl h) && (0 <=? j) && (j <? B) then Ok b else UB
  | None => UB
  end.

(** new (&c[j]) X{v} *)
Definition emake h c j (v : V) : outcome (bheap V) :=
  b <-! slot h c j ;;
  match el h !! (b, j) with
  | None => Ok (BHeap (<[(b, j) := v]> (el h)) (bl h) (tb h) (nx h))
  | Some _ => UB
  end.

(** c[j].~X() *)
Definition ekill h c j : outcome (bheap V) :=
  b <-! slot h c j ;;
  match el h !! (b, j) with
  | Some _ => Ok (BHeap (delete (b, j) (el h)) (bl h) (tb h) (nx h))
  | None => if triv P then Ok h else UB
  end.

(** read c[j] *)
Definition eget h c j : outcome V :=
  b <-! slot h c j ;;
  match el h !! (b, j) with Some v => Ok v | None => UB end.

(** c[j] = v *)
Definition eset h c j (v : V) : outcome (bheap V) :=
  b <-! slot h c j ;;
  match el h !! (b, j) with
  | Some _ => Ok (BHeap (<[(b, j) := v]> (el h)) (bl h) (tb h) (nx h))
  | None => UB
  end.

(** for (jj = n - 1; jj >= lo; --jj) table[i][jj].~X(), with [k = n - lo] iterations *)
Fixpoint kill_down h p i lo (k : nat) : outcome (bheap V) :=
  match k with
  | O => Ok h
  | S k' => c <-! tget h p i ;; h1 <-! ekill h c (lo + Z.of_nat k') ;; kill_down h1 p i lo k'
  end.

(** for (jj = lo; jj < lo + k; ++jj) new (&table[i][jj]) X{v} *)
Fixpoint make_up h p i lo (k : nat) (v : V) : outcome (bheap V) :=
  match k with
  | O => Ok h
  | S k' => c <-! tget h p i ;; h1 <-! emake h c lo v ;; make_up h1 p i (lo + 1) k' v
  end.

(** ** The list of spare blocks (freeblocks, freeIndex, freeSlotsAvailable) *)
Record flist := FList { f_slots : Z; f_idx : Z; f_tab : option nat }.
Definition flist0 : flist := FList 0 0 None.

(** StableBlockVector.hpp:398-414, StableBlockDeque.hpp:551-567 moveBlocktoAvailable *)
Definition fl_put h (f : flist) c : outcome (bheap V * flist) :=
  '(h1, f1) <-!
    (if f_slots f <=? f_idx f then
       if f_slots f =? 0 then let '(h', t) := talloc h 64 in Ok (h', FList 64 (f_idx f) t)
       else let '(h', t) := talloc h (f_slots f * 2) in
            h2 <-! tcopy h' (f_tab f) 0 (f_slots f) t 0 ;;
            h3 <-! tdelete h2 (f_tab f) ;;
            Ok (h3, FList (f_slots f * 2) (f_idx f) t)
     else Ok (h, f)) ;;
  h4 <-! tset h1 (f_tab f1) (f_idx f1) c ;;
  Ok (h4, FList (f_slots f1) (f_idx f1 + 1) (f_tab f1)).

(** StableBlockVector.hpp:416-423, StableBlockDeque.hpp:569-576 getNewBlock *)
Definition fl_get h (f : flist) : outcome (bheap V * flist * cell) :=
  if f_idx f =? 0 then let '(h1, c) := balloc h in Ok (h1, f, c)
  else c <-! tget h (f_tab f) (f_idx f - 1) ;; Ok (h, FList (f_slots f) (f_idx f - 1) (f_tab f), c).

(** for (ii = 0; ii < freeIndex; ++ii) a.deallocate(freeblocks[ii]) *)
Fixpoint fl_free h (f : flist) i (k : nat) : outcome (bheap V) :=
  match k with
  | O => Ok h
  | S k' => c <-! tget h (f_tab f) i ;; h1 <-! bfree h c ;; fl_free h1 f (i + 1) k'
  end.

(** StableBlockVector.hpp:248-255, StableBlockDeque.hpp:354-361 shrink_to_fit *)
Definition fl_shrink h (f : flist) : outcome (bheap V * flist) :=
  h1 <-! fl_free h f 0 (Z.to_nat (f_idx f)) ;; Ok (h1, FList (f_slots f) 0 (f_tab f)).

End prim.
