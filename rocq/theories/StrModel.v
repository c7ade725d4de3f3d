(** Where the search terms of StringMappedVector.hpp and DualStringMappedVector.hpp live.

    The strings are elements of [names], a StableBlockVector<std::string>; the keys of [lookup] ([lookup1]) are
    std::string_view objects.  A view is modelled as the slot of [names] whose string it was taken from: the characters
    are inside that string object or in a buffer it owns, so the view is good as long as the slot holds the string.

    Simplifications: of dataStorage only the number of elements is kept (its contents are modelled in MapModel.v and
    DualModel.v); [lookup2] of the dual class holds no text and appears only through the answers of its look-ups, which
    the operations take as arguments; a look-up is modelled as reading every stored view, where the library reads those
    of one bucket.  The iteration order of the hash table is arbitrary and can
    change at any moment ([SShuffle] exchanges two neighbours). *)
From stdpp Require Import gmap.
From Verif Require Import Base BlkHeap BlkIter VecModel.

(** A view and the position stored under it *)
Notation node := (nat * Z * Z)%type.

Record svec := SVec { s_num : Z; s_names : vec; s_nodes : list node }.
Record sworld (T : Type) := SWorld { sw_heap : bheap T; sw_objs : gmap nat svec }.
Arguments SWorld {T}. Arguments sw_heap {T}. Arguments sw_objs {T}.

Inductive sop (T : Type) :=
| SNew (o : nat) | SCopy (o src : nat) | SMove (o src : nat) | SCopyAssign (o src : nat) | SMoveAssign (o src : nat)
| SDestroy (o : nat)
| SInsert (o : nat) (t : T)                       (* insert(text, data) or insert(text, no_search, data) *)
| SInsertBoth (o : nat) (t : T) (used2 : bool)    (* dual: insert(text, key2, data); is key2 in lookup2? *)
| SInsertNo (o : nat)                             (* insert without text *)
| SAssign (o : nat) (t : T)                       (* insert_or_assign(text, ...) *)
| STermIdx (o : nat) (t : T) (i : Z)              (* dual: addSearchTermForIndex(text, index) *)
| STerm (o : nat) (t t' : T)                      (* dual: addSearchTerm(text, existing text) *)
| STermKey (o : nat) (t : T) (r : option Z)       (* dual: addSearchTerm(text, existing key2); answer of lookup2 *)
| SFind (o : nat) (t : T)
| SRemoveIdx (o : nat) (i : Z) | SRemove (o : nat) (t : T)
| SClear (o : nat)
| SShuffle (o : nat) (k : nat).
Arguments SNew {T}. Arguments SCopy {T}. Arguments SMove {T}. Arguments SCopyAssign {T}. Arguments SMoveAssign {T}.
Arguments SDestroy {T}. Arguments SInsert {T}. Arguments SInsertBoth {T}. Arguments SInsertNo {T}. Arguments SAssign {T}.
Arguments STermIdx {T}. Arguments STerm {T}. Arguments STermKey {T}. Arguments SFind {T}. Arguments SRemoveIdx {T}.
Arguments SRemove {T}. Arguments SClear {T}. Arguments SShuffle {T}.

Inductive sret := SUnit | SIdx (i : Z) | SNone | SBool (b : bool).

Section str.
Context {T : Type} `{EqDecision T}.
Variable P : params.                 (* BLOCK_ORDER; std::string has a destructor *)
Variable empty_text : T.             (* the text of a default constructed string_view *)
Variable dual : bool.                (* DualStringMappedVector rather than StringMappedVector *)
Implicit Types (h : bheap T) (v : vec) (t : T) (nd : list node) (s : svec).

(** The text a view refers to *)
Definition sread h (n : node) : outcome T :=
  let '(b, j, _) := n in match el h !! (b, j) with Some t => Ok t | None => UB end.

(** lookup.find(t): the number of the node found *)
Fixpoint sfind h nd t : outcome (option nat) :=
  match nd with
  | [] => Ok None
  | n :: nd' =>
      u <-! sread h n ;; r <-! sfind h nd' t ;;
      Ok (if bool_decide (u = t) then Some O else option_map S r)
  end.

Definition spos nd (k : nat) : Z := match nd !! k with Some (_, i) => i | None => 0 end.

(** names.back(), StableBlockVector.hpp:257-267: the slot *)
Definition back_slot h v : outcome (nat * Z) :=
  if v_bsize v =? 0
  then c <-! tget h (v_data v) (Z.shiftr (v_size v) (expo P) - 1) ;; match c with Some b => Ok (b, bsz P - 1) | None => UB end
  else c <-! tget h (v_data v) (v_idx v) ;; match c with Some b => Ok (b, v_bsize v - 1) | None => UB end.

(** names.emplace_back(t); lookup.emplace(names.back(), i): was the entry made?  [n] is the number of elements then.
    StringMappedVector.hpp:48-49, 81-82; DualStringMappedVector.hpp:63-64, 87-88, 148-149, 171-172, 201-202, 215-216, 265-266 *)
Definition sadd h s t i n : outcome (bheap T * svec * bool) :=
  '(h1, v1) <-! vec_push P h (s_names s) t ;;
  '(b, j) <-! back_slot h1 v1 ;;
  t' <-! sread h1 (b, j, i) ;;
  r <-! sfind h1 (s_nodes s) t' ;;
  match r with
  | Some _ => Ok (h1, SVec n v1 (s_nodes s), false)
  | None => Ok (h1, SVec n v1 (s_nodes s ++ [(b, j, i)]), true)
  end.

(** localErase: StringMappedVector.hpp:204-213, DualStringMappedVector.hpp:415-424 *)
Definition slast (num i : Z) : bool := i =? num - 1.
Definition sshift (erased : bool) (i : Z) (n : node) : node :=
  let '(b, j, k) := n in (b, j, if erased && (i <? k) then k - 1 else k).
(** The nodes met by the [else if] of the loops *)
Definition shit (erased : bool) (i : Z) (n : node) : bool :=
  let '(_, _, k) := n in negb (erased && (i <? k)) && (k =? i).

(** DualStringMappedVector.hpp:331-336: erase the entry of every view collected (that walking over the collected views
    can itself go wrong is C32) *)
Fixpoint serase_all h nd (ind : list node) : outcome (list node) :=
  match ind with
  | [] => Ok nd
  | n :: ind' =>
      t <-! sread h n ;; r <-! sfind h nd t ;;
      serase_all h (match r with Some k => delete k nd | None => nd end) ind'
  end.

(** StringMappedVector.hpp:121-139, DualStringMappedVector.hpp:307-344 *)
Definition sremove_idx h s i : outcome svec :=
  if s_num s <=? i then Ok s
  else
    let erased := slast (s_num s) i in
    let nd1 := map (sshift erased i) (s_nodes s) in
    let ind := List.filter (shit erased i) (s_nodes s) in
    let num1 := if erased then s_num s - 1 else s_num s in
    if dual then nd2 <-! serase_all h nd1 ind ;; Ok (SVec num1 (s_names s) nd2)
    else
      t <-! match last ind with Some n => sread h n | None => Ok empty_text end ;;
      r <-! sfind h nd1 t ;;
      Ok (SVec num1 (s_names s) (match r with Some k => delete k nd1 | None => nd1 end)).

(** StringMappedVector.hpp:141-156, DualStringMappedVector.hpp:346-354 *)
Definition sremove h s t : outcome svec :=
  r <-! sfind h (s_nodes s) t ;;
  match r with
  | None => Ok s
  | Some k =>
      let i := spos (s_nodes s) k in
      if dual then sremove_idx h s i
      else
        let erased := slast (s_num s) i in
        Ok (SVec (if erased then s_num s - 1 else s_num s) (s_names s) (delete k (map (sshift erased i) (s_nodes s))))
  end.

Fixpoint swap_at (k : nat) nd : list node :=
  match k, nd with
  | O, n1 :: n2 :: nd' => n2 :: n1 :: nd'
  | S k', n1 :: nd' => n1 :: swap_at k' nd'
  | _, _ => nd
  end.

(** Calls on one object *)
Definition sstep1 h s (p : sop T) : outcome (bheap T * svec * sret) :=
  match p with
  | SInsert _ t =>            (* StringMappedVector.hpp:40-51, DualStringMappedVector.hpp:76-91 *)
      r <-! sfind h (s_nodes s) t ;;
      match r with
      | Some _ => Ok (h, s, SNone)
      | None => '(h1, s1, _) <-! sadd h s t (s_num s) (s_num s + 1) ;; Ok (h1, s1, SIdx (s_num s))
      end
  | SInsertBoth _ t used2 =>  (* DualStringMappedVector.hpp:49-68 *)
      r <-! sfind h (s_nodes s) t ;;
      match r, used2 with
      | Some _, true => Ok (h, s, SNone)
      | _, _ => '(h1, s1, _) <-! sadd h s t (s_num s) (s_num s + 1) ;; Ok (h1, s1, SIdx (s_num s))
      end
  | SInsertNo _ => Ok (h, SVec (s_num s + 1) (s_names s) (s_nodes s), SIdx (s_num s))
  | SAssign _ t =>            (* StringMappedVector.hpp:72-84, DualStringMappedVector.hpp:135-175 *)
      r <-! sfind h (s_nodes s) t ;;
      match r with
      | Some k => Ok (h, s, SIdx (spos (s_nodes s) k))
      | None => '(h1, s1, _) <-! sadd h s t (s_num s) (s_num s + 1) ;; Ok (h1, s1, SIdx (s_num s))
      end
  | STermIdx _ t i =>         (* DualStringMappedVector.hpp:198-206 *)
      if i <? s_num s then '(h1, s1, b) <-! sadd h s t i (s_num s) ;; Ok (h1, s1, SBool b) else Ok (h, s, SBool false)
  | STerm _ t t' =>           (* DualStringMappedVector.hpp:209-220 *)
      r <-! sfind h (s_nodes s) t' ;;
      match r with
      | Some k => '(h1, s1, b) <-! sadd h s t (spos (s_nodes s) k) (s_num s) ;; Ok (h1, s1, SBool b)
      | None => Ok (h, s, SBool false)
      end
  | STermKey _ t r =>         (* DualStringMappedVector.hpp:259-270 *)
      match r with
      | Some i => '(h1, s1, b) <-! sadd h s t i (s_num s) ;; Ok (h1, s1, SBool b)
      | None => Ok (h, s, SBool false)
      end
  | SFind _ t =>
      r <-! sfind h (s_nodes s) t ;;
      Ok (h, s, match r with Some k => SIdx (spos (s_nodes s) k) | None => SNone end)
  | SRemoveIdx _ i => s1 <-! sremove_idx h s i ;; Ok (h, s1, SUnit)
  | SRemove _ t => s1 <-! sremove h s t ;; Ok (h, s1, SUnit)
  | SClear _ => Ok (h, SVec 0 (s_names s) [], SUnit)  (* StringMappedVector.hpp:197-201: the strings stay *)
  | SShuffle _ k => Ok (h, SVec (s_num s) (s_names s) (swap_at k (s_nodes s)), SUnit)
  | _ => UB
  end.

Definition sget (w : sworld T) (o : nat) : outcome svec :=
  match sw_objs w !! o with Some s => Ok s | None => UB end.

Definition sobj_of (p : sop T) : nat :=
  match p with
  | SNew o | SCopy o _ | SMove o _ | SCopyAssign o _ | SMoveAssign o _ | SDestroy o | SInsert o _ | SInsertBoth o _ _
  | SInsertNo o | SAssign o _ | STermIdx o _ _ | STerm o _ _ | STermKey o _ _ | SFind o _ | SRemoveIdx o _ | SRemove o _
  | SClear o | SShuffle o _ => o
  end.

(** Neither class declares a copy or move member: the implicit ones treat each data member in turn.  A hash table that
    was moved from is modelled as empty (so it is in the common libraries), the number of elements of a dataStorage
    that was moved from as 0 after construction; after assignment StableBlockVector keeps its counter (C19). *)
Definition swstep (w : sworld T) (p : sop T) : outcome (sworld T * sret) :=
  let h := sw_heap w in
  match p with
  | SNew o => Ok (SWorld h (<[o := SVec 0 (vec_default P) []]> (sw_objs w)), SUnit)
  | SCopy o src =>
      s <-! sget w src ;;
      '(h1, v) <-! vec_copy P h (s_names s) ;;
      Ok (SWorld h1 (<[o := SVec (s_num s) v (s_nodes s)]> (sw_objs w)), SUnit)
  | SMove o src =>
      s <-! sget w src ;;
      let '(v, v') := vec_move (s_names s) in
      Ok (SWorld h (<[o := SVec (s_num s) v (s_nodes s)]> (<[src := SVec 0 v' []]> (sw_objs w))), SUnit)
  | SCopyAssign o src =>
      d <-! sget w o ;; s <-! sget w src ;;
      '(h1, v) <-! vec_copy_assign P h (s_names d) (s_names s) ;;
      Ok (SWorld h1 (<[o := SVec (s_num s) v (s_nodes s)]> (sw_objs w)), SUnit)
  | SMoveAssign o src =>
      d <-! sget w o ;; s <-! sget w src ;;
      '(h1, v, v') <-! vec_move_assign P h (s_names d) (s_names s) ;;
      Ok (SWorld h1 (<[src := SVec (s_num s) v' []]> (<[o := SVec (s_num s) v (s_nodes s)]> (sw_objs w))), SUnit)
  | SDestroy o =>
      s <-! sget w o ;; h1 <-! vec_free_all P h (s_names s) ;; Ok (SWorld h1 (delete o (sw_objs w)), SUnit)
  | _ =>
      s <-! sget w (sobj_of p) ;;
      '(h1, s1, r) <-! sstep1 h s p ;; Ok (SWorld h1 (<[sobj_of p := s1]> (sw_objs w)), r)
  end.

Fixpoint swrun (w : sworld T) (ps : list (sop T)) : outcome (sworld T * list (sop T * sret)) :=
  match ps with
  | [] => Ok (w, [])
  | p :: ps' => '(w1, r) <-! swstep w p ;; '(w2, tr) <-! swrun w1 ps' ;; Ok (w2, (p, r) :: tr)
  end.

Definition sworld0 : sworld T := SWorld bheap0 ∅.

End str.
