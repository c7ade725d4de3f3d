(** Model of MappedVector.hpp, MappedPointerVector.hpp and (apart from the storage of the key text, StrModel.v)
    StringMappedVector.hpp.  The three classes have the same code for the calls modelled here; lines are cited as
    MV, MPV and SMV.

    - The lookup map is a finite map.  Loops over it visit the keys in an order [ord] chosen by the environment: any
      permutation of the keys, so std::map and std::unordered_map are both covered.
    - [kdef] is what "searchType ind;" yields: [Some k] for class types such as std::string, [None] (an indeterminate
      value, reading it is undefined) for scalar types.
    - For the pointer class an element of the storage is the unique_ptr itself. *)
From stdpp Require Import gmap.
From Verif Require Import Base BlkHeap BlkIter VecModel MapStore.

(** lookup.emplace(k, i): does nothing if the key is present *)
Definition mp_emplace `{Countable K} (k : K) (i : Z) (lk : gmap K Z) : gmap K Z :=
  match lk !! k with Some _ => lk | None => <[k := i]> lk end.

(** MV:139-145, MPV:141-147, SMV:128-134: the loop of removeIndex over the keys in the order [ord]; the result is the new
    map and the last key found with the removed index *)
Fixpoint mp_shift `{Countable K} (er : bool) (i : Z) (ord : list K) (lk : gmap K Z) (ind : option K) : gmap K Z * option K :=
  match ord with
  | [] => (lk, ind)
  | k :: ord' =>
      match lk !! k with
      | Some j => if er && (i <? j) then mp_shift er i ord' (<[k := j - 1]> lk) ind
                  else if j =? i then mp_shift er i ord' lk (Some k)
                  else mp_shift er i ord' lk ind
      | None => mp_shift er i ord' lk ind
      end
  end.

(** MV:160-164, MPV:162-166, SMV:149-153: the loop of remove *)
Fixpoint mp_dec `{Countable K} (i : Z) (ord : list K) (lk : gmap K Z) : gmap K Z :=
  match ord with
  | [] => lk
  | k :: ord' =>
      match lk !! k with
      | Some j => if i <? j then mp_dec i ord' (<[k := j - 1]> lk) else mp_dec i ord' lk
      | None => mp_dec i ord' lk
      end
  end.

Section map.
Context {V : Type} `{Countable K}.
Variable P : params.
Variable kdef : option K.

(** MV:230-239, MPV:203-209, SMV:217-225 *)
Record mv := Mv { m_st : store V; m_lk : gmap K Z }.

Inductive mop :=
| MInsert (k : K) (x : V) | MInsertNo (x : V) | MAssign (k : K) (x : V)
| MFind (k : K) | MFindP (k : K) | MGet (i : Z) | MGetP (i : Z) | MAt (i : Z) | MBack
| MAlias (k : K) (i : Z) | MRemoveIdx (i : Z) (ord : list K) | MRemove (k : K) (ord : list K)
| MModify (f : V -> V) | MApply | MSize | MClear.
Inductive mret := MUnit | MIdx (i : option Z) | MVal (x : option V) | MOut | MBool (b : bool) | MInt (n : Z) | MList (xs : list V).

(** MV:40-52, MPV:33-58 (both overloads), SMV:39-51 *)
Definition mv_insert m k x : outcome (mv * mret) :=
  match m_lk m !! k with
  | Some _ => Ok (m, MIdx None)
  | None =>
      let index := st_size (m_st m) in
      '(s, _) <-! st_step P (m_st m) (VPush x) ;;
      Ok (Mv s (mp_emplace k index (m_lk m)), MIdx (Some index))
  end.

(** MV:56-63, MPV:61-68, SMV:55-62 *)
Definition mv_insert_no m x : outcome (mv * mret) :=
  let index := st_size (m_st m) in
  '(s, _) <-! st_step P (m_st m) (VPush x) ;; Ok (Mv s (m_lk m), MIdx (Some index)).

(** MV:72-84, MPV:70-99 (both overloads), SMV:71-84 *)
Definition mv_assign m k x : outcome (mv * mret) :=
  match m_lk m !! k with
  | Some i => '(s, _) <-! st_step P (m_st m) (VSet i x) ;; Ok (Mv s (m_lk m), MIdx (Some i))
  | None =>
      let index := st_size (m_st m) in
      '(s, _) <-! st_step P (m_st m) (VPush x) ;;
      Ok (Mv s (mp_emplace k index (m_lk m)), MIdx (Some index))
  end.

(** MV:86-102, SMV:86-102 *)
Definition mv_find m k : outcome siter :=
  match m_lk m !! k with Some i => st_iter P (m_st m) i | None => st_end P (m_st m) end.
(** How a caller uses the result: auto it = m.find(k); if (it != m.end()) ... *it ... *)
Definition mv_find_use m k : outcome (mv * mret) :=
  it <-! mv_find m k ;; last <-! st_end P (m_st m) ;;
  if si_eq it last then Ok (m, MVal None) else x <-! st_deref P (m_st m) it ;; Ok (m, MVal (Some x)).

(** MPV:107-114 *)
Definition mv_findp m k : outcome (mv * mret) :=
  match m_lk m !! k with
  | Some i => '(_, r) <-! st_step P (m_st m) (VGet i) ;; match r with VVal x => Ok (m, MVal (Some x)) | _ => UB end
  | None => Ok (m, MVal None)
  end.

(** MV:104-109, SMV:104-109 *)
Definition mv_get m i : outcome (mv * mret) :=
  '(_, r) <-! st_step P (m_st m) (VGet i) ;; match r with VVal x => Ok (m, MVal (Some x)) | _ => UB end.
(** MPV:116-120 *)
Definition mv_getp m i : outcome (mv * mret) :=
  if i <? st_size (m_st m) then mv_get m i else Ok (m, MVal None).
(** MV:111-113, SMV:111-113 *)
Definition mv_at m i : outcome (mv * mret) :=
  '(_, r) <-! st_step P (m_st m) (VAt i) ;;
  match r with VVal x => Ok (m, MVal (Some x)) | VOutOfRange => Ok (m, MOut) | _ => UB end.
(** MV:116-119, MPV:102, SMV:116-119 *)
Definition mv_back m : outcome (mv * mret) :=
  '(_, r) <-! st_step P (m_st m) VBack ;; match r with VVal x => Ok (m, MVal (Some x)) | _ => UB end.

(** MV:122-129, MPV:123-130 *)
Definition mv_alias m k i : outcome (mv * mret) :=
  if i <? st_size (m_st m)
  then Ok (Mv (m_st m) (mp_emplace k i (m_lk m)), MBool (match m_lk m !! k with Some _ => false | None => true end))
  else Ok (m, MBool false).

(** MV:132-150, MPV:134-152, SMV:121-139.  In MPV the erasure is unconditional (a std::vector). *)
Definition mv_remove_idx m i ord : outcome (mv * mret) :=
  if st_size (m_st m) <=? i then Ok (m, MUnit)
  else
    '(s, er) <-! st_erase P (m_st m) i ;;
    let '(lk, ind) := mp_shift er i ord (m_lk m) kdef in
    match ind with
    | None => UB
    | Some k => Ok (Mv s (delete k lk), MUnit)
    end.

(** MV:152-167, MPV:154-168, SMV:141-156 *)
Definition mv_remove m k ord : outcome (mv * mret) :=
  match m_lk m !! k with
  | None => Ok (m, MUnit)
  | Some i =>
      '(s, er) <-! st_erase P (m_st m) i ;;
      let lk := if (er : bool) then mp_dec i ord (m_lk m) else m_lk m in
      Ok (Mv s (delete k lk), MUnit)
  end.

(** MV:178-190 modify, transform (and MPV:172-178 apply with a function that changes the element), SMV:168-181 *)
Definition mv_modify m f : outcome (mv * mret) :=
  '(s, l) <-! st_modify P (m_st m) f ;; Ok (Mv s (m_lk m), MList l).
(** MV:171-175 apply, 198-200 begin/end, MPV:182-192, SMV:160-164, 189-191 *)
Definition mv_apply m : outcome (mv * mret) :=
  '(_, r) <-! st_step P (m_st m) VWalk ;; match r with VList l => Ok (m, MList l) | _ => UB end.

(** MV:206-210, MPV:196-200, SMV:197-201 *)
Definition mv_clear m : outcome (mv * mret) :=
  '(s, _) <-! st_step P (m_st m) VClear ;; Ok (Mv s ∅, MUnit).

Definition mv_step m (o : mop) : outcome (mv * mret) :=
  match o with
  | MInsert k x => mv_insert m k x
  | MInsertNo x => mv_insert_no m x
  | MAssign k x => mv_assign m k x
  | MFind k => mv_find_use m k
  | MFindP k => mv_findp m k
  | MGet i => mv_get m i
  | MGetP i => mv_getp m i
  | MAt i => mv_at m i
  | MBack => mv_back m
  | MAlias k i => mv_alias m k i
  | MRemoveIdx i ord => mv_remove_idx m i ord
  | MRemove k ord => mv_remove m k ord
  | MModify f => mv_modify m f
  | MApply => mv_apply m
  | MSize => Ok (m, MInt (st_size (m_st m)))
  | MClear => mv_clear m
  end.

Fixpoint mv_run m (ops : list mop) : outcome (mv * list (mop * mret)) :=
  match ops with
  | [] => Ok (m, [])
  | o :: ops' => '(m1, r) <-! mv_step m o ;; '(m2, tr) <-! mv_run m1 ops' ;; Ok (m2, (o, r) :: tr)
  end.

(** The empty container; [stb]: reference_stability::stable *)
Definition mv0 (stb : bool) : mv := Mv (if stb then SBlk bheap0 (vec_default P) else SVec []) ∅.

End map.
Arguments mv V K {_ _} : assert. Arguments mop : clear implicits. Arguments mret : clear implicits.
