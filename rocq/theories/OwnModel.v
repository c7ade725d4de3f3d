(** Ownership in MappedPointerVector.hpp (MPV) and DualMappedPointerVector.hpp (DMPV): the objects behind the unique_ptrs.

    - An object is known by its address, a number that is never used twice.  Destroying an object that is not alive is undefined.
    - unique_ptr: an address or null; moving from one leaves null; assigning to one destroys what it held.
    - dataStorage is the list of its unique_ptrs, in order.  A reallocation moves them and destroys nothing.
    - Lookup maps and their loops are those of MapModel.v and DualModel.v.
    - The user of the containers has unique_ptrs too, which can be given to insert and insert_or_assign.
    - Exceptions are not modelled here (C78-C81); objects do not touch the containers when they are made or destroyed. *)
From stdpp Require Import gmap.
From Verif Require Import Base BlkHeap VecModel MapStore MapModel DualModel.

Notation uptr := (option nat).

(** What a unique_ptr is made from: make_unique<VType>(data...), or std::move of a unique_ptr of the user *)
Inductive src (W : Type) := SArgs (w : W) | SUser (x : nat).
Arguments SArgs {W} w. Arguments SUser {W} x.

Section mem.
Context {W : Type}.                     (* contents of objects *)

(** Objects alive, the next address, the unique_ptrs of the user, and (only recorded) what was destroyed, in order *)
Record omem := OM { live : gmap nat W; nxt : nat; usr : list uptr; dels : list nat }.
Definition om0 : omem := OM ∅ O [] [].

(** ~unique_ptr *)
Definition u_del (p : uptr) (m : omem) : outcome omem :=
  match p with
  | None => Ok m
  | Some a => match live m !! a with Some _ => Ok (OM (delete a (live m)) (nxt m) (usr m) (dels m ++ [a])) | None => UB end
  end.
Definition u_new (w : W) (m : omem) : omem * uptr := (OM (<[nxt m := w]> (live m)) (S (nxt m)) (usr m) (dels m), Some (nxt m)).
(** A unique_ptr made from the argument; a unique_ptr of the user is null afterwards *)
Definition u_src (s : src W) (m : omem) : omem * uptr :=
  match s with
  | SArgs w => u_new w m
  | SUser x => (OM (live m) (nxt m) (<[x := None]> (usr m)) (dels m), default None (usr m !! x))
  end.

(** std::vector<std::unique_ptr>: emplace_back *)
Definition c_push (m : omem) (cs : list uptr) (s : src W) : omem * list uptr := let '(m1, p) := u_src s m in (m1, cs ++ [p]).
(** dataStorage[i] = ... *)
Definition c_set (m : omem) (cs : list uptr) (i : Z) (s : src W) : outcome (omem * list uptr) :=
  let '(m1, p) := u_src s m in
  if 0 <=? i then
    match cs !! Z.to_nat i with
    | Some old => m2 <-! u_del old m1 ;; Ok (m2, <[Z.to_nat i := p]> cs)
    | None => UB
    end
  else UB.
(** erase: the elements behind are moved down one by one with operator=, then the last one is destroyed *)
Fixpoint c_down (m : omem) (x : uptr) (rest : list uptr) : outcome (omem * list uptr) :=
  match rest with
  | [] => m1 <-! u_del x m ;; Ok (m1, [])
  | y :: rest' => m1 <-! u_del x m ;; '(m2, cs) <-! c_down m1 None rest' ;; Ok (m2, y :: cs)
  end.
Definition c_erase (m : omem) (cs : list uptr) (i : Z) : outcome (omem * list uptr) :=
  if 0 <=? i then
    match drop (Z.to_nat i) cs with
    | x :: rest => '(m1, cs1) <-! c_down m x rest ;; Ok (m1, take (Z.to_nat i) cs ++ cs1)
    | [] => UB
    end
  else UB.
(** clear(), ~vector *)
Fixpoint c_clear (m : omem) (cs : list uptr) : outcome omem :=
  match cs with [] => Ok m | p :: cs' => m1 <-! u_del p m ;; c_clear m1 cs' end.

Inductive pret := QUnit | QIdx (i : option Z) | QPtr (p : uptr) | QBool (b : bool) | QInt (n : Z) | QList (l : list uptr).

(** ** MappedPointerVector *)
Section mpv.
Context `{Countable K}.
Variable kdef : option K.
Record pv := Pv { cells : list uptr; p_lk : gmap K Z }.
Inductive pcall :=
| PInsert (k : K) (s : src W) | PInsertNo (w : W) | PAssign (k : K) (s : src W) | PFind (k : K) | PGet (i : Z) | PBack
| PAlias (k : K) (i : Z) | PRemoveIdx (i : Z) (ord : list K) | PRemove (k : K) (ord : list K) | PApply | PSize | PClear.

Definition pv_step (m : omem) (c : pv) (o : pcall) : outcome (omem * pv * pret) :=
  match o with
  | PInsert k s =>                                            (* MPV:33-58, both overloads *)
      match p_lk c !! k with
      | Some _ => Ok (m, c, QIdx None)
      | None => let index := zlen (cells c) in let '(m1, cs) := c_push m (cells c) s in
                Ok (m1, Pv cs (mp_emplace k index (p_lk c)), QIdx (Some index))
      end
  | PInsertNo w =>                                            (* MPV:61-68 *)
      let index := zlen (cells c) in let '(m1, cs) := c_push m (cells c) (SArgs w) in Ok (m1, Pv cs (p_lk c), QIdx (Some index))
  | PAssign k s =>                                            (* MPV:70-99, both overloads *)
      match p_lk c !! k with
      | Some i => '(m1, cs) <-! c_set m (cells c) i s ;; Ok (m1, Pv cs (p_lk c), QIdx (Some i))
      | None => let index := zlen (cells c) in let '(m1, cs) := c_push m (cells c) s in
                Ok (m1, Pv cs (mp_emplace k index (p_lk c)), QIdx (Some index))
      end
  | PFind k =>                                                (* MPV:107-114 *)
      match p_lk c !! k with
      | Some i => if i <? 0 then UB else match cells c !! Z.to_nat i with Some p => Ok (m, c, QPtr p) | None => UB end
      | None => Ok (m, c, QPtr None)
      end
  | PGet i =>                                                 (* MPV:116-120 *)
      if i <? zlen (cells c) then if i <? 0 then UB else match cells c !! Z.to_nat i with Some p => Ok (m, c, QPtr p) | None => UB end
      else Ok (m, c, QPtr None)
  | PBack => match last (cells c) with Some p => Ok (m, c, QPtr p) | None => UB end            (* MPV:102 *)
  | PAlias k i =>                                             (* MPV:123-130 *)
      if i <? zlen (cells c) then Ok (m, Pv (cells c) (mp_emplace k i (p_lk c)), QBool (match p_lk c !! k with Some _ => false | None => true end))
      else Ok (m, c, QBool false)
  | PRemoveIdx i ord =>                                       (* MPV:134-152 *)
      if zlen (cells c) <=? i then Ok (m, c, QUnit)
      else '(m1, cs) <-! c_erase m (cells c) i ;;
           let '(lk, ind) := mp_shift true i ord (p_lk c) kdef in
           match ind with Some k => Ok (m1, Pv cs (delete k lk), QUnit) | None => UB end
  | PRemove k ord =>                                          (* MPV:154-168 *)
      match p_lk c !! k with
      | None => Ok (m, c, QUnit)
      | Some i => '(m1, cs) <-! c_erase m (cells c) i ;; Ok (m1, Pv cs (delete k (mp_dec i ord (p_lk c))), QUnit)
      end
  | PApply => Ok (m, c, QList (cells c))                      (* MPV:172-192: what the function is given *)
  | PSize => Ok (m, c, QInt (zlen (cells c)))                 (* MPV:194 *)
  | PClear => m1 <-! c_clear m (cells c) ;; Ok (m1, Pv [] ∅, QUnit)                            (* MPV:196-200 *)
  end.
End mpv.

(** ** DualMappedPointerVector *)
Section dmpv.
Context `{Countable K1} `{Countable K2}.
Variables (kd1 : option K1) (kd2 : option K2).
Record pd := Pd { dcells : list uptr; p_l1 : gmap K1 Z; p_l2 : gmap K2 Z }.
Inductive pdcall :=
| QInsert (k1 : K1) (k2 : K2) (s : src W) | QInsert1 (k1 : K1) (w : W) | QInsert2 (k2 : K2) (w : W)
| QAssign (k1 : K1) (k2 : K2) (s : src W) | QAssign1 (k1 : K1) (w : W) | QAssign2 (k2 : K2) (w : W)
| QFind (k : K1 + K2) | QGet (i : Z) | QBack
| QRemoveIdx (i : Z) (o1 : list K1) (o2 : list K2) | QRemove (k : K1 + K2) (o1 : list K1) (o2 : list K2) | QApply | QSize | QClear.

Definition pd_look (c : pd) (k : K1 + K2) : option Z := match k with inl k1 => p_l1 c !! k1 | inr k2 => p_l2 c !! k2 end.
Definition pd_enter (k : K1 + K2) (i : Z) (cs : list uptr) (c : pd) : pd :=
  match k with inl k1 => Pd cs (mp_emplace k1 i (p_l1 c)) (p_l2 c) | inr k2 => Pd cs (p_l1 c) (mp_emplace k2 i (p_l2 c)) end.
(** insert with one key, DMPV:88-121; insert_or_assign with one key, DMPV:173-210 *)
Definition pd_insert_one m c k w : outcome (omem * pd * pret) :=
  match pd_look c k with
  | Some _ => Ok (m, c, QIdx None)
  | None => let index := zlen (dcells c) in let '(m1, cs) := c_push m (dcells c) (SArgs w) in Ok (m1, pd_enter k index cs c, QIdx (Some index))
  end.
Definition pd_assign_one m c k w : outcome (omem * pd * pret) :=
  match pd_look c k with
  | Some i => '(m1, cs) <-! c_set m (dcells c) i (SArgs w) ;; Ok (m1, Pd cs (p_l1 c) (p_l2 c), QIdx (Some i))
  | None => let index := zlen (dcells c) in let '(m1, cs) := c_push m (dcells c) (SArgs w) in Ok (m1, pd_enter k index cs c, QIdx (Some index))
  end.

Definition pd_step (m : omem) (c : pd) (o : pdcall) : outcome (omem * pd * pret) :=
  match o with
  | QInsert k1 k2 s =>                                        (* DMPV:47-85, both overloads *)
      match p_l1 c !! k1, p_l2 c !! k2 with
      | Some _, Some _ => Ok (m, c, QIdx None)
      | _, _ => let index := zlen (dcells c) in let '(m1, cs) := c_push m (dcells c) s in
                Ok (m1, Pd cs (mp_emplace k1 index (p_l1 c)) (mp_emplace k2 index (p_l2 c)), QIdx (Some index))
      end
  | QInsert1 k1 w => pd_insert_one m c (inl k1) w
  | QInsert2 k2 w => pd_insert_one m c (inr k2) w
  | QAssign k1 k2 s =>                                        (* DMPV:125-170, both overloads *)
      let app := let index := zlen (dcells c) in let '(m1, cs) := c_push m (dcells c) s in
                 Ok (m1, Pd cs (<[k1 := index]> (p_l1 c)) (<[k2 := index]> (p_l2 c)), QIdx (Some index)) in
      match p_l1 c !! k1, p_l2 c !! k2 with
      | Some i, Some j => if j =? i then '(m1, cs) <-! c_set m (dcells c) i s ;; Ok (m1, Pd cs (p_l1 c) (p_l2 c), QIdx (Some i)) else app
      | _, _ => app
      end
  | QAssign1 k1 w => pd_assign_one m c (inl k1) w
  | QAssign2 k2 w => pd_assign_one m c (inr k2) w
  | QFind k =>                                                (* DMPV:215-234 *)
      match pd_look c k with
      | Some i => if i <? 0 then UB else match dcells c !! Z.to_nat i with Some p => Ok (m, c, QPtr p) | None => UB end
      | None => Ok (m, c, QPtr None)
      end
  | QGet i =>                                                 (* DMPV:236-240 *)
      if zlen (dcells c) <=? i then Ok (m, c, QPtr None)
      else if i <? 0 then UB else match dcells c !! Z.to_nat i with Some p => Ok (m, c, QPtr p) | None => UB end
  | QBack => match last (dcells c) with Some p => Ok (m, c, QPtr p) | None => UB end           (* DMPV:245 *)
  | QRemoveIdx i o1 o2 =>                                     (* DMPV:248-278 *)
      if zlen (dcells c) <=? i then Ok (m, c, QUnit)
      else '(m1, cs) <-! c_erase m (dcells c) i ;;
           let '(l1, i1) := mp_shift true i o1 (p_l1 c) kd1 in
           let '(l2, i2) := mp_shift true i o2 (p_l2 c) kd2 in
           match i1, i2 with Some k1, Some k2 => Ok (m1, Pd cs (delete k1 l1) (delete k2 l2), QUnit) | _, _ => UB end
  | QRemove k o1 o2 =>                                        (* DMPV:280-334 *)
      match pd_look c k with
      | None => Ok (m, c, QUnit)
      | Some i =>
          '(m1, cs) <-! c_erase m (dcells c) i ;;
          match k with
          | inl k1 =>
              let l1 := delete k1 (mp_dec i o1 (p_l1 c)) in
              let '(l2, i2) := mp_shift true i o2 (p_l2 c) kd2 in
              match i2 with Some k2 => Ok (m1, Pd cs l1 (delete k2 l2), QUnit) | None => UB end
          | inr k2 =>
              let l2 := delete k2 (mp_dec i o2 (p_l2 c)) in
              let '(l1, i1) := mp_shift true i o1 (p_l1 c) kd1 in
              match i1 with Some k1 => Ok (m1, Pd cs (delete k1 l1) l2, QUnit) | None => UB end
          end
      end
  | QApply => Ok (m, c, QList (dcells c))                     (* DMPV:338-358 *)
  | QSize => Ok (m, c, QInt (zlen (dcells c)))                (* DMPV:360 *)
  | QClear => m1 <-! c_clear m (dcells c) ;; Ok (m1, Pd [] ∅ ∅, QUnit)                         (* DMPV:362-367 *)
  end.
End dmpv.

(** ** Programs over several containers of one class *)
Section world.
Context {C O : Type}.
Variable cs_of : C -> list uptr.                  (* dataStorage *)
Variable call : omem -> C -> O -> outcome (omem * C * pret).
Variable none : C.                                (* a new container *)

(** Containers by number; [None]: destroyed.  A container that was moved from has an empty dataStorage; its lookup maps
    may hold anything: the program says what ([rest], a container without elements). *)
Record ow := OW { om : omem; conts : list (option C) }.
Inductive wop :=
| ODefault                                        (* MPV:29, DMPV:36 *)
| OMove (from : nat) (rest : C)                   (* move construction, MPV:30, DMPV:37-38 *)
| OMoveTo (to from : nat) (rest : C)              (* move assignment from another container, MPV:31, DMPV:39-40 *)
| OCall (o : nat) (c : O)
| ODestroy (o : nat)                              (* DMPV:44 *)
| OMake (w : W)                                   (* the user makes a unique_ptr of their own *)
| OReset (x : nat).                               (* and destroys the object in one *)

Definition ow_step (w : ow) (p : wop) : outcome (ow * pret) :=
  match p with
  | ODefault => Ok (OW (om w) (conts w ++ [Some none]), QUnit)
  | OMove from rest =>
      match conts w !! from, cs_of rest with
      | Some (Some c), [] => Ok (OW (om w) (<[from := Some rest]> (conts w) ++ [Some c]), QUnit)
      | _, _ => UB
      end
  | OMoveTo to from rest =>
      match conts w !! to, conts w !! from, cs_of rest with
      | Some (Some d), Some (Some c), [] =>
          if Nat.eqb to from then UB
          else m1 <-! c_clear (om w) (cs_of d) ;; Ok (OW m1 (<[from := Some rest]> (<[to := Some c]> (conts w))), QUnit)
      | _, _, _ => UB
      end
  | OCall o a =>
      match conts w !! o with
      | Some (Some c) => '(m1, c1, r) <-! call (om w) c a ;; Ok (OW m1 (<[o := Some c1]> (conts w)), r)
      | _ => UB
      end
  | ODestroy o =>
      match conts w !! o with
      | Some (Some c) => m1 <-! c_clear (om w) (cs_of c) ;; Ok (OW m1 (<[o := None]> (conts w)), QUnit)
      | _ => UB
      end
  | OMake v => let '(m1, p) := u_new v (om w) in Ok (OW (OM (live m1) (nxt m1) (usr m1 ++ [p]) (dels m1)) (conts w), QUnit)
  | OReset x =>
      match usr (om w) !! x with
      | Some p => m1 <-! u_del p (om w) ;; Ok (OW (OM (live m1) (nxt m1) (<[x := None]> (usr m1)) (dels m1)) (conts w), QUnit)
      | None => UB
      end
  end.
Fixpoint ow_run (w : ow) (ps : list wop) : outcome (ow * list pret) :=
  match ps with
  | [] => Ok (w, [])
  | p :: ps' => '(w1, r) <-! ow_step w p ;; '(w2, rs) <-! ow_run w1 ps' ;; Ok (w2, r :: rs)
  end.
Definition ow0 : ow := OW om0 [].
End world.
End mem.
Arguments omem : clear implicits. Arguments pcall : clear implicits. Arguments pdcall : clear implicits. Arguments wop : clear implicits. Arguments ow : clear implicits.
Arguments pv K {_ _} : assert. Arguments pd K1 {_ _} K2 {_ _} : assert.
