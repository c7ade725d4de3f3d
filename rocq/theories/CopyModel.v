(** Programs over several mapped vectors: the implicit or defaulted constructors, assignments and destructors of
    MappedVector (MappedVector.hpp:22-240, none declared), DualMappedVector (DualMappedVector.hpp:25-441, none declared),
    MappedPointerVector (MappedPointerVector.hpp:29-31, move only) and DualMappedPointerVector
    (DualMappedPointerVector.hpp:36-44, move only).

    - All of them work member by member: the storage is copied or moved (std::vector, or StableBlockVector.hpp:82-131), and
      so are the lookup maps.
    - The containers share one memory of blocks.  [L] is the type of the lookup maps (one map, or two).
    - What the standard leaves open is chosen by the program: a std::vector and a lookup map that were moved from hold
      [jx] and [jl], whatever these are ("valid but unspecified").
    - The string classes are not covered: their copies share the text of the keys (C35). *)
From stdpp Require Import gmap.
From Verif Require Import Base BlkHeap BlkIter VecModel MapStore MapModel DualModel.

Section copy.
Context {V L OP RET : Type}.
Variable P : params.
(** The empty lookup maps, and a member call *)
Variable l0 : L.
Variable step : store V -> L -> OP -> outcome (store V * L * RET).

(** The storage member without the shared memory *)
Inductive rst := RVec (xs : list V) | RBlk (v : vec).
Record cont := Cont { c_st : rst; c_lk : L }.
Record cworld := CWorld { cw_heap : bheap V; cw_objs : gmap nat cont }.

Definition in_heap (h : bheap V) (s : rst) : store V := match s with RVec xs => SVec xs | RBlk v => SBlk h v end.
Definition of_store (h : bheap V) (s : store V) : bheap V * rst := match s with SVec xs => (h, RVec xs) | SBlk h' v => (h', RBlk v) end.

(** Copy construction, copy assignment, move construction, move assignment and destruction of the storage *)
Definition rst_copy h (s : rst) : outcome (bheap V * rst) :=
  match s with RVec xs => Ok (h, RVec xs) | RBlk v => '(h', v') <-! vec_copy P h v ;; Ok (h', RBlk v') end.
Definition rst_copy_assign h (d s : rst) : outcome (bheap V * rst) :=
  match d, s with
  | RBlk d, RBlk v => '(h', d') <-! vec_copy_assign P h d v ;; Ok (h', RBlk d')
  | RVec _, RVec xs => Ok (h, RVec xs)
  | _, _ => UB
  end.
Definition rst_move (s : rst) (jx : list V) : rst * rst :=
  match s with RVec xs => (RVec xs, RVec jx) | RBlk v => let '(v1, v2) := vec_move v in (RBlk v1, RBlk v2) end.
Definition rst_move_assign h (d s : rst) (jx : list V) : outcome (bheap V * rst * rst) :=
  match d, s with
  | RBlk d, RBlk v => '(h', d', s') <-! vec_move_assign P h d v ;; Ok (h', RBlk d', RBlk s')
  | RVec _, RVec xs => Ok (h, RVec xs, RVec jx)
  | _, _ => UB
  end.
Definition rst_free h (s : rst) : outcome (bheap V) := match s with RVec _ => Ok h | RBlk v => vec_free_all P h v end.

Inductive cop :=
| CDefault (o : nat) | CCopy (o src : nat) | CMove (o src : nat) (jx : list V) (jl : L)
| CCopyAssign (o src : nat) | CMoveAssign (o src : nat) (jx : list V) (jl : L)
| CCall (o : nat) (c : OP) | CDestroy (o : nat).

Definition cget (w : cworld) (o : nat) : outcome cont := match cw_objs w !! o with Some c => Ok c | None => UB end.

(** [stb]: reference_stability::stable, fixed by the type of the containers *)
Definition cstep (stb : bool) (w : cworld) (p : cop) : outcome (cworld * option RET) :=
  let h := cw_heap w in
  match p with
  | CDefault o => Ok (CWorld h (<[o := Cont (if stb then RBlk (vec_default P) else RVec []) l0]> (cw_objs w)), None)
  | CCopy o src =>
      s <-! cget w src ;; '(h', st) <-! rst_copy h (c_st s) ;;
      Ok (CWorld h' (<[o := Cont st (c_lk s)]> (cw_objs w)), None)
  | CMove o src jx jl =>
      s <-! cget w src ;;
      let '(st, st') := rst_move (c_st s) jx in
      Ok (CWorld h (<[src := Cont st' jl]> (<[o := Cont st (c_lk s)]> (cw_objs w))), None)
  | CCopyAssign o src =>
      d <-! cget w o ;; s <-! cget w src ;;
      '(h', st) <-! rst_copy_assign h (c_st d) (c_st s) ;;
      Ok (CWorld h' (<[o := Cont st (c_lk s)]> (cw_objs w)), None)
  | CMoveAssign o src jx jl =>
      d <-! cget w o ;; s <-! cget w src ;;
      '(h', st, st') <-! rst_move_assign h (c_st d) (c_st s) jx ;;
      Ok (CWorld h' (<[src := Cont st' jl]> (<[o := Cont st (c_lk s)]> (cw_objs w))), None)
  | CCall o c =>
      x <-! cget w o ;;
      '(s, l, r) <-! step (in_heap h (c_st x)) (c_lk x) c ;;
      let '(h', st) := of_store h s in Ok (CWorld h' (<[o := Cont st l]> (cw_objs w)), Some r)
  | CDestroy o => x <-! cget w o ;; h' <-! rst_free h (c_st x) ;; Ok (CWorld h' (delete o (cw_objs w)), None)
  end.

Fixpoint crun (stb : bool) (w : cworld) (ps : list cop) : outcome (cworld * list (cop * option RET)) :=
  match ps with
  | [] => Ok (w, [])
  | p :: ps' => '(w1, r) <-! cstep stb w p ;; '(w2, tr) <-! crun stb w1 ps' ;; Ok (w2, (p, r) :: tr)
  end.

Definition cworld0 : cworld := CWorld bheap0 ∅.

(** ** Specification: each container is a value of its own; [None]: moved from, value unspecified *)
Section spec.
Context {A : Type}.
Variable a0 : A.
Variable exec : A -> OP -> A * RET.
Variable oclr : OP.        (* clear() *)
Variable rclr : RET.
Notation spec := (gmap nat (option A)).

Definition cs_exec (W : spec) (p : cop) : spec * option RET :=
  match p with
  | CDefault o => (<[o := Some a0]> W, None)
  | CCopy o src | CCopyAssign o src => (match W !! src with Some a => <[o := a]> W | None => W end, None)
  | CMove o src _ _ | CMoveAssign o src _ _ =>
      (match W !! src with Some a => <[src := None]> (<[o := a]> W) | None => W end, None)
  | CCall o c =>
      match W !! o with
      | Some (Some a) => let '(a', r) := exec a c in (<[o := Some a']> W, Some r)
      | Some None => (<[o := Some a0]> W, Some rclr)
      | None => (W, None)
      end
  | CDestroy o => (delete o W, None)
  end.

Fixpoint cs_run (W : spec) (ps : list cop) : spec * list (cop * option RET) :=
  match ps with
  | [] => (W, [])
  | p :: ps' => let '(W1, r) := cs_exec W p in let '(W2, tr) := cs_run W1 ps' in (W2, (p, r) :: tr)
  end.
End spec.
End copy.
Arguments rst : clear implicits. Arguments cont : clear implicits. Arguments cworld : clear implicits. Arguments cop : clear implicits.

(** The two classes of containers *)
Definition mcall {V} `{Countable K} P (kdef : option K) (s : store V) (l : gmap K Z) (o : mop V K) : outcome (store V * gmap K Z * mret V) :=
  '(m, r) <-! mv_step P kdef (Mv s l) o ;; Ok (m_st m, m_lk m, r).
Definition dcall {V} `{Countable K1} `{Countable K2} P cl (kd1 : option K1) (kd2 : option K2) (s : store V) (l : gmap K1 Z * gmap K2 Z)
    (o : dop V K1 K2) : outcome (store V * (gmap K1 Z * gmap K2 Z) * mret V) :=
  '(d, r) <-! dv_step P cl kd1 kd2 (Dv s l.1 l.2) o ;; Ok (d_st d, (d_l1 d, d_l2 d), r).
