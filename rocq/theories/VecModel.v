(** Model of StableBlockVector.hpp. *)
From stdpp Require Import gmap.
From Verif Require Import Base BlkHeap BlkIter.

(** StableBlockVector.hpp:426-433 *)
Record vec := Vec {
  v_size : Z; v_data : option nat; v_slots : Z; v_idx : Z; v_bsize : Z; v_fl : flist
}.

Section vec.
Context {V : Type}.
Variable P : params.
Notation B := (bsz P).
Implicit Types (h : bheap V) (v : vec) (x : V).

(** StableBlockVector.hpp:48 and the default member initialisers :426-433 *)
Definition vec_default : vec := Vec 0 None 0 0 B flist0.

(** StableBlockVector.hpp:63-79: for (ii = i; ii < i + k; ++ii) allocate and fill block [ii]; block [last] gets [r] elements *)
Fixpoint fill_blocks h (t : option nat) i (k : nat) last r x : outcome (bheap V) :=
  match k with
  | O => Ok h
  | S k' =>
      let '(h1, c) := balloc h in
      h2 <-! tset h1 t i c ;;
      h3 <-! make_up P h2 t i 0 (Z.to_nat (if i <? last then B else r)) x ;;
      fill_blocks h3 t (i + 1) k' last r x
  end.

(** StableBlockVector.hpp:51-80 *)
Definition vec_sized h (n : Z) x : outcome (bheap V * vec) :=
  let blocks := Z.shiftr n (expo P) in
  let '(h1, t) := talloc h (Z.max (blocks + 1) 64) in
  let r := Z.land n (B - 1) in
  h2 <-! (if n =? 0 then let '(h', c) := balloc h1 in tset h' t 0 c
          else fill_blocks h1 t 0 (Z.to_nat (blocks + 1)) blocks r x) ;;
  Ok (h2, Vec n t (Z.max (blocks + 1) 64) blocks r flist0).

(** StableBlockVector.hpp:378-396 *)
Definition vec_block_check h v : outcome (bheap V * vec) :=
  if B <=? v_bsize v then
    '(h1, v1) <-!
      (if v_slots v =? 0 then
         let '(h', t) := talloc h 64 in Ok (h', Vec (v_size v) t 64 (-1) (v_bsize v) (v_fl v))
       else if v_slots v - 1 <=? v_idx v then
         let '(h', t) := talloc h (v_slots v * 2) in
         h2 <-! tcopy h' (v_data v) 0 (v_slots v) t 0 ;;
         h3 <-! tdelete h2 (v_data v) ;;
         Ok (h3, Vec (v_size v) t (v_slots v * 2) (v_idx v) (v_bsize v) (v_fl v))
       else Ok (h, v)) ;;
    '(h4, f, c) <-! fl_get h1 (v_fl v1) ;;
    h5 <-! tset h4 (v_data v1) (v_idx v1 + 1) c ;;
    Ok (h5, Vec (v_size v1) (v_data v1) (v_slots v1) (v_idx v1 + 1) 0 f)
  else Ok (h, v).

(** StableBlockVector.hpp:135-157 emplace_back, push_back *)
Definition vec_push h v x : outcome (bheap V * vec) :=
  '(h1, v1) <-! vec_block_check h v ;;
  c <-! tget h1 (v_data v1) (v_idx v1) ;;
  h2 <-! emake P h1 c (v_bsize v1) x ;;
  Ok (h2, Vec (v_size v1 + 1) (v_data v1) (v_slots v1) (v_idx v1) (v_bsize v1 + 1) (v_fl v1)).

(** StableBlockVector.hpp:159-172 *)
Definition vec_pop h v : outcome (bheap V * vec) :=
  if v_size v =? 0 then Ok (h, v)
  else
    '(h1, v1) <-!
      (if 0 <? v_bsize v then
         Ok (h, Vec (v_size v - 1) (v_data v) (v_slots v) (v_idx v) (v_bsize v - 1) (v_fl v))
       else
         c <-! tget h (v_data v) (v_idx v) ;;
         '(h', f) <-! fl_put h (v_fl v) c ;;
         Ok (h', Vec (v_size v - 1) (v_data v) (v_slots v) (v_idx v - 1) (B - 1) f)) ;;
    c <-! tget h1 (v_data v1) (v_idx v1) ;;
    h2 <-! ekill P h1 c (v_bsize v1) ;;
    Ok (h2, v1).

(** StableBlockVector.hpp:273-278 operator[]: the slot denoted *)
Definition vec_at h v (n : Z) : outcome (cell * Z) :=
  c <-! tget h (v_data v) (Z.shiftr n (expo P)) ;; Ok (c, Z.land n (B - 1)).

Definition vec_get h v n : outcome V := '(c, j) <-! vec_at h v n ;; eget P h c j.
Definition vec_set h v n x : outcome (bheap V) := '(c, j) <-! vec_at h v n ;; eset P h c j x.

(** StableBlockVector.hpp:183-187: while (csize > ii) pop_back() *)
Fixpoint vec_pops h v (k : nat) : outcome (bheap V * vec) :=
  match k with O => Ok (h, v) | S k' => '(h1, v1) <-! vec_pop h v ;; vec_pops h1 v1 k' end.

Fixpoint vec_pushes h v (xs : list V) : outcome (bheap V * vec) :=
  match xs with [] => Ok (h, v) | x :: xs' => '(h1, v1) <-! vec_push h v x ;; vec_pushes h1 v1 xs' end.

(** StableBlockVector.hpp:174-193 assign (and 195-214 move_assign) from an input range delivering [xs] *)
Fixpoint vec_assign h v (i : Z) (xs : list V) : outcome (bheap V * vec) :=
  match xs with
  | [] => vec_pops h v (Z.to_nat (v_size v - i))
  | x :: xs' =>
      if i <? v_size v then h1 <-! vec_set h v i x ;; vec_assign h1 v (i + 1) xs'
      else vec_pushes h v xs
  end.

(** StableBlockVector.hpp:230-237: for (ii = k; ii >= 1; --ii) destroy block [ii] and keep it as a spare *)
Fixpoint vec_clear_mid h v (k : nat) : outcome (bheap V * flist) :=
  match k with
  | O => Ok (h, v_fl v)
  | S k' =>
      h1 <-! kill_down P h (v_data v) (Z.of_nat k) 0 (Z.to_nat B) ;;
      c <-! tget h1 (v_data v) (Z.of_nat k) ;;
      '(h2, f) <-! fl_put h1 (v_fl v) c ;;
      vec_clear_mid h2 (Vec (v_size v) (v_data v) (v_slots v) (v_idx v) (v_bsize v) f) k'
  end.

(** StableBlockVector.hpp:216-246 *)
Definition vec_clear h v : outcome (bheap V * vec) :=
  if v_slots v <=? 0 then Ok (h, v)
  else
    h1 <-! kill_down P h (v_data v) (v_idx v) 0 (Z.to_nat (v_bsize v)) ;;
    if 0 <? v_idx v then
      c <-! tget h1 (v_data v) (v_idx v) ;;
      '(h2, f) <-! fl_put h1 (v_fl v) c ;;
      '(h3, f3) <-! vec_clear_mid h2 (Vec (v_size v) (v_data v) (v_slots v) (v_idx v) (v_bsize v) f) (Z.to_nat (v_idx v - 1)) ;;
      h4 <-! kill_down P h3 (v_data v) 0 0 (Z.to_nat B) ;;
      Ok (h4, Vec 0 (v_data v) (v_slots v) 0 0 f3)
    else Ok (h1, Vec 0 (v_data v) (v_slots v) (v_idx v) 0 (v_fl v)).

(** StableBlockVector.hpp:358-365: for (ii = k - 1; ii >= 0; --ii) destroy and deallocate block [ii] *)
Fixpoint vec_free_mid h v (k : nat) : outcome (bheap V) :=
  match k with
  | O => Ok h
  | S k' =>
      h1 <-! kill_down P h (v_data v) (Z.of_nat k') 0 (Z.to_nat B) ;;
      c <-! tget h1 (v_data v) (Z.of_nat k') ;;
      h2 <-! bfree h1 c ;;
      vec_free_mid h2 v k'
  end.

(** StableBlockVector.hpp:347-377 *)
Definition vec_free_all h v : outcome (bheap V) :=
  match v_data v with
  | None => Ok h
  | Some _ =>
      h1 <-! kill_down P h (v_data v) (v_idx v) 0 (Z.to_nat (v_bsize v)) ;;
      h2 <-! (if 0 <? v_idx v then c <-! tget h1 (v_data v) (v_idx v) ;; bfree h1 c else Ok h1) ;;
      h3 <-! vec_free_mid h2 v (Z.to_nat (v_idx v)) ;;
      h4 <-! (if v_idx v =? 0 then c <-! tget h3 (v_data v) 0 ;; bfree h3 c else Ok h3) ;;
      h5 <-! fl_free h4 (v_fl v) 0 (Z.to_nat (f_idx (v_fl v))) ;;
      h6 <-! tdelete h5 (f_tab (v_fl v)) ;;
      tdelete h6 (v_data v)
  end.

(** StableBlockVector.hpp:257-267 back(), 269-271 front() *)
Definition vec_back h v : outcome V :=
  if v_bsize v =? 0
  then c <-! tget h (v_data v) (Z.shiftr (v_size v) (expo P) - 1) ;; eget P h c (B - 1)
  else c <-! tget h (v_data v) (v_idx v) ;; eget P h c (v_bsize v - 1).
Definition vec_front h v : outcome V := c <-! tget h (v_data v) 0 ;; eget P h c 0.

(** StableBlockVector.hpp:308-318 and 329-340 end(), 300-306 and 320-327 begin() *)
Definition vec_end h v : outcome biter :=
  if v_bsize v =? B then
    match v_data v with
    | Some _ => it_new h (v_data v) (v_idx v + 1) 0
    | None => it_new h None 0 0
    end
  else match v_data v with
       | Some _ => it_new h (v_data v) (v_idx v) (v_bsize v)
       | None => UB  (* &(nullptr[dataSlotIndex]) is then read *)
       end.
Definition vec_begin h v : outcome biter :=
  if v_size v =? 0 then vec_end h v else it_new h (v_data v) 0 0.

(** All elements, by iterator. *)
Definition vec_walk h v : outcome (list V) :=
  first <-! vec_begin h v ;; last <-! vec_end h v ;; it_walk P h first last (Z.to_nat (v_size v)).

(** StableBlockVector.hpp:82-90.  The traversal of the source is modelled as preceding the insertions; they touch
    different memory. *)
Definition vec_copy h (src : vec) : outcome (bheap V * vec) :=
  match v_data src with
  | None => Ok (h, vec_default)
  | Some _ =>
      let '(h1, t) := talloc h (v_slots src) in
      xs <-! vec_walk h1 src ;;
      vec_assign h1 (Vec 0 t (v_slots src) (-1) B flist0) 0 xs
  end.

(** StableBlockVector.hpp:92-107: the new vector, the source afterwards *)
Definition vec_move (src : vec) : vec * vec :=
  (src, Vec 0 None 0 (-1) 0 (FList 0 (f_idx (v_fl src)) None)).

(** StableBlockVector.hpp:109-113 *)
Definition vec_copy_assign h (dst src : vec) : outcome (bheap V * vec) :=
  xs <-! vec_walk h src ;; vec_assign h dst 0 xs.

(** StableBlockVector.hpp:114-131; the source keeps csize, dataSlotIndex, bsize and freeIndex *)
Definition vec_move_assign h (dst src : vec) : outcome (bheap V * vec * vec) :=
  h1 <-! vec_free_all h dst ;;
  Ok (h1, src, Vec (v_size src) None 0 (v_idx src) (v_bsize src) (FList 0 (f_idx (v_fl src)) None)).

(** Member calls and their results *)
Inductive vop :=
| VPush (x : V) | VPop | VClear | VShrink | VAssign (xs : list V) | VSet (n : Z) (x : V)
| VGet (n : Z) | VAt (n : Z) | VBack | VFront | VSize | VEmpty | VWalk.
Inductive vret := VUnit | VVal (x : V) | VOutOfRange | VInt (n : Z) | VBool (b : bool) | VList (xs : list V).

Definition vec_step h v (o : vop) : outcome (bheap V * vec * vret) :=
  match o with
  | VPush x => '(h1, v1) <-! vec_push h v x ;; Ok (h1, v1, VUnit)
  | VPop => '(h1, v1) <-! vec_pop h v ;; Ok (h1, v1, VUnit)
  | VClear => '(h1, v1) <-! vec_clear h v ;; Ok (h1, v1, VUnit)
  | VShrink => '(h1, f) <-! fl_shrink h (v_fl v) ;;
               Ok (h1, Vec (v_size v) (v_data v) (v_slots v) (v_idx v) (v_bsize v) f, VUnit)
  | VAssign xs => '(h1, v1) <-! vec_assign h v 0 xs ;; Ok (h1, v1, VUnit)
  | VSet n x => h1 <-! vec_set h v n x ;; Ok (h1, v, VUnit)
  | VGet n => x <-! vec_get h v n ;; Ok (h, v, VVal x)
  | VAt n => if v_size v <=? n then Ok (h, v, VOutOfRange)      (* StableBlockVector.hpp:280-294 *)
             else x <-! vec_get h v n ;; Ok (h, v, VVal x)
  | VBack => x <-! vec_back h v ;; Ok (h, v, VVal x)
  | VFront => x <-! vec_front h v ;; Ok (h, v, VVal x)
  | VSize => Ok (h, v, VInt (v_size v))
  | VEmpty => Ok (h, v, VBool (v_size v =? 0))
  | VWalk => xs <-! vec_walk h v ;; Ok (h, v, VList xs)
  end.

Fixpoint vec_run h v (ops : list vop) : outcome (bheap V * vec * list (vop * vret)) :=
  match ops with
  | [] => Ok (h, v, [])
  | o :: ops' => '(h1, v1, r) <-! vec_step h v o ;; '(h2, v2, tr) <-! vec_run h1 v1 ops' ;; Ok (h2, v2, (o, r) :: tr)
  end.

(** ** Programs over several vectors *)
Record vworld := VWorld { w_heap : bheap V; w_vecs : gmap nat vec }.
Inductive vwop :=
| VDefault (o : nat) | VSized (o : nat) (n : Z) (x : V) | VCopy (o src : nat) | VMove (o src : nat)
| VCopyAssign (o src : nat) | VMoveAssign (o src : nat) | VCall (o : nat) (c : vop) | VDestroy (o : nat).

Definition vget (w : vworld) (o : nat) : outcome vec :=
  match w_vecs w !! o with Some v => Ok v | None => UB end.

Definition vwstep (w : vworld) (p : vwop) : outcome (vworld * vret) :=
  match p with
  | VDefault o => Ok (VWorld (w_heap w) (<[o := vec_default]> (w_vecs w)), VUnit)
  | VSized o n x => '(h, v) <-! vec_sized (w_heap w) n x ;; Ok (VWorld h (<[o := v]> (w_vecs w)), VUnit)
  | VCopy o src => s <-! vget w src ;; '(h, v) <-! vec_copy (w_heap w) s ;; Ok (VWorld h (<[o := v]> (w_vecs w)), VUnit)
  | VMove o src =>
      s <-! vget w src ;;
      let '(v, s') := vec_move s in Ok (VWorld (w_heap w) (<[o := v]> (<[src := s']> (w_vecs w))), VUnit)
  | VCopyAssign o src =>
      d <-! vget w o ;; s <-! vget w src ;;
      '(h, d') <-! vec_copy_assign (w_heap w) d s ;; Ok (VWorld h (<[o := d']> (w_vecs w)), VUnit)
  | VMoveAssign o src =>
      d <-! vget w o ;; s <-! vget w src ;;
      '(h, d', s') <-! vec_move_assign (w_heap w) d s ;; Ok (VWorld h (<[src := s']> (<[o := d']> (w_vecs w))), VUnit)
  | VCall o c =>
      v <-! vget w o ;; '(h, v', r) <-! vec_step (w_heap w) v c ;; Ok (VWorld h (<[o := v']> (w_vecs w)), r)
  | VDestroy o =>
      v <-! vget w o ;; h <-! vec_free_all (w_heap w) v ;; Ok (VWorld h (delete o (w_vecs w)), VUnit)
  end.

Fixpoint vwrun (w : vworld) (ps : list vwop) : outcome (vworld * list (vwop * vret)) :=
  match ps with
  | [] => Ok (w, [])
  | p :: ps' => '(w1, r) <-! vwstep w p ;; '(w2, tr) <-! vwrun w1 ps' ;; Ok (w2, (p, r) :: tr)
  end.

Definition vworld0 : vworld := VWorld bheap0 ∅.

End vec.
Arguments vop : clear implicits. Arguments vret : clear implicits. Arguments vwop : clear implicits. Arguments vworld : clear implicits.
