(** Model of StableBlockDeque.hpp.  The int fields of the object are unbounded integers. *)
From stdpp Require Import gmap.
From Verif Require Import Base BlkHeap BlkIter VecModel.

(** StableBlockDeque.hpp:618-627 *)
Record deq := Deq {
  d_size : Z; d_data : option nat; d_slots : Z; d_back : Z; d_front : Z; d_bsize : Z; d_fsize : Z; d_fl : flist
}.

Section deq.
Context {V : Type}.
Variable P : params.
Notation B := (bsz P).
Implicit Types (h : bheap V) (d : deq) (x : V).

(** std::copy(a + i, a + i + n, a + k) inside one table.  With the destination inside the source range the behaviour is
    undefined; [overlap_ok] is the assumption that the library copies pointers with memmove. *)
Definition tshift h p i n k : outcome (bheap V) :=
  match p with
  | Some t =>
      match tb h !! t with
      | Some cs =>
          if (0 <=? i) && (0 <=? n) && (i + n <=? zlen cs) && (0 <=? k) && (k + n <=? zlen cs) &&
             (overlap_ok P || (k <? i) || (i + n <=? k)) then
            Ok (BHeap (el h) (bl h)
                  (<[t := take (Z.to_nat k) cs ++ take (Z.to_nat n) (drop (Z.to_nat i) cs) ++ drop (Z.to_nat (k + n)) cs]> (tb h))
                  (nx h))
          else UB
      | None => UB
      end
  | None => UB
  end.

(** StableBlockDeque.hpp:48 and the default member initialisers :618-627 *)
Definition deq_default : deq := Deq 0 None 0 0 0 B (-1) flist0.

(** StableBlockDeque.hpp:96-102: for (ii = i; ii < i + k; ++ii) allocate and fill block [ii] *)
Fixpoint full_blocks h (t : option nat) i (k : nat) x : outcome (bheap V) :=
  match k with
  | O => Ok h
  | S k' =>
      let '(h1, c) := balloc h in
      h2 <-! tset h1 t i c ;;
      h3 <-! make_up P h2 t i 0 (Z.to_nat B) x ;;
      full_blocks h3 t (i + 1) k' x
  end.

(** blockSize / 2 - 2 in 32 bit unsigned arithmetic *)
Definition half_limit : Z := (B / 2 - 2) mod 4294967296.

(** StableBlockDeque.hpp:63-86: (front, back, fsize, bsize) *)
Definition deq_layout (n slots : Z) : Z * Z * Z * Z :=
  let b0 := Z.shiftr n (expo P) in
  let blocks := if 0 <? b0 then b0 + 1 else if half_limit <? n then 1 else b0 in
  if blocks =? 0 then
    let fs := B / 2 - n / 2 - 1 in (30, 30, fs, fs + n + 1)
  else if blocks =? 1 then (30, 31, B - n / 2 - 1, n - n / 2)
  else
    let front := (slots - blocks) / 2 in
    let med := n - Z.shiftr n (expo P) * B in
    (front, front + blocks, B - med / 2 - 1, med - med / 2).

(** StableBlockDeque.hpp:51-111 *)
Definition deq_sized h (n : Z) x : outcome (bheap V * deq) :=
  let slots := Z.max (Z.shiftr n (expo P) + 2) 64 in
  let '(h1, t) := talloc h slots in
  if n =? 0 then
    let '(h2, c) := balloc h1 in
    h3 <-! tset h2 t 30 c ;;
    Ok (h3, Deq n t slots 30 30 (B / 2) (B / 2) flist0)
  else
    let '(front, back, fs, bs) := deq_layout n slots in
    let '(h2, c) := balloc h1 in
    h3 <-! tset h2 t front c ;;
    h4 <-! make_up P h3 t front (fs + 1) (Z.to_nat ((if front <? back then B else bs) - (fs + 1))) x ;;
    h5 <-! full_blocks h4 t (front + 1) (Z.to_nat (back - 1 - front)) x ;;
    h6 <-! (if front <? back then
              let '(h', c') := balloc h5 in
              h'' <-! tset h' t back c' ;; make_up P h'' t back 0 (Z.to_nat bs) x
            else Ok h5) ;;
    Ok (h6, Deq n t slots back front bs fs flist0).

(** StableBlockDeque.hpp:479-487 and 514-522: the first block of a deque without table *)
Definition deq_first_block h d : outcome (bheap V * deq) :=
  let '(h1, t) := talloc h 64 in
  '(h2, f, c) <-! fl_get h1 (d_fl d) ;;
  h3 <-! tset h2 t 30 c ;;
  Ok (h3, Deq (d_size d) t 64 30 30 (B / 2 - 1 + 1) (B / 2 - 1) f).

(** StableBlockDeque.hpp:475-508 *)
Definition deq_check h d : outcome (bheap V * deq) :=
  if B <=? d_bsize d then
    if d_slots d =? 0 then deq_first_block h d
    else
      '(h1, d1) <-!
        (if d_slots d - 1 <=? d_back d then
           if 5 <? d_front d then
             h' <-! tshift h (d_data d) (d_front d) (d_back d + 1 - d_front d) (d_front d / 2) ;;
             Ok (h', Deq (d_size d) (d_data d) (d_slots d) (d_front d / 2 + (d_back d - d_front d)) (d_front d / 2)
                         (d_bsize d) (d_fsize d) (d_fl d))
           else
             let '(h', t) := talloc h (d_slots d * 2) in
             h2 <-! tcopy h' (d_data d) 0 (d_slots d) t 0 ;;
             h3 <-! tdelete h2 (d_data d) ;;
             Ok (h3, Deq (d_size d) t (d_slots d * 2) (d_back d) (d_front d) (d_bsize d) (d_fsize d) (d_fl d))
         else Ok (h, d)) ;;
      '(h4, f, c) <-! fl_get h1 (d_fl d1) ;;
      h5 <-! tset h4 (d_data d1) (d_back d1 + 1) c ;;
      Ok (h5, Deq (d_size d1) (d_data d1) (d_slots d1) (d_back d1 + 1) (d_front d1) 0 (d_fsize d1) f)
  else Ok (h, d).

(** StableBlockDeque.hpp:510-549 *)
Definition deq_check_front h d : outcome (bheap V * deq) :=
  if d_fsize d <? 0 then
    if d_slots d =? 0 then deq_first_block h d
    else
      '(h1, d1) <-!
        (if d_front d =? 0 then
           if d_back d <? d_slots d - 5 then
             h' <-! tshift h (d_data d) 0 (d_back d + 1) ((d_slots d - d_back d) / 2) ;;
             Ok (h', Deq (d_size d) (d_data d) (d_slots d) ((d_slots d - d_back d) / 2 + (d_back d - d_front d))
                         ((d_slots d - d_back d) / 2) (d_bsize d) (d_fsize d) (d_fl d))
           else
             let '(h', t) := talloc h (d_slots d * 2) in
             h2 <-! tcopy h' (d_data d) 0 (d_back d + 1) t (d_slots d) ;;
             h3 <-! tdelete h2 (d_data d) ;;
             Ok (h3, Deq (d_size d) t (d_slots d * 2) (d_slots d + (d_back d - d_front d)) (d_slots d) (d_bsize d) (d_fsize d) (d_fl d))
         else Ok (h, d)) ;;
      '(h4, f, c) <-! fl_get h1 (d_fl d1) ;;
      h5 <-! tset h4 (d_data d1) (d_front d1 - 1) c ;;
      Ok (h5, Deq (d_size d1) (d_data d1) (d_slots d1) (d_back d1) (d_front d1 - 1) (d_bsize d1) (B - 1) f)
  else Ok (h, d).

(** StableBlockDeque.hpp:179-200 emplace_back, push_back *)
Definition deq_push h d x : outcome (bheap V * deq) :=
  '(h1, d1) <-! deq_check h d ;;
  c <-! tget h1 (d_data d1) (d_back d1) ;;
  h2 <-! emake P h1 c (d_bsize d1) x ;;
  Ok (h2, Deq (d_size d1 + 1) (d_data d1) (d_slots d1) (d_back d1) (d_front d1) (d_bsize d1 + 1) (d_fsize d1) (d_fl d1)).

(** StableBlockDeque.hpp:217-238 emplace_front, push_front *)
Definition deq_push_front h d x : outcome (bheap V * deq) :=
  '(h1, d1) <-! deq_check_front h d ;;
  c <-! tget h1 (d_data d1) (d_front d1) ;;
  h2 <-! emake P h1 c (d_fsize d1) x ;;
  Ok (h2, Deq (d_size d1 + 1) (d_data d1) (d_slots d1) (d_back d1) (d_front d1) (d_bsize d1) (d_fsize d1 - 1) (d_fl d1)).

(** StableBlockDeque.hpp:202-215 *)
Definition deq_pop h d : outcome (bheap V * deq) :=
  if d_size d =? 0 then Ok (h, d)
  else
    '(h1, d1) <-!
      (if 0 <? d_bsize d then
         Ok (h, Deq (d_size d - 1) (d_data d) (d_slots d) (d_back d) (d_front d) (d_bsize d - 1) (d_fsize d) (d_fl d))
       else
         c <-! tget h (d_data d) (d_back d) ;;
         '(h', f) <-! fl_put h (d_fl d) c ;;
         Ok (h', Deq (d_size d - 1) (d_data d) (d_slots d) (d_back d - 1) (d_front d) (B - 1) (d_fsize d) f)) ;;
    c <-! tget h1 (d_data d1) (d_back d1) ;;
    h2 <-! ekill P h1 c (d_bsize d1) ;;
    Ok (h2, d1).

(** StableBlockDeque.hpp:240-251 *)
Definition deq_pop_front h d : outcome (bheap V * deq) :=
  if d_size d =? 0 then Ok (h, d)
  else
    '(h1, d1) <-!
      (if negb (d_fsize d =? B - 1) then
         Ok (h, Deq (d_size d - 1) (d_data d) (d_slots d) (d_back d) (d_front d) (d_bsize d) (d_fsize d + 1) (d_fl d))
       else
         c <-! tget h (d_data d) (d_front d) ;;
         '(h', f) <-! fl_put h (d_fl d) c ;;
         Ok (h', Deq (d_size d - 1) (d_data d) (d_slots d) (d_back d) (d_front d + 1) (d_bsize d) 0 f)) ;;
    c <-! tget h1 (d_data d1) (d_front d1) ;;
    h2 <-! ekill P h1 c (d_fsize d1) ;;
    Ok (h2, d1).

(** StableBlockDeque.hpp:387-397 operator[]: the slot denoted *)
Definition deq_at h d (n : Z) : outcome (cell * Z) :=
  c <-! tget h (d_data d) (d_front d + Z.shiftr (d_fsize d + n + 1) (expo P)) ;; Ok (c, Z.land (d_fsize d + n + 1) (B - 1)).

Definition deq_get h d n : outcome V := '(c, j) <-! deq_at h d n ;; eget P h c j.
Definition deq_set h d n x : outcome (bheap V) := '(c, j) <-! deq_at h d n ;; eset P h c j x.

(** StableBlockDeque.hpp:363-373 back(), 375-385 front() *)
Definition deq_back h d : outcome V :=
  if d_bsize d =? 0
  then c <-! tget h (d_data d) (d_back d - 1) ;; eget P h c (B - 1)
  else c <-! tget h (d_data d) (d_back d) ;; eget P h c (d_bsize d - 1).
Definition deq_front h d : outcome V :=
  if d_fsize d =? B - 1
  then c <-! tget h (d_data d) (d_front d + 1) ;; eget P h c 0
  else c <-! tget h (d_data d) (d_front d) ;; eget P h c (d_fsize d + 1).

(** StableBlockDeque.hpp:432-442 and 457-468 end(), 419-430 and 444-455 begin() *)
Definition deq_end h d : outcome biter :=
  if d_bsize d =? B then
    match d_data d with
    | Some _ => it_new h (d_data d) (d_back d + 1) 0
    | None => it_new h None 0 0
    end
  else match d_data d with
       | Some _ => it_new h (d_data d) (d_back d) (d_bsize d)
       | None => UB  (* &(nullptr[dataSlotBack]) is then read *)
       end.
Definition deq_begin h d : outcome biter :=
  if d_size d =? 0 then deq_end h d
  else if d_fsize d =? B - 1 then it_new h (d_data d) (d_front d + 1) 0
  else it_new h (d_data d) (d_front d) (d_fsize d + 1).

Definition deq_walk h d : outcome (list V) :=
  first <-! deq_begin h d ;; last <-! deq_end h d ;; it_walk P h first last (Z.to_nat (d_size d)).

Fixpoint deq_pops h d (k : nat) : outcome (bheap V * deq) :=
  match k with O => Ok (h, d) | S k' => '(h1, d1) <-! deq_pop h d ;; deq_pops h1 d1 k' end.
Fixpoint deq_pushes h d (xs : list V) : outcome (bheap V * deq) :=
  match xs with [] => Ok (h, d) | x :: xs' => '(h1, d1) <-! deq_push h d x ;; deq_pushes h1 d1 xs' end.

(** *it = x *)
Definition it_write h (it : biter) x : outcome (bheap V) :=
  match i_ptr it with PSlot b j => eset P h (Some b) j x | _ => UB end.

(** StableBlockDeque.hpp:261-265: overwrite existing elements; the position reached and the elements left over *)
Fixpoint assign_over h (it last : biter) (xs : list V) : outcome (bheap V * biter * list V) :=
  match xs with
  | [] => Ok (h, it, [])
  | x :: xs' =>
      if it_eq it last then Ok (h, it, xs)
      else h1 <-! it_write h it x ;; it' <-! it_add P h1 it 1 ;; assign_over h1 it' last xs'
  end.

(** StableBlockDeque.hpp:269-273: distance by ++; more than [fuel] counts as an error *)
Fixpoint it_count h (it last : biter) (fuel : nat) : outcome nat :=
  if it_eq it last then Ok O
  else match fuel with
       | O => UB
       | S k => it' <-! it_add P h it 1 ;; n <-! it_count h it' last k ;; Ok (S n)
       end.

(** StableBlockDeque.hpp:253-284 assign (and 286-317 move_assign) from an input range delivering [xs] *)
Definition deq_assign h d (xs : list V) : outcome (bheap V * deq) :=
  '(h1, d1, rest) <-!
    (if d_size d =? 0 then Ok (h, d, xs)
     else
       first <-! deq_begin h d ;;
       last <-! deq_end h d ;;
       '(h1, it, rest) <-! assign_over h first last xs ;;
       match rest with
       | [] => n <-! it_count h1 it last (Z.to_nat (d_size d)) ;; '(h2, d2) <-! deq_pops h1 d n ;; Ok (h2, d2, rest)
       | _ => Ok (h1, d, rest)
       end) ;;
  deq_pushes h1 d1 rest.

(** StableBlockDeque.hpp:330-336: for (ii = front + k; ii >= front + 1; --ii) destroy block [ii] and keep it as a spare *)
Fixpoint deq_clear_mid h (t : option nat) front f (k : nat) : outcome (bheap V * flist) :=
  match k with
  | O => Ok (h, f)
  | S k' =>
      h1 <-! kill_down P h t (front + Z.of_nat k) 0 (Z.to_nat B) ;;
      c <-! tget h1 t (front + Z.of_nat k) ;;
      '(h2, f2) <-! fl_put h1 f c ;;
      deq_clear_mid h2 t front f2 k'
  end.

(** StableBlockDeque.hpp:319-351 *)
Definition deq_clear h d : outcome (bheap V * deq) :=
  if (d_slots d =? 0) || (d_size d =? 0) then Ok (h, d)
  else
    h1 <-! kill_down P h (d_data d) (d_back d) 0 (Z.to_nat (d_bsize d)) ;;
    '(h2, f2) <-! deq_clear_mid h1 (d_data d) (d_front d) (d_fl d) (Z.to_nat (d_back d - 1 - d_front d)) ;;
    '(h3, f3) <-!
      (if d_front d <? d_back d then
         c <-! tget h2 (d_data d) (d_back d) ;;
         '(h', f') <-! fl_put h2 f2 c ;;
         h'' <-! kill_down P h' (d_data d) (d_front d) (d_fsize d + 1) (Z.to_nat (B - (d_fsize d + 1))) ;;
         Ok (h'', f')
       else Ok (h2, f2)) ;;
    let n := d_slots d / 2 in
    c <-! tget h3 (d_data d) (d_front d) ;;
    h4 <-! tset h3 (d_data d) n c ;;
    Ok (h4, Deq 0 (d_data d) (d_slots d) n n (B / 2 + 1) (B / 2) f3).

(** StableBlockDeque.hpp:595-602: for (ii = front + k; ii >= front + 1; --ii) destroy and deallocate block [ii] *)
Fixpoint deq_free_mid h (t : option nat) front (k : nat) : outcome (bheap V) :=
  match k with
  | O => Ok h
  | S k' =>
      h1 <-! kill_down P h t (front + Z.of_nat k) 0 (Z.to_nat B) ;;
      c <-! tget h1 t (front + Z.of_nat k) ;;
      h2 <-! bfree h1 c ;;
      deq_free_mid h2 t front k'
  end.

(** StableBlockDeque.hpp:578-615 *)
Definition deq_free_all h d : outcome (bheap V) :=
  match d_data d with
  | None => Ok h
  | Some _ =>
      h1 <-!
        (if d_back d =? d_front d then
           h1 <-! kill_down P h (d_data d) (d_back d) (d_fsize d + 1) (Z.to_nat (d_bsize d - (d_fsize d + 1))) ;;
           c <-! tget h1 (d_data d) (d_front d) ;; bfree h1 c
         else
           h1 <-! kill_down P h (d_data d) (d_back d) 0 (Z.to_nat (d_bsize d)) ;;
           c <-! tget h1 (d_data d) (d_back d) ;;
           h2 <-! bfree h1 c ;;
           h3 <-! deq_free_mid h2 (d_data d) (d_front d) (Z.to_nat (d_back d - 1 - d_front d)) ;;
           h4 <-! kill_down P h3 (d_data d) (d_front d) (d_fsize d + 1) (Z.to_nat (B - (d_fsize d + 1))) ;;
           c <-! tget h4 (d_data d) (d_front d) ;; bfree h4 c) ;;
      h5 <-! fl_free h1 (d_fl d) 0 (Z.to_nat (f_idx (d_fl d))) ;;
      h6 <-! tdelete h5 (f_tab (d_fl d)) ;;
      tdelete h6 (d_data d)
  end.

(** StableBlockDeque.hpp:113-132; as for the vector, the source is traversed before the insertions *)
Definition deq_copy h (src : deq) : outcome (bheap V * deq) :=
  let slots := Z.max (d_slots src) 64 in
  let '(h1, t) := talloc h slots in
  match d_data src with
  | Some _ =>
      '(h2, f, c) <-! fl_get h1 flist0 ;;
      h3 <-! tset h2 t (d_front src) c ;;
      xs <-! deq_walk h3 src ;;
      deq_assign h3 (Deq 0 t slots (d_front src) (d_front src) (d_fsize src + 1) (d_fsize src) f) xs
  | None =>
      let '(h2, c) := balloc h1 in
      h3 <-! tset h2 t 30 c ;;
      Ok (h3, Deq 0 t slots 30 30 (B / 2) (B / 2) flist0)
  end.

(** StableBlockDeque.hpp:133-147: the source keeps dataSlotBack, dataSlotFront, bsize and freeIndex *)
Definition deq_husk (src : deq) : deq :=
  Deq 0 None 0 (d_back src) (d_front src) (d_bsize src) (-1) (FList 0 (f_idx (d_fl src)) None).

(** StableBlockDeque.hpp:149-153 *)
Definition deq_copy_assign h (dst src : deq) : outcome (bheap V * deq) :=
  xs <-! deq_walk h src ;; deq_assign h dst xs.

(** StableBlockDeque.hpp:154-175 *)
Definition deq_move_assign h (dst src : deq) : outcome (bheap V * deq * deq) :=
  h1 <-! deq_free_all h dst ;; Ok (h1, src, deq_husk src).

(** Member calls: those of the vector and the front operations *)
Inductive dop := DV (o : vop V) | DPushF (x : V) | DPopF.

Definition deq_step h d (o : dop) : outcome (bheap V * deq * vret V) :=
  match o with
  | DV (VPush x) => '(h1, d1) <-! deq_push h d x ;; Ok (h1, d1, VUnit)
  | DV VPop => '(h1, d1) <-! deq_pop h d ;; Ok (h1, d1, VUnit)
  | DPushF x => '(h1, d1) <-! deq_push_front h d x ;; Ok (h1, d1, VUnit)
  | DPopF => '(h1, d1) <-! deq_pop_front h d ;; Ok (h1, d1, VUnit)
  | DV VClear => '(h1, d1) <-! deq_clear h d ;; Ok (h1, d1, VUnit)
  | DV VShrink => '(h1, f) <-! fl_shrink h (d_fl d) ;;
                  Ok (h1, Deq (d_size d) (d_data d) (d_slots d) (d_back d) (d_front d) (d_bsize d) (d_fsize d) f, VUnit)
  | DV (VAssign xs) => '(h1, d1) <-! deq_assign h d xs ;; Ok (h1, d1, VUnit)
  | DV (VSet n x) => h1 <-! deq_set h d n x ;; Ok (h1, d, VUnit)
  | DV (VGet n) => x <-! deq_get h d n ;; Ok (h, d, VVal x)
  | DV (VAt n) => if d_size d <=? n then Ok (h, d, VOutOfRange)      (* StableBlockDeque.hpp:399-413 *)
                  else x <-! deq_get h d n ;; Ok (h, d, VVal x)
  | DV VBack => x <-! deq_back h d ;; Ok (h, d, VVal x)
  | DV VFront => x <-! deq_front h d ;; Ok (h, d, VVal x)
  | DV VSize => Ok (h, d, VInt (d_size d))
  | DV VEmpty => Ok (h, d, VBool (d_size d =? 0))
  | DV VWalk => xs <-! deq_walk h d ;; Ok (h, d, VList xs)
  end.

Fixpoint deq_run h d (ops : list dop) : outcome (bheap V * deq * list (dop * vret V)) :=
  match ops with
  | [] => Ok (h, d, [])
  | o :: ops' => '(h1, d1, r) <-! deq_step h d o ;; '(h2, d2, tr) <-! deq_run h1 d1 ops' ;; Ok (h2, d2, (o, r) :: tr)
  end.

(** ** Programs over several deques *)
Record dworld := DWorld { dw_heap : bheap V; dw_deqs : gmap nat deq }.
Inductive dwop :=
| DDefault (o : nat) | DSized (o : nat) (n : Z) (x : V) | DCopy (o src : nat) | DMove (o src : nat)
| DCopyAssign (o src : nat) | DMoveAssign (o src : nat) | DCall (o : nat) (c : dop) | DDestroy (o : nat).

Definition dget (w : dworld) (o : nat) : outcome deq :=
  match dw_deqs w !! o with Some d => Ok d | None => UB end.

Definition dwstep (w : dworld) (p : dwop) : outcome (dworld * vret V) :=
  match p with
  | DDefault o => Ok (DWorld (dw_heap w) (<[o := deq_default]> (dw_deqs w)), VUnit)
  | DSized o n x => '(h, d) <-! deq_sized (dw_heap w) n x ;; Ok (DWorld h (<[o := d]> (dw_deqs w)), VUnit)
  | DCopy o src => s <-! dget w src ;; '(h, d) <-! deq_copy (dw_heap w) s ;; Ok (DWorld h (<[o := d]> (dw_deqs w)), VUnit)
  | DMove o src => s <-! dget w src ;; Ok (DWorld (dw_heap w) (<[o := s]> (<[src := deq_husk s]> (dw_deqs w))), VUnit)
  | DCopyAssign o src =>
      d <-! dget w o ;; s <-! dget w src ;;
      '(h, d') <-! deq_copy_assign (dw_heap w) d s ;; Ok (DWorld h (<[o := d']> (dw_deqs w)), VUnit)
  | DMoveAssign o src =>
      d <-! dget w o ;; s <-! dget w src ;;
      '(h, d', s') <-! deq_move_assign (dw_heap w) d s ;; Ok (DWorld h (<[src := s']> (<[o := d']> (dw_deqs w))), VUnit)
  | DCall o c =>
      d <-! dget w o ;; '(h, d', r) <-! deq_step (dw_heap w) d c ;; Ok (DWorld h (<[o := d']> (dw_deqs w)), r)
  | DDestroy o =>
      d <-! dget w o ;; h <-! deq_free_all (dw_heap w) d ;; Ok (DWorld h (delete o (dw_deqs w)), VUnit)
  end.

Fixpoint dwrun (w : dworld) (ps : list dwop) : outcome (dworld * list (dwop * vret V)) :=
  match ps with
  | [] => Ok (w, [])
  | p :: ps' => '(w1, r) <-! dwstep w p ;; '(w2, tr) <-! dwrun w1 ps' ;; Ok (w2, (p, r) :: tr)
  end.

Definition dworld0 : dworld := DWorld bheap0 ∅.

End deq.
Arguments dop : clear implicits. Arguments dwop : clear implicits. Arguments dworld : clear implicits.
