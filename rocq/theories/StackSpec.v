(** Specification of a bounded stack of byte blocks with exact space accounting. *)
From stdpp Require Import gmap.
From Verif Require Import Base StackModel.

(** Bytes held, and bytes that blocks [q] need: their sizes plus 8 per block for bookkeeping. *)
Fixpoint held (q : list (list byte)) : Z := match q with [] => 0 | b :: q' => zlen b + held q' end.
Definition need (q : list (list byte)) : Z := held q + 8 * zlen q.
Definition fits (cap : Z) (q : list (list byte)) (n : Z) : bool := need q + n + 8 <=? cap.

(** Stored blocks, top first, and whether all free space is known to be usable.  Emptying the stack makes it so;
    reversing at least two blocks forfeits it. *)
Definition astk : Type := list (list byte) * bool.
Definition exact_if_empty (q : list (list byte)) (e : bool) : bool := match q with [] => true | _ => e end.

Inductive lifo_step (cap : Z) : astk -> kop -> kret -> astk -> Prop :=
| ls_push_ok q e d n :
    0 < n -> n <= zlen d -> fits cap q n = true ->
    lifo_step cap (q, e) (KPush (Some d) n) (RBool true) (take (Z.to_nat n) d :: q, e)
| ls_push_no q e d n :
    n <= 0 \/ e = false \/ fits cap q n = false ->
    lifo_step cap (q, e) (KPush (Some d) n) (RBool false) (q, e)
| ls_push_null q e n : lifo_step cap (q, e) (KPush None n) (RBool false) (q, e)
| ls_pop_empty e k : lifo_step cap ([], e) (KPop k) (RPop 0 []) ([], e)
| ls_pop b q e k : zlen b <= k -> lifo_step cap (b :: q, e) (KPop k) (RPop (zlen b) b) (q, exact_if_empty q e)
| ls_pop_short b q e k : k < zlen b -> lifo_step cap (b :: q, e) (KPop k) (RPop (- zlen b) []) (b :: q, e)
| ls_next q e : lifo_step cap (q, e) KNextSize (RInt (match q with [] => 0 | b :: _ => zlen b end)) (q, e)
| ls_empty q e : lifo_step cap (q, e) KEmpty (RBool (match q with [] => true | _ => false end)) (q, e)
| ls_space_exact q n : lifo_step cap (q, true) (KSpace n) (RBool (fits cap q n)) (q, true)
| ls_space q n r : (r = true -> fits cap q n = true) -> lifo_step cap (q, false) (KSpace n) (RBool r) (q, false)
| ls_cap q e : lifo_step cap (q, e) KCapacity (RInt cap) (q, e)
| ls_count q e : lifo_step cap (q, e) KCount (RInt (zlen q)) (q, e)
| ls_reverse q e : lifo_step cap (q, e) KReverse RUnit (rev q, e && (zlen q <=? 1))
| ls_clear q e : lifo_step cap (q, e) KClear RUnit ([], true).

Inductive lifo_trace (cap : Z) : astk -> list (kop * kret) -> astk -> Prop :=
| lt_nil a : lifo_trace cap a [] a
| lt_cons a o x a1 tr a2 : lifo_step cap a o x a1 -> lifo_trace cap a1 tr a2 -> lifo_trace cap a ((o, x) :: tr) a2.

(** ** Several stacks: a capacity and content each, no memory *)
Definition sval : Type := Z * astk.
Definition nostk : sval := (0, ([], true)).

Inductive sws_step (A : gmap nat sval) : swop -> swret -> gmap nat sval -> Prop :=
| sws_default o : sws_step A (SDefault o) SDone (<[o := nostk]> A)
| sws_new o n : 0 <= n -> sws_step A (SNew o n) SDone (<[o := (n, ([], true))]> A)
| sws_new_throw o n : n < 0 -> sws_step A (SNew o n) SThrew A
| sws_copy o src v : A !! src = Some v -> sws_step A (SCopy o src) SDone (<[o := v]> A)
| sws_move o src v : A !! src = Some v -> sws_step A (SMove o src) SDone (<[o := v]> (<[src := nostk]> A))
| sws_copy_assign o src v : A !! src = Some v -> sws_step A (SCopyAssign o src) SDone (<[o := v]> A)
| sws_move_assign o src v : A !! src = Some v ->
    sws_step A (SMoveAssign o src) SDone (<[src := nostk]> (<[o := v]> A))
| sws_swap o o' v v' : A !! o = Some v -> A !! o' = Some v' ->
    sws_step A (SSwap o o') SDone (<[o := v']> (<[o' := v]> A))
| sws_resize_neg o n : n < 0 -> is_Some (A !! o) -> sws_step A (SResize o n) (SResized false) A
| sws_resize_same o c a : A !! o = Some (c, a) -> sws_step A (SResize o c) (SResized true) A
| sws_resize o n c q e : 0 <= n -> A !! o = Some (c, (q, e)) -> need q <= n ->
    (* the code forfeits free space when blocks are stored *)
    sws_step A (SResize o n) (SResized true) (<[o := (n, (q, exact_if_empty q false))]> A)
| sws_resize_throw o n c q e : A !! o = Some (c, (q, e)) -> 0 <= n < c -> q <> [] ->
    e = false \/ n < need q -> sws_step A (SResize o n) SThrew A
| sws_call o p x c a a' : A !! o = Some (c, a) -> lifo_step c a p x a' ->
    sws_step A (SCall o p) (SRet x) (<[o := (c, a')]> A)
| sws_destroy o : is_Some (A !! o) -> sws_step A (SDestroy o) SDone (delete o A).

Inductive sws_trace : gmap nat sval -> list (swop * swret) -> gmap nat sval -> Prop :=
| swt_nil A : sws_trace A [] A
| swt_cons A p x A1 tr A2 : sws_step A p x A1 -> sws_trace A1 tr A2 -> sws_trace A ((p, x) :: tr) A2.
