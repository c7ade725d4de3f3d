(** Specification of a bounded FIFO of byte blocks, independent of the implementation.
    [fifo_step cap q o x q']: from queue content [q] (oldest block first), call [o] may return [x] and
    leave content [q'].  Only push is allowed to refuse. *)
From Verif Require Import Base CircModel.

Inductive fifo_step (cap : Z) (q : list (list byte)) : cop -> cret -> list (list byte) -> Prop :=
| fs_push_ok d n :
    0 < n -> n <= zlen d ->
    fifo_step cap q (CPush (Some d) n) (RBool true) (q ++ [take (Z.to_nat n) d])
| fs_push_no data n : fifo_step cap q (CPush data n) (RBool false) q
| fs_pop_empty k : q = [] -> fifo_step cap q (CPop k) (RPop 0 []) q
| fs_pop_ok k b q' : q = b :: q' -> zlen b <= k -> fifo_step cap q (CPop k) (RPop (zlen b) b) q'
| fs_pop_short k b q' : q = b :: q' -> k < zlen b -> fifo_step cap q (CPop k) (RPop (- zlen b) []) q
| fs_next_empty : q = [] -> fifo_step cap q CNextSize (RInt 0) q
| fs_next b q' : q = b :: q' -> fifo_step cap q CNextSize (RInt (zlen b)) q
| fs_empty : fifo_step cap q CEmpty (RBool (match q with [] => true | _ => false end)) q
| fs_space n b : fifo_step cap q (CSpace n) (RBool b) q
| fs_cap : fifo_step cap q CCapacity (RInt cap) q
| fs_clear : fifo_step cap q CClear RUnit [].

Inductive fifo_trace (cap : Z) : list (list byte) -> list (cop * cret) -> list (list byte) -> Prop :=
| ft_nil q : fifo_trace cap q [] q
| ft_cons q o x q1 tr q2 :
    fifo_step cap q o x q1 -> fifo_trace cap q1 tr q2 -> fifo_trace cap q ((o, x) :: tr) q2.

(** Bytes a queue content occupies: each block costs its size plus a 4 byte header. *)
Fixpoint footprint (q : list (list byte)) : Z :=
  match q with [] => 0 | b :: q' => zlen b + 4 + footprint q' end.
