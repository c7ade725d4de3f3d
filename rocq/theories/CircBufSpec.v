(** Specification of programs over several circular buffers: each buffer is just a capacity and a queue of
    blocks; there is no memory, so independence and single ownership are built in. *)
From stdpp Require Import gmap.
From Verif Require Import Base CircModel CircSpec CircBufModel.

Definition abuf : Type := Z * list (list byte).   (* capacity, queued blocks (oldest first) *)

(** [M]: an upper bound of the size of every block pushed. *)
Inductive ws_step (M : Z) (A : gmap nat abuf) : wop -> wret -> gmap nat abuf -> Prop :=
| ws_default o : ws_step M A (WDefault o) WDone (<[o := (0, [])]> A)
| ws_new o n : 0 <= n -> ws_step M A (WNew o n) WDone (<[o := (n, [])]> A)
| ws_new_throw o n : n < 0 -> ws_step M A (WNew o n) WThrew A
| ws_copy o src v : A !! src = Some v -> ws_step M A (WCopy o src) WDone (<[o := v]> A)
| ws_move o src v : A !! src = Some v ->
    ws_step M A (WMove o src) WDone (<[o := v]> (<[src := (0, [])]> A))
| ws_copy_assign o src v : A !! src = Some v -> ws_step M A (WCopyAssign o src) WDone (<[o := v]> A)
| ws_move_assign o src v : A !! src = Some v ->
    ws_step M A (WMoveAssign o src) WDone (<[src := (0, [])]> (<[o := v]> A))
| ws_resize o n c q : A !! o = Some (c, q) -> ws_step M A (WResize o n) WDone (<[o := (n, q)]> A)
| ws_resize_throw o n c q : A !! o = Some (c, q) ->
    (* only when shrinking below the queued data (plus the space a wrapped queue may waste) *)
    n < c -> q <> [] -> n < footprint q + M + 4 ->
    ws_step M A (WResize o n) WThrew A
| ws_call o p x c q q' : A !! o = Some (c, q) -> fifo_step c q p x q' ->
    ws_step M A (WCall o p) (WRet x) (<[o := (c, q')]> A)
| ws_destroy o : is_Some (A !! o) -> ws_step M A (WDestroy o) WDone (delete o A).

Inductive ws_trace (M : Z) : gmap nat abuf -> list (wop * wret) -> gmap nat abuf -> Prop :=
| wt_nil A : ws_trace M A [] A
| wt_cons A p x A1 tr A2 : ws_step M A p x A1 -> ws_trace M A1 tr A2 -> ws_trace M A ((p, x) :: tr) A2.
