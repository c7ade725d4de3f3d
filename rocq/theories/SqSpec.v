(** An atomic FIFO queue with the operations of SimpleQueue *)
From stdpp Require Import list.
From Verif Require Import Base SqModel.

(** [strict]: the answer of empty() is exact; otherwise it may be [false] for an empty queue. *)
Inductive sq_spec {V} (strict : bool) : list V -> sqop V -> sqret V -> list V -> Prop :=
| sqs_push q v : sq_spec strict q (QPush v) QUnit (q ++ [v])
| sqs_emplace q v : sq_spec strict q (QEmplace v) QUnit (q ++ [v])
| sqs_pushvec q vs : sq_spec strict q (QPushVec vs) QUnit (q ++ vs)
| sqs_pop_none : sq_spec strict [] QPop (QVal None) []
| sqs_pop v q : sq_spec strict (v :: q) QPop (QVal (Some v)) q
| sqs_peek_none : sq_spec strict [] QPeek (QVal None) []
| sqs_peek v q : sq_spec strict (v :: q) QPeek (QVal (Some v)) (v :: q)
| sqs_size q : sq_spec strict q QSize (QNum (zlen q)) q
| sqs_clear q : sq_spec strict q QClear QUnit []
| sqs_reserve n q : sq_spec strict q (QReserve n) QUnit q
| sqs_empty q b : (b = true -> q = []) -> (strict = true -> q = [] -> b = true) -> sq_spec strict q QEmpty (QBool b) q.
