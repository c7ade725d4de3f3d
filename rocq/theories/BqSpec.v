(** An atomic queue with a priority channel: [(P, N)] are the priority and the normal elements.
    BlockingQueue is the case where no priority operation is called. *)
From stdpp Require Import list.
From Verif Require Import Base BqModel.

Section spec.
Context {V : Type}.

(** [o] takes the first element: a priority one if there is any *)
Inductive pop_op : bqop V -> Prop :=
| po_try : pop_op BTryPop | po_pop : pop_op BPop | po_for : pop_op BPopFor | po_call : pop_op BPopCall.

(** The answers of try_peek, size and empty are left open here: they are not those of an atomic queue (C47, C51). *)
Inductive bq_spec : list V * list V -> bqop V -> bqret V -> list V * list V -> Prop :=
| bqs_push P N v : bq_spec (P, N) (BPush v) BUnit (P, N ++ [v])
| bqs_emplace P N v : bq_spec (P, N) (BEmplace v) BUnit (P, N ++ [v])
| bqs_push_pri P N v : bq_spec (P, N) (BPushPri v) BUnit (P ++ [v], N)
| bqs_emplace_pri P N v : bq_spec (P, N) (BEmplacePri v) BUnit (P ++ [v], N)
| bqs_pop_pri o P N v : pop_op o -> bq_spec (v :: P, N) o (BVal (Some v)) (P, N)
| bqs_pop o N v : pop_op o -> bq_spec ([], v :: N) o (BVal (Some v)) ([], N)
| bqs_try_pop_none : bq_spec ([], []) BTryPop (BVal None) ([], [])
| bqs_pop_for_none : bq_spec ([], []) BPopFor (BVal None) ([], [])
| bqs_clear q : bq_spec q BClear BUnit ([], [])
| bqs_reserve q n : bq_spec q (BReserve n) BUnit q
| bqs_peek q r : bq_spec q BPeek (BVal r) q
| bqs_size q n : bq_spec q BSize (BNum n) q
| bqs_empty q b : bq_spec q BEmpty (BBool b) q.

(** A first-in first-out queue with exact answers, without the priority channel; pop() and popOrCall() of an empty queue do
    not return *)
Definition fifo_spec (q : list V) (o : bqop V) (r : bqret V) (q' : list V) : Prop :=
  match o with
  | BPush v | BEmplace v => r = BUnit /\ q' = q ++ [v]
  | BTryPop | BPopFor => match q with [] => r = BVal None /\ q' = [] | v :: l => r = BVal (Some v) /\ q' = l end
  | BPop | BPopCall => match q with [] => False | v :: l => r = BVal (Some v) /\ q' = l end
  | BPeek => r = BVal (head q) /\ q' = q
  | BSize => r = BNum (Z.of_nat (length q)) /\ q' = q
  | BEmpty => r = BBool (match q with [] => true | _ => false end) /\ q' = q
  | BClear => r = BUnit /\ q' = []
  | BReserve _ => r = BUnit /\ q' = q
  | BPushPri _ | BEmplacePri _ => False
  end.

(** Values pushed and popped by a sequence of operations with their answers *)
Definition popped_val (o : bqop V) (r : bqret V) : list V :=
  match o, r with (BTryPop | BPop | BPopFor | BPopCall), BVal (Some v) => [v] | _, _ => [] end.
Definition pushed_val (o : bqop V) : list V :=
  match o with BPush v | BEmplace v | BPushPri v | BEmplacePri v => [v] | _ => [] end.
Definition pushed (L : list (nat * bqop V * bqret V)) : list V := flat_map (fun x => pushed_val x.1.2) L.
Definition popped (L : list (nat * bqop V * bqret V)) : list V := flat_map (fun x => popped_val x.1.2 x.2) L.

(** The channel an element is pushed to: [true] the priority one *)
Definition channel (o : bqop V) : bool := match o with BPushPri _ | BEmplacePri _ => true | _ => false end.
End spec.
