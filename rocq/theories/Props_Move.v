(** C103: how often the queues and AirLock use the argument they are given.  An argument that is used (std::forward) is moved from
    if it was passed as an rvalue, so a second use would store a moved-from object and a use in a refused call would rob the
    caller. *)
From stdpp Require Import list.
From Verif Require Import Base Conc CondVar MoveOnce.
From Verif Require SqModel BqModel AirModel.

Local Ltac cases := repeat match goal with |- context [match ?x with _ => _ end] => lazymatch x with context [match _ with _ => _ end] => fail | _ => destruct x eqn:? end end.
Local Ltac fin := repeat match goal with H : _ /\ _ |- _ => destruct H end; subst; first [split; congruence|congruence].

Section sq.
Import SqModel.
Context {V : Type}.

(** SimpleQueue.hpp:129, 138, 153, 163, 179, 188 *)
Definition sq_uses (pc : sqpc V) : bool := match pc with P5 _ | P10 _ => true | _ => false end.
Definition pushes (o : sqop V) : bool := match o with QPush _ | QEmplace _ | QPushVec _ => true | _ => false end.
Let at_ (pc : sqpc V) (o : sqop V) (n : nat) : Prop :=
  match pc with
  | P0 o' | P1 o' | P2 o' | P3 o' | P4 o' | P5 o' | P8 o' | P9 o' | P10 o' => pushes o = true /\ n = 0%nat
  | P6 _ | P7 _ | P11 _ => pushes o = true /\ n = 1%nat
  | Ret _ => n = if pushes o then 1%nat else 0%nat
  | _ => pushes o = false /\ n = 0%nat
  end.

(** Every push, emplace and pushVector uses its argument once. *)
Theorem C103_simple s xs c H : sq_run (init s) xs = Some (c, H) ->
  exists c' H', run (c_start sq_start) (c_step sq_step sq_uses) (c_fin sq_fin) (init s) xs = Some (c', H') /\ map forget H' = H /\
    forall t r o n, In (HRet t (r, o, n)) H' -> n = match o with QPush _ | QEmplace _ | QPushVec _ => 1%nat | _ => 0%nat end.
Proof.
  intros Er. destruct (run_uses sq_start sq_step sq_fin sq_uses at_ (fun _ o n => n = if pushes o then 1%nat else 0%nat)) with (1 := (fun o => ltac:(destruct o; cbn; auto) : at_ (sq_start o) o 0)) (s := s) (xs := xs) (c := c) (H := H) as (c' & H' & E1 & E2 & E3); [| |exact Er|].
  - intros s0 t pc k s' pc' o n Ha. destruct pc; cbn [sq_step sq_uses]; unfold lock_push, lock_pull; cases; try discriminate; intros [= <- <-]; unfold at_, cont in *; cases; fin.
  - intros pc r o n Ha. destruct pc; cbn; try discriminate. intros _. exact Ha.
  - exists c', H'. split; [exact E1|]. split; [exact E2|]. intros t r o n Hin. rewrite (E3 _ _ _ _ Hin). destruct o; reflexivity.
Qed.
End sq.

Section bq.
Import BqModel.
Context {V : Type}.

(** BlockingQueue.hpp:130, 133, 139, 148, 167, 170, 177, 186; BlockingPriorityQueue.hpp:129, 133, 138, 147, 161, 166, 191, 194, 200, 209, 223, 228 *)
Definition bq_uses (pc : bqpc V) : bool := match pc with P7 _ | PA _ | PD _ | PH _ | R3 _ | R6 _ => true | _ => false end.
Definition gives (o : bqop V) : bool := match o with BPush _ | BEmplace _ | BPushPri _ | BEmplacePri _ => true | _ => false end.
Let at_ (pc : bqpc V) (o : bqop V) (n : nat) : Prop :=
  match pc with
  | P0 _ | P1 _ | P2 _ | P3 _ | P4 _ | P5 _ | P6 _ | P7 _ | P8 _ | PA _ | PD _ | PH _ | R0 _ | R1 _ | R2 _ | R3 _ | R5 _ | R6 _ => gives o = true /\ n = 0%nat
  | P9 _ | PB _ | PC | PE | PF | PG | R4 | R7 | R8 => gives o = true /\ n = 1%nat
  | Ret _ => n = if gives o then 1%nat else 0%nat
  | _ => gives o = false /\ n = 0%nat
  end.

(** Every push and emplace uses its argument once, whatever path it takes. *)
Theorem C103_blocking bp s xs c H : bq_run bp (init s) xs = Some (c, H) ->
  exists c' H', run (c_start bq_start) (c_step (bq_step bp) bq_uses) (c_fin bq_fin) (init s) xs = Some (c', H') /\ map forget H' = H /\
    forall t r o n, In (HRet t (r, o, n)) H' -> n = match o with BPush _ | BEmplace _ | BPushPri _ | BEmplacePri _ => 1%nat | _ => 0%nat end.
Proof.
  intros Er. destruct (run_uses bq_start (bq_step bp) bq_fin bq_uses at_ (fun _ o n => n = if gives o then 1%nat else 0%nat)) with (1 := (fun o => ltac:(destruct o; cbn; auto) : at_ (bq_start o) o 0)) (s := s) (xs := xs) (c := c) (H := H) as (c' & H' & E1 & E2 & E3); [| |exact Er|].
  - intros s0 t pc k s' pc' o n Ha. destruct k, pc; cbn [bq_step bq_step0 bq_uses]; unfold lock_push, lock_pull; cases; try discriminate; intros [= <- <-]; unfold at_, cont, after, test in *; cases; fin.
  - intros pc r o n Ha. destruct pc; cbn; try discriminate. intros _. exact Ha.
  - exists c', H'. split; [exact E1|]. split; [exact E2|]. intros t r o n Hin. rewrite (E3 _ _ _ _ Hin). destruct o; reflexivity.
Qed.
End bq.

Section air.
Import AirModel.
Context {V : Type}.

(** AirLock.hpp:48, 64, 70 *)
Definition air_uses (pc : airpc V) : bool := match pc with AT3 _ | AL5 _ _ => true | _ => false end.
Let at_ (pc : airpc V) (o : airop V) (n : nat) : Prop :=
  match pc with
  | AT0 _ | AT1 _ | AT2 _ | AT3 _ => (exists v, o = ATryLoad v) /\ n = 0%nat
  | AT4 _ => (exists v, o = ATryLoad v) /\ n = 1%nat
  | AT5 _ b => (exists v, o = ATryLoad v) /\ n = if b then 1%nat else 0%nat
  | AL0 _ | AL1 _ | AL2 _ | AL3 _ | AL4 _ | AL5 _ _ => (exists v, o = ALoad v) /\ n = 0%nat
  | AL6 _ _ | AL7 => (exists v, o = ALoad v) /\ n = 1%nat
  | AEnd r => n = match o, r with ATryLoad _, ABool true => 1%nat | ALoad _, _ => 1%nat | _, _ => 0%nat end
  | _ => match o with ATryLoad _ | ALoad _ => False | _ => n = 0%nat end
  end.

(** load uses its argument once, try_load once if it returns true and never if it returns false. *)
Theorem C103_airlock s xs c H : air_run (init s) xs = Some (c, H) ->
  exists c' H', run (c_start air_start) (c_step air_step air_uses) (c_fin air_fin) (init s) xs = Some (c', H') /\ map forget H' = H /\
    forall t r o n, In (HRet t (r, o, n)) H' -> n = match o, r with ATryLoad _, ABool true => 1%nat | ALoad _, _ => 1%nat | _, _ => 0%nat end.
Proof.
  apply (run_uses air_start air_step air_fin air_uses at_).
  - intros []; cbn; eauto.
  - intros s0 t pc k s' pc' o n Ha. destruct k, pc; cbn [air_step air_step0 air_uses]; unfold lock; cases; try discriminate; intros [= <- <-]; unfold at_ in *; cases;
      repeat match goal with H : _ /\ _ |- _ => destruct H | H : exists _, _ |- _ => destruct H end; subst; first [solve [eauto]|congruence|contradiction|destruct o; first [contradiction|congruence]].
  - intros pc r o n Ha. destruct pc; cbn; try discriminate. intros [= <-]. exact Ha.
Qed.
End air.

(** Cases that meet the hypotheses: a try_load that is refused because another thread has loaded meanwhile; a push that finds the
    queue filled meanwhile. *)
Example C103_refused : exists c H, AirModel.air_run (init AirModel.air0)
    [(0, ACall (AirModel.ATryLoad 5)); (1, ACall (AirModel.ATryLoad 6)); (0, AInt CStep); (1, AInt CStep); (1, AInt CStep); (1, AInt CStep); (1, AInt CStep); (1, AInt CStep); (1, AInt CStep); (1, ARet);
     (0, AInt CStep); (0, AInt CStep); (0, AInt CStep); (0, ARet)]%nat = Some (c, H) /\ last H = Some (HRet 0%nat (AirModel.ABool false)).
Proof.
  match goal with |- exists c H, ?r = Some (c, H) /\ _ => let v := eval vm_compute in r in match v with Some (?c, ?H) => exists c, H end end. split; [|reflexivity]. vm_compute. reflexivity.
Qed.
Example C103_second : exists c H, SqModel.sq_run (init SqModel.sq0)
    ((0%nat, ACall (SqModel.QPush 5)) :: repeat (0%nat, AInt tt) 3 ++ (1%nat, ACall (SqModel.QPush 6)) :: repeat (1%nat, AInt tt) 8 ++ [(1%nat, ARet)] ++ repeat (0%nat, AInt tt) 6 ++ [(0%nat, ARet)]) = Some (c, H) /\
  last H = Some (HRet 0%nat SqModel.QUnit) /\ SqModel.sq_content (sh c) = [6; 5].
Proof.
  match goal with |- exists c H, ?r = Some (c, H) /\ _ => let v := eval vm_compute in r in match v with Some (?c, ?H) => exists c, H end end. split; [|split; reflexivity]. vm_compute. reflexivity.
Qed.

Print Assumptions C103_simple.
Print Assumptions C103_blocking.
Print Assumptions C103_airlock.
