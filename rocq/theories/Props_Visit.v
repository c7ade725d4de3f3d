(** Property C113: apply, modify and transform of the mapped vectors with a function that throws. *)
From stdpp Require Import gmap.
From Verif Require Import Base BlkHeap BlkIter VecModel MapStore MapStoreProofs MapModel MapSpec MapRel MapProofs MapReach MapFinal MapCheck
  DualModel DualSpec DualProofs DualReach DualFinal MapVisit.

Definition PV (n : Z) : params := Params n false false.

(** ** C113
    In every state in which the loop is defined ([st_room], see C36): the elements are given to the function one by one from
    the first one; if a call throws no further element is touched, those before have the value the function gave them, and
    the search terms, the size and the places of the elements are as before ([visited]). *)
Theorem C113_modify :
  forall (V K : Type) `{Countable K} P, 0 <= expo P <= 30 -> forall (kdef : option K) stb (m : mv V K) f,
  mreach P kdef stb m -> st_room P (m_st m) ->
  exists xs m' ys l e, holds P (m_st m) xs /\ mv_visit P m f = Ok (m', l, e) /\ visited f 0 xs ys l e /\ holds P (m_st m') ys /\
    m_lk m' = m_lk m /\ st_kept P (m_st m) (m_st m').
Proof.
  intros V K ? ? P HP kdef stb m f Hr Hf. destruct (mreach_ok P HP kdef stb m Hr) as ((xs & Hs) & Hn & Hb).
  destruct (st_visit_ok P HP (m_st m) xs f Hs Hf) as (s' & ys & l & e & E & Hv & Hs' & Kp). exists xs, (Mv s' (m_lk m)), ys, l, e.
  unfold mv_visit. rewrite E. splits; [apply ok_holds; assumption|exact Hv|apply ok_holds; assumption|exact Kp].
Qed.
Print Assumptions C113_modify.

(** What is left goes on as a container of the elements with their new values. *)
Theorem C113_continues :
  forall (V K : Type) `{Countable K} P, 0 <= expo P <= 30 -> forall (kdef : option K) stb (m : mv V K) a f,
  mgood P kdef stb m a -> st_room P (m_st m) ->
  exists m' ys l e, mv_visit P m f = Ok (m', l, e) /\ visited f 0 (as_vals a) ys l e /\ as_vals (as_vals_set ys a) = ys /\
    forall ops, mv_safe P kdef m' ops ->
      exists m'', mv_run P kdef m' ops = Ok (m'', (as_run stb (as_vals_set ys a) ops).2) /\ holds P (m_st m'') (as_vals (as_run stb (as_vals_set ys a) ops).1).
Proof.
  intros V K ? ? P HP kdef stb m a f Hg Hf. destruct (mgood_rel P HP kdef stb m a Hg) as [R Hb].
  destruct (st_visit_ok P HP _ _ f (r_st _ _ _ _ R) Hf) as (s' & ys & l & e & E & Hv & Hs' & Kp). exists (Mv s' (m_lk m)), ys, l, e.
  unfold mv_visit. rewrite E. pose proof (visited_length _ _ _ _ _ _ Hv) as Hlen.
  split; [reflexivity|]. split; [exact Hv|]. split; [apply as_vals_set_vals, Hlen|].
  assert (R' : mrel P (Mv s' (m_lk m)) (as_vals_set ys a)) by (eapply rel_vals_set; [exact R|exact Hlen|exact Hs']).
  intros ops Hs. destruct (mv_run_ok P HP kdef ops _ _ R' Hs) as (m'' & E' & R'' & _). cbn [m_st] in *. rewrite (st_kept_stable P _ _ Kp), Hb in *. exists m''. split; [exact E'|]. apply ok_holds, R''; exact HP.
Qed.
Print Assumptions C113_continues.

Theorem C113_dual_modify :
  forall (V K1 K2 : Type) `{Countable K1} `{Countable K2} P, 0 <= expo P <= 30 -> forall cl (kd1 : option K1) (kd2 : option K2) stb (d : dv V K1 K2) f,
  dreach P cl kd1 kd2 stb d -> st_room P (d_st d) ->
  exists xs d' ys l e, holds P (d_st d) xs /\ dv_visit P d f = Ok (d', l, e) /\ visited f 0 xs ys l e /\ holds P (d_st d') ys /\
    (forall k, d_lk d' k = d_lk d k) /\ st_kept P (d_st d) (d_st d').
Proof.
  intros V K1 K2 ? ? ? ? P HP cl kd1 kd2 stb d f Hr Hf. destruct (dreach_ok P HP cl kd1 kd2 stb d Hr) as ((xs & Hs) & _).
  destruct (st_visit_ok P HP (d_st d) xs f Hs Hf) as (s' & ys & l & e & E & Hv & Hs' & Kp). exists xs, (Dv s' (d_l1 d) (d_l2 d)), ys, l, e.
  unfold dv_visit. rewrite E. split; [apply ok_holds; assumption|]. split; [reflexivity|]. split; [exact Hv|]. split; [apply ok_holds; assumption|]. split; [intros [k|k]; reflexivity|exact Kp].
Qed.
Print Assumptions C113_dual_modify.

Theorem C113_dual_continues :
  forall (V K1 K2 : Type) `{Countable K1} `{Countable K2} P, 0 <= expo P <= 30 -> forall cl (kd1 : option K1) (kd2 : option K2) stb (d : dv V K1 K2) a f,
  dgood P cl kd1 kd2 stb d a -> st_room P (d_st d) ->
  exists d' ys l e, dv_visit P d f = Ok (d', l, e) /\ visited f 0 (as_vals a) ys l e /\ as_vals (as_vals_set ys a) = ys /\
    forall ops, dv_safe P cl kd1 kd2 d' ops ->
      exists d'', dv_run P cl kd1 kd2 d' ops = Ok (d'', (as_drun cl stb (as_vals_set ys a) ops).2) /\
        holds P (d_st d'') (as_vals (as_drun cl stb (as_vals_set ys a) ops).1).
Proof.
  intros V K1 K2 ? ? ? ? P HP cl kd1 kd2 stb d a f Hg Hf. destruct (dgood_rel P HP cl kd1 kd2 stb d a Hg) as [R Hb].
  destruct (st_visit_ok P HP _ _ f (r_st _ _ _ _ R) Hf) as (s' & ys & l & e & E & Hv & Hs' & Kp). exists (Dv s' (d_l1 d) (d_l2 d)), ys, l, e.
  unfold dv_visit. rewrite E. pose proof (visited_length _ _ _ _ _ _ Hv) as Hlen.
  split; [reflexivity|]. split; [exact Hv|]. split; [apply as_vals_set_vals, Hlen|].
  assert (R' : drel P (Dv s' (d_l1 d) (d_l2 d)) (as_vals_set ys a)) by (eapply rel_vals_set; [exact R|exact Hlen|exact Hs']).
  intros ops Hs. destruct (dv_run_ok P HP cl kd1 kd2 ops _ _ R' Hs) as (d'' & E' & R'' & _). cbn [d_st] in *. rewrite (st_kept_stable P _ _ Kp), Hb in *. exists d''. split; [exact E'|]. apply ok_holds, R''; exact HP.
Qed.
Print Assumptions C113_dual_continues.

(** apply: the function only reads; the calls made are those up to the one that throws. *)
Theorem C113_apply :
  (forall (V K : Type) `{Countable K} P, 0 <= expo P <= 30 -> forall (kdef : option K) stb (m : mv V K) (t : nat -> V -> bool),
     mreach P kdef stb m -> st_room P (m_st m) ->
     exists xs l e, holds P (m_st m) xs /\ st_look P (m_st m) t = Ok (l, e) /\ visited (fun i x => (x, t i x)) 0 xs xs l e) /\
  (forall (V K1 K2 : Type) `{Countable K1} `{Countable K2} P, 0 <= expo P <= 30 -> forall cl (kd1 : option K1) (kd2 : option K2) stb (d : dv V K1 K2) (t : nat -> V -> bool),
     dreach P cl kd1 kd2 stb d -> st_room P (d_st d) ->
     exists xs l e, holds P (d_st d) xs /\ st_look P (d_st d) t = Ok (l, e) /\ visited (fun i x => (x, t i x)) 0 xs xs l e).
Proof.
  split.
  - intros V K ? ? P HP kdef stb m t Hr Hf. destruct (mreach_ok P HP kdef stb m Hr) as ((xs & Hs) & Hn & Hb).
    destruct (st_look_ok P HP (m_st m) xs t Hs Hf) as (l & e & E & Hv). exists xs, l, e. split; [apply ok_holds; assumption|]. split; assumption.
  - intros V K1 K2 ? ? ? ? P HP cl kd1 kd2 stb d t Hr Hf. destruct (dreach_ok P HP cl kd1 kd2 stb d Hr) as ((xs & Hs) & _).
    destruct (st_look_ok P HP (d_st d) xs t Hs Hf) as (l & e & E & Hv). exists xs, l, e. split; [apply ok_holds; assumption|]. split; assumption.
Qed.
Print Assumptions C113_apply.

(** With a function that does not throw this is the loop of C36. *)
Theorem C113_same :
  forall (V K : Type) `{Countable K} P (kdef : option K) (m : mv V K) f,
  mv_step P kdef m (MModify f) = ('(m', l, _) <-! mv_visit P m (fun _ x => (f x, false)) ;; Ok (m', MList l)).
Proof.
  intros V K ? ? P kdef m f. cbn [mv_step]. unfold mv_modify, mv_visit. rewrite st_visit_pure. destruct (st_modify P (m_st m) f) as [[s l]| |]; reflexivity.
Qed.
Print Assumptions C113_same.

(** Four elements (three blocks of two in stable storage); the third call throws after it has changed the element. *)
Definition third (n : nat) (x : Z) : Z * bool := (x + 1 + Z.of_nat n, (2 <=? n)%nat).
Example C113_ex : forall stb,
  match reach_chk (PV 1) (Some 0) (mv0 (PV 1) stb) [MInsert 5 10; MInsert 6 20; MInsert 7 30; MAlias 8 2; MInsertNo 40] with
  | Some m => mreach (PV 1) (Some 0) stb m /\ st_room (PV 1) (m_st m) /\
      match mv_visit (PV 1) m third with
      | Ok (m', l, e) => l = [10; 20; 30] /\ e = true /\
          match mv_step (PV 1) (Some 0) m' MApply with Ok (_, r) => r = MList [11; 22; 33; 40] | _ => False end /\
          match mv_step (PV 1) (Some 0) m' (MFind 8) with Ok (_, r) => r = MVal (Some 33) | _ => False end
      | _ => False
      end
  | None => False
  end.
Proof.
  intros stb. destruct (reach_chk (PV 1) (Some 0) _ _) as [m|] eqn:E; [|destruct stb; vm_compute in E; discriminate].
  split; [eapply reach_run; exact E|]. destruct stb; vm_compute in E; injection E as <-; (split; [vm_compute; try exact I; intros F; intuition congruence|vm_compute; splits]).
Qed.
