(** Properties C13-C19: StableBlockVector and block iterators.
    [P] fixes the block exponent N ([expo P], 0..30) and whether elements have a trivial destructor. *)
From stdpp Require Import gmap.
From Verif Require Import Base BlkHeap BlkIter VecModel VecSpec VecProofs VecWorld VecFinal.

(** ** C13 *)
Theorem C13_vector_sequence :
  forall (V : Type) P, 0 <= expo P <= 30 -> forall (h0 : bheap V) v0 xs0 ops,
    vstart P h0 v0 xs0 -> seq_ok xs0 ops -> Forall no_walk ops ->
    exists h v tr, vec_run P h0 v0 ops = Ok (h, v, tr) /\ map fst tr = ops /\ seq_trace xs0 tr (seq_after xs0 ops).
Proof. intros V P HP. exact (vec_sequence P HP). Qed.
Print Assumptions C13_vector_sequence.

Theorem C13_vector_sized :
  forall (V : Type) P, 0 <= expo P <= 30 -> forall n (x : V), 0 <= n ->
    exists h v, vec_sized P bheap0 n x = Ok (h, v) /\ vstart P h v (replicate (Z.to_nat n) x).
Proof.
  intros V P HP n x Hn. destruct (vsized_start P HP n x Hn) as (h & v & E). exists h, v. split; [exact E|]. econstructor; eassumption.
Qed.
Print Assumptions C13_vector_sized.

Definition PX (n : Z) : params := Params n false false.

Example C13_nonvacuous :
  let ops := [VPush 1; VPush 2; VPush 3; VPop; VBack; VFront; VPush 4; VPush 5; VPush 6; VSet 2 9; VAssign [7; 8; 9]; VAt 2; VAt 3; VGet 1;
              VClear; VPop; VShrink; VPush 3; VBack; VSize; VEmpty] in
  seq_ok [] ops /\ Forall no_walk ops /\
  exists h v, vec_run (PX 1) bheap0 (vec_default (PX 1)) ops =
    Ok (h, v, combine ops [VUnit; VUnit; VUnit; VUnit; VVal 2; VVal 1; VUnit; VUnit; VUnit; VUnit; VUnit; VVal 9; VOutOfRange; VVal 8;
                           VUnit; VUnit; VUnit; VUnit; VVal 3; VInt 1; VBool false]).
Proof.
  cbv zeta. split; [cbn; unfold zlen; cbn; repeat split; try lia; discriminate|]. split; [repeat constructor|].
  eexists _, _. vm_compute. reflexivity.
Qed.

(** ** C14 *)
Theorem C14_vector_stable :
  forall (V : Type) P, 0 <= expo P <= 30 -> forall (h0 : bheap V) v0 xs0 ops1 ops2 h1 v1 tr1 h2 v2 tr2 n,
    vstart P h0 v0 xs0 -> seq_ok xs0 (ops1 ++ ops2) -> Forall no_walk (ops1 ++ ops2) ->
    vec_run P h0 v0 ops1 = Ok (h1, v1, tr1) -> vec_run P h1 v1 ops2 = Ok (h2, v2, tr2) -> 0 <= n ->
    (forall k, (k <= length ops2)%nat -> n < zlen (seq_after xs0 (ops1 ++ take k ops2))) ->
    exists b, vec_at P h1 v1 n = Ok (Some b, n mod bsz P) /\ vec_at P h2 v2 n = Ok (Some b, n mod bsz P).
Proof. intros V P HP. exact (vec_stable P HP). Qed.
Print Assumptions C14_vector_stable.

Theorem C14_vector_distinct :
  forall (V : Type) P, 0 <= expo P <= 30 -> forall (h0 : bheap V) v0 xs0 ops h v tr n m,
    vstart P h0 v0 xs0 -> seq_ok xs0 ops -> Forall no_walk ops -> vec_run P h0 v0 ops = Ok (h, v, tr) ->
    0 <= n < zlen (seq_after xs0 ops) -> 0 <= m < zlen (seq_after xs0 ops) -> n <> m -> vec_at P h v n <> vec_at P h v m.
Proof. intros V P HP. exact (vec_distinct P HP). Qed.
Print Assumptions C14_vector_distinct.

Theorem C14_vector_contents :
  forall (V : Type) P, 0 <= expo P <= 30 -> forall (h0 : bheap V) v0 xs0 ops h v tr n x,
    vstart P h0 v0 xs0 -> seq_ok xs0 ops -> Forall no_walk ops -> vec_run P h0 v0 ops = Ok (h, v, tr) ->
    seq_after xs0 ops !! n = Some x -> exists b j, vec_at P h v (Z.of_nat n) = Ok (Some b, j) /\ eget P h (Some b) j = Ok x.
Proof. intros V P HP. exact (vec_contents P HP). Qed.
Print Assumptions C14_vector_contents.

(** Moving a vector leaves its elements where they are. *)
Theorem C14_vector_move_keeps :
  forall (V : Type) P (h : bheap V) v n, vec_at P h (fst (vec_move v)) n = vec_at P h v n.
Proof. reflexivity. Qed.
Print Assumptions C14_vector_move_keeps.

Example C14_nonvacuous :
  let ops1 := map VPush (seq 0 2) in let ops2 := [VPush 3%nat; VPop; VPush 4%nat; VShrink; VPush 5%nat; VPush 6%nat] ++ map VPush (seq 0 80) in
  match vec_run (PX 0) bheap0 (vec_default (PX 0)) ops1 with
  | Ok (h1, v1, _) =>
      match vec_run (PX 0) h1 v1 ops2 with
      | Ok (h2, v2, _) => v_slots v1 = 64 /\ v_slots v2 = 128 /\ vec_at (PX 0) h2 v2 1 = vec_at (PX 0) h1 v1 1 /\
          bool_decide (v_data v1 = v_data v2) = false
      | _ => False
      end
  | _ => False
  end.
Proof. vm_compute. repeat split. Qed.

(** ** C15
    Full statement: every program over several vectors (within lifetimes, no calls on moved-from vectors) runs without an
    invalid construction, destruction, deallocation or access, and frees everything when all vectors are destroyed.
    It is false ([C15_vector_lifetime_refuted]); it holds of programs that never (a) clear, destroy or move-assign into a
    copy of an allocated but empty vector to which nothing was added, (b) traverse or copy a vector whose table is
    exactly full ([vw_guard], part of [vw_ok]). *)
Theorem C15_vector_lifetime_partial :
  forall (V : Type) P, 0 <= expo P <= 30 -> forall ps, vw_ok P vworld0 ∅ ps ->
    exists w tr A, vwrun P (@vworld0 V) ps = Ok (w, tr) /\ map fst tr = ps /\ vw_trace ∅ tr A /\
      (forall o, w_vecs w !! o = None <-> A !! o = None) /\
      (w_vecs w = ∅ -> el (w_heap w) = ∅ /\ bl (w_heap w) = ∅ /\ tb (w_heap w) = ∅).
Proof. intros V P HP. exact (vec_world P HP). Qed.
Print Assumptions C15_vector_lifetime_partial.

Theorem C15_vector_lifetime_refuted :
  exists ps, ps = [VDefault 0; VCall 0 (VPush 5); VCall 0 VPop; VCopy 1 0; VDestroy 1] /\
    vwrun (Params 5 true true) (@vworld0 Z) ps = UB /\
    exists w, vwrun (Params 5 true true) vworld0 (take 4 ps) = Ok (w, combine ps [VUnit; VUnit; VUnit; VUnit]) /\ is_Some (w_vecs w !! 1%nat).
Proof.
  eexists. split; [reflexivity|]. split; [vm_compute; reflexivity|]. eexists. split; [vm_compute; reflexivity|]. eexists. reflexivity.
Qed.
Print Assumptions C15_vector_lifetime_refuted.

(** A decision procedure for [vw_ok], to check examples *)
Section check.
Context {V : Type}.
Variable P : params.
Definition seq_legalb (xs : list V) (o : vop V) : bool :=
  match o with
  | VSet n _ | VGet n => (0 <=? n) && (n <? zlen xs)
  | VAt n => 0 <=? n
  | VBack | VFront => match xs with [] => false | _ => true end
  | _ => true
  end.
Definition livesb (A : gmap nat (option (list V))) o := match A !! o with Some (Some _) => true | _ => false end.
Definition knownb (A : gmap nat (option (list V))) o := match A !! o with Some _ => true | _ => false end.
Definition vw_legalb (A : gmap nat (option (list V))) (p : vwop V) : bool :=
  match p with
  | VDefault o => negb (knownb A o)
  | VSized o n _ => negb (knownb A o) && (0 <=? n)
  | VCopy o src | VMove o src => negb (knownb A o) && knownb A src
  | VCopyAssign o src => livesb A o && livesb A src
  | VMoveAssign o src => knownb A o && knownb A src
  | VCall o c => match A !! o with Some (Some xs) => seq_legalb xs c | _ => false end
  | VDestroy o => knownb A o
  end.
(* a vector without table or with a block and spare entries is in neither bad state *)
Definition calmb (v : vec) : bool := match v_data v with None => true | _ => (0 <=? v_idx v) && (v_idx v + 1 <? v_slots v) end.
Definition vw_guardb (w : vworld V) (p : vwop V) : bool :=
  match p with
  | VCopy _ o | VCopyAssign _ o | VMoveAssign o _ | VDestroy o | VCall o _ =>
      match w_vecs w !! o with Some v => calmb v | None => true end
  | _ => true
  end.
Definition vw_next (A : gmap nat (option (list V))) (p : vwop V) : gmap nat (option (list V)) :=
  match p with
  | VDefault o => <[o := Some []]> A
  | VSized o n x => <[o := Some (replicate (Z.to_nat n) x)]> A
  | VCopy o src => match A !! src with Some (Some xs) => <[o := Some xs]> A | _ => <[o := Some []]> A end
  | VMove o src => match A !! src with Some v => <[o := v]> (<[src := None]> A) | None => A end
  | VCopyAssign o src => match A !! src with Some (Some xs) => <[o := Some xs]> A | _ => A end
  | VMoveAssign o src => match A !! src with Some v => <[src := None]> (<[o := v]> A) | None => A end
  | VCall o c => match A !! o with Some (Some xs) => <[o := Some (seq_next xs c)]> A | _ => A end
  | VDestroy o => delete o A
  end.
Fixpoint vw_chk (w : vworld V) A (ps : list (vwop V)) : bool :=
  match ps with
  | [] => true
  | p :: ps' => vw_legalb A p && vw_guardb w p &&
      match vwstep P w p with Ok (w', _) => vw_chk w' (vw_next A p) ps' | _ => true end
  end.

Lemma vw_step_next A p r A' : vw_step A p r A' -> A' = vw_next A p.
Proof.
  intros S. destruct S; cbn; try reflexivity;
    repeat match goal with H : A !! _ = Some _ |- _ => rewrite H; clear H end; try reflexivity.
  match goal with H : seq_step _ _ _ _ |- _ => rewrite (seq_next_ok _ _ _ _ H) end. reflexivity.
Qed.
Lemma calm v : calmb v = true -> ~ vfull P v /\ ~ phantom v.
Proof.
  unfold calmb, vfull, phantom. destruct (v_data v); [|intros _; split; intros F; [destruct F as (F & _)|destruct F as (F & _)]; congruence].
  intros E. apply andb_prop in E as [E1 E2]. split; intros (? & ?); intuition lia.
Qed.
Lemma known A o : knownb A o = true -> is_Some (A !! o).
Proof. unfold knownb. destruct (A !! o); [eauto|discriminate]. Qed.
Lemma unknown A o : negb (knownb A o) = true -> A !! o = None.
Proof. unfold knownb. destruct (A !! o); [discriminate|auto]. Qed.
Lemma lives A o : livesb A o = true -> exists xs, A !! o = Some (Some xs).
Proof. unfold livesb. destruct (A !! o) as [[]|]; [eauto|discriminate|discriminate]. Qed.
Lemma vw_chk_ok ps : forall w A, vw_chk w A ps = true -> vw_ok P w A ps.
Proof.
  induction ps as [|p ps IH]; intros w A E; cbn [vw_ok vw_chk] in *; [exact I|].
  apply andb_prop in E as [E En]. apply andb_prop in E as [El Eg]. split; [|split].
  - destruct p; cbn [vw_legal vw_legalb] in *; repeat match goal with H : _ && _ = true |- _ => apply andb_prop in H as [? ?] end;
      repeat split; try (apply unknown; assumption); try (apply known; assumption); try (apply lives; assumption); try lia.
    destruct (A !! o) as [[xs|]|]; try discriminate. exists xs. split; [reflexivity|].
    destruct c; cbn in *; try exact I; try lia; destruct xs; discriminate.
  - destruct p as [| |o src| | | |o c|]; cbn [vw_guard vw_guardb] in *; try exact I; try (intros v Ev; rewrite Ev in Eg; apply (calm _ Eg)).
    intros v Ev; rewrite Ev in Eg. destruct c; cbn [vguard]; try exact I; apply (calm _ Eg).
  - intros w' r A' Er S. rewrite Er in En. rewrite (vw_step_next _ _ _ _ S). apply IH. exact En.
Qed.
End check.

Example C15_nonvacuous :
  let ps := [VSized 0 3 7; VCall 0 (VPush 8); VMove 1 0; VDefault 2; VMoveAssign 0 2; VCall 0 VSize; VCall 1 (VPush 5);
             VCopy 3 1; VCall 3 VWalk; VCall 3 VClear; VCopyAssign 0 1; VCall 0 (VGet 4); VDestroy 0; VDestroy 1; VDestroy 2; VDestroy 3] in
  vw_ok (PX 1) vworld0 ∅ ps /\
  match vwrun (PX 1) (@vworld0 Z) ps with
  | Ok (w, tr) => map snd tr = [VUnit; VUnit; VUnit; VUnit; VUnit; VInt 0; VUnit; VUnit; VList [7; 7; 7; 8; 5]; VUnit; VUnit; VVal 5;
                               VUnit; VUnit; VUnit; VUnit] /\ map_to_list (el (w_heap w)) = [] /\ map_to_list (tb (w_heap w)) = []
  | _ => False
  end.
Proof.
  cbv zeta. split; [apply vw_chk_ok; vm_compute; reflexivity|]. vm_compute. splits.
Qed.

(** ** C16 (the deque is in Props_Deque) *)
Theorem C16_vector_at :
  forall (V : Type) P, 0 <= expo P <= 30 -> forall (h0 : bheap V) v0 xs0 ops h v tr n,
    vstart P h0 v0 xs0 -> seq_ok xs0 ops -> Forall no_walk ops -> vec_run P h0 v0 ops = Ok (h, v, tr) -> 0 <= n ->
    (v_size v <= n /\ vec_step P h v (VAt n) = Ok (h, v, VOutOfRange)) \/
    (n < v_size v /\ exists x, seq_after xs0 ops !! Z.to_nat n = Some x /\ vec_step P h v (VAt n) = Ok (h, v, VVal x) /\
       vec_step P h v (VGet n) = Ok (h, v, VVal x)).
Proof. intros V P HP. exact (vec_at_checked P HP). Qed.
Print Assumptions C16_vector_at.

(** ** C17
    [iters h xs first last pos]: [pos i] for i = 0..size are the iterators; reading gives element i, += and -= (by less
    than about 2^31) and == act on positions.  Full statement also wants += by any amount; that is false for 2^32
    ([C17_vector_iterators_refuted]), and end() must be obtainable (C18). *)
Theorem C17_vector_iterators_partial :
  forall (V : Type) P, 0 <= expo P <= 30 -> forall (h0 : bheap V) v0 xs0 ops h v tr,
    vstart P h0 v0 xs0 -> seq_ok xs0 ops -> Forall no_walk ops -> vec_run P h0 v0 ops = Ok (h, v, tr) -> ~ vfull P v ->
    exists first last pos, vec_begin P h v = Ok first /\ vec_end P h v = Ok last /\ iters P h (seq_after xs0 ops) first last pos /\
      (forall n, (n <= length (seq_after xs0 ops))%nat -> it_steps P h first n = Ok (pos (Z.of_nat n))) /\
      it_walk P h first last (length (seq_after xs0 ops)) = Ok (seq_after xs0 ops).
Proof. intros V P HP. exact (vec_iterators P HP). Qed.
Print Assumptions C17_vector_iterators_partial.

Theorem C17_vector_iterators_refuted :
  forall (V : Type) P, 0 <= expo P <= 30 -> forall x : V,
    exists h v first last it, vec_sized P bheap0 4294967297 x = Ok (h, v) /\ vec_begin P h v = Ok first /\ vec_end P h v = Ok last /\
      it_add P h first 4294967296 = Ok it /\ it_eq it first = true /\
      (forall pos, iters P h (replicate (Z.to_nat 4294967297) x) first last pos -> it_eq it (pos 4294967296) = false).
Proof. intros V P HP. exact (vec_iter_wrap P HP). Qed.
Print Assumptions C17_vector_iterators_refuted.

(** += with a negative amount does not go back over a block boundary, unlike -=. *)
Theorem C17_vector_negative_advance_refuted :
  exists (h : bheap nat) v first it a b,
    vec_sized (PX 1) bheap0 4 7%nat = Ok (h, v) /\ vec_begin (PX 1) h v = Ok first /\ it_add (PX 1) h first 2 = Ok it /\
    it_add (PX 1) h it (-1) = Ok a /\ it_sub (PX 1) h it 1 = Ok b /\ it_eq a b = false /\
    it_read (PX 1) h a = UB /\ it_read (PX 1) h b = Ok 7%nat.
Proof. eexists _, _, _, _, _, _. do 7 (split; [vm_compute; reflexivity|]). vm_compute; reflexivity. Qed.
Print Assumptions C17_vector_negative_advance_refuted.

Example C17_nonvacuous :
  exists h v tr first, vec_run (PX 1) bheap0 (vec_default (PX 1)) [VPush 1; VPush 2; VPush 3] = Ok (h, v, tr) /\
    vec_begin (PX 1) h v = Ok first /\ vec_walk (PX 1) h v = Ok [1; 2; 3] /\
    exists it, it_add (PX 1) h first 2 = Ok it /\ it_read (PX 1) h it = Ok 3.
Proof. eexists _, _, _, _. do 3 (split; [vm_compute; reflexivity|]). eexists. split; vm_compute; reflexivity. Qed.

(** ** C18
    begin() always reads inside the table; end() does so exactly when the table is not full ([vfull]); a full table means
    size() = slots * block size. *)
Theorem C18_vector_begin_end_partial :
  forall (V : Type) P, 0 <= expo P <= 30 -> forall (h0 : bheap V) v0 xs0 ops h v tr,
    vstart P h0 v0 xs0 -> seq_ok xs0 ops -> Forall no_walk ops -> vec_run P h0 v0 ops = Ok (h, v, tr) ->
    (exists it, vec_begin P h v = Ok it) /\
    (vfull P v -> vec_end P h v = UB) /\ (~ vfull P v -> exists it, vec_end P h v = Ok it) /\
    (vfull P v -> zlen (seq_after xs0 ops) = v_slots v * bsz P).
Proof. intros V P HP. exact (vec_begin_end P HP). Qed.
Print Assumptions C18_vector_begin_end_partial.

Theorem C18_vector_end_refuted :
  exists (ops : list (vop nat)) h v tr, ops = map VPush (seq 0 128) /\
    vec_run (PX 1) bheap0 (vec_default (PX 1)) ops = Ok (h, v, tr) /\ vec_end (PX 1) h v = UB.
Proof.
  assert (H : match vec_run (PX 1) bheap0 (vec_default (PX 1)) (map VPush (seq 0 128)) with
              | Ok (h, v, _) => match vec_end (PX 1) h v with UB => True | _ => False end | _ => False end) by (vm_compute; exact I).
  exists (map VPush (seq 0 128)).
  destruct (vec_run (PX 1) bheap0 (vec_default (PX 1)) (map VPush (seq 0 128))) as [[[h v] tr]| |]; [|contradiction|contradiction].
  exists h, v, tr. split; [reflexivity|]. split; [reflexivity|]. destruct (vec_end (PX 1) h v); [contradiction|contradiction|reflexivity].
Qed.
Print Assumptions C18_vector_end_refuted.

(** ** C19
    A vector moved from by construction has size 0, but pushing onto it and obtaining iterators is undefined; one moved
    from by assignment still reports its old size.  Both can be destroyed and assigned to by move. *)
Theorem C19_vector_moved_from_refuted :
  forall (V : Type) P, 0 <= expo P <= 30 -> forall (h : bheap V) v x,
    v_size (snd (vec_move v)) = 0 /\ vec_push P h (snd (vec_move v)) x = UB /\
    vec_end P h (snd (vec_move v)) = UB /\ vec_begin P h (snd (vec_move v)) = UB.
Proof.
  intros V P HP h v x. split; [reflexivity|]. split; [apply vec_moved_push; exact HP|]. apply vec_moved_iter; exact HP.
Qed.
Print Assumptions C19_vector_moved_from_refuted.

Theorem C19_vector_move_assigned_from_refuted :
  exists ps w tr, ps = [VSized 0 3 7; VDefault 1; VMoveAssign 1 0; VCall 0 VSize] /\
    vwrun (PX 1) (@vworld0 Z) ps = Ok (w, tr) /\ last tr = Some (VCall 0 VSize, VInt 3) /\
    vwrun (PX 1) (@vworld0 Z) (ps ++ [VCall 0 (VPush 1)]) = UB.
Proof. eexists _, _, _. split; [reflexivity|]. do 2 (split; [vm_compute; reflexivity|]). vm_compute; reflexivity. Qed.
Print Assumptions C19_vector_move_assigned_from_refuted.

Theorem C19_vector_moved_from_partial :
  forall (V : Type) P (h : bheap V) v w,
    vec_free_all P h (snd (vec_move v)) = Ok h /\
    (exists w', vec_move_assign P h (snd (vec_move v)) w = Ok (h, w, w')) /\
    (forall d h' d' s', vec_move_assign P h d w = Ok (h', d', s') -> d' = w /\ vec_free_all P h' s' = Ok h').
Proof.
  intros V P h v w. split; [reflexivity|]. split; [eexists; apply vec_moved_reuse|].
  intros d h' d' s' E. apply vec_moved_assign in E. tauto.
Qed.
Print Assumptions C19_vector_moved_from_partial.
