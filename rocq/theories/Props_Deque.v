(** Properties C20-C25 and the deque side of C16-C18: StableBlockDeque.
    [P] fixes the block exponent N ([expo P], 0..30), whether elements have a trivial destructor, and whether std::copy
    may be used on overlapping pointer ranges ([overlap_ok], true of libraries that use memmove, not promised by C++). *)
From stdpp Require Import gmap.
From Verif Require Import Base BlkHeap BlkIter VecModel VecSpec VecFinal DeqModel DeqSpec DeqProofs DeqMore DeqWorld DeqFinal.

Definition PD (n : Z) : params := Params n false true.

(** ** C20
    Full statement: every legal history behaves as a list.  It is false ([C20_deque_sequence_refuted]).  The states in
    which a legal call is undefined are exactly the complement of [dguard] ([C20_deque_defects_exact]); otherwise the
    results are those of the list ([C20_deque_sequence_guarded_partial]).  With N >= 1 and memmove semantics the guard is
    met by all histories of push, pop, access and shrink_to_fit, and clear for trivially destructible elements. *)
Theorem C20_deque_sequence_partial :
  forall (V : Type) P, 1 <= expo P <= 30 -> overlap_ok P = true -> forall (h0 : bheap V) d0 xs0 ops,
    dstart P h0 d0 xs0 -> dq_ok xs0 ops -> Forall (plain P) ops ->
    exists h d tr, deq_run P h0 d0 ops = Ok (h, d, tr) /\ map fst tr = ops /\ dq_trace xs0 tr (dq_after xs0 ops).
Proof.
  intros V P HP Ho h0 d0 xs0 ops H0 Hok Hp. apply deq_sequence; [lia|exact H0|]. apply plain_dok; try assumption; lia.
Qed.
Print Assumptions C20_deque_sequence_partial.

Theorem C20_deque_sequence_guarded_partial :
  forall (V : Type) P, 0 <= expo P <= 30 -> forall (h0 : bheap V) d0 xs0 ops,
    dstart P h0 d0 xs0 -> dok P h0 d0 xs0 ops ->
    exists h d tr, deq_run P h0 d0 ops = Ok (h, d, tr) /\ map fst tr = ops /\ dq_trace xs0 tr (dq_after xs0 ops).
Proof. intros V P HP. exact (deq_sequence P HP). Qed.
Print Assumptions C20_deque_sequence_guarded_partial.

(** Results are never wrong: a legal history that runs gives the results of the list. *)
Theorem C20_deque_results :
  forall (V : Type) P, 0 <= expo P <= 30 -> forall (h0 : bheap V) d0 xs0 ops h d tr,
    dstart P h0 d0 xs0 -> dq_ok xs0 ops -> deq_run P h0 d0 ops = Ok (h, d, tr) ->
    map fst tr = ops /\ dq_trace xs0 tr (dq_after xs0 ops).
Proof. intros V P HP. exact (deq_sequence_ran P HP). Qed.
Print Assumptions C20_deque_results.

Theorem C20_deque_defects_exact :
  forall (V : Type) P, 0 <= expo P <= 30 -> forall (h0 : bheap V) d0 xs0 ops h d tr o,
    dstart P h0 d0 xs0 -> dq_ok xs0 ops -> deq_run P h0 d0 ops = Ok (h, d, tr) -> dq_legal (dq_after xs0 ops) o ->
    (deq_step P h d o = UB <-> ~ dguard P d o).
Proof. intros V P HP. exact (deq_exact_ran P HP). Qed.
Print Assumptions C20_deque_defects_exact.

(** clear() of a deque with a single block; assign to a deque with a full table. *)
Theorem C20_deque_sequence_refuted :
  (exists ops, ops = [DV (VPush 1); DV VClear] /\ dq_ok [] ops /\ deq_run (PD 2) bheap0 (deq_default (PD 2)) ops = UB) /\
  (exists ops, ops = map (fun n => DV (VPush n)) (seq 0 34) ++ [DV (VAssign [1%nat])] /\ dq_ok [] ops /\
     deq_run (PD 0) bheap0 (deq_default (PD 0)) ops = UB).
Proof.
  split; eexists; (split; [reflexivity|]; split; [vm_compute; repeat split|vm_compute; reflexivity]).
Qed.
Print Assumptions C20_deque_sequence_refuted.

Example C20_nonvacuous :
  let ops := [DV (VPush 1); DPushF 2; DPushF 3; DV (VPush 4); DV VFront; DV VBack; DV (VAt 3); DV (VAt 4); DPopF; DV (VGet 0);
              DV VPop; DV (VSet 1 7); DV VBack; DV VShrink; DPushF 5; DPushF 6; DPushF 8; DV VFront; DV VSize; DV VEmpty; DV (VGet 4)] in
  dq_ok [] ops /\ Forall (plain (PD 1)) ops /\ dstart (PD 1) bheap0 (deq_default (PD 1)) (@nil Z) /\
  exists h d, deq_run (PD 1) bheap0 (deq_default (PD 1)) ops =
    Ok (h, d, combine ops [VUnit; VUnit; VUnit; VUnit; VVal 3; VVal 4; VVal 4; VOutOfRange; VUnit; VVal 2;
                           VUnit; VUnit; VVal 7; VUnit; VUnit; VUnit; VUnit; VVal 8; VInt 5; VBool false; VVal 7]).
Proof.
  cbv zeta. split; [cbn; unfold zlen; cbn; repeat split; try lia; discriminate|]. split; [repeat constructor|]. split; [constructor|].
  eexists _, _. vm_compute. reflexivity.
Qed.

(** ** C21 *)
Theorem C21_deque_stable :
  forall (V : Type) P, 0 <= expo P <= 30 -> forall (h0 : bheap V) d0 xs0 ops1 ops2 h1 d1 tr1 h2 d2 tr2 n m,
    dstart P h0 d0 xs0 -> dq_ok xs0 (ops1 ++ ops2) -> deq_run P h0 d0 ops1 = Ok (h1, d1, tr1) -> deq_run P h1 d1 ops2 = Ok (h2, d2, tr2) ->
    0 <= n < zlen (dq_after xs0 ops1) -> dq_tracks (dq_after xs0 ops1) n ops2 = Some m ->
    exists b j, deq_at P h1 d1 n = Ok (Some b, j) /\ deq_at P h2 d2 m = Ok (Some b, j).
Proof. intros V P HP. exact (deq_stable P HP). Qed.
Print Assumptions C21_deque_stable.

Theorem C21_deque_distinct :
  forall (V : Type) P, 0 <= expo P <= 30 -> forall (h0 : bheap V) d0 xs0 ops h d tr n m,
    dstart P h0 d0 xs0 -> dq_ok xs0 ops -> deq_run P h0 d0 ops = Ok (h, d, tr) ->
    0 <= n < zlen (dq_after xs0 ops) -> 0 <= m < zlen (dq_after xs0 ops) -> n <> m -> deq_at P h d n <> deq_at P h d m.
Proof. intros V P HP. exact (deq_distinct P HP). Qed.
Print Assumptions C21_deque_distinct.

Theorem C21_deque_contents :
  forall (V : Type) P, 0 <= expo P <= 30 -> forall (h0 : bheap V) d0 xs0 ops h d tr n x,
    dstart P h0 d0 xs0 -> dq_ok xs0 ops -> deq_run P h0 d0 ops = Ok (h, d, tr) ->
    dq_after xs0 ops !! n = Some x ->
    exists b j, deq_at P h d (Z.of_nat n) = Ok (Some b, j) /\ eget P h (Some b) j = Ok x /\ b ∈ bl h /\ 0 <= j < bsz P.
Proof. intros V P HP. exact (deq_contents P HP). Qed.
Print Assumptions C21_deque_contents.

(** An element followed through pushes and pops at both ends, while the table is shifted and doubled *)
Example C21_nonvacuous :
  let ops1 := [DV (VPush 1%nat); DPushF 2%nat] in
  let ops2 := [DV (VPush 3%nat); DPopF; DPushF 4%nat; DV VShrink] ++ map DPushF (seq 0 50) ++ [DPopF] ++ map (fun n => DV (VPush n)) (seq 0 50) in
  dq_ok [] (ops1 ++ ops2) /\ dq_tracks (dq_after [] ops1) 1 ops2 = Some 50 /\
  match deq_run (PD 1) bheap0 (deq_default (PD 1)) ops1 with
  | Ok (h1, d1, _) =>
      match deq_run (PD 1) h1 d1 ops2 with
      | Ok (h2, d2, _) => d_front d1 = 30 /\ d_slots d1 = 64 /\ deq_at (PD 1) h2 d2 50 = deq_at (PD 1) h1 d1 1
      | _ => False
      end
  | _ => False
  end.
Proof. vm_compute. repeat split. Qed.

(** ** C22, C23
    Full statements: false.  [dw_ok] adds to lifetimes ([dw_legal]) the absence of the defective states: those of single
    calls, the sized constructor with 0, copies of a deque without table, and end() of a full table ([dw_guard]). *)
Theorem C22_deque_lifetime_partial :
  forall (V : Type) P, 0 <= expo P <= 30 -> forall ps, dw_ok P dworld0 ∅ ps ->
    exists w tr A, dwrun P (@dworld0 V) ps = Ok (w, tr) /\ map fst tr = ps /\ dw_trace ∅ tr A /\
      (forall o, dw_deqs w !! o = None <-> A !! o = None) /\
      (dw_deqs w = ∅ -> el (dw_heap w) = ∅ /\ bl (dw_heap w) = ∅ /\ tb (dw_heap w) = ∅).
Proof. intros V P HP. exact (deq_world P HP). Qed.
Print Assumptions C22_deque_lifetime_partial.

(** clear() runs destructors on slots that hold no element, whenever one block is in use and does not start at slot 0. *)
Theorem C22_deque_clear_defect :
  forall (V : Type) P, 0 <= expo P <= 30 -> triv P = false -> forall (h0 : bheap V) d0 xs0 ops h d tr,
    dstart P h0 d0 xs0 -> dq_ok xs0 ops -> deq_run P h0 d0 ops = Ok (h, d, tr) ->
    dq_after xs0 ops <> [] -> d_front d = d_back d -> d_fsize d <> -1 -> deq_step P h d (DV VClear) = UB.
Proof.
  intros V P HP Ht h0 d0 xs0 ops h d tr H0 Hok E Hne H1 H2. eapply (deq_exact_ran P HP); try eassumption; [exact I|].
  cbn. unfold clear_guard. rewrite Ht. intros [F|[F|[F|F]]]; try congruence.
  destruct (deq_at_checked P HP _ _ _ _ _ _ _ 0 H0 Hok E ltac:(lia)) as [[G _]|[G _]]; [|lia].
  destruct (dq_after xs0 ops) as [|x xs] eqn:Ex; [congruence|].
  destruct (deq_contents P HP _ _ _ _ _ _ _ 0%nat x H0 Hok E) as (b & j & A & _); [rewrite Ex; reflexivity|].
  pose proof (dstart_inv P HP _ _ _ H0) as (ids & frees & Hd).
  destruct (drun_ok P HP ops h0 d0 xs0 ids frees Hd (start_dok P HP _ _ _ _ _ _ _ H0 Hok E)) as (h' & d' & tr' & ids' & frees' & E' & _ & _ & Hd').
  rewrite E in E'. injection E' as <- <- <-. pose proof (dinv_size P _ _ _ _ _ Hd') as Hs. rewrite Ex in Hs. unfold zlen in Hs; cbn in Hs. lia.
Qed.
Print Assumptions C22_deque_clear_defect.

Theorem C22_deque_lifetime_refuted :
  exists ps, ps = [DDefault 0; DCall 0 (DV (VPush 5)); DCall 0 (DV VClear)] /\
    dwrun (PD 2) (@dworld0 Z) ps = UB /\ exists w tr, dwrun (PD 2) dworld0 (take 2 ps) = Ok (w, tr).
Proof. eexists. split; [reflexivity|]. split; [vm_compute; reflexivity|]. eexists _, _. vm_compute; reflexivity. Qed.
Print Assumptions C22_deque_lifetime_refuted.

(** A decision procedure for [dw_ok], to check examples *)
Section check.
Context {V : Type}.
Variable P : params.
Definition sq_legalb (xs : list V) (o : vop V) : bool :=
  match o with
  | VSet n _ | VGet n => (0 <=? n) && (n <? zlen xs)
  | VAt n => 0 <=? n
  | VBack | VFront => match xs with [] => false | _ => true end
  | _ => true
  end.
Definition dq_legalb (xs : list V) (o : dop V) : bool := match o with DV c => sq_legalb xs c | _ => true end.
Definition dlivesb (A : gmap nat (option (list V))) o := match A !! o with Some (Some _) => true | _ => false end.
Definition dknownb (A : gmap nat (option (list V))) o := match A !! o with Some _ => true | _ => false end.
Definition dw_legalb (A : gmap nat (option (list V))) (p : dwop V) : bool :=
  match p with
  | DDefault o => negb (dknownb A o)
  | DSized o n _ => negb (dknownb A o) && (0 <=? n)
  | DCopy o src => negb (dknownb A o) && dlivesb A src
  | DMove o src => negb (dknownb A o) && dknownb A src
  | DCopyAssign o src => dlivesb A o && dlivesb A src
  | DMoveAssign o src => dknownb A o && dknownb A src
  | DCall o c => match A !! o with Some (Some xs) => dq_legalb xs c | _ => false end
  | DDestroy o => dknownb A o
  end.
Definition roomb (d : deq) : bool := match d_data d with None => true | _ => negb (d_back d + 1 =? d_slots d) end.
Definition dguardb (d : deq) (o : dop V) : bool :=
  match o with
  | DPushF _ => (1 <=? expo P) && overlap_ok P
  | DV VClear => (d_size d =? 0) || triv P || negb (d_front d =? d_back d) || (d_fsize d =? -1)
  | DV VWalk | DV (VAssign _) => roomb d
  | _ => true
  end.
Definition on (w : dworld V) o (f : deq -> bool) : bool := match dw_deqs w !! o with Some d => f d | None => true end.
Definition dw_guardb (w : dworld V) (p : dwop V) : bool :=
  match p with
  | DSized _ n _ => negb (n =? 0)
  | DCopy _ src => on w src (fun d => match d_data d with None => false | _ => roomb d end)
  | DCopyAssign o src => on w src roomb && on w o roomb
  | DCall o c => on w o (fun d => dguardb d c)
  | _ => true
  end.
Definition dw_next (A : gmap nat (option (list V))) (p : dwop V) : gmap nat (option (list V)) :=
  match p with
  | DDefault o => <[o := Some []]> A
  | DSized o n x => <[o := Some (replicate (Z.to_nat n) x)]> A
  | DCopy o src | DCopyAssign o src => match A !! src with Some (Some xs) => <[o := Some xs]> A | _ => A end
  | DMove o src => match A !! src with Some v => <[o := v]> (<[src := None]> A) | None => A end
  | DMoveAssign o src => match A !! src with Some v => <[src := None]> (<[o := v]> A) | None => A end
  | DCall o c => match A !! o with Some (Some xs) => <[o := Some (dq_next xs c)]> A | _ => A end
  | DDestroy o => delete o A
  end.
Fixpoint dw_chk (w : dworld V) A (ps : list (dwop V)) : bool :=
  match ps with
  | [] => true
  | p :: ps' => dw_legalb A p && dw_guardb w p &&
      match dwstep P w p with Ok (w', _) => dw_chk w' (dw_next A p) ps' | _ => true end
  end.

Lemma dq_step_next (xs : list V) o r xs' : dq_step xs o r xs' -> xs' = dq_next xs o.
Proof. destruct 1; cbn; try reflexivity. eapply seq_next_ok; eassumption. Qed.
Lemma dw_step_next (A : gmap nat (option (list V))) p r A' : dw_step A p r A' -> A' = dw_next A p.
Proof.
  intros S. destruct S; cbn; try reflexivity;
    repeat match goal with H : A !! _ = Some _ |- _ => rewrite H; clear H end; try reflexivity.
  match goal with H : dq_step _ _ _ _ |- _ => rewrite (dq_step_next _ _ _ _ H) end. reflexivity.
Qed.
Lemma room d : roomb d = true -> ~ dfull P d.
Proof. unfold roomb, dfull. destruct (d_data d); [lia|]. intros _ (F & _). congruence. Qed.
Lemma dknown (A : gmap nat (option (list V))) o : dknownb A o = true -> is_Some (A !! o).
Proof. unfold dknownb. destruct (A !! o); [eauto|discriminate]. Qed.
Lemma dunknown (A : gmap nat (option (list V))) o : negb (dknownb A o) = true -> A !! o = None.
Proof. unfold dknownb. destruct (A !! o); [discriminate|auto]. Qed.
Lemma dlives (A : gmap nat (option (list V))) o : dlivesb A o = true -> exists xs, A !! o = Some (Some xs).
Proof. unfold dlivesb. destruct (A !! o) as [[]|]; [eauto|discriminate|discriminate]. Qed.
Lemma dguard_b d (o : dop V) : dguardb d o = true -> dguard P d o.
Proof.
  destruct o as [[]|x|]; cbn; try tauto.
  - unfold clear_guard. destruct (triv P); [tauto|]. lia.
  - intros E _. apply room. exact E.
  - apply room.
  - unfold front_guard. destruct (overlap_ok P); lia.
Qed.
Lemma dw_chk_ok ps : forall w A, dw_chk w A ps = true -> dw_ok P w A ps.
Proof.
  induction ps as [|p ps IH]; intros w A E; cbn [dw_ok dw_chk] in *; [exact I|].
  apply andb_prop in E as [E En]. apply andb_prop in E as [El Eg]. split; [|split].
  - destruct p; cbn [dw_legal dw_legalb] in *; repeat match goal with H : _ && _ = true |- _ => apply andb_prop in H as [? ?] end;
      repeat split; try (apply dunknown; assumption); try (apply dknown; assumption); try (apply dlives; assumption); try lia.
    destruct (A !! o) as [[xs|]|]; try discriminate. exists xs. split; [reflexivity|].
    destruct c as [c|x|]; cbn [dq_legal dq_legalb] in *; try exact I. destruct c; cbn in *; try exact I; try lia; destruct xs; discriminate.
  - destruct p as [|o n x|o src| |o src| |o c|]; cbn [dw_guard dw_guardb] in *; unfold on in *; try exact I; try lia.
    + intros d Ed; rewrite Ed in Eg. destruct (d_data d) eqn:E0; [split; [congruence|apply room; exact Eg]|discriminate].
    + apply andb_prop in Eg as [E1 E2]. split; intros d Ed; [rewrite Ed in E1|rewrite Ed in E2]; intros; apply room; assumption.
    + intros d Ed; rewrite Ed in Eg. apply dguard_b. exact Eg.
  - intros w' r A' Er S. rewrite Er in En. rewrite (dw_step_next _ _ _ _ S). apply IH. exact En.
Qed.
End check.

Example C22_nonvacuous :
  let ps := [DSized 0 3 7; DCall 0 (DPushF 8); DMove 1 0; DDefault 2; DMoveAssign 0 2; DCall 0 (DV VSize); DCall 1 (DV (VPush 5));
             DCopy 3 1; DCall 3 (DV VWalk); DCall 3 (DV (VAssign [1; 2])); DCall 3 (DPopF); DCopyAssign 3 1; DCall 3 (DV (VGet 4)); DCall 1 (DV VClear);
             DDestroy 0; DDestroy 1; DDestroy 2; DDestroy 3] in
  dw_ok (PD 1) dworld0 ∅ ps /\
  match dwrun (PD 1) (@dworld0 Z) ps with
  | Ok (w, tr) => map snd tr = [VUnit; VUnit; VUnit; VUnit; VUnit; VInt 0; VUnit; VUnit; VList [8; 7; 7; 7; 5]; VUnit; VUnit; VUnit; VVal 5;
                               VUnit; VUnit; VUnit; VUnit; VUnit] /\ map_to_list (el (dw_heap w)) = [] /\ map_to_list (tb (dw_heap w)) = []
  | _ => False
  end.
Proof.
  cbv zeta. split; [apply dw_chk_ok; vm_compute; reflexivity|]. vm_compute. splits.
Qed.

(** The sized constructor and the copy constructor, as parts of the previous theorem *)
Theorem C23_deque_sized_partial :
  forall (V : Type) P, 0 <= expo P <= 30 -> forall n (x : V), 0 < n ->
    exists h d, deq_sized P bheap0 n x = Ok (h, d) /\ dstart P h d (replicate (Z.to_nat n) x).
Proof.
  intros V P HP n x Hn. destruct (dsized_start P HP n x Hn) as (h & d & E). exists h, d. split; [exact E|]. econstructor; eassumption.
Qed.
Print Assumptions C23_deque_sized_partial.

(** A copy equals its source, is independent of it and behaves as a deque under any later program. *)
Theorem C23_deque_copy_partial :
  forall (V : Type) P, 0 <= expo P <= 30 -> forall ps src o ps',
    dw_ok P dworld0 ∅ (ps ++ DCopy o src :: ps') ->
    exists w tr A, dwrun P (@dworld0 V) (ps ++ DCopy o src :: ps') = Ok (w, tr) /\ map fst tr = ps ++ DCopy o src :: ps' /\ dw_trace ∅ tr A.
Proof.
  intros V P HP ps src o ps' Hok. destruct (deq_world P HP _ Hok) as (w & tr & A & H1 & H2 & H3 & _). exists w, tr, A. auto.
Qed.
Print Assumptions C23_deque_copy_partial.

(** Sized with 0, or copied from a default constructed deque: the first element pushed is not element 0, and pushing at
    both ends constructs two elements in one place. *)
Theorem C23_deque_empty_refuted :
  exists P (x : Z), 0 <= expo P <= 30 /\
    (forall ps, ps = [DSized 0 0 x] \/ ps = [DDefault 1; DCopy 0 1] ->
      (exists w tr, dwrun P dworld0 (ps ++ [DCall 0 (DV (VPush x))]) = Ok (w, tr) /\ dwstep P w (DCall 0 (DV (VGet 0))) = UB) /\
      (exists w tr, dwrun P dworld0 (ps ++ [DCall 0 (DPushF x)]) = Ok (w, tr) /\ dwstep P w (DCall 0 (DV (VPush x))) = UB)).
Proof.
  exists (PD 5), 7. split; [cbn; lia|]. intros ps [->| ->]; (split; eexists _, _; (split; [vm_compute; reflexivity|vm_compute; reflexivity])).
Qed.
Print Assumptions C23_deque_empty_refuted.

Example C23_nonvacuous :
  forall n, In n [1; 2; 3; 4; 5; 9; 130] ->
  match deq_sized (PD 2) bheap0 n 7 with
  | Ok (h, d) => deq_walk (PD 2) h d = Ok (replicate (Z.to_nat n) 7)
  | _ => False
  end.
Proof. intros n Hn. cbn in Hn. repeat (destruct Hn as [<-|Hn]; [vm_compute; reflexivity|]). contradiction. Qed.

(** ** C24
    Full statement: for N in 0..31.  N = 31 does not compile (the initialiser of bsize narrows 2^31 to int) and is not
    modelled; N = 0 fails for push_front ([C24_deque_exponent_refuted]). *)
Theorem C24_deque_exponent_partial :
  forall (V : Type) P, 1 <= expo P <= 30 -> forall x : V,
    exists h d b j, deq_push_front P bheap0 (deq_default P) x = Ok (h, d) /\ d_size d = 1 /\ deq_at P h d 0 = Ok (Some b, j) /\
      b ∈ bl h /\ 0 <= j < bsz P /\ eget P h (Some b) j = Ok x.
Proof.
  intros V P HP x. assert (HP0 : 0 <= expo P <= 30) by lia.
  assert (Hok : dok P bheap0 (deq_default P) [] [DPushF x]).
  { cbn. split; [exact I|]. split; [|auto]. unfold front_guard. split; [lia|]. right. cbn. lia. }
  destruct (deq_sequence P HP0 _ _ _ _ (dst_default P) Hok) as (h & d & tr & E & _).
  pose proof E as E'. cbn in E'. apply obind_ok in E' as ([[h1 d1] r] & E1 & E2). apply obind_ok in E1 as ([h2 d2] & E1 & E3).
  injection E3 as <- <- <-. cbn in E2. injection E2 as <- <- <-.
  destruct (deq_contents P HP0 _ _ _ [DPushF x] _ _ _ 0%nat x (dst_default P) (conj I I) E eq_refl) as (b & j & A & A' & Hb & Hj).
  exists h2, d2, b, j. change (Z.of_nat 0) with 0 in A. split; [exact E1|]. split; [|auto].
  destruct (deq_at_checked P HP0 _ _ _ [DPushF x] _ _ _ 0 (dst_default P) (conj I I) E ltac:(lia)) as [[F F']|[F _]].
  - cbn in F'. apply Z.leb_le in F. rewrite F in F'. discriminate F' || idtac.
    unfold deq_push_front, deq_check_front in E1. cbn in E1. apply obind_ok in E1 as ([h3 d3] & E3 & E1). apply obind_ok in E3 as (h4 & E4 & E3).
    injection E3 as <- <-. cbn in E1. apply obind_ok in E1 as (c & _ & E1). apply obind_ok in E1 as (h5 & _ & E1). injection E1 as <- <-. reflexivity.
  - unfold deq_push_front, deq_check_front in E1. cbn in E1. apply obind_ok in E1 as ([h3 d3] & E3 & E1). apply obind_ok in E3 as (h4 & E4 & E3).
    injection E3 as <- <-. cbn in E1. apply obind_ok in E1 as (c & _ & E1). apply obind_ok in E1 as (h5 & _ & E1). injection E1 as <- <-. reflexivity.
Qed.
Print Assumptions C24_deque_exponent_partial.

Theorem C24_deque_exponent_back_partial :
  forall (V : Type) P, 0 <= expo P <= 30 -> forall x : V,
    exists h d tr b j, deq_run P bheap0 (deq_default P) [DV (VPush x)] = Ok (h, d, tr) /\ deq_at P h d 0 = Ok (Some b, j) /\
      b ∈ bl h /\ 0 <= j < bsz P /\ eget P h (Some b) j = Ok x.
Proof.
  intros V P HP x. assert (Hok : dok P bheap0 (deq_default P) [] [DV (VPush x)]) by (cbn; auto).
  destruct (deq_sequence P HP _ _ _ _ (dst_default P) Hok) as (h & d & tr & E & _).
  destruct (deq_contents P HP _ _ _ [DV (VPush x)] _ _ _ 0%nat x (dst_default P) (conj I I) E eq_refl) as (b & j & A & A' & Hb & Hj).
  exists h, d, tr, b, j. auto.
Qed.
Print Assumptions C24_deque_exponent_back_partial.

Theorem C24_deque_exponent_refuted :
  exists n, 0 <= n <= 31 /\ forall (V : Type) t o (h : bheap V) (x : V), deq_push_front (Params n t o) h (deq_default (Params n t o)) x = UB.
Proof. exists 0. split; [lia|]. intros V t o h x. apply pushf_tiny; cbn; lia. Qed.
Print Assumptions C24_deque_exponent_refuted.

(** ** C25
    Full statement: also where std::copy must not be used on overlapping ranges ([overlap_ok P = false]); that is false
    ([C25_deque_front_growth_refuted]): the defect is reached exactly when the destination starts inside the source. *)
Theorem C25_deque_front_growth_partial :
  forall (V : Type) P, 0 <= expo P <= 30 -> forall (h0 : bheap V) d0 xs0 ops h d tr x,
    dstart P h0 d0 xs0 -> dq_ok xs0 ops -> deq_run P h0 d0 ops = Ok (h, d, tr) -> d_fsize d < 0 -> d_slots d <> 0 -> d_front d = 0 ->
    (overlap_ok P = true \/ ~ (d_back d < d_slots d - 5 /\ (d_slots d - d_back d) / 2 <= d_back d)) ->
    exists h' d', deq_push_front P h d x = Ok (h', d') /\
      (forall n, 0 <= n < zlen (dq_after xs0 ops) -> deq_at P h' d' (n + 1) = deq_at P h d n) /\
      (forall n y, (x :: dq_after xs0 ops) !! n = Some y -> deq_get P h' d' (Z.of_nat n) = Ok y).
Proof. intros V P HP. exact (deq_front_growth P HP). Qed.
Print Assumptions C25_deque_front_growth_partial.

Theorem C25_deque_front_growth_refuted :
  exists P ops, 0 <= expo P <= 30 /\ overlap_ok P = false /\ ops = map DPushF (seq 0 61) /\
    (exists h d tr, deq_run P bheap0 (deq_default P) ops = Ok (h, d, tr)) /\
    deq_run P bheap0 (deq_default P) (ops ++ [DPushF 9%nat]) = UB.
Proof.
  exists (Params 1 true false), (map DPushF (seq 0 61)). split; [cbn; lia|]. split; [reflexivity|]. split; [reflexivity|].
  split; [|vm_compute; reflexivity]. eexists _, _, _. vm_compute. reflexivity.
Qed.
Print Assumptions C25_deque_front_growth_refuted.

Example C25_nonvacuous :
  match deq_run (PD 1) bheap0 (deq_default (PD 1)) (map DPushF (seq 0 61)) with
  | Ok (h, d, _) => d_fsize d = -1 /\ d_slots d = 64 /\ d_front d = 0 /\
      match deq_push_front (PD 1) h d 9%nat with
      | Ok (h', d') => d_front d' = 16 /\ deq_at (PD 1) h' d' 1 = deq_at (PD 1) h d 0 /\ deq_get (PD 1) h' d' 0 = Ok 9%nat
      | _ => False
      end
  | _ => False
  end.
Proof. vm_compute. repeat split. Qed.

(** ** Deque side of C16, C17, C18 *)
Theorem C16_deque_at :
  forall (V : Type) P, 0 <= expo P <= 30 -> forall (h0 : bheap V) d0 xs0 ops h d tr n,
    dstart P h0 d0 xs0 -> dq_ok xs0 ops -> deq_run P h0 d0 ops = Ok (h, d, tr) -> 0 <= n ->
    (d_size d <= n /\ deq_step P h d (DV (VAt n)) = Ok (h, d, VOutOfRange)) \/
    (n < d_size d /\ exists x, dq_after xs0 ops !! Z.to_nat n = Some x /\ deq_step P h d (DV (VAt n)) = Ok (h, d, VVal x) /\
       deq_step P h d (DV (VGet n)) = Ok (h, d, VVal x)).
Proof. intros V P HP. exact (deq_at_checked P HP). Qed.
Print Assumptions C16_deque_at.

Theorem C17_deque_iterators_partial :
  forall (V : Type) P, 0 <= expo P <= 30 -> forall (h0 : bheap V) d0 xs0 ops h d tr,
    dstart P h0 d0 xs0 -> dq_ok xs0 ops -> deq_run P h0 d0 ops = Ok (h, d, tr) -> ~ dfull P d ->
    exists first last pos, deq_begin P h d = Ok first /\ deq_end P h d = Ok last /\ iters P h (dq_after xs0 ops) first last pos /\
      (forall n, (n <= length (dq_after xs0 ops))%nat -> it_steps P h first n = Ok (pos (Z.of_nat n))) /\
      it_walk P h first last (length (dq_after xs0 ops)) = Ok (dq_after xs0 ops).
Proof. intros V P HP. exact (deq_iterators P HP). Qed.
Print Assumptions C17_deque_iterators_partial.

Theorem C18_deque_begin_end_partial :
  forall (V : Type) P, 0 <= expo P <= 30 -> forall (h0 : bheap V) d0 xs0 ops h d tr,
    dstart P h0 d0 xs0 -> dq_ok xs0 ops -> deq_run P h0 d0 ops = Ok (h, d, tr) ->
    (dfull P d -> deq_end P h d = UB) /\ (~ dfull P d -> exists it, deq_end P h d = Ok it) /\
    (dfull P d /\ dq_after xs0 ops = [] -> deq_begin P h d = UB) /\
    (~ dfull P d \/ dq_after xs0 ops <> [] -> exists it, deq_begin P h d = Ok it).
Proof. intros V P HP. exact (deq_begin_end P HP). Qed.
Print Assumptions C18_deque_begin_end_partial.

Theorem C18_deque_end_refuted :
  exists (ops : list (dop nat)), ops = map (fun n => DV (VPush n)) (seq 0 34) /\
    match deq_run (PD 0) bheap0 (deq_default (PD 0)) ops with Ok (h, d, _) => deq_end (PD 0) h d = UB | _ => False end.
Proof. eexists. split; [reflexivity|]. vm_compute. reflexivity. Qed.
Print Assumptions C18_deque_end_refuted.

Example C17_deque_nonvacuous :
  match deq_run (PD 1) bheap0 (deq_default (PD 1)) [DV (VPush 1); DPushF 2; DPushF 3] with
  | Ok (h, d, _) => d_back d + 1 < d_slots d /\ deq_walk (PD 1) h d = Ok [3; 2; 1]
  | _ => False
  end.
Proof. vm_compute. repeat split. Qed.
