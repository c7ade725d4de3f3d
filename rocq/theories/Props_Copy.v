(** Property C115: copies and moves of the mapped vectors.
    A program makes, copies, moves, assigns, calls and destroys any number of MappedVector (MappedPointerVector: no copies)
    objects, respectively DualMappedVector (DualMappedPointerVector: no copies) objects.  The specification ([cs_run]) keeps a
    value of its own for every object: a copy has the value of its source, whatever happens to either afterwards.
    [m_prog], [d_prog]: lifetimes, contracts and the guards of the single calls (C28, C33) are respected; an object that was
    moved from is only destroyed or assigned to, or cleared (not so with stable storage: see the refutations). *)
From stdpp Require Import gmap.
From Verif Require Import Base BlkHeap BlkIter VecModel VecWorld VecFinal MapStore MapModel MapSpec DualModel DualSpec DualProofs MapFinal MapCheck
  CopyModel CopyProofs CopyFinal.

Theorem C115_single_partial :
  forall (V K : Type) `{Countable K} P, 0 <= expo P <= 30 -> forall (kdef : option K) stb (ps : list (cop V (gmap K Z) (mop V K))),
  m_prog P kdef stb ps ->
  exists w, crun P ∅ (mcall P kdef) stb cworld0 ps = Ok (w, (m_spec stb ps).2) /\
    (forall o a, (m_spec stb ps).1 !! o = Some (Some a) -> exists x, cw_objs w !! o = Some x /\
       holds P (in_heap (cw_heap w) (c_st x)) (as_vals a) /\
       (forall k, c_lk x !! k = (u ← a_tm a !! k; Z.of_nat <$> as_pos u a))) /\
    (forall o, cw_objs w !! o = None <-> (m_spec stb ps).1 !! o = None) /\
    (cw_objs w = ∅ -> el (cw_heap w) = ∅ /\ bl (cw_heap w) = ∅ /\ tb (cw_heap w) = ∅).
Proof.
  intros V K ? ? P HP kdef stb ps Hp. destruct (m_run_ok P HP kdef stb ps Hp) as (w & E & H1 & H2 & H3). exists w. splits; try assumption.
  intros o a Ha. destruct (H1 o a Ha) as (x & Ex & Hh & Hk & _). eauto.
Qed.
Print Assumptions C115_single_partial.

Theorem C115_dual_partial :
  forall (V K1 K2 : Type) `{Countable K1} `{Countable K2} P, 0 <= expo P <= 30 -> forall cl (kd1 : option K1) (kd2 : option K2) stb
    (ps : list (cop V (gmap K1 Z * gmap K2 Z) (dop V K1 K2))), cl <> CStr -> d_prog P cl kd1 kd2 stb ps ->
  exists w, crun P (∅, ∅) (dcall P cl kd1 kd2) stb cworld0 ps = Ok (w, (d_spec cl stb ps).2) /\
    (forall o a, (d_spec cl stb ps).1 !! o = Some (Some a) -> exists x, cw_objs w !! o = Some x /\
       holds P (in_heap (cw_heap w) (c_st x)) (as_vals a) /\
       (forall k1, (c_lk x).1 !! k1 = (u ← a_tm a !! inl k1; Z.of_nat <$> as_pos u a)) /\
       (forall k2, (c_lk x).2 !! k2 = (u ← a_tm a !! inr k2; Z.of_nat <$> as_pos u a))) /\
    (forall o, cw_objs w !! o = None <-> (d_spec cl stb ps).1 !! o = None) /\
    (cw_objs w = ∅ -> el (cw_heap w) = ∅ /\ bl (cw_heap w) = ∅ /\ tb (cw_heap w) = ∅).
Proof.
  intros V K1 K2 ? ? ? ? P HP cl kd1 kd2 stb ps _ Hp. destruct (d_run_ok P HP cl kd1 kd2 stb ps Hp) as (w & E & H1 & H2 & H3). exists w. splits; try assumption.
  intros o a Ha. destruct (H1 o a Ha) as (x & Ex & Hh & Hk & _). exists x. splits; try assumption; [intros k1; exact (Hk (inl k1))|intros k2; exact (Hk (inr k2))].
Qed.
Print Assumptions C115_dual_partial.

(** The specification: values are the containers' own.  Whatever is done to other objects, the value of an object stays. *)
Definition target {V L OP} (p : cop V L OP) (o : nat) : Prop :=
  match p with
  | CDefault o' | CCopy o' _ | CCopyAssign o' _ | CCall o' _ | CDestroy o' => o' = o
  | CMove o' s _ _ | CMoveAssign o' s _ _ => o' = o \/ s = o
  end.
Theorem C115_own_value :
  forall (V L OP RET A : Type) (a0 : A) (exec : A -> OP -> A * RET) (rclr : RET) (ps : list (cop V L OP)) W o,
    Forall (fun p => ~ target p o) ps -> (cs_run a0 exec rclr W ps).1 !! o = W !! o.
Proof.
  intros V L OP RET A a0 exec rclr ps. induction ps as [|p ps IH]; intros W o Hf; [reflexivity|]. inversion Hf as [|? ? Hp Hps]; subst. cbn [cs_run].
  destruct (cs_exec a0 exec rclr W p) as [W1 r] eqn:E. specialize (IH W1 o Hps). destruct (cs_run a0 exec rclr W1 ps) as [W2 tr]. cbn [fst] in *. rewrite IH. clear IH.
  assert (W1 = (cs_exec a0 exec rclr W p).1) as -> by (rewrite E; reflexivity). clear E.
  destruct p as [o'|o' src|o' src jx jl|o' src|o' src jx jl|o' c|o']; cbn [cs_exec target fst] in *.
  - apply lookup_insert_ne. exact Hp.
  - destruct (W !! src); [apply lookup_insert_ne; exact Hp|reflexivity].
  - destruct (W !! src); [|reflexivity]. rewrite !lookup_insert_ne by tauto. reflexivity.
  - destruct (W !! src); [apply lookup_insert_ne; exact Hp|reflexivity].
  - destruct (W !! src); [|reflexivity]. rewrite !lookup_insert_ne by tauto. reflexivity.
  - destruct (W !! o') as [[a|]|]; [destruct (exec a c); cbn|cbn|reflexivity]; apply lookup_insert_ne; exact Hp.
  - apply lookup_delete_ne. exact Hp.
Qed.
Print Assumptions C115_own_value.

(** With a std::vector no guard on the copies is needed: the rules are only those of C++ and of the single calls. *)
Theorem C115_unstable_guard :
  forall (V L OP : Type) P (w : cworld V L) (p : cop V L OP), (forall o x, cw_objs w !! o = Some x -> exists xs, c_st x = RVec xs) -> cs_guard P w p.
Proof.
  intros V L OP P w p Hw. destruct p; cbn; try exact I; intros x v Ex Es; destruct (Hw _ _ Ex); congruence.
Qed.
Print Assumptions C115_unstable_guard.

(** ** What is false of stable storage
    A container that was moved from by construction, whatever it held: inserting is undefined, and so are begin() and end(),
    hence find(), apply(), modify(). *)
Theorem C115_moved_from_refuted :
  forall (V K : Type) `{Countable K} P, 0 <= expo P <= 30 -> forall (kdef : option K) (h : bheap V) v jx jl k x,
    jl !! k = None ->
    let s := in_heap h (snd (rst_move (RBlk v) jx)) in
    mcall P kdef s jl (MInsert k x) = UB /\ mcall P kdef s jl (MInsertNo x) = UB /\
    mcall P kdef s jl (MFind k) = UB /\ mcall P kdef s jl MApply = UB.
Proof.
  intros V K ? ? P HP kdef h v jx jl k x Hk. cbn [rst_move vec_move snd in_heap].
  pose proof (vec_moved_push P HP h v x) as Hpu. destruct (vec_moved_iter P HP h v) as [He Hb]. cbn [vec_move snd] in Hpu, He, Hb.
  unfold mcall. cbn [mv_step]. unfold mv_insert, mv_insert_no, mv_find_use, mv_find, mv_apply. cbn [m_lk m_st st_step vec_step st_end]. rewrite Hk, Hpu, He. cbn [obind].
  unfold vec_walk. rewrite Hb. cbn [obind]. auto.
Qed.
Print Assumptions C115_moved_from_refuted.

Definition PC (n : Z) : params := Params n false true.
Notation cp := (cop Z (gmap nat Z) (mop Z nat)).
Notation run n stb ps := (crun (PC n) ∅ (mcall (PC n) (Some 0%nat)) stb (@cworld0 Z (gmap nat Z)) ps).

(** Copying to a container that was moved from: fine with a std::vector, undefined with stable storage. *)
Definition to_moved : list cp :=
  [CDefault 0; CCall 0 (MInsert 1%nat 10); CMove 1 0 [] ∅; CDefault 2; CCall 2 (MInsert 2%nat 20); CCopyAssign 0 2; CCall 0 (MFind 2%nat)].
Theorem C115_copy_to_moved_refuted : run 5 true to_moved = UB /\ exists w tr, run 5 false to_moved = Ok (w, tr) /\ last tr = Some (CCall 0 (MFind 2%nat), Some (MVal (Some 20))).
Proof. split; [vm_compute; reflexivity|]. eexists _, _. split; [vm_compute; reflexivity|reflexivity]. Qed.
Print Assumptions C115_copy_to_moved_refuted.

(** A container emptied by removals or clear() is copied: destroying the copy is undefined. *)
Definition emptied (c : mop Z nat) : list cp := [CDefault 0; CCall 0 (MInsert 1%nat 10); CCall 0 c; CCopy 1 0; CDestroy 1].
Theorem C115_copy_emptied_refuted :
  run 5 true (emptied MClear) = UB /\ run 5 true (emptied (MRemove 1%nat [1%nat])) = UB /\
  exists w tr w' tr', run 5 false (emptied MClear) = Ok (w, tr) /\ run 5 false (emptied (MRemove 1%nat [1%nat])) = Ok (w', tr').
Proof. split; [vm_compute; reflexivity|]. split; [vm_compute; reflexivity|]. eexists _, _, _, _. split; vm_compute; reflexivity. Qed.
Print Assumptions C115_copy_emptied_refuted.

(** A container whose blocks and table are exactly full cannot be copied. *)
Definition filled (n : nat) : list cp := CDefault 0 :: map (fun i => CCall 0 (MInsert i (Z.of_nat i))) (seq 0 n) ++ [CCopy 1 0].
Definition is_ok {A} (r : outcome A) : bool := match r with Ok _ => true | _ => false end.
Lemma is_ok_ex {A B} (r : outcome (A * B)) : is_ok r = true -> exists a b, r = Ok (a, b).
Proof. destruct r as [[a b]| |]; [eauto|discriminate|discriminate]. Qed.
Theorem C115_copy_full_refuted : run 0 true (filled 64) = UB /\ exists w tr, run 0 true (filled 63) = Ok (w, tr).
Proof. split; [vm_compute; reflexivity|]. apply is_ok_ex. vm_compute. reflexivity. Qed.
Print Assumptions C115_copy_full_refuted.

(** ** A program that meets the hypotheses: copy, change both, assign, move, reuse, destroy *)
Definition prog : list cp :=
  [CDefault 0; CCall 0 (MInsert 1%nat 10); CCall 0 (MInsert 2%nat 20); CCopy 1 0; CCall 1 (MAssign 1%nat 11); CCall 1 (MRemove 2%nat [1%nat; 2%nat]);
   CCall 0 (MInsert 3%nat 30); CCall 0 (MFind 1%nat); CCall 1 (MFind 1%nat); CCall 1 (MFind 2%nat); CCall 0 (MFind 2%nat);
   CDefault 2; CCopyAssign 2 0; CMove 3 0 [77] ∅; CCall 3 MApply; CMoveAssign 0 1 [] (<[9%nat := 4]> ∅); CCall 0 MApply; CCall 2 MApply].
Example C115_ex : forall stb, m_prog (PC 1) (Some 0%nat) stb prog /\
  match run 1 stb prog with Ok (_, tr) => omap snd (drop 7 tr) | _ => [] end =
    [MVal (Some 10); MVal (Some 11); MVal None; MVal (Some 20); MList [10; 20; 30]; MList [11]; MList [10; 20; 30]].
Proof.
  intros stb. split; [apply m_chk_ok; destruct stb; vm_compute; reflexivity|].
  destruct stb; vm_compute; reflexivity.
Qed.
Print Assumptions C115_ex.
(** A std::vector that was moved from is cleared and used again, whatever it and the map held. *)
Example C115_reuse_ex : m_prog (PC 1) (Some 0%nat) false [CDefault 0; CCall 0 (MInsert 1%nat 10); CMove 1 0 [7; 8] (<[5%nat := 9]> ∅); CCall 0 MClear; CCall 0 (MInsert 5%nat 50); CDestroy 1; CDestroy 0].
Proof. apply m_chk_ok. vm_compute. reflexivity. Qed.
Print Assumptions C115_reuse_ex.
Example C115_dual_ex : forall stb, d_prog (K1 := nat) (K2 := bool) (PC 1) CMap (Some 0%nat) (Some false) stb
  [CDefault 0; CCall 0 (DInsert 1%nat true 10); CCopy 1 0; CCall 1 (DAssign 1%nat true 11); CCall 0 (DFind (inr true)); CCall 1 (DFind (inr true)); CDestroy 0; CCall 1 DApply; CDestroy 1].
Proof. intros stb. apply d_chk_ok. destruct stb; vm_compute; reflexivity. Qed.
Print Assumptions C115_dual_ex.
