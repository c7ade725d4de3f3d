(** Property C120: apply, modify and transform of the mapped vectors with a function that uses the container it is called from. *)
From stdpp Require Import gmap.
From Verif Require Import Base BlkHeap BlkIter VecModel MapStore MapStoreProofs MapModel MapSpec MapRel MapProofs MapReach MapFinal MapCheck
  DualModel DualSpec DualProofs DualReach DualFinal MapVisit MapNested.

Definition PM (n : Z) : params := Params n false false.

(** ** C120
    As long as the function's own calls are legal and leave the storage [steady], each element the container had when the loop
    began is given to the function once and in order; what the function reads, writes and gets from its own calls, and what is
    left, is what the specification says ([a_visit]); the container goes on as that one; and the elements are where they were. *)
Theorem C120_partial :
  forall (V K T : Type) `{Countable K} P, 0 <= expo P <= 30 -> forall (kdef : option K) stb (m : mv V K) a (f : T -> cb V (mop V K) (mret V) T) t,
  mgood P kdef stb m a -> st_room P (m_st m) -> mv_vsafe P kdef m f t ->
  exists m' a' e ls, mv_nvisit P kdef m f t = Ok (m', e, ls) /\ a_visit (as_exec stb) a f t = (a', e, ls) /\ holds P (m_st m') (as_vals a') /\
    frame P (m_st m) (m_st m') /\
    forall ops, mv_safe P kdef m' ops ->
      exists m'', mv_run P kdef m' ops = Ok (m'', (as_run stb a' ops).2) /\ holds P (m_st m'') (as_vals (as_run stb a' ops).1).
Proof.
  intros V K T ? ? P HP kdef stb m a f t Hg Hr Hs. destruct (mgood_rel P HP kdef stb m a Hg) as [R Hb].
  destruct (mv_nvisit_ok P kdef HP m a f t R Hr Hs) as (m' & a' & e & ls & E & Ea & R' & F). rewrite Hb in Ea. exists m', a', e, ls.
  split; [exact E|]. split; [exact Ea|]. split; [apply ok_holds, R'; exact HP|]. split; [exact F|].
  assert (Hb' : st_stable (m_st m') = stb) by (rewrite (frame_vec P _ _ F); exact Hb).
  intros ops Ho. destruct (mv_run_ok P HP kdef ops _ _ R' Ho) as (m'' & E' & R'' & _). rewrite Hb' in *. exists m''. split; [exact E'|]. apply ok_holds, R''; exact HP.
Qed.
Print Assumptions C120_partial.

Theorem C120_dual_partial :
  forall (V K1 K2 T : Type) `{Countable K1} `{Countable K2} P, 0 <= expo P <= 30 -> forall cl (kd1 : option K1) (kd2 : option K2) stb (d : dv V K1 K2) a
    (f : T -> cb V (dop V K1 K2) (mret V) T) t,
  dgood P cl kd1 kd2 stb d a -> st_room P (d_st d) -> dv_vsafe P cl kd1 kd2 d f t ->
  exists d' a' e ls, dv_nvisit P cl kd1 kd2 d f t = Ok (d', e, ls) /\ a_visit (as_dexec cl stb) a f t = (a', e, ls) /\ holds P (d_st d') (as_vals a') /\
    frame P (d_st d) (d_st d') /\
    forall ops, dv_safe P cl kd1 kd2 d' ops ->
      exists d'', dv_run P cl kd1 kd2 d' ops = Ok (d'', (as_drun cl stb a' ops).2) /\ holds P (d_st d'') (as_vals (as_drun cl stb a' ops).1).
Proof.
  intros V K1 K2 T ? ? ? ? P HP cl kd1 kd2 stb d a f t Hg Hr Hs. destruct (dgood_rel P HP cl kd1 kd2 stb d a Hg) as [R Hb].
  destruct (dv_nvisit_ok P cl kd1 kd2 HP d a f t R Hr Hs) as (d' & a' & e & ls & E & Ea & R' & F). rewrite Hb in Ea. exists d', a', e, ls.
  split; [exact E|]. split; [exact Ea|]. split; [apply ok_holds, R'; exact HP|]. split; [exact F|].
  assert (Hb' : st_stable (d_st d') = stb) by (rewrite (frame_vec P _ _ F); exact Hb).
  intros ops Ho. destruct (dv_run_ok P HP cl kd1 kd2 ops _ _ R' Ho) as (d'' & E' & R'' & _). rewrite Hb' in *. exists d''. split; [exact E'|]. apply ok_holds, R''; exact HP.
Qed.
Print Assumptions C120_dual_partial.

(** With a std::vector no function that adds or removes elements lets the loop reach its end. *)
Theorem C120_vector :
  (forall (V K T : Type) `{Countable K} P (kdef : option K) (m : mv V K) (f : T -> cb V (mop V K) (mret V) T) t m' t' ls,
     mv_nvisit P kdef m f t = Ok (m', Some t', ls) -> st_stable (m_st m) = false -> st_size (m_st m') = st_size (m_st m)) /\
  (forall (V K1 K2 T : Type) `{Countable K1} `{Countable K2} P cl (kd1 : option K1) (kd2 : option K2) (d : dv V K1 K2) (f : T -> cb V (dop V K1 K2) (mret V) T) t d' t' ls,
     dv_nvisit P cl kd1 kd2 d f t = Ok (d', Some t', ls) -> st_stable (d_st d) = false -> st_size (d_st d') = st_size (d_st d)).
Proof.
  split.
  - intros V K T ? ? P kdef m f t m' t' ls E. unfold mv_nvisit, nvisit in E. apply obind_ok in E as (first & _ & E). apply obind_ok in E as (last & _ & E).
    eapply nloop_fresh; [| |exact E]; [reflexivity|]. intros m1 o m2 r E1. eapply sact_stable, mv_act, E1.
  - intros V K1 K2 T ? ? ? ? P cl kd1 kd2 d f t d' t' ls E. unfold dv_nvisit, nvisit in E. apply obind_ok in E as (first & _ & E). apply obind_ok in E as (last & _ & E).
    eapply nloop_fresh; [| |exact E]; [reflexivity|]. intros m1 o m2 r E1. eapply sact_stable, dv_act, E1.
Qed.
Print Assumptions C120_vector.

(** A function that makes no calls of its own: the loop of C113. *)
Theorem C120_same :
  (forall (V K : Type) `{Countable K} P (kdef : option K) (m : mv V K) (f : nat -> V -> V * bool),
     mv_nvisit P kdef m (plain f) 0%nat = ('(m', l, e) <-! mv_visit P m f ;; Ok (m', if (e : bool) then None else Some (length l), imap (fun i x => [EGet x; EPut (f i x).1]) l))) /\
  (forall (V K1 K2 : Type) `{Countable K1} `{Countable K2} P cl (kd1 : option K1) (kd2 : option K2) (d : dv V K1 K2) (f : nat -> V -> V * bool),
     dv_nvisit P cl kd1 kd2 d (plain f) 0%nat = ('(d', l, e) <-! dv_visit P d f ;; Ok (d', if (e : bool) then None else Some (length l), imap (fun i x => [EGet x; EPut (f i x).1]) l))).
Proof.
  split.
  - intros V K ? ? P kdef m f. unfold mv_nvisit, mv_visit. replace m with (mv_upd m (m_st m)) at 1 by (destruct m; reflexivity).
    rewrite nvisit_plain by reflexivity. destruct (st_visit P (m_st m) f) as [[[s l] e]| |]; reflexivity.
  - intros V K1 K2 ? ? ? ? P cl kd1 kd2 d f. unfold dv_nvisit, dv_visit. replace d with (dv_upd d (d_st d)) at 1 by (destruct d; reflexivity).
    rewrite nvisit_plain by reflexivity. destruct (st_visit P (d_st d) f) as [[[s l] e]| |]; reflexivity.
Qed.
Print Assumptions C120_same.

Fixpoint adds {V K T} (n : nat) (x : V) (t : T) : cb V (mop V K) (mret V) T :=
  match n with 0%nat => CRet t | S n' => CDo (MInsertNo x) (fun _ => adds n' x t) end.
(** At the first element: add [n] elements *)
Definition add_first (n : nat) (t : nat) : cb Z (mop Z Z) (mret Z) nat := match t with 0%nat => adds n 7 1%nat | S t' => CRet (S (S t')) end.
(** At the first element: remove the last one; read every element *)
Definition cut_first (t : nat) : cb Z (mop Z Z) (mret Z) nat :=
  CGet (fun _ => match t with 0%nat => CDo (MRemove 7 [5; 6; 7]) (fun _ => CRet 1%nat) | S t' => CRet (S (S t')) end).

(** Three elements.  Adding one element with a std::vector; adding 62 with a StableBlockVector (blocks of one element, its table
    has room for 64; adding 61 is fine); removing one: undefined, though each of these calls is fine outside the loop. *)
Theorem C120_refuted :
  (exists (m : mv Z Z), mreach (PM 1) (Some 0) false m /\ mv_nvisit (PM 1) (Some 0) m (add_first 1) 0%nat = UB) /\
  (exists (m : mv Z Z), mreach (PM 0) (Some 0) true m /\ st_room (PM 0) (m_st m) /\ mv_nvisit (PM 0) (Some 0) m (add_first 62) 0%nat = UB /\
     match mv_nvisit (PM 0) (Some 0) m (add_first 61) 0%nat with
     | Ok (_, e, ls) => e = Some 3%nat /\ ls = [map (fun i => EDo (MInsertNo 7) (MIdx (Some (Z.of_nat i)))) (seq 3 61); []; []]
     | _ => False
     end) /\
  (forall stb, exists (m : mv Z Z), mreach (PM 1) (Some 0) stb m /\ st_room (PM 1) (m_st m) /\ mv_nvisit (PM 1) (Some 0) m cut_first 0%nat = UB).
Proof.
  set (ops := [MInsert 5 10; MInsert 6 20; MInsert 7 30] : list (mop Z Z)).
  assert (Hm : forall n stb, n = 0 \/ n = 1 -> exists m, reach_chk (PM n) (Some 0) (mv0 (PM n) stb) ops = Some m) by (intros n [|] [-> | ->]; eexists; vm_compute; reflexivity).
  split; [|split].
  - destruct (Hm 1 false) as [m E]; [auto|]. exists m. split; [eapply reach_run; exact E|]. vm_compute in E. injection E as <-. vm_compute. reflexivity.
  - destruct (Hm 0 true) as [m E]; [auto|]. exists m. split; [eapply reach_run; exact E|]. vm_compute in E. injection E as <-. split; [|split].
    + vm_compute. intros F; intuition congruence.
    + vm_compute. reflexivity.
    + vm_compute. split; reflexivity.
  - intros stb. destruct (Hm 1 stb) as [m E]; [auto|]. exists m. split; [eapply reach_run; exact E|].
    destruct stb; vm_compute in E; injection E as <-; (split; [vm_compute; try exact I; intros F; intuition congruence|vm_compute; reflexivity]).
Qed.
Print Assumptions C120_refuted.

(** A function that reads its element, gives the element with key 7 the sum so far, at the second call adds an element (stable
    storage) or another key, and writes its element: the third call sees what the second one wrote. *)
Definition sum_up (stb : bool) (s : nat * Z) : cb Z (mop Z Z) (mret Z) (nat * Z) :=
  CGet (fun x => CDo (MAssign 7 (s.2 + x)) (fun _ =>
    if (s.1 =? 1)%nat then CDo (if stb then MInsert 8 99 else MAlias 8 0) (fun _ => CDo (MFind 8) (fun _ => CPut (x + 1) (CRet (S s.1, s.2 + x))))
    else CPut (x + 1) (CRet (S s.1, s.2 + x)))).
Lemma mv_chk1 P (m : mv Z Z) o : mv_legalb m o && mv_guardb P (Some 0) m o = true -> mv_legal m o /\ mv_guard P (Some 0) m o.
Proof. intros [E1 E2]%andb_true_iff. split; [apply mv_legalb_ok, E1|apply mv_guardb_ok, E2]. Qed.
Example C120_ex : forall stb, exists (m : mv Z Z) a,
  mgood (PM 1) (Some 0) stb m a /\ st_room (PM 1) (m_st m) /\ mv_vsafe (PM 1) (Some 0) m (sum_up stb) (0%nat, 0) /\
  match mv_nvisit (PM 1) (Some 0) m (sum_up stb) (0%nat, 0) with
  | Ok (m', e, ls) => e = Some (3%nat, 60) /\
      ls = [[EGet 10; EDo (MAssign 7 10) (MIdx (Some 2)); EPut 11];
            [EGet 20; EDo (MAssign 7 30) (MIdx (Some 2)); if stb then EDo (MInsert 8 99) (MIdx (Some 3)) else EDo (MAlias 8 0) (MBool true);
             EDo (MFind 8) (MVal (Some (if stb then 99 else 11))); EPut 21];
            [EGet 30; EDo (MAssign 7 60) (MIdx (Some 2)); EPut 31]] /\
      match mv_step (PM 1) (Some 0) m' MApply with Ok (_, r) => r = MList ([11; 21; 31] ++ if stb then [99] else []) | _ => False end
  | _ => False
  end.
Proof.
  intros stb. set (ops := [MInsert 5 10; MInsert 6 20; MInsert 7 30] : list (mop Z Z)).
  destruct (history_final (PM 1) ltac:(cbn; lia) (Some 0) stb ops) as (m & E & _ & Hg); [apply mv_chk_ok; destruct stb; vm_compute; reflexivity|].
  exists m, (as_run stb assoc0 ops).1. split; [exact Hg|]. clear Hg. destruct stb; vm_compute in E; injection E as <-;
    (split; [apply roomb_ok; vm_compute; reflexivity|]; split; [apply (visit_chk_ok _ _ _ _ _ _ (fun m o => mv_legalb m o && mv_guardb (PM 1) (Some 0) m o)); [apply mv_chk1|vm_compute; reflexivity]|vm_compute; splits]).
Qed.

(** The two-term classes: the same with assignments through the second term. *)
Definition dsum_up (s : nat * Z) : cb Z (dop Z Z Z) (mret Z) (nat * Z) :=
  CGet (fun x => CDo (DAssign2 8 (s.2 + x)) (fun _ => CDo (DFind (inl 7)) (fun _ => CPut (x + 1) (CRet (S s.1, s.2 + x))))).
Lemma dv_chk1 P cl (d : dv Z Z Z) o : dv_legalb cl d o && dv_guardb P cl (Some 0) (Some 0) d o = true -> dv_legal cl d o /\ dv_guard P cl (Some 0) (Some 0) d o.
Proof. intros [E1 E2]%andb_true_iff. split; [apply dv_legalb_ok, E1|apply dv_guardb_ok, E2]. Qed.
Example C120_dual_ex : forall cl, let stb := match cl with CPtr => false | _ => true end in exists (d : dv Z Z Z) a,
  dgood (PM 1) cl (Some 0) (Some 0) stb d a /\ st_room (PM 1) (d_st d) /\ dv_vsafe (PM 1) cl (Some 0) (Some 0) d dsum_up (0%nat, 0) /\
  match dv_nvisit (PM 1) cl (Some 0) (Some 0) d dsum_up (0%nat, 0) with
  | Ok (d', e, ls) => e = Some (3%nat, 60) /\ ls !! 2%nat = Some [EGet 30; EDo (DAssign2 8 60) (MIdx (Some 2)); EDo (DFind (inl 7)) (MVal (Some 60)); EPut 31]
  | _ => False
  end.
Proof.
  intros cl stb. set (ops := [DInsert 5 6 10; DInsert1 6 20; DInsert 7 8 30] : list (dop Z Z Z)).
  destruct (dhistory_final (PM 1) ltac:(cbn; lia) cl (Some 0) (Some 0) stb ops) as (d & E & _ & Hg); [apply dv_chk_ok; destruct cl; vm_compute; reflexivity|].
  exists d, (as_drun cl stb assoc0 ops).1. split; [exact Hg|]. clear Hg. destruct cl; vm_compute in E; injection E as <-;
    (split; [apply roomb_ok; vm_compute; reflexivity|]; split; [match goal with |- dv_vsafe _ ?c _ _ _ _ _ => apply (visit_chk_ok _ _ _ _ _ _ (fun d o => dv_legalb c d o && dv_guardb (PM 1) c (Some 0) (Some 0) d o)) end; [apply dv_chk1|vm_compute; reflexivity]|vm_compute; splits]).
Qed.
