(** BlockingQueue and BlockingPriorityQueue when elements throw: C71, C72, C73 *)
From stdpp Require Import list.
From Verif Require Import Base Conc CondVar Herlihy Serial BqModel BqSpec BqInv BqLin BqFifo BqMore BqWake BqFlag BqMore2 BqThrow BqThrow2 Props_Bq.

Section props.
Context {V : Type}.
Notation xcfg := (cfg (bqsh V) (xpc V)).
Implicit Types (s : bqsh V) (c : xcfg) (xs : list (nat * act xch (bqop V))) (H : list (hev (bqop V) (option (bqret V)))).

(** C71 (both classes).  Every history is one of an atomic queue in which an operation that throws does nothing; what the
    atomic queue holds is what the containers hold. *)
Theorem C71_linearizable bp late s xs c H : rest bp s -> Forall (has_op bp) (calls xs) -> x_run bp late (init s) xs = Some (c, H) ->
  exists L q, linearization x_spec H (bq_content s) L q /\
    (forall i o r, In (i, o, r) L -> (exists j t, ret_of H i j t o r) \/ x_under_way H c i o) /\
    (~ clearing (er c) -> Permutation (fst q ++ snd q) (prioE (sh c) ++ pullE (sh c) ++ pushE (sh c))) /\
    (~ clearing (er c) -> ~ swapping (er c) -> q = bq_content (sh c)).
Proof.
  intros Hs Hok Er. destruct (x_linearization _ _ _ _ _ _ Hs Hok Er) as (L & HL & Hx). exists L, (x_held c). split; [exact HL|]. split; [exact Hx|].
  split; [apply (held_perm (er c))|apply (held_order (er c))].
Qed.

(** Without clear(): what was there and what was pushed by calls that did not throw is what was popped and what is there. *)
Theorem C71_conserved bp late s xs c H : rest bp s -> Forall (has_op bp) (calls xs) -> Forall (fun o => o <> BClear) (calls xs) -> x_run bp late (init s) xs = Some (c, H) ->
  exists L q, linearization x_spec H (bq_content s) L q /\
    (forall i o r, In (i, o, r) L -> (exists j t, ret_of H i j t o r) \/ x_under_way H c i o) /\
    Permutation (prioE s ++ pullE s ++ pushE s ++ pushed (done L)) (popped (done L) ++ prioE (sh c) ++ pullE (sh c) ++ pushE (sh c)).
Proof.
  intros Hs Hok Hnc Er. destruct (C71_linearizable _ _ _ _ _ _ Hs Hok Er) as (L & q & HL & Hx & Hp & _). exists L, q. split; [exact HL|]. split; [exact Hx|].
  rewrite <- (Hp (x_no_clear _ _ _ _ _ _ Hnc Er)). rewrite <- (legal_conserved _ _ _ (legal_done _ _ _ (hw_legal _ _ _ _ _ HL))).
  - cbn. rewrite <- app_assoc. apply Permutation_app_head, Permutation_app_tail, Permutation_rev.
  - intros [[i o] r] Hi. apply in_done in Hi. destruct (hw_ops _ _ _ _ _ HL _ _ _ Hi) as [t E]. pose proof (x_run_calls _ _ _ _ _ _ Er _ _ _ E) as Hc.
    rewrite Forall_forall in Hnc. apply Hnc, elem_of_list_In, Hc.
Qed.

(** With clear(): [D] is what the clears threw away. *)
Theorem C71_accounted bp late s xs c H : rest bp s -> Forall (has_op bp) (calls xs) -> x_run bp late (init s) xs = Some (c, H) -> ~ clearing (er c) ->
  exists L q D, linearization x_spec H (bq_content s) L q /\
    (forall i o r, In (i, o, r) L -> (exists j t, ret_of H i j t o r) \/ x_under_way H c i o) /\
    Permutation (prioE s ++ pullE s ++ pushE s ++ pushed (done L)) (popped (done L) ++ D ++ prioE (sh c) ++ pullE (sh c) ++ pushE (sh c)) /\
    ((forall i r, ~ In (i, BClear, Some r) L) -> D = []).
Proof.
  intros Hs Hok Er Hnc. destruct (C71_linearizable _ _ _ _ _ _ Hs Hok Er) as (L & q & HL & Hx & Hp & _).
  destruct (legal_accounted _ _ _ (legal_done _ _ _ (hw_legal _ _ _ _ _ HL))) as (D & HD & HD0). exists L, q, D. split; [exact HL|]. split; [exact Hx|]. split.
  - rewrite <- (Hp Hnc). rewrite <- HD. cbn. rewrite <- app_assoc. apply Permutation_app_head, Permutation_app_tail, Permutation_rev.
  - intros Hn. apply HD0. intros [[i o] r] Hi E. cbn in E. subst o. apply in_done in Hi. exact (Hn _ _ Hi).
Qed.

(** An element whose every push threw is never popped and never held. *)
Theorem C71_threw_nothing bp late s xs c H b : rest bp s -> Forall (has_op bp) (calls xs) -> x_run bp late (init s) xs = Some (c, H) ->
  ~ In b (prioE s ++ pullE s ++ pushE s) -> (forall i t o, H !! i = Some (HInv t o) -> bval o = Some b -> exists j, ret_of H i j t o None) ->
  (forall i j t o, ret_of H i j t o (Some (BVal (Some b))) -> ~ pop_op o) /\ (~ clearing (er c) -> ~ In b (prioE (sh c) ++ pullE (sh c) ++ pushE (sh c))).
Proof.
  intros Hs Hok Er Hn Hb. destruct (C71_linearizable _ _ _ _ _ _ Hs Hok Er) as (L & q & HL & _ & Hp & _).
  assert (Hn' : ~ In b (fst (bq_content s) ++ snd (bq_content s))). { cbn. rewrite !in_app_iff, <- in_rev. rewrite !in_app_iff in Hn. exact Hn. }
  destruct (legal_absent _ _ _ b (legal_done _ _ _ (hw_legal _ _ _ _ _ HL))) as [Hq Hno]; [|exact Hn'|].
  - intros [[i o] r] Hi E. cbn in E. apply in_done in Hi. destruct (hw_ops _ _ _ _ _ HL _ _ _ Hi) as [t Et]. destruct (Hb _ _ _ Et E) as [j Hj].
    pose proof (hw_ret _ _ _ _ _ HL _ _ _ _ _ Hj) as Hi'.
    assert (Hd : forall (M : list (nat * bqop V * option (bqret V))) x y, NoDup (map (fun x => x.1.1) M) -> In x M -> In y M -> x.1.1 = y.1.1 -> x = y).
    { clear. induction M as [|z M IH]; cbn; [intros ? ? _ []|]. intros x y Hnd. apply NoDup_cons in Hnd as [Hz Hnd]. rewrite elem_of_list_In, in_map_iff in Hz.
      intros [->|Hx] [->|Hy] E; auto; exfalso; apply Hz; eauto. }
    specialize (Hd L _ _ (hw_once _ _ _ _ _ HL) Hi Hi' eq_refl). discriminate.
  - split.
    + intros i j t o Hr Ho. pose proof (hw_ret _ _ _ _ _ HL _ _ _ _ _ Hr) as Hi. eapply Hno; [exact Ho|]. apply in_done, Hi.
    + intros Hc Hi. apply Hq. eapply Permutation_in; [symmetry; apply Hp, Hc|exact Hi].
Qed.

(** First in, first out in real time, within a channel, for pushes that did not throw; [b] may have been tried before, with
    an exception. *)
Theorem C71_fifo bp late s xs c H a b i1 j1 t1 o1 r1 i2 t2 o2 i3 j3 t3 o3 :
  rest bp s -> Forall (has_op bp) (calls xs) -> x_run bp late (init s) xs = Some (c, H) ->
  a <> b -> ~ In b (prioE s ++ pullE s ++ pushE s) -> (forall i t o, H !! i = Some (HInv t o) -> bval o = Some b -> i = i2 \/ exists j, ret_of H i j t o None) ->
  ret_of H i1 j1 t1 o1 (Some r1) -> bval o1 = Some a -> H !! i2 = Some (HInv t2 o2) -> bval o2 = Some b -> channel o1 = channel o2 -> (j1 < i2)%nat ->
  ret_of H i3 j3 t3 o3 (Some (BVal (Some b))) -> pop_op o3 ->
  exists L q, linearization x_spec H (bq_content s) L q /\
    ((exists ic tc rc, H !! ic = Some (HInv tc BClear) /\ In (ic, BClear, Some rc) L /\ before L i1 ic /\ before L ic i2) \/
     exists i4 o4, pop_op o4 /\ In (i4, o4, Some (BVal (Some a))) L /\ before L i4 i3 /\ (i4 < j3)%nat /\
       ((exists j4 t4, ret_of H i4 j4 t4 o4 (Some (BVal (Some a)))) \/ x_under_way H c i4 o4)).
Proof.
  intros Hs Hok Er Hab Hnb Hub Ra Va Ib Vb Hch Hlt Rp Hop.
  destruct (C71_linearizable _ _ _ _ _ _ Hs Hok Er) as (L & q & HL & Hx & _ & _). exists L, q. split; [exact HL|].
  pose proof (hw_once _ _ _ _ _ HL) as Hnd. pose proof (legal_done _ _ _ (hw_legal _ _ _ _ _ HL)) as Hle.
  assert (Hd : forall (M : list (nat * bqop V * option (bqret V))) x y, NoDup (map (fun x => x.1.1) M) -> In x M -> In y M -> x.1.1 = y.1.1 -> x = y).
  { clear. induction M as [|z M IH]; cbn; [intros ? ? _ []|]. intros x y Hnd. apply NoDup_cons in Hnd as [Hz Hnd]. rewrite elem_of_list_In, in_map_iff in Hz.
    intros [->|Hx] [->|Hy] E; auto; exfalso; apply Hz; eauto. }
  assert (Hnb' : ~ In b (fst (bq_content s) ++ snd (bq_content s))). { cbn. rewrite !in_app_iff, <- in_rev. rewrite !in_app_iff in Hnb. exact Hnb. }
  assert (HuL : forall x, In x (done L) -> bval x.1.2 = Some b -> x.1.1 = i2).
  { intros [[i o] r] Hi E. apply in_done in Hi. destruct (hw_ops _ _ _ _ _ HL _ _ _ Hi) as [t Et]. destruct (Hub _ _ _ Et E) as [?|[j Hj]]; [assumption|].
    pose proof (hw_ret _ _ _ _ _ HL _ _ _ _ _ Hj) as Hi'. specialize (Hd L _ _ Hnd Hi Hi' eq_refl). discriminate. }
  pose proof (hw_ret _ _ _ _ _ HL _ _ _ _ _ Rp) as Hi3. pose proof (hw_ret _ _ _ _ _ HL _ _ _ _ _ Ra) as Hi1.
  assert (Hi2 : exists r2, In (i2, o2, r2) (done L)).
  { destruct (in_dec Nat.eq_dec i2 (map (fun x => x.1.1) (done L))) as [Hi|Hi].
    - apply in_map_iff in Hi as ([[i o] r] & E & Hi). cbn in E. subst i. destruct (hw_ops _ _ _ _ _ HL _ _ _ (proj1 (in_done _ _ _ _) Hi)) as [t Et]. rewrite Ib in Et. injection Et as _ ->. eauto.
    - exfalso. eapply (proj2 (legal_absent _ _ _ b Hle (fun x Hx' E => Hi (proj2 (in_map_iff _ _ _) (ex_intro _ x (conj (HuL x Hx' E) Hx')))) Hnb')); [exact Hop|apply in_done, Hi3]. }
  destruct Hi2 as [r2 Hi2]. pose proof (proj1 (in_done _ _ _ _) Hi2) as Hi2'.
  assert (Hbef : before L i1 i2) by (exact (hw_order _ _ _ _ _ HL _ _ _ _ _ (i2, o2, Some r2) Ra Hi2' Hlt)).
  destruct (legal_fifo (channel o2) a b _ _ _ i1 i2 o1 o2 r1 r2 Hle (done_once _ Hnd) Hnb' Hab (proj2 (in_done _ _ _ _) Hi1) Hi2 Va Vb Hch eq_refl (before_done _ _ _ _ _ _ _ Hnd Hbef Hi1 Hi2') HuL) as [([[i o] r] & Hi & E & Hb1 & Hb2)|Htk].
  - left. cbn in E, Hb1, Hb2. subst o. apply in_done in Hi. destruct (hw_ops _ _ _ _ _ HL _ _ _ Hi) as [t Et]. exists i, t, r. apply done_before in Hb1, Hb2. auto.
  - right. destruct (Htk _ _ Hop (proj2 (in_done _ _ _ _) Hi3)) as (i4 & o4 & Ho4 & Hi4 & Hb4). apply in_done in Hi4. apply done_before in Hb4. exists i4, o4. split; [exact Ho4|]. split; [exact Hi4|]. split; [exact Hb4|]. split; [|apply (Hx _ _ _ Hi4)].
    destruct (lt_eq_lt_dec i4 j3) as [[Hl|E]|Hl]; [exact Hl|exfalso..].
    + destruct (hw_ops _ _ _ _ _ HL _ _ _ Hi4) as [t Et]. destruct Rp as (_ & _ & Ej & _). congruence.
    + pose proof (hw_order _ _ _ _ _ HL _ _ _ _ _ (i4, o4, Some (BVal (Some a))) Rp Hi4 Hl) as Hb'. eapply before_antisym; [exact Hnd|exact Hb4|exact Hb'].
Qed.

(** The locks are released: whoever is not waiting on the condition can go on; and the containers are accessed under them. *)
Theorem C71_no_deadlock bp late s xs c H t : rest bp s -> Forall (has_op bp) (calls xs) -> x_run bp late (init s) xs = Some (c, H) ->
  th c t <> None -> ~ x_waits c t -> x_progress bp late c.
Proof. intros Hs Hok Er. apply x_live. eapply xI_run; [apply xI_init, Hs|exact Hok|exact Er]. Qed.

Theorem C71_lock_discipline bp late s xs c H : rest bp s -> Forall (has_op bp) (calls xs) -> x_run bp late (init s) xs = Some (c, H) ->
  (forall t u pt pu x w w', th c t = Some (XP pt) -> th c u = Some (XP pu) -> In (x, w) (bq_acc pt) -> In (x, w') (bq_acc pu) -> t = u) /\
  (forall t pt, th c t = Some (XU pt) -> bq_acc pt = []) /\
  (forall t, th c t <> Some (XP Crash)) /\
  ((forall t, th c t = None) -> pushL (sh c) = None /\ pullL (sh c) = None).
Proof.
  intros Hs Hok Er. assert (Hi : xI bp c) by (eapply xI_run; [apply xI_init, Hs|exact Hok|exact Er]). destruct Hi as [Hi Hu]. split; [|split; [|split]].
  - intros t u p p' x w w' Et Eu. apply (bq_norace bp (er c)); [exact Hi|cbn; rewrite Et; reflexivity|cbn; rewrite Eu; reflexivity].
  - intros t p Et. specialize (Hu _ _ Et). destruct p; cbn in Hu |- *; try contradiction; reflexivity.
  - intros t Et. assert (Ec : th (er c) t = Some Crash) by (cbn; rewrite Et; reflexivity). destruct (i_pc _ _ Hi _ _ Ec) as [[] _].
  - intros Hn. split; [destruct (pushL (sh c)) as [u|] eqn:E; [|reflexivity]; apply (i_push _ _ Hi) in E as (p & E & _)|destruct (pullL (sh c)) as [u|] eqn:E; [|reflexivity]; apply (i_pull _ _ Hi) in E as (p & E & _)];
      cbn in E; rewrite Hn in E; discriminate.
Qed.

(** C72 (both classes), one thread that may block, and pushes that throw only if they found the flag false: if the
    consumer is blocked and no push is under way, nothing is held.
    Missing: pushes that throw after setting the flag to false, see [C72_refuted]. *)
Theorem C72_no_lost_wakeup_partial bp t0 s xs c H : rest bp s -> Forall (has_op bp) (calls xs) -> x_sole bp t0 xs -> x_run bp false (init s) xs = Some (c, H) ->
  x_waits c t0 -> (forall i o, x_under_way H c i o -> bval o = None) -> nothing_held (sh c).
Proof.
  intros Hs Hok Hso Er (m & Em & Hw) Hno. pose proof (x_wake_run bp t0 xs _ _ _ (xI_init bp s Hs) (wake_init bp t0 s) Hok Hso Er) as Hk.
  assert (Em' : th (er c) t0 = Some (W5 m)) by (cbn; rewrite Em; reflexivity).
  destruct (k_wake _ _ _ Hk _ Em' Hw) as [[_ Hc]|[(u & pu & Eu & Hn)|[He _]]]; [exact Hc| |destruct He].
  exfalso. cbn in Eu. destruct (th c u) as [x|] eqn:Ex; [|discriminate]. injection Eu as <-. destruct (x_inserting _ _ _ _ _ _ _ _ Er Ex Hn) as (i & o & Hl & Ho). apply Ho, (Hno i o). exists u. split; [congruence|exact Hl].
Qed.

(** C73 (both classes), one direction: if nobody is inside an operation and empty() would answer true, nothing is held.
    Missing: the other direction, see [C73_refuted]. *)
Theorem C73_true_partial bp late s xs c H : rest bp s -> (eflag s = true -> nothing_held s) -> Forall (has_op bp) (calls xs) -> x_run bp late (init s) xs = Some (c, H) ->
  (forall t, th c t = None) -> forall t ks c' H', x_run bp late c (block (t, BEmpty, ks)) = Some (c', H') -> In (HRet t (Some (BBool true))) H' -> nothing_held (sh c).
Proof.
  intros Hs Hfl Hok Er Hn t ks c' H' Eb Hin. pose proof (x_flag_run bp late xs _ _ _ (xI_init bp s Hs) (flagI_init s Hfl) Hok Er) as Hf.
  destruct (run_block _ _ _ _ _ _ _ _ _ Eb) as (r & _ & Es & _ & ->). destruct ks as [|[[|?| |]|] ks]; cbn in Es; try discriminate. destruct ks as [|[[|?| |]|] ks]; cbn in Es; try discriminate.
  injection Es as _ <-. destruct Hin as [Hin|[Hin|[]]]; [discriminate|]. injection Hin as Ee. destruct (f_true _ Hf Ee) as (E1 & E2 & [E3|[u Eu]]); [repeat split; assumption|].
  cbn in Eu. rewrite Hn in Eu. discriminate.
Qed.

(** BlockingQueue, at every moment: when empty() reads true, nothing is held. *)
Theorem C73_empty_true_partial late s xs c H t c' e : rest false s -> (eflag s = true -> nothing_held s) -> Forall (has_op false) (calls xs) -> x_run false late (init s) xs = Some (c, H) ->
  th c t = Some (XP E0) -> x_exec false late c (t, AInt (XStep CStep)) = Some (c', e) -> th c' t = Some (XP (Ret (BBool true))) -> nothing_held (sh c).
Proof.
  intros Hs Hfl Hok Er Et Ex Et'. pose proof (xI_run _ _ _ _ _ _ (xI_init false s Hs) Hok Er) as [Hi _]. pose proof (x_flag_run false late xs _ _ _ (xI_init false s Hs) (flagI_init s Hfl) Hok Er) as Hf.
  unfold x_exec in Ex. cbn in Ex. rewrite Et in Ex. cbn in Ex. injection Ex as <- _. cbn in Et'. rewrite fupd_same in Et'. injection Et' as Ee.
  destruct (f_true _ Hf Ee) as (E1 & E2 & _). repeat split; try assumption. apply (i_prio _ _ Hi eq_refl).
Qed.
End props.

(** ** What is not so *)
Definition xsteps (t n : nat) : list (nat * act xch (bqop Z)) := repeat (t, AInt (XStep CStep)) n.
Definition xpush (t : nat) (v : Z) (n : nat) : list (nat * act xch (bqop Z)) := (t, ACall (BPush v)) :: xsteps t n ++ [(t, ARet)].
(** A push that throws after [n] steps and needs [m] more to release its locks *)
Definition xthrow (t : nat) (o : bqop Z) (n m : nat) : list (nat * act xch (bqop Z)) := (t, ACall o) :: xsteps t n ++ (t, AInt XThrow) :: xsteps t m ++ [(t, ARet)].

Lemma x_run_other bp late (xs : list (nat * act xch (bqop Z))) : forall c c' H t, x_run bp late c xs = Some (c', H) -> (forall u a, In (u, a) xs -> u <> t) -> th c' t = th c t.
Proof.
  unfold x_run. induction xs as [|[u a] xs IH]; intros c c' H t; cbn [run]; [intros [= <- _]; reflexivity|].
  destruct (exec x_start (x_step bp late) x_fin c (u, a)) as [[c1 e]|] eqn:Ex; [|discriminate]. destruct (run x_start (x_step bp late) x_fin c1 xs) as [[c2 H2]|] eqn:Er; [|discriminate]. intros [= <- _] Hx.
  rewrite (IH _ _ _ t Er) by (intros w b Hb; apply (Hx w b); right; exact Hb). assert (Hne : t <> u) by (intros ->; exact (Hx u a (or_introl eq_refl) eq_refl)).
  cbn in Ex. destruct a as [o|k|]; destruct (th c u) as [x|]; try discriminate; [|destruct (x_step bp late (sh c) u x k) as [[s' x']|]; [|discriminate]|destruct (x_fin x); [|discriminate]]; injection Ex as <- _; apply fupd_other, Hne.
Qed.

(** C72: consumer 1 waits on an empty queue; push(10) throws; push(20) returns normally and notifies nobody.  Only one
    consumer, calls one after the other; and it stays blocked whatever is pushed. *)
Definition unnotified : list (nat * act xch (bqop Z)) := ((1, ACall BPop) :: xsteps 1 11 ++ xthrow 2 (BPush 10%Z) 7 1 ++ xpush 3 20 6)%nat.
Theorem C72_refuted : exists c H, x_run false true (init (bq0 (V := Z))) unnotified = Some (c, H) /\ x_waits c 1%nat /\ (forall u, u <> 1%nat -> th c u = None) /\
  ret_of H 1 2 2 (BPush 10%Z) None /\ ret_of H 3 4 3 (BPush 20%Z) (Some BUnit) /\ pushE (sh c) = [20%Z] /\ ~ x_progress false true c /\
  forall xs c' H', (forall u a, In (u, a) xs -> u <> 1%nat /\ forall o, a = ACall o -> bval o <> None) -> x_run false true c xs = Some (c', H') -> x_waits c' 1%nat /\ ~ nothing_held (sh c').
Proof.
  eassert (Er : x_run false true (init (bq0 (V := Z))) unnotified = Some (_, _)) by (vm_compute; reflexivity). eexists _, _. split; [exact Er|].
  split; [exists MPop; split; [reflexivity|left; reflexivity]|]. split; [intros u Hu; do 4 (destruct u as [|u]; [first [congruence|reflexivity]|]); reflexivity|].
  split; [split; [lia|]; split; [reflexivity|]; split; [reflexivity|]; intros k e Hk; lia|]. split; [split; [lia|]; split; [reflexivity|]; split; [reflexivity|]; intros k e Hk; lia|]. split; [reflexivity|].
  split.
  - intros (u & a & c' & e & Ha & Ex). do 4 (destruct u as [|u]; [destruct Ha as [-> | ->]; vm_compute in Ex; discriminate Ex|]). destruct Ha as [-> | ->]; vm_compute in Ex; discriminate Ex.
  - intros xs c' H' Hx Er'. pose proof Er' as Er1. eapply (x_missed_run false true xs _ 1%nat) in Er'; [| |exact Hx].
    + destruct Er' as ((m & Em & Hw) & _ & H2 & _). split; [|intros (_ & E & _); contradiction]. exists MPop. split; [|exact Hw]. rewrite (x_run_other _ _ _ _ _ _ 1%nat Er1 (fun u a Hi => proj1 (Hx u a Hi))). reflexivity.
    + split; [exists MPop; split; [reflexivity|left; reflexivity]|]. split; [reflexivity|]. split; [discriminate|]. intros u pc Hu Eu. exfalso. do 4 (destruct u as [|u]; [first [congruence|discriminate Eu]|]). discriminate Eu.
Qed.

(** BlockingPriorityQueue: the same after a pushPriority that throws *)
Definition unnotified_prio : list (nat * act xch (bqop Z)) := ((1, ACall BPop) :: xsteps 1 13 ++ xthrow 2 (BPushPri 10%Z) 3 1 ++ xpush 3 20 6)%nat.
Theorem C72_refuted_priority : exists c H, x_run true true (init (bq0 (V := Z))) unnotified_prio = Some (c, H) /\ x_waits c 1%nat /\ (forall u, u <> 1%nat -> th c u = None) /\
  ret_of H 1 2 2 (BPushPri 10%Z) None /\ ret_of H 3 4 3 (BPush 20%Z) (Some BUnit) /\ pushE (sh c) = [20%Z] /\ ~ x_progress true true c /\
  forall xs c' H', (forall u a, In (u, a) xs -> u <> 1%nat /\ forall o, a = ACall o -> bval o <> None) -> x_run true true c xs = Some (c', H') -> x_waits c' 1%nat /\ ~ nothing_held (sh c').
Proof.
  eassert (Er : x_run true true (init (bq0 (V := Z))) unnotified_prio = Some (_, _)) by (vm_compute; reflexivity). eexists _, _. split; [exact Er|].
  split; [exists MPop; split; [reflexivity|left; reflexivity]|]. split; [intros u Hu; do 4 (destruct u as [|u]; [first [congruence|reflexivity]|]); reflexivity|].
  split; [split; [lia|]; split; [reflexivity|]; split; [reflexivity|]; intros k e Hk; lia|]. split; [split; [lia|]; split; [reflexivity|]; split; [reflexivity|]; intros k e Hk; lia|]. split; [reflexivity|].
  split.
  - intros (u & a & c' & e & Ha & Ex). do 4 (destruct u as [|u]; [destruct Ha as [-> | ->]; vm_compute in Ex; discriminate Ex|]). destruct Ha as [-> | ->]; vm_compute in Ex; discriminate Ex.
  - intros xs c' H' Hx Er'. pose proof Er' as Er1. eapply (x_missed_run true true xs _ 1%nat) in Er'; [| |exact Hx].
    + destruct Er' as ((m & Em & Hw) & _ & H2 & _). split; [|intros (_ & E & _); contradiction]. exists MPop. split; [|exact Hw]. rewrite (x_run_other _ _ _ _ _ _ 1%nat Er1 (fun u a Hi => proj1 (Hx u a Hi))). reflexivity.
    + split; [exists MPop; split; [reflexivity|left; reflexivity]|]. split; [reflexivity|]. split; [discriminate|]. intros u pc Hu Eu. exfalso. do 4 (destruct u as [|u]; [first [congruence|discriminate Eu]|]). discriminate Eu.
Qed.

(** C73: a new queue, one push that throws; then empty() answers false although nothing is held, both classes. *)
Theorem C73_refuted : forall bp, exists c H, x_run bp true (init (bq0 (V := Z))) (xthrow 1 (BPush 10%Z) 7 1 ++ (2, ACall BEmpty) :: xsteps 2 1 ++ [(2, ARet)])%nat = Some (c, H) /\
  H = [HInv 1%nat (BPush 10%Z); HRet 1%nat None; HInv 2%nat BEmpty; HRet 2%nat (Some (BBool false))] /\ nothing_held (sh c) /\ forall t, th c t = None.
Proof.
  intros bp. eassert (Er : x_run bp true (init (bq0 (V := Z))) (xthrow 1 (BPush 10%Z) 7 1 ++ (2, ACall BEmpty) :: xsteps 2 1 ++ [(2, ARet)])%nat = Some (_, _)) by (vm_compute; reflexivity).
  eexists _, _. split; [exact Er|]. split; [reflexivity|]. split; [repeat split|]. intros t. do 3 (destruct t as [|t]; [reflexivity|]). reflexivity.
Qed.

(** ** The hypotheses are met *)
(** Thread 1 has cleared the flag and let go of the push lock; 2 pushes 20; 1 throws; 3 pushes 30; 10, tried again, goes
    behind them; pops give 20, 30, 10. *)
Definition retried : list (nat * act xch (bqop Z)) :=
  ((1, ACall (BPush 10%Z)) :: xsteps 1 4 ++ xpush 2 20 6 ++ xsteps 1 3 ++ (1, AInt XThrow) :: xsteps 1 1 ++ [(1, ARet)] ++ xpush 3 30 4 ++ xpush 1 10 4)%nat.
Definition xpop (t n : nat) : list (nat * act xch (bqop Z)) := ((t, ACall BTryPop) :: xsteps t n ++ [(t, ARet)])%nat.
Example C71_case : exists c H, x_run false true (init (bq0 (V := Z))) (retried ++ xpop 4 11 ++ xpop 4 6)%nat = Some (c, H) /\ rest false (bq0 (V := Z)) /\
  ret_of H 0 3 1 (BPush 10%Z) None /\ ret_of H 4 5 3 (BPush 30%Z) (Some BUnit) /\ H !! 6%nat = Some (HInv 1%nat (BPush 10%Z)) /\
  ret_of H 8 9 4 BTryPop (Some (BVal (Some 20%Z))) /\ ret_of H 10 11 4 BTryPop (Some (BVal (Some 30%Z))) /\ rev (pullE (sh c)) ++ pushE (sh c) = [10%Z] /\
  (forall i t o, H !! i = Some (HInv t o) -> bval o = Some 10%Z -> i = 6%nat \/ exists j, ret_of H i j t o None).
Proof.
  eassert (Er : x_run false true (init (bq0 (V := Z))) (retried ++ xpop 4 11 ++ xpop 4 6)%nat = Some (_, _)) by (vm_compute; reflexivity).
  eexists _, _. split; [exact Er|]. split; [repeat split|].
  assert (Hr : forall H i t o r, H !! i = Some (HInv t o) -> H !! S i = Some (HRet t r) -> ret_of (Op := bqop Z) (Rt := option (bqret Z)) H i (S i) t o r).
  { intros H i t o r E1 E2. split; [lia|]. split; [exact E1|]. split; [exact E2|]. intros k e Hk. lia. }
  match goal with |- ret_of ?H _ _ _ _ _ /\ _ => assert (H0 : ret_of H 0 3 1 (BPush 10%Z) None) end.
  { split; [lia|]. split; [reflexivity|]. split; [reflexivity|]. intros k e Hk E. destruct k as [|[|[|k]]]; [lia| | |lia]; injection E as <-; discriminate. }
  split; [exact H0|]. split; [apply Hr; reflexivity|]. split; [reflexivity|]. split; [apply Hr; reflexivity|]. split; [apply Hr; reflexivity|]. split; [reflexivity|].
  intros i t o E Ho. do 12 (destruct i as [|i]; [first [discriminate E|injection E as <- <-; first [discriminate Ho|left; reflexivity|right; eexists; exact H0]]|]). discriminate E.
Qed.

(** C71: the value 10 is tried once and never held or popped. *)
Example C71_case_threw : exists c H, x_run true true (init (bq0 (V := Z))) (xthrow 1 (BEmplacePri 10%Z) 3 1 ++ xpop 2 9)%nat = Some (c, H) /\
  (forall i t o, H !! i = Some (HInv t o) -> bval o = Some 10%Z -> exists j, ret_of H i j t o None) /\ ret_of H 2 3 2 BTryPop (Some (BVal None)).
Proof.
  eassert (Er : x_run true true (init (bq0 (V := Z))) (xthrow 1 (BEmplacePri 10%Z) 3 1 ++ xpop 2 9)%nat = Some (_, _)) by (vm_compute; reflexivity).
  eexists _, _. split; [exact Er|].
  assert (Hr : forall H i t o r, H !! i = Some (HInv t o) -> H !! S i = Some (HRet t r) -> ret_of (Op := bqop Z) (Rt := option (bqret Z)) H i (S i) t o r).
  { intros H i t o r E1 E2. split; [lia|]. split; [exact E1|]. split; [exact E2|]. intros k e Hk. lia. }
  split; [|apply Hr; reflexivity]. intros i t o E Ho. do 4 (destruct i as [|i]; [first [discriminate E|injection E as <- <-; first [discriminate Ho|exists 1%nat; apply Hr; reflexivity]]|]). discriminate E.
Qed.

(** C72: a push that throws because it found the flag false; the consumer, the only one, is woken by the next push. *)
Example C72_case : match x_run false false (init (bq0 (V := Z)))
    (xpush 2 10 10 ++ xthrow 2 (BPush 20%Z) 3 1 ++ [(1, ACall BPop)] ++ xsteps 1 10 ++ [(1, ARet); (1, ACall BPop)] ++ xsteps 1 11)%nat with
  | Some (c, H) => x_waits c 1%nat /\ H !! 3%nat = Some (HRet 2%nat None) /\
      match x_run false false c (xpush 3 30 10) with Some (c', _) => ~ x_waits c' 1%nat | None => False end
  | None => False
  end.
Proof. vm_compute. split; [exists MPop; auto|]. split; [reflexivity|]. intros (m & _ & []). Qed.

Print Assumptions C71_linearizable.
Print Assumptions C71_conserved.
Print Assumptions C71_accounted.
Print Assumptions C71_threw_nothing.
Print Assumptions C71_fifo.
Print Assumptions C71_no_deadlock.
Print Assumptions C71_lock_discipline.
Print Assumptions C72_no_lost_wakeup_partial.
Print Assumptions C72_refuted.
Print Assumptions C72_refuted_priority.
Print Assumptions C73_true_partial.
Print Assumptions C73_empty_true_partial.
Print Assumptions C73_refuted.
