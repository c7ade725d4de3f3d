(** C121: move assignment to a BlockingQueue or BlockingPriorityQueue that threads are using *)
From stdpp Require Import list.
From Verif Require Import Base Conc CondVar BqModel BqSpec BqInv BqMore BqLin BqWake BqMore2 Props_Bq2 BqAssign.

Section props.
Context {V : Type}.
Notation bqcfg := (cfg (bqsh V) (bqpc V)).
Implicit Types (s src : bqsh V) (c : bqcfg) (xs : list (@xact V)) (E : list (@xev V)).

(** Whatever threads do and whenever assignments happen: no operation takes an element that is not there, every assignment
    finds both locks free at some point (it is never shut out by a thread that holds one for ever), and a thread that is
    inside a call and not waiting on the condition means that somebody can make a step. *)
Theorem C121_safe bp s xs c E : rest bp s -> Forall (x_ok bp) xs -> x_run bp (init s) xs = Some (c, E) ->
  (forall t, th c t <> Some Crash) /\
  (forall t, th c t <> None -> ~ bq_waits c t -> progress bp c) /\
  (~ progress bp c -> forall src, exists c1, x_exec bp c (XMove src) = Some (c1, [XMoved src])).
Proof.
  intros Hs Hok Er. pose proof (bqI_xrun bp xs _ _ _ (bqI_init bp s Hs) Hok Er) as Hi. split; [|split].
  - intros t Et. destruct (i_pc _ _ Hi _ _ Et) as [[] _].
  - intros t. apply bq_live. exact Hi.
  - intros Hn src. assert (Hw : forall u pc, th c u = Some pc -> exists m, pc = W5 m).
    { intros u pc Eu. assert (Hd : (exists m, pc = W5 m) \/ forall m, pc <> W5 m) by (destruct pc; eauto; right; discriminate). destruct Hd as [Hd|Hd]; [exact Hd|].
      exfalso. apply Hn, (bq_live bp c u Hi); [congruence|]. intros (m & Em & _). apply (Hd m). congruence. }
    cbn. destruct (pullL (sh c)) as [u|] eqn:El.
    { destruct (proj1 (i_pull _ _ Hi u) El) as (pc & Eu & Hh). destruct (Hw _ _ Eu) as [m ->]. discriminate. }
    destruct (pushL (sh c)) as [u|] eqn:Ep; [|eauto].
    destruct (proj1 (i_push _ _ Hi u) Ep) as (pc & Eu & Hh). destruct (Hw _ _ Eu) as [m ->]. discriminate.
Qed.

(** While an assignment holds the locks nobody accesses the vectors or priorityQueue, and no other time two threads access the
    same one. *)
Theorem C121_alone bp s xs c E : rest bp s -> Forall (x_ok bp) xs -> x_run bp (init s) xs = Some (c, E) ->
  (forall src c1 e, x_exec bp c (XMove src) = Some (c1, e) -> forall t pc, th c t = Some pc -> bq_acc pc = []) /\
  (forall t u pt pu x w w', th c t = Some pt -> th c u = Some pu -> In (x, w) (bq_acc pt) -> In (x, w') (bq_acc pu) -> t = u).
Proof.
  intros Hs Hok Er. pose proof (bqI_xrun bp xs _ _ _ (bqI_init bp s Hs) Hok Er) as Hi. split; [|intros t u pt pu x w w'; eapply bq_norace, Hi].
  intros src c1 e Ex t pc Et. apply x_move_inv in Ex as (El & Ep & _). destruct (bq_acc pc) as [|[x w] l] eqn:Ea; [reflexivity|exfalso].
  pose proof (acc_locked pc x w) as Hl. rewrite Ea in Hl. specialize (Hl (or_introl eq_refl)).
  assert (Hp : hpull pc = true -> False) by (intros H; pose proof (proj2 (i_pull _ _ Hi t) (ex_intro _ pc (conj Et H))); congruence).
  assert (Hq : hpush pc = true -> False) by (intros H; pose proof (proj2 (i_push _ _ Hi t) (ex_intro _ pc (conj Et H))); congruence).
  destruct x; auto.
Qed.

(** When the sources hold everything in pullElements (and priorityQueue): the execution is one of an atomic queue whose
    content is replaced by that of the source at the assignment, and what is held at the end is what that queue holds.
    Missing: sources with something in pushElements, see [C121_order_refuted]. *)
Theorem C121_atomic_partial bp s xs c E : rest bp s -> Forall (x_ok bp) xs -> (forall src, In (XMove src) xs -> pushE src = []) -> x_run bp (init s) xs = Some (c, E) ->
  exists q f, atomicX bq_spec (prioE s, rev (pullE s) ++ pushE s) (fun _ => AIdle) E q f /\
    (~ clearing c -> ~ swapping c -> q = (prioE (sh c), rev (pullE (sh c)) ++ pushE (sh c))).
Proof.
  intros Hs Hok Hsrc Er. destruct (x_atomic bp s xs c E Hs Hok Hsrc Er) as [f Hf]. exists (held c), f. split; [exact Hf|]. apply held_order.
Qed.

(** Any sources, when nothing is said about the order of the normal elements: the execution is one of an atomic queue whose
    content is replaced by that of the source at the assignment, and that returns and removes a priority element, if there are
    any the oldest one, and else any of the normal ones ([bag_spec]).  So nothing is lost or duplicated, in particular what is
    pushed while an assignment happens, and a call that finds nothing was made when nothing was held. *)
Theorem C121_bag bp s xs c E : rest bp s -> Forall (x_ok bp) xs -> x_run bp (init s) xs = Some (c, E) ->
  exists q f, atomicX bag_spec (prioE s, rev (pullE s) ++ pushE s) (fun _ => AIdle) E q f /\
    (~ clearing c -> ~ swapping c -> fst q = prioE (sh c) /\ Permutation (snd q) (rev (pullE (sh c)) ++ pushE (sh c))).
Proof.
  intros Hs Hok Er. destruct (x_bag bp s xs c E Hs Hok Er) as (q & f & Ha & Hq). exists q, f. split; [exact Ha|].
  intros H1 H2. rewrite (held_order _ H1 H2) in Hq. exact Hq.
Qed.

(** No lost wakeup with one thread that may block, when at each assignment it is not inside a call or the source is empty.
    Missing: assignments of something while it waits, see [C121_asleep] and [C121_refuted]. *)
Theorem C121_no_lost_wakeup_partial bp t0 s xs c E : rest bp s -> Forall (x_ok bp) xs -> x_sole bp t0 xs -> x_calm bp t0 (init s) xs -> x_run bp (init s) xs = Some (c, E) ->
  bq_waits c t0 -> (forall t o, x_doing E t = Some o -> bval o = None) -> nothing_held (sh c).
Proof. apply x_wakeup. Qed.

(** A consumer that waits while something is assigned: it stays asleep, and no later push wakes it (if the source only had
    something in pushElements: no push(), emplace(); otherwise no pushPriority() either), so elements pile up next to it. *)
Theorem C121_asleep bp s xs c E t src (a : bool) : rest bp s -> Forall (x_ok bp) xs -> x_run bp (init s) xs = Some (c, E) ->
  bq_waits c t -> (forall u, u <> t -> th c u = None) -> (if a then pullE src <> [] \/ prioE src <> [] else pushE src <> []) ->
  exists c1, x_exec bp c (XMove src) = Some (c1, [XMoved src]) /\ ~ progress bp c1 /\
    forall ys c2 H, bq_run bp c1 ys = Some (c2, H) ->
      (forall u x, In (u, x) ys -> u <> t /\ forall o, x = ACall o -> bval o <> None /\ (a = false -> channel o = false)) ->
      bq_waits c2 t /\ ~ nothing_held (sh c2) /\ ((forall u, u <> t -> th c2 u = None) -> ~ progress bp c2).
Proof.
  intros Hs Hok Er Hw Ho Ha. destruct (C121_safe bp s xs c E Hs Hok Er) as (_ & _ & Hx).
  destruct (Hx (asleep_stuck bp c t Hw Ho) src) as [c1 Ex]. exists c1. split; [exact Ex|].
  pose proof (assign_asleep bp a c src t c1 _ Hw Ho Ha Ex) as Hz. split.
  - pose proof (x_move_inv bp _ _ _ _ Ex) as (_ & _ & Ec & _). apply (asleep_stuck bp c1 t (proj1 Hz)). subst c1. exact Ho.
  - intros ys c2 H Er2 Hys. pose proof (asleep_run bp a ys c1 t c2 H Hz Hys Er2) as Hz2. split; [apply Hz2|]. split; [eapply asleep_held, Hz2|]. apply asleep_stuck, Hz2.
Qed.
End props.

(** ** Refutations *)
Notation xacts l := (map (@XAct Z) l).

(** C121: consumer 1 waits in pop(); a queue holding 30 is assigned; nothing is under way, and 1 waits next to it. *)
Definition one_held : list (nat * act cvc (bqop Z)) := push_by 2 30 10.
Theorem C121_refuted bp : exists ys sc HS xs c E,
  bq_run bp (init (bq0 (V := Z))) ys = Some (sc, HS) /\ (forall t, th sc t = None) /\
  Forall (x_ok bp) xs /\ x_sole bp 1%nat xs /\ (forall src, In (XMove src) xs -> src = sh sc) /\ x_run bp (init bq0) xs = Some (c, E) /\
  bq_waits c 1%nat /\ (forall t, t <> 1%nat -> th c t = None) /\ ~ progress bp c /\ (prioE (sh c), rev (pullE (sh c)) ++ pushE (sh c)) = ([], [30%Z]).
Proof.
  assert (Hs : exists sc HS, bq_run bp (init (bq0 (V := Z))) one_held = Some (sc, HS) /\ sh sc = BqSh None None [] [30%Z] [] false [] /\ forall t, th sc t = None).
  { destruct bp; (eexists _, _; split; [vm_compute; reflexivity|]; split; [reflexivity|]; intros [|[|[|t]]]; reflexivity). }
  destruct Hs as (sc & HS & Es & Esh & Hn).
  set (xs := xacts (waits_alone bp) ++ [XMove (BqSh None None [] [30%Z] [] false [])]).
  assert (Hx : exists c E, x_run bp (init bq0) xs = Some (c, E) /\ bq_waits c 1%nat /\ (forall t, t <> 1%nat -> th c t = None) /\ (prioE (sh c), rev (pullE (sh c)) ++ pushE (sh c)) = ([], [30%Z])).
  { destruct bp; (eexists _, _; split; [vm_compute; reflexivity|]; split; [exists MPop; split; [reflexivity|left; reflexivity]|]; split; [|reflexivity]; intros [|[|[|t]]] Ht; try reflexivity; congruence). }
  destruct Hx as (c & E & Ex & Hw & Ho & Hc). exists one_held, sc, HS, xs, c, E. split; [exact Es|]. split; [exact Hn|]. split; [|split; [|split; [|split; [exact Ex|]]]].
  - unfold xs. apply Forall_app. split; [|repeat constructor]. destruct bp; repeat constructor.
  - intros t o Hin Ht. unfold xs in Hin. apply in_app_iff in Hin as [Hin|[Hin|[]]]; [|discriminate]. apply in_map_iff in Hin as (y & Ey & Hin). injection Ey as ->.
    destruct bp; repeat (destruct Hin as [Hin|Hin]; [try discriminate Hin; try (injection Hin as <- <-; solve [exact I|congruence])|]); destruct Hin.
  - intros src Hin. unfold xs in Hin. apply in_app_iff in Hin as [Hin|[Hin|[]]]; [|injection Hin as <-; symmetry; exact Esh]. apply in_map_iff in Hin as (y & Ey & _). discriminate.
  - split; [exact Hw|]. split; [exact Ho|]. split; [apply (asleep_stuck bp c 1%nat Hw Ho)|exact Hc].
Qed.

(** C121: thread 1 is between its two locks in push(10); a queue holding 20 in pushElements is assigned; 1 inserts 10 into
    pullElements, in front of 20, and try_pop returns 10.  If 10 was pushed before the assignment it is gone, and if after,
    20 comes first. *)
Definition behind (bp : bool) : list (nat * act cvc (bqop Z)) :=
  ([(1, ACall BPop)] ++ steps 1 (if bp then 13 else 11) ++ push_by 2 5 10 ++ push_by 2 20 6 ++ steps 1 (if bp then 5 else 4) ++ [(1, ARet)])%nat.
Definition overtake (bp : bool) : list (@xact Z) :=
  (xacts ((1, ACall (BPush 10%Z)) :: steps 1 4) ++ [XMove (BqSh None None [20%Z] [] [] false [])] ++
   xacts (steps 1 6 ++ [(1, ARet); (3, ACall BTryPop)] ++ steps 3 (if bp then 12 else 11) ++ [(3, ARet)]))%nat.
Definition overtaken : list (@xev Z) :=
  [XEv (HInv 1%nat (BPush 10%Z)); XMoved (BqSh None None [20%Z] [] [] false []); XEv (HRet 1%nat BUnit); XEv (HInv 3%nat BTryPop); XEv (HRet 3%nat (BVal (Some 10%Z)))].

Lemma not_overtaken q f q' f' E : atomicX bq_spec q f E q' f' -> forall k, E = drop k overtaken -> (k <= 4)%nat ->
  (forall t, t <> 1%nat -> t <> 3%nat -> f t = AIdle) ->
  match k with
  | 0%nat => f 1%nat = AIdle /\ f 3%nat = AIdle
  | 1%nat => f 3%nat = AIdle
  | 2%nat => f 3%nat = AIdle /\ (exists l, q = ([], 20%Z :: l)) /\ (f 1%nat = APend (BPush 10%Z) \/ exists r, f 1%nat = ADone r)
  | 3%nat => f 3%nat = AIdle /\ (exists l, q = ([], 20%Z :: l)) /\ f 1%nat = AIdle
  | _ => f 1%nat = AIdle /\ ((exists l, q = ([], 20%Z :: l)) /\ f 3%nat = APend BTryPop \/ exists r, f 3%nat = ADone r /\ r <> BVal (Some 10%Z))
  end ->
  (k = 1%nat -> f 1%nat = APend (BPush 10%Z) \/ exists r, f 1%nat = ADone r) -> False.
Proof.
  induction 1 as [q f|q f t o E q' f' Ef _ IH|q f t o r q1 E q' f' Ef Hs _ IH|q f t r E q' f' Ef _ IH|q f src E q' f' _ IH]; intros k Ek Hk Ho Hst H1.
  - destruct k as [|[|[|[|[|k]]]]]; cbn in Ek; try discriminate; lia.
  - destruct k as [|[|[|[|[|k]]]]]; cbn in Ek; try discriminate; [| |lia].
    + injection Ek as -> -> ->. eapply (IH 1%nat); [reflexivity|lia|intros t H2 H3; rewrite fupd_other by congruence; auto| |].
      * cbn. apply Hst.
      * intros _. left. apply fupd_same.
    + injection Ek as -> -> ->. eapply (IH 4%nat); [reflexivity|lia|intros t H2 H3; rewrite fupd_other by congruence; auto| |lia].
      cbn. destruct Hst as (_ & Hq & Hf). split; [exact Hf|]. left. auto.
  - assert (Ht : t = 1%nat \/ t = 3%nat). { destruct (Nat.eq_dec t 1%nat) as [->|]; [auto|]. destruct (Nat.eq_dec t 3%nat) as [->|]; [auto|]. rewrite Ho in Ef by assumption. discriminate. }
    apply (IH k Ek Hk).
    + intros u H2 H3. rewrite fupd_other by (destruct Ht; congruence). auto.
    + destruct k as [|[|[|[|k]]]].
      * destruct Hst as [X1 X3]. destruct Ht as [->| ->]; congruence.
      * destruct Ht as [->| ->]; [rewrite fupd_other by congruence; exact Hst|congruence].
      * destruct Hst as (X3 & (l & ->) & X1). destruct Ht as [->| ->]; [|congruence]. rewrite fupd_other by congruence. rewrite fupd_same. split; [exact X3|].
        destruct X1 as [X1|[r' X1]]; [|congruence]. rewrite X1 in Ef. injection Ef as <-. inversion Hs; subst; try match goal with Hp : pop_op _ |- _ => inversion Hp end. split; [cbn; eauto|eauto].
      * destruct Hst as (X3 & _ & X1). destruct Ht as [->| ->]; congruence.
      * destruct Hst as (X1 & [[(l & ->) X3]|(r' & X3 & _)]); destruct Ht as [->| ->]; try congruence. rewrite fupd_other by congruence. rewrite fupd_same. split; [exact X1|]. right.
        rewrite X3 in Ef. injection Ef as <-. exists r. split; [reflexivity|]. inversion Hs; subst; congruence.
    + intros ->. specialize (H1 eq_refl). destruct Ht as [->| ->]; [rewrite fupd_same; eauto|rewrite fupd_other by congruence; exact H1].
  - destruct k as [|[|[|[|[|k]]]]]; cbn in Ek; try discriminate; [| |lia].
    + injection Ek as -> -> ->. eapply (IH 3%nat); [reflexivity|lia|intros t H2 H3; rewrite fupd_other by congruence; auto| |lia].
      cbn. destruct Hst as (X3 & Hq & _). auto.
    + injection Ek as -> -> ->. destruct Hst as (_ & [[_ X3]|(r & X3 & Hr)]); congruence.
  - destruct k as [|[|[|[|[|k]]]]]; cbn in Ek; try discriminate; [|lia]. injection Ek as -> ->.
    eapply (IH 2%nat); [reflexivity|lia|exact Ho| |lia]. cbn. split; [exact Hst|]. split; [eauto|auto].
Qed.

Theorem C121_order_refuted bp : exists ys sc HS xs c E,
  bq_run bp (init (bq0 (V := Z))) ys = Some (sc, HS) /\ (forall t, th sc t = None) /\
  Forall (x_ok bp) xs /\ (forall src, In (XMove src) xs -> src = sh sc) /\ x_run bp (init bq0) xs = Some (c, E) /\ (forall t, th c t = None) /\
  ~ exists q f, atomicX bq_spec ([], []) (fun _ => AIdle) E q f.
Proof.
  assert (Hs : exists sc HS, bq_run bp (init (bq0 (V := Z))) (behind bp) = Some (sc, HS) /\ sh sc = BqSh None None [20%Z] [] [] false [] /\ forall t, th sc t = None).
  { destruct bp; (eexists _, _; split; [vm_compute; reflexivity|]; split; [reflexivity|]; intros [|[|[|t]]]; reflexivity). }
  destruct Hs as (sc & HS & Es & Esh & Hn).
  assert (Hx : exists c, x_run bp (init bq0) (overtake bp) = Some (c, overtaken) /\ forall t, th c t = None).
  { destruct bp; (eexists; split; [vm_compute; reflexivity|]; intros [|[|[|[|t]]]]; reflexivity). }
  destruct Hx as (c & Ex & Hc). exists (behind bp), sc, HS, (overtake bp), c, overtaken. split; [exact Es|]. split; [exact Hn|]. split; [|split; [|split; [exact Ex|split; [exact Hc|]]]].
  - destruct bp; repeat constructor.
  - intros src Hin. unfold overtake in Hin. apply in_app_iff in Hin as [Hin|[Hin|Hin]]; [apply in_map_iff in Hin as (y & Ey & _); discriminate|injection Hin as <-; symmetry; exact Esh|apply in_map_iff in Hin as (y & Ey & _); discriminate].
  - intros (q & f & Ha). eapply (not_overtaken _ _ _ _ _ Ha 0%nat); [reflexivity|lia|reflexivity|split; reflexivity|discriminate].
Qed.

(** ** Cases *)
(** C121_safe, C121_atomic_partial: an assignment between the two locks of a push; what was assigned is popped, then 10. *)
Definition mid_push (bp : bool) : list (@xact Z) :=
  (xacts ((1, ACall (BPush 10%Z)) :: steps 1 4) ++ [XMove (BqSh None None [] [8; 7]%Z [] false [])] ++
   xacts (steps 1 8 ++ [(1, ARet); (3, ACall BTryPop)] ++ steps 3 (if bp then 7 else 6) ++ [(3, ARet)]))%nat.
Example C121_atomic_ex bp : exists c, x_run bp (init bq0) (mid_push bp) =
    Some (c, [XEv (HInv 1%nat (BPush 10%Z)); XMoved (BqSh None None [] [8; 7]%Z [] false []); XEv (HRet 1%nat BUnit); XEv (HInv 3%nat BTryPop); XEv (HRet 3%nat (BVal (Some 7%Z)))]) /\
  rest bp (bq0 (V := Z)) /\ Forall (x_ok bp) (mid_push bp) /\ rev (pullE (sh c)) ++ pushE (sh c) = [8; 10]%Z.
Proof. destruct bp; (eexists; split; [vm_compute; reflexivity|]; split; [repeat split|]; split; [repeat constructor|reflexivity]). Qed.

(** C121_bag: the execution of C121_order_refuted up to the push; both elements are held. *)
Example C121_bag_ex bp : exists c E, x_run bp (init bq0) (take 13 (overtake bp)) = Some (c, E) /\ rest bp (bq0 (V := Z)) /\ Forall (x_ok bp) (take 13 (overtake bp)) /\
  ~ clearing c /\ ~ swapping c /\ rev (pullE (sh c)) ++ pushE (sh c) = [10; 20]%Z.
Proof.
  assert (Hx : exists c E, x_run bp (init bq0) (take 13 (overtake bp)) = Some (c, E) /\ (forall t, th c t = None) /\ rev (pullE (sh c)) ++ pushE (sh c) = [10; 20]%Z).
  { destruct bp; (eexists _, _; split; [vm_compute; reflexivity|]; split; [intros [|[|[|[|t]]]]; reflexivity|reflexivity]). }
  destruct Hx as (c & E & Ex & Hn & Hq). exists c, E. split; [exact Ex|]. split; [repeat split|]. split; [apply Forall_take; destruct bp; repeat constructor|].
  unfold clearing, swapping. split; [|split; [|exact Hq]].
  - intros [t [Ht|Ht]]; rewrite Hn in Ht; discriminate.
  - intros (t & m & k & [Ht|Ht]); rewrite Hn in Ht; discriminate.
Qed.

(** C121_no_lost_wakeup_partial: an empty queue is assigned to one that holds 10, and to one a consumer is waiting on. *)
Definition emptied (bp : bool) : list (@xact Z) :=
  (xacts (push_by 2 10 10) ++ [XMove bq0] ++ xacts ((1, ACall BPop) :: steps 1 (if bp then 13 else 11)) ++ [XMove bq0])%nat.
Example C121_no_lost_wakeup_ex bp : exists c E, x_run bp (init bq0) (emptied bp) = Some (c, E) /\ bq_waits c 1%nat /\ (forall t o, x_doing E t = Some o -> bval o = None) /\
  Forall (x_ok bp) (emptied bp) /\ x_sole bp 1%nat (emptied bp) /\ x_calm bp 1%nat (init bq0) (emptied bp).
Proof.
  assert (Hm : forall src, In (XMove src) (emptied bp) -> src = bq0).
  { intros src Hin. unfold emptied in Hin. rewrite !in_app_iff, !in_map_iff in Hin. destruct Hin as [(y & Ey & _)|[[Hin|[]]|[(y & Ey & _)|[Hin|[]]]]]; try discriminate; injection Hin as <-; reflexivity. }
  assert (Hc : x_calm bp 1%nat (init bq0) (emptied bp)).
  { intros xs1 src xs2 c1 E1 Ex _. right. rewrite (Hm src); [repeat split|]. rewrite Ex. apply in_app_iff. right. left. reflexivity. }
  assert (Hs : x_sole bp 1%nat (emptied bp)).
  { intros t o Hin Ht. destruct bp; repeat (destruct Hin as [Hin|Hin]; [try discriminate Hin; try (injection Hin as <- <-; solve [exact I|congruence])|]); destruct Hin. }
  assert (Hx : exists c E, x_run bp (init bq0) (emptied bp) = Some (c, E) /\ bq_waits c 1%nat /\ (forall t o, x_doing E t = Some o -> bval o = None) /\ Forall (x_ok bp) (emptied bp)).
  { destruct bp; (eexists _, _; split; [vm_compute; reflexivity|]; split; [exists MPop; split; [reflexivity|left; reflexivity]|]; split;
      [intros [|[|[|t]]] o Ho; vm_compute in Ho; try discriminate Ho; injection Ho as <-; reflexivity|repeat constructor]). }
  destruct Hx as (c & E & ? & ? & ? & ?). exists c, E. auto 10.
Qed.

(** C121_asleep: three more pushes after the assignment, and the consumer is still waiting. *)
Example C121_asleep_ex : exists c1 c2 E, x_run false (init bq0) (xacts (waits_alone false) ++ [XMove (BqSh None None [] [30%Z] [] false [])]) = Some (c1, E) /\
  (exists H, bq_run false c1 (push_by 2 40 6 ++ push_by 3 50 4 ++ push_by 2 60 4)%nat = Some (c2, H)) /\ bq_waits c2 1%nat /\ rev (pullE (sh c2)) ++ pushE (sh c2) = [30; 40; 50; 60]%Z.
Proof. eexists _, _, _. split; [vm_compute; reflexivity|]. split; [eexists; vm_compute; reflexivity|]. split; [exists MPop; split; [reflexivity|left; reflexivity]|reflexivity]. Qed.

Print Assumptions C121_safe.
Print Assumptions C121_alone.
Print Assumptions C121_atomic_partial.
Print Assumptions C121_bag.
Print Assumptions C121_no_lost_wakeup_partial.
Print Assumptions C121_asleep.
Print Assumptions C121_refuted.
Print Assumptions C121_order_refuted.
