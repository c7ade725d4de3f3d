(** BlockingQueue and BlockingPriorityQueue: C42 to C45, C48, C49 *)
From stdpp Require Import list.
From Verif Require Import Base Conc CondVar Herlihy BqModel BqSpec BqInv BqLin BqFifo BqMore.

Section props.
Context {V : Type}.
Notation bqcfg := (cfg (bqsh V) (bqpc V)).
Implicit Types (s : bqsh V) (c : bqcfg) (xs : list (nat * act cvc (bqop V))) (H : list (hev (bqop V) (bqret V))).

(** The elements of a queue nobody is using, oldest first *)
Definition bq_content s : list V * list V := (prioE s, rev (pullE s) ++ pushE s).
(** Some operation of this thread is under way since the call at position [i]. *)
Definition under_way H c (i : nat) (o : bqop V) : Prop := exists t, th c t <> None /\ last_ev H t i (HInv t o).

(** For both classes: at every moment of every execution, from any state of rest, the operations so far can be put in one
    order as operations of an atomic queue, keeping real-time order; what this atomic queue holds is what the containers
    hold, in order unless somebody is just swapping.  ([held] counts a clear() under way as done.) *)
Lemma bq_lin_content bp s xs c H : rest bp s -> Forall (has_op bp) (calls xs) -> bq_run bp (init s) xs = Some (c, H) ->
  exists L q, linearization bq_spec H (bq_content s) L q /\
    (forall i o r, In (i, o, r) L -> (exists j t, ret_of H i j t o r) \/ under_way H c i o) /\
    (~ clearing c -> Permutation (fst q ++ snd q) (prioE (sh c) ++ pullE (sh c) ++ pushE (sh c))) /\
    (~ clearing c -> ~ swapping c -> q = bq_content (sh c)).
Proof.
  intros Hs Hok Er. destruct (bq_linearization _ _ _ _ _ Hs Hok Er) as (L & HL & Hx). exists L, (held c). split; [exact HL|]. split; [exact Hx|].
  split; [apply held_perm|apply held_order].
Qed.

(** Nothing is duplicated or invented; what is missing was thrown away by a clear(). *)
Lemma bq_accounted bp s xs c H : rest bp s -> Forall (has_op bp) (calls xs) -> bq_run bp (init s) xs = Some (c, H) -> ~ clearing c ->
  exists L q D, linearization bq_spec H (bq_content s) L q /\
    (forall i o r, In (i, o, r) L -> (exists j t, ret_of H i j t o r) \/ under_way H c i o) /\
    Permutation (prioE s ++ pullE s ++ pushE s ++ pushed L) (popped L ++ D ++ prioE (sh c) ++ pullE (sh c) ++ pushE (sh c)) /\
    ((forall i r, ~ In (i, BClear, r) L) -> D = []).
Proof.
  intros Hs Hok Er Hnc. destruct (bq_lin_content _ _ _ _ _ Hs Hok Er) as (L & q & HL & Hx & Hp & _).
  destruct (legal_accounted _ _ _ (hw_legal _ _ _ _ _ HL)) as (D & HD & HD0). exists L, q, D. split; [exact HL|]. split; [exact Hx|]. split.
  - rewrite <- (Hp Hnc). rewrite <- HD. cbn. rewrite <- app_assoc. apply Permutation_app_head, Permutation_app_tail, Permutation_rev.
  - intros Hn. apply HD0. intros [[i o] r] Hi E. cbn in E. subst o. exact (Hn _ _ Hi).
Qed.

Lemma bq_conserved bp s xs c H : rest bp s -> Forall (has_op bp) (calls xs) -> Forall (fun o => o <> BClear) (calls xs) -> bq_run bp (init s) xs = Some (c, H) ->
  exists L q, linearization bq_spec H (bq_content s) L q /\
    (forall i o r, In (i, o, r) L -> (exists j t, ret_of H i j t o r) \/ under_way H c i o) /\
    Permutation (prioE s ++ pullE s ++ pushE s ++ pushed L) (popped L ++ prioE (sh c) ++ pullE (sh c) ++ pushE (sh c)).
Proof.
  intros Hs Hok Hnc Er. destruct (bq_lin_content _ _ _ _ _ Hs Hok Er) as (L & q & HL & Hx & Hp & _). exists L, q. split; [exact HL|]. split; [exact Hx|].
  rewrite <- Hp.
  - rewrite <- (legal_conserved _ _ _ (hw_legal _ _ _ _ _ HL)).
    + cbn. rewrite <- app_assoc. apply Permutation_app_head, Permutation_app_tail, Permutation_rev.
    + intros [[i o] r] Hi. destruct (hw_ops _ _ _ _ _ HL _ _ _ Hi) as [t E]. pose proof (run_calls _ _ _ _ _ Er _ _ _ E) as Hc.
      rewrite Forall_forall in Hnc. apply Hnc, elem_of_list_In, Hc.
  - intros (t & Ht). pose proof (no_clear _ _ _ _ _ Er Hnc t) as Hc. destruct Ht as [Ht|Ht]; specialize (Hc _ Ht); discriminate.
Qed.

(** First in, first out in real time, within a channel: [a] was pushed before [b], and [b] was popped; then [a] was popped
    before it, by a call made before the pop of [b] returned, unless a clear() came between the two pushes. *)
Lemma bq_fifo bp s xs c H a b i1 j1 t1 o1 r1 i2 t2 o2 i3 j3 t3 o3 :
  rest bp s -> Forall (has_op bp) (calls xs) -> bq_run bp (init s) xs = Some (c, H) ->
  a <> b -> ~ In b (prioE s ++ pullE s ++ pushE s) -> (forall i t o, H !! i = Some (HInv t o) -> bval o = Some b -> i = i2) ->
  ret_of H i1 j1 t1 o1 r1 -> bval o1 = Some a -> H !! i2 = Some (HInv t2 o2) -> bval o2 = Some b -> channel o1 = channel o2 -> (j1 < i2)%nat ->
  ret_of H i3 j3 t3 o3 (BVal (Some b)) -> pop_op o3 ->
  exists L q, linearization bq_spec H (bq_content s) L q /\
    ((exists ic tc rc, H !! ic = Some (HInv tc BClear) /\ In (ic, BClear, rc) L /\ before L i1 ic /\ before L ic i2) \/
     exists i4 o4, pop_op o4 /\ In (i4, o4, BVal (Some a)) L /\ before L i4 i3 /\ (i4 < j3)%nat /\
       ((exists j4 t4, ret_of H i4 j4 t4 o4 (BVal (Some a))) \/ under_way H c i4 o4)).
Proof.
  intros Hs Hok Er Hab Hnb Hub Ra Va Ib Vb Hch Hlt Rp Hop.
  destruct (bq_lin_content _ _ _ _ _ Hs Hok Er) as (L & q & HL & Hx & _ & _). exists L, q. split; [exact HL|].
  assert (Hnb' : ~ In b (fst (bq_content s) ++ snd (bq_content s))). { cbn. rewrite !in_app_iff, <- in_rev. rewrite !in_app_iff in Hnb. exact Hnb. }
  assert (HuL : forall x, In x L -> bval x.1.2 = Some b -> x.1.1 = i2).
  { intros [[i o] r] Hi E. destruct (hw_ops _ _ _ _ _ HL _ _ _ Hi) as [t Et]. eapply Hub; eassumption. }
  pose proof (hw_ret _ _ _ _ _ HL _ _ _ _ _ Rp) as Hi3. pose proof (hw_ret _ _ _ _ _ HL _ _ _ _ _ Ra) as Hi1.
  assert (Hi2 : exists r2, In (i2, o2, r2) L).
  { destruct (in_dec Nat.eq_dec i2 (map (fun x => x.1.1) L)) as [Hi|Hi].
    - apply in_map_iff in Hi as ([[i o] r] & E & Hi). cbn in E. subst i. destruct (hw_ops _ _ _ _ _ HL _ _ _ Hi) as [t Et]. rewrite Ib in Et. injection Et as _ ->. eauto.
    - exfalso. eapply (proj2 (legal_absent _ _ _ b (hw_legal _ _ _ _ _ HL) (fun x Hx' E => Hi (proj2 (in_map_iff _ _ _) (ex_intro _ x (conj (HuL x Hx' E) Hx')))) Hnb')); eassumption. }
  destruct Hi2 as [r2 Hi2].
  assert (Hbef : before L i1 i2) by (exact (hw_order _ _ _ _ _ HL _ _ _ _ _ (i2, o2, r2) Ra Hi2 Hlt)).
  destruct (legal_fifo (channel o2) a b _ _ _ _ _ _ _ _ _ (hw_legal _ _ _ _ _ HL) (hw_once _ _ _ _ _ HL) Hnb' Hab Hi1 Hi2 Va Vb Hch eq_refl Hbef HuL) as [([[i o] r] & Hi & E & Hb1 & Hb2)|Htk].
  - left. cbn in E, Hb1, Hb2. subst o. destruct (hw_ops _ _ _ _ _ HL _ _ _ Hi) as [t Et]. exists i, t, r. auto.
  - right. destruct (Htk _ _ Hop Hi3) as (i4 & o4 & Ho4 & Hi4 & Hb4). exists i4, o4. split; [exact Ho4|]. split; [exact Hi4|]. split; [exact Hb4|]. split; [|apply (Hx _ _ _ Hi4)].
    destruct (lt_eq_lt_dec i4 j3) as [[Hl|E]|Hl]; [exact Hl|exfalso..].
    + destruct (hw_ops _ _ _ _ _ HL _ _ _ Hi4) as [t Et]. destruct Rp as (_ & _ & Ej & _). congruence.
    + pose proof (hw_order _ _ _ _ _ HL _ _ _ _ _ (i4, o4, BVal (Some a)) Rp Hi4 Hl) as Hb'. eapply before_antisym; [apply (hw_once _ _ _ _ _ HL)|exact Hb4|exact Hb'].
Qed.

(** So [a] is never handed out after [b] was, with or without clear(). *)
Lemma bq_not_reversed bp s xs c H a b i1 j1 t1 o1 r1 i2 t2 o2 i3 j3 t3 o3 i4 j4 t4 o4 :
  rest bp s -> Forall (has_op bp) (calls xs) -> bq_run bp (init s) xs = Some (c, H) ->
  a <> b -> ~ In b (prioE s ++ pullE s ++ pushE s) -> ~ In a (prioE s ++ pullE s ++ pushE s) ->
  (forall i t o, H !! i = Some (HInv t o) -> bval o = Some b -> i = i2) -> (forall i t o, H !! i = Some (HInv t o) -> bval o = Some a -> i = i1) ->
  ret_of H i1 j1 t1 o1 r1 -> bval o1 = Some a -> H !! i2 = Some (HInv t2 o2) -> bval o2 = Some b -> channel o1 = channel o2 -> (j1 < i2)%nat ->
  ret_of H i3 j3 t3 o3 (BVal (Some b)) -> pop_op o3 -> ret_of H i4 j4 t4 o4 (BVal (Some a)) -> pop_op o4 -> (i4 < j3)%nat.
Proof.
  intros Hs Hok Er Hab Hnb Hna Hub Hua Ra Va Ib Vb Hch Hlt Rp Hop Rq Hoq.
  destruct (bq_lin_content _ _ _ _ _ Hs Hok Er) as (L & q & HL & Hx & _ & _).
  assert (Hnb' : ~ In b (fst (bq_content s) ++ snd (bq_content s))). { cbn. rewrite !in_app_iff, <- in_rev. rewrite !in_app_iff in Hnb. exact Hnb. }
  assert (Hna' : ~ In a (fst (bq_content s) ++ snd (bq_content s))). { cbn. rewrite !in_app_iff, <- in_rev. rewrite !in_app_iff in Hna. exact Hna. }
  assert (HuL : forall x, In x L -> bval x.1.2 = Some b -> x.1.1 = i2).
  { intros [[i o] r] Hi E. destruct (hw_ops _ _ _ _ _ HL _ _ _ Hi) as [t Et]. eapply Hub; eassumption. }
  assert (HuA : forall x, In x L -> bval x.1.2 = Some a -> x.1.1 = i1).
  { intros [[i o] r] Hi E. destruct (hw_ops _ _ _ _ _ HL _ _ _ Hi) as [t Et]. eapply Hua; eassumption. }
  pose proof (hw_ret _ _ _ _ _ HL _ _ _ _ _ Rp) as Hi3. pose proof (hw_ret _ _ _ _ _ HL _ _ _ _ _ Ra) as Hi1. pose proof (hw_ret _ _ _ _ _ HL _ _ _ _ _ Rq) as Hi4.
  assert (Hi2 : exists r2, In (i2, o2, r2) L).
  { destruct (in_dec Nat.eq_dec i2 (map (fun x => x.1.1) L)) as [Hi|Hi].
    - apply in_map_iff in Hi as ([[i o] r] & E & Hi). cbn in E. subst i. destruct (hw_ops _ _ _ _ _ HL _ _ _ Hi) as [t Et]. rewrite Ib in Et. injection Et as _ ->. eauto.
    - exfalso. eapply (proj2 (legal_absent _ _ _ b (hw_legal _ _ _ _ _ HL) (fun x Hx' E => Hi (proj2 (in_map_iff _ _ _) (ex_intro _ x (conj (HuL x Hx' E) Hx')))) Hnb')); [exact Hop|exact Hi3]. }
  destruct Hi2 as [r2 Hi2].
  assert (Hbef : before L i1 i2) by (exact (hw_order _ _ _ _ _ HL _ _ _ _ _ (i2, o2, r2) Ra Hi2 Hlt)).
  pose proof (legal_order (channel o2) a b _ _ _ _ _ _ _ _ _ _ _ _ _ (hw_legal _ _ _ _ _ HL) (hw_once _ _ _ _ _ HL) Hnb' Hna' Hab Hi1 Hi2 Va Vb Hch eq_refl Hbef HuL HuA Hop Hi3 Hoq Hi4) as Hb4.
  destruct (lt_eq_lt_dec i4 j3) as [[Hl|E]|Hl]; [exact Hl|exfalso..].
  - destruct (hw_ops _ _ _ _ _ HL _ _ _ Hi4) as [t Et]. destruct Rp as (_ & _ & Ej & _). congruence.
  - pose proof (hw_order _ _ _ _ _ HL _ _ _ _ _ (i4, o4, BVal (Some a)) Rp Hi4 Hl) as Hb'. eapply before_antisym; [apply (hw_once _ _ _ _ _ HL)|exact Hb4|exact Hb'].
Qed.
End props.

Section theorems.
Context {V : Type}.
Notation bqcfg := (cfg (bqsh V) (bqpc V)).
Implicit Types (s : bqsh V) (c : bqcfg) (xs : list (nat * act cvc (bqop V))) (H : list (hev (bqop V) (bqret V))).

(** C42.  BlockingQueue, at every moment of every execution from any state of rest: the history is one of an atomic FIFO
    queue (an operation under way may or may not count); the atomic queue holds exactly what the vectors hold. *)
Theorem C42_linearizable s xs c H : rest false s -> Forall (has_op false) (calls xs) -> bq_run false (init s) xs = Some (c, H) ->
  exists L q, linearization bq_spec H (bq_content s) L q /\
    (forall i o r, In (i, o, r) L -> (exists j t, ret_of H i j t o r) \/ under_way H c i o) /\
    (~ clearing c -> Permutation (fst q ++ snd q) (prioE (sh c) ++ pullE (sh c) ++ pushE (sh c))) /\
    (~ clearing c -> ~ swapping c -> q = bq_content (sh c)).
Proof. apply bq_lin_content. Qed.

(** Without clear(): what was there and what was pushed is what was popped and what is there, each element once. *)
Theorem C42_conserved s xs c H : rest false s -> Forall (has_op false) (calls xs) -> Forall (fun o => o <> BClear) (calls xs) -> bq_run false (init s) xs = Some (c, H) ->
  exists L q, linearization bq_spec H (bq_content s) L q /\
    (forall i o r, In (i, o, r) L -> (exists j t, ret_of H i j t o r) \/ under_way H c i o) /\
    Permutation (prioE s ++ pullE s ++ pushE s ++ pushed L) (popped L ++ prioE (sh c) ++ pullE (sh c) ++ pushE (sh c)).
Proof. apply bq_conserved. Qed.

(** With clear(): [D] is what the clears threw away. *)
Theorem C42_accounted s xs c H : rest false s -> Forall (has_op false) (calls xs) -> bq_run false (init s) xs = Some (c, H) -> ~ clearing c ->
  exists L q D, linearization bq_spec H (bq_content s) L q /\
    (forall i o r, In (i, o, r) L -> (exists j t, ret_of H i j t o r) \/ under_way H c i o) /\
    Permutation (prioE s ++ pullE s ++ pushE s ++ pushed L) (popped L ++ D ++ prioE (sh c) ++ pullE (sh c) ++ pushE (sh c)) /\
    ((forall i r, ~ In (i, BClear, r) L) -> D = []).
Proof. apply bq_accounted. Qed.

(** C43.  If push([a]) returned before push([b]) was called and [b] was popped, then [a] was taken before [b], by a call
    made before the pop of [b] returned, or was thrown away by a clear() between the two pushes; in any case [a] is never
    handed out after [b] was. *)
Theorem C43_fifo s xs c H a b i1 j1 t1 o1 r1 i2 t2 o2 i3 j3 t3 o3 :
  rest false s -> Forall (has_op false) (calls xs) -> bq_run false (init s) xs = Some (c, H) ->
  a <> b -> ~ In b (prioE s ++ pullE s ++ pushE s) -> (forall i t o, H !! i = Some (HInv t o) -> bval o = Some b -> i = i2) ->
  ret_of H i1 j1 t1 o1 r1 -> bval o1 = Some a -> H !! i2 = Some (HInv t2 o2) -> bval o2 = Some b -> channel o1 = channel o2 -> (j1 < i2)%nat ->
  ret_of H i3 j3 t3 o3 (BVal (Some b)) -> pop_op o3 ->
  exists L q, linearization bq_spec H (bq_content s) L q /\
    ((exists ic tc rc, H !! ic = Some (HInv tc BClear) /\ In (ic, BClear, rc) L /\ before L i1 ic /\ before L ic i2) \/
     exists i4 o4, pop_op o4 /\ In (i4, o4, BVal (Some a)) L /\ before L i4 i3 /\ (i4 < j3)%nat /\
       ((exists j4 t4, ret_of H i4 j4 t4 o4 (BVal (Some a))) \/ under_way H c i4 o4)).
Proof. apply bq_fifo. Qed.

Theorem C43_not_reversed s xs c H a b i1 j1 t1 o1 r1 i2 t2 o2 i3 j3 t3 o3 i4 j4 t4 o4 :
  rest false s -> Forall (has_op false) (calls xs) -> bq_run false (init s) xs = Some (c, H) ->
  a <> b -> ~ In b (prioE s ++ pullE s ++ pushE s) -> ~ In a (prioE s ++ pullE s ++ pushE s) ->
  (forall i t o, H !! i = Some (HInv t o) -> bval o = Some b -> i = i2) -> (forall i t o, H !! i = Some (HInv t o) -> bval o = Some a -> i = i1) ->
  ret_of H i1 j1 t1 o1 r1 -> bval o1 = Some a -> H !! i2 = Some (HInv t2 o2) -> bval o2 = Some b -> channel o1 = channel o2 -> (j1 < i2)%nat ->
  ret_of H i3 j3 t3 o3 (BVal (Some b)) -> pop_op o3 -> ret_of H i4 j4 t4 o4 (BVal (Some a)) -> pop_op o4 -> (i4 < j3)%nat.
Proof. apply bq_not_reversed. Qed.

(** C44 (both classes).  A thread that called try_pop or one of the pops and is about to answer "nothing" has seen a moment
    during this call at which all containers were empty. *)
Theorem C44_none_means_empty bp s ys t o zs c H : rest bp s -> Forall (has_op bp) (calls (ys ++ (t, ACall o) :: zs)) ->
  bq_run bp (init s) (ys ++ (t, ACall o) :: zs) = Some (c, H) -> inside t zs -> pop_op o -> th c t = Some (Ret (BVal None)) ->
  exists z1 z2 c1 H1, zs = z1 ++ z2 /\ bq_run bp (init s) (ys ++ (t, ACall o) :: z1) = Some (c1, H1) /\
    pullE (sh c1) = [] /\ pushE (sh c1) = [] /\ prioE (sh c1) = [].
Proof.
  intros Hs Hok Er Hin Hop Et. unfold bq_run in Er. rewrite run_app in Er.
  destruct (run bq_start (bq_step bp) bq_fin (init s) ys) as [[c1 H1]|] eqn:E1; [|discriminate].
  unfold calls in Hok. rewrite omap_app in Hok. apply Forall_app in Hok as [Hok1 Hok2]. cbn in Hok2. inversion Hok2 as [|? ? Ho Hok3]; subst.
  pose proof (bqI_run bp ys _ _ _ (bqI_init bp s Hs) Hok1 E1) as Hi1. cbn [run exec] in Er. destruct (th c1 t) eqn:Et1; [discriminate|].
  set (c2 := Cfg (sh c1) (fupd t (Some (bq_start o)) (th c1))) in *. destruct (run bq_start (bq_step bp) bq_fin c2 zs) as [[c3 H3]|] eqn:E2; [|discriminate]. injection Er as <- <-.
  assert (Hi2 : bqI bp c2) by (apply bqI_call; assumption).
  destruct (none_moment bp zs c2 c3 H3 t (bq_start o) (Ret (BVal None)) Hi2 Hok3 E2 Hin) as (z1 & z2 & c4 & H4 & Ez & Er4 & Hh); auto.
  - apply fupd_same.
  - destruct Hop; reflexivity.
  - destruct Hop; reflexivity.
  - exists z1, z2, c4, (H1 ++ HInv t o :: H4). split; [exact Ez|]. split; [|exact Hh]. unfold bq_run. rewrite run_app, E1. cbn [run exec]. rewrite Et1. fold c2. unfold bq_run in Er4. rewrite Er4. reflexivity.
Qed.

(** C45 (both classes).  If a thread is inside an operation and not waiting on the condition, some thread can make an
    ordinary step (not a spurious wakeup or a timeout). *)
Theorem C45_no_deadlock bp s xs c H t : rest bp s -> Forall (has_op bp) (calls xs) -> bq_run bp (init s) xs = Some (c, H) ->
  th c t <> None -> ~ bq_waits c t -> progress bp c.
Proof. intros Hs Hok Er. apply bq_live. eapply bqI_run; [apply bqI_init, Hs|exact Hok|exact Er]. Qed.

(** Two threads are never about to access the same container at once; pullElements and priorityQueue are accessed only
    while holding the pull lock, pushElements only while holding the push lock; nothing is taken from an empty container. *)
Theorem C45_lock_discipline bp s xs c H : rest bp s -> Forall (has_op bp) (calls xs) -> bq_run bp (init s) xs = Some (c, H) ->
  (forall t u pt pu x w w', th c t = Some pt -> th c u = Some pu -> In (x, w) (bq_acc pt) -> In (x, w') (bq_acc pu) -> t = u) /\
  (forall t pt x w, th c t = Some pt -> In (x, w) (bq_acc pt) -> match x with RPush => pushL (sh c) = Some t | RPull | RPrio => pullL (sh c) = Some t end) /\
  (forall t, th c t <> Some Crash).
Proof.
  intros Hs Hok Er. assert (Hi : bqI bp c) by (eapply bqI_run; [apply bqI_init, Hs|exact Hok|exact Er]). split; [|split].
  - intros t u pt pu x w w'. apply (bq_norace bp). exact Hi.
  - intros t pt x w Et Hx. apply acc_locked in Hx. destruct x; [eapply lk_owner; [apply (i_push _ _ Hi)|exact Et|exact Hx]|eapply lk_owner; [apply (i_pull _ _ Hi)|exact Et|exact Hx]..].
  - intros t Et. destruct (i_pc _ _ Hi _ _ Et) as [[] _].
Qed.

(** C48.  BlockingPriorityQueue: the history is one of an atomic queue with a priority channel ([bqs_pop] needs it to be
    empty); a step that removes the last element of pullElements (the next normal one) is part of clear() or finds
    priorityQueue empty. *)
Theorem C48_linearizable s xs c H : rest true s -> Forall (has_op true) (calls xs) -> bq_run true (init s) xs = Some (c, H) -> linearizable bq_spec (bq_content s) H.
Proof. intros Hs Hok Er. destruct (bq_atomic _ _ _ _ _ Hs Hok Er) as (_ & f & Ha & _). exists (held c), f. exact Ha. Qed.

Theorem C48_priority_first s xs c H t a c' e l v : rest true s -> Forall (has_op true) (calls xs) -> bq_run true (init s) xs = Some (c, H) ->
  bq_exec true c (t, a) = Some (c', e) -> pullE (sh c) = l ++ [v] -> pullE (sh c') = l -> prioE (sh c) = [] \/ th c t = Some L2.
Proof.
  intros Hs Hok Er Ex E1 E2. assert (Hi : bqI true c) by (eapply bqI_run; [apply bqI_init, Hs|exact Hok|exact Er]).
  assert (Hne : pullE (sh c) <> pullE (sh c')) by (rewrite E1, E2; apply snoc_neq).
  unfold bq_exec, exec in Ex. destruct a as [o|k|]; destruct (th c t) as [pc|] eqn:Et; try discriminate.
  - injection Ex as <- _. destruct (Hne eq_refl).
  - destruct (bq_step true (sh c) t pc k) as [[s' pc']|] eqn:Es; [|discriminate]. injection Ex as <- _.
    assert (Hd : pc = L2 \/ pc <> L2) by (destruct pc; (left; reflexivity) || (right; discriminate)). destruct Hd as [->|Hd]; [right; reflexivity|left].
    eapply take_normal; [exact Es|apply (i_pc _ _ Hi _ _ Et)|exact E1|exact E2|exact Hd].
  - destruct (bq_fin pc); [|discriminate]. injection Ex as <- _. destruct (Hne eq_refl).
Qed.

(** The priority elements are first in, first out among themselves: with [channel o1 = true]. C49: so are the normal ones. *)
Theorem C48_C49_fifo s xs c H a b i1 j1 t1 o1 r1 i2 t2 o2 i3 j3 t3 o3 :
  rest true s -> Forall (has_op true) (calls xs) -> bq_run true (init s) xs = Some (c, H) ->
  a <> b -> ~ In b (prioE s ++ pullE s ++ pushE s) -> (forall i t o, H !! i = Some (HInv t o) -> bval o = Some b -> i = i2) ->
  ret_of H i1 j1 t1 o1 r1 -> bval o1 = Some a -> H !! i2 = Some (HInv t2 o2) -> bval o2 = Some b -> channel o1 = channel o2 -> (j1 < i2)%nat ->
  ret_of H i3 j3 t3 o3 (BVal (Some b)) -> pop_op o3 ->
  exists L q, linearization bq_spec H (bq_content s) L q /\
    ((exists ic tc rc, H !! ic = Some (HInv tc BClear) /\ In (ic, BClear, rc) L /\ before L i1 ic /\ before L ic i2) \/
     exists i4 o4, pop_op o4 /\ In (i4, o4, BVal (Some a)) L /\ before L i4 i3 /\ (i4 < j3)%nat /\
       ((exists j4 t4, ret_of H i4 j4 t4 o4 (BVal (Some a))) \/ under_way H c i4 o4)).
Proof. apply bq_fifo. Qed.

Theorem C48_C49_not_reversed s xs c H a b i1 j1 t1 o1 r1 i2 t2 o2 i3 j3 t3 o3 i4 j4 t4 o4 :
  rest true s -> Forall (has_op true) (calls xs) -> bq_run true (init s) xs = Some (c, H) ->
  a <> b -> ~ In b (prioE s ++ pullE s ++ pushE s) -> ~ In a (prioE s ++ pullE s ++ pushE s) ->
  (forall i t o, H !! i = Some (HInv t o) -> bval o = Some b -> i = i2) -> (forall i t o, H !! i = Some (HInv t o) -> bval o = Some a -> i = i1) ->
  ret_of H i1 j1 t1 o1 r1 -> bval o1 = Some a -> H !! i2 = Some (HInv t2 o2) -> bval o2 = Some b -> channel o1 = channel o2 -> (j1 < i2)%nat ->
  ret_of H i3 j3 t3 o3 (BVal (Some b)) -> pop_op o3 -> ret_of H i4 j4 t4 o4 (BVal (Some a)) -> pop_op o4 -> (i4 < j3)%nat.
Proof. apply bq_not_reversed. Qed.

(** C49 *)
Theorem C49_linearizable s xs c H : rest true s -> Forall (has_op true) (calls xs) -> bq_run true (init s) xs = Some (c, H) ->
  exists L q, linearization bq_spec H (bq_content s) L q /\
    (forall i o r, In (i, o, r) L -> (exists j t, ret_of H i j t o r) \/ under_way H c i o) /\
    (~ clearing c -> Permutation (fst q ++ snd q) (prioE (sh c) ++ pullE (sh c) ++ pushE (sh c))) /\
    (~ clearing c -> ~ swapping c -> q = bq_content (sh c)).
Proof. apply bq_lin_content. Qed.

Theorem C49_conserved s xs c H : rest true s -> Forall (has_op true) (calls xs) -> Forall (fun o => o <> BClear) (calls xs) -> bq_run true (init s) xs = Some (c, H) ->
  exists L q, linearization bq_spec H (bq_content s) L q /\
    (forall i o r, In (i, o, r) L -> (exists j t, ret_of H i j t o r) \/ under_way H c i o) /\
    Permutation (prioE s ++ pullE s ++ pushE s ++ pushed L) (popped L ++ prioE (sh c) ++ pullE (sh c) ++ pushE (sh c)).
Proof. apply bq_conserved. Qed.

(** With clear(): [D] is what the clears threw away. *)
Theorem C49_accounted s xs c H : rest true s -> Forall (has_op true) (calls xs) -> bq_run true (init s) xs = Some (c, H) -> ~ clearing c ->
  exists L q D, linearization bq_spec H (bq_content s) L q /\
    (forall i o r, In (i, o, r) L -> (exists j t, ret_of H i j t o r) \/ under_way H c i o) /\
    Permutation (prioE s ++ pullE s ++ pushE s ++ pushed L) (popped L ++ D ++ prioE (sh c) ++ pullE (sh c) ++ pushE (sh c)) /\
    ((forall i r, ~ In (i, BClear, r) L) -> D = []).
Proof. apply bq_accounted. Qed.
End theorems.

(** Thread 1 lets go of the push lock; thread 2 pushes 20 and returns; then thread 1 inserts 10 in front of it. *)
Definition late_insert : list (nat * act cvc (bqop Z)) :=
  ((1, ACall (BPush 10%Z)) :: repeat (1, AInt CStep) 4 ++ (2, ACall (BPush 20%Z)) :: repeat (2, AInt CStep) 6 ++ [(2, ARet)] ++ repeat (1, AInt CStep) 6 ++ [(1, ARet)])%nat.
Definition pop_by (t : nat) (n : nat) : list (nat * act cvc (bqop Z)) := (t, ACall BTryPop) :: repeat (t, AInt CStep) n ++ [(t, ARet)].

Example C42_case : result bq_start (bq_step false) bq_fin (init (bq0 (V := Z))) (late_insert ++ pop_by 3 11 ++ pop_by 3 10 ++ pop_by 3 8)%nat =
  Some (bq0, [HInv 1%nat (BPush 10%Z); HInv 2%nat (BPush 20%Z); HRet 2%nat BUnit; HRet 1%nat BUnit; HInv 3%nat BTryPop; HRet 3%nat (BVal (Some 10%Z));
              HInv 3%nat BTryPop; HRet 3%nat (BVal (Some 20%Z)); HInv 3%nat BTryPop; HRet 3%nat (BVal None)]).
Proof. vm_compute. reflexivity. Qed.

(** The hypotheses of C43: two pushes one after the other, the pops overlapping a third push *)
Definition two_pushes : list (nat * act cvc (bqop Z)) :=
  ((1, ACall (BPush 10%Z)) :: repeat (1, AInt CStep) 10 ++ [(1, ARet); (2, ACall (BEmplace 20%Z))] ++ repeat (2, AInt CStep) 6 ++ [(2, ARet)] ++
   pop_by 3 11 ++ pop_by 4 10)%nat.
Example C43_case : exists c H, bq_run false (init (bq0 (V := Z))) two_pushes = Some (c, H) /\ rest false (bq0 (V := Z)) /\
  ret_of H 0 1 1 (BPush 10%Z) BUnit /\ H !! 2%nat = Some (HInv 2%nat (BEmplace 20%Z)) /\
  ret_of H 4 5 3 BTryPop (BVal (Some 10%Z)) /\ ret_of H 6 7 4 BTryPop (BVal (Some 20%Z)) /\
  (forall i t o, H !! i = Some (HInv t o) -> bval o = Some 20%Z -> i = 2%nat) /\ (forall i t o, H !! i = Some (HInv t o) -> bval o = Some 10%Z -> i = 0%nat).
Proof.
  eassert (Er : bq_run false (init (bq0 (V := Z))) two_pushes = Some (_, _)) by (vm_compute; reflexivity).
  eexists _, _. split; [exact Er|]. split; [repeat split|].
  assert (Hr : forall H i t o r, H !! i = Some (HInv t o) -> H !! S i = Some (HRet t r) -> ret_of (Op := bqop Z) (Rt := bqret Z) H i (S i) t o r).
  { intros H i t o r E1 E2. split; [lia|]. split; [exact E1|]. split; [exact E2|]. intros k e Hk. lia. }
  split; [apply Hr; reflexivity|]. split; [reflexivity|]. split; [apply Hr; reflexivity|]. split; [apply Hr; reflexivity|].
  split; intros i t o E Ho; do 8 (destruct i as [|i]; [first [reflexivity|discriminate E|injection E as <- <-; discriminate Ho]|]); discriminate E.
Qed.

(** C45: thread 1 waits for the pull lock, held by thread 3, which waits for the push lock, held by thread 2. *)
Example C45_case : match bq_run false (init (bq0 (V := Z)))
    ((1, ACall (BPush 10%Z)) :: repeat (1, AInt CStep) 4 ++ (3, ACall BTryPop) :: repeat (3, AInt CStep) 2 ++ [(2, ACall (BPush 20%Z)); (2, AInt CStep)])%nat with
  | Some (c, _) => bq_exec false c (1%nat, AInt CStep) = None /\ bq_exec false c (3%nat, AInt CStep) = None /\ progress false c
  | None => False
  end.
Proof. vm_compute. split; [reflexivity|]. split; [reflexivity|]. exists 2%nat, (AInt CStep). eexists _, _. split; [left; reflexivity|]. vm_compute. reflexivity. Qed.

(** C48: a priority element overtakes normal ones, also inside a blocking pop. *)
Example C48_case : result bq_start (bq_step true) bq_fin (init (bq0 (V := Z)))
    (((1, ACall (BPush 10%Z)) :: repeat (1, AInt CStep) 10 ++ [(1, ARet); (2, ACall (BPushPri 20%Z))]) ++ repeat (2, AInt CStep) 5 ++ [(2, ARet); (3, ACall BPop)] ++
     repeat (3, AInt CStep) 4 ++ [(3, ARet)] ++ pop_by 3 11)%nat =
  Some (bq0, [HInv 1%nat (BPush 10%Z); HRet 1%nat BUnit; HInv 2%nat (BPushPri 20%Z); HRet 2%nat BUnit; HInv 3%nat BPop; HRet 3%nat (BVal (Some 20%Z));
              HInv 3%nat BTryPop; HRet 3%nat (BVal (Some 10%Z))]).
Proof. vm_compute. reflexivity. Qed.

(** C44: try_pop answers "nothing" although the queue holds an element by then. *)
Example C44_case : match bq_run false (init (bq0 (V := Z)))
    ((3, ACall BTryPop) :: repeat (3, AInt CStep) 8 ++ (1, ACall (BPush 10%Z)) :: repeat (1, AInt CStep) 10 ++ [(1, ARet)])%nat with
  | Some (c, _) => th c 3%nat = Some (Ret (BVal None)) /\ pullE (sh c) = [10%Z]
  | None => False
  end.
Proof. vm_compute. auto. Qed.

Print Assumptions C42_linearizable.
Print Assumptions C42_conserved.
Print Assumptions C42_accounted.
Print Assumptions C43_fifo.
Print Assumptions C43_not_reversed.
Print Assumptions C44_none_means_empty.
Print Assumptions C45_no_deadlock.
Print Assumptions C45_lock_discipline.
Print Assumptions C48_linearizable.
Print Assumptions C48_priority_first.
Print Assumptions C48_C49_fifo.
Print Assumptions C48_C49_not_reversed.
Print Assumptions C49_linearizable.
Print Assumptions C49_conserved.
Print Assumptions C49_accounted.
