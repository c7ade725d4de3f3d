(** Which heap blocks are left: objects that each hold at most one block.  Used for CircularBuffer and StackBuffer. *)
From stdpp Require Import gmap.
From Verif Require Import Base Heap.

(** The size of a live block *)
Definition hl (h : heap) (id : nat) : option Z := zlen <$> h_live h !! id.

Lemma hl_put h p m : (forall id m0, p = Some id -> h_live h !! id = Some m0 -> zlen m = zlen m0) ->
  (forall id, hl (hput h p m) id = hl h id) /\ h_next (hput h p m) = h_next h.
Proof.
  intros H. unfold hput, hl. destruct p as [i|]; [|auto]. destruct (h_live h !! i) as [m0|] eqn:E; [|auto]. cbn. split; [|reflexivity].
  intros id. destruct (decide (i = id)) as [<-|Hne]; [rewrite lookup_insert, E; cbn; f_equal; eauto|rewrite lookup_insert_ne by assumption; reflexivity].
Qed.
Lemma hl_get_put h p m : zlen m = zlen (hget h p) -> (forall id, hl (hput h p m) id = hl h id) /\ h_next (hput h p m) = h_next h.
Proof. intros H. apply hl_put. intros id m0 -> E. rewrite H. cbn. rewrite E. reflexivity. Qed.
Lemma hl_copy h d s n h' : hcopy h d s n = Ok h' -> (forall id, hl h' id = hl h id) /\ h_next h' = h_next h.
Proof.
  unfold hcopy. destruct (n =? 0); [intros [= <-]; auto|]. destruct (bool_decide (d = s)); [discriminate|].
  intros (bs & E1 & H)%obind_ok. apply obind_ok in H as (m & E2 & [= <-]). apply hl_get_put. eapply mwrite_len. eassumption.
Qed.
Lemma hl_alloc h n id h' : halloc h n = Ok (id, h') -> 0 <= n /\ id = h_next h /\ h_next h' = S (h_next h) /\
  (forall i, hl h' i = if decide (h_next h = i) then Some n else hl h i).
Proof.
  unfold halloc. destruct (Z.ltb_spec n 0); [discriminate|]. intros [= <- <-]. cbn. splits; auto. intros i. unfold hl. cbn.
  destruct (decide (h_next h = i)) as [<-|Hne]; [rewrite lookup_insert; cbn; f_equal; unfold zlen; rewrite map_length, seq_length; lia|].
  rewrite lookup_insert_ne by assumption. reflexivity.
Qed.
Lemma hl_free h p h' : hfree h p = Ok h' -> h_next h' = h_next h /\
  (forall i, hl h' i = if decide (p = Some i) then None else hl h i).
Proof.
  unfold hfree. destruct p as [id|].
  - destruct (h_live h !! id) eqn:E; [|discriminate]. intros [= <-]. cbn. split; [reflexivity|]. intros i. unfold hl. cbn.
    case_decide as Hi; [injection Hi as <-; rewrite lookup_delete; reflexivity|rewrite lookup_delete_ne by congruence; reflexivity].
  - intros [= <-]. split; [reflexivity|]. intros i. case_decide; [discriminate|reflexivity].
Qed.

Lemma mmove_len m d s n m' : mmove m d s n = Ok m' -> zlen m' = zlen m.
Proof. unfold mmove. intros (bs & _ & H)%obind_ok. eapply mwrite_len; eassumption. Qed.

Section leak.
Context {B : Type} (dat : B -> ptr) (cap : B -> Z).
Variable strict : Prop.      (* no block of size 0 was asked for *)

Record linv (h : heap) (objs : gmap nat B) : Prop := {
  l_next : forall id n, hl h id = Some n -> (id < h_next h)%nat;
  l_old : forall o b id, objs !! o = Some b -> dat b = Some id -> (id < h_next h)%nat;
  l_uniq : forall o o' b b' id, objs !! o = Some b -> objs !! o' = Some b' -> dat b = Some id -> dat b' = Some id -> o = o';
  l_len : forall o b id n, objs !! o = Some b -> dat b = Some id -> hl h id = Some n -> n = cap b;
  l_cov : forall id n, hl h id = Some n -> 0 < n -> exists o b, objs !! o = Some b /\ dat b = Some id;
  l_cap : forall o b, objs !! o = Some b -> 0 <= cap b;
  l_pos : strict -> forall id n, hl h id = Some n -> 0 < n }.

(** From heap [h] to [h'] by a step of an object that held [d] and then holds [d'], of size [c] *)
Record tr (h h' : heap) (d d' : ptr) (c : Z) : Prop := {
  t_next : (h_next h <= h_next h')%nat;
  t_frame : forall id, (id < h_next h)%nat -> d <> Some id -> hl h' id = hl h id;
  t_wf : forall id n, hl h' id = Some n -> (id < h_next h')%nat;
  t_new : forall id n, hl h' id = Some n -> 0 < n -> (h_next h <= id)%nat -> d' = Some id;
  t_kept : forall id n, d = Some id -> hl h' id = Some n -> 0 < n -> d' = Some id;
  t_dat : d' = d \/ d' = None \/ exists id, d' = Some id /\ (h_next h <= id < h_next h')%nat;
  t_len : forall id n, d' = Some id -> hl h' id = Some n -> n = c;
  t_cap : 0 <= c;
  t_pos : strict -> forall id n, hl h' id = Some n -> 0 < n }.

Lemma linv_update h objs o h' b' d :
  linv h objs -> (objs !! o = None /\ d = None \/ exists b, objs !! o = Some b /\ dat b = d) -> tr h h' d (dat b') (cap b') ->
  linv h' (<[o := b']> objs).
Proof.
  intros [N O U L C Q P] Hd [TN TF TW TE TK TD TL TQ TP].
  assert (Hoth : forall o2 b2 id, o2 <> o -> objs !! o2 = Some b2 -> dat b2 = Some id -> (id < h_next h)%nat /\ d <> Some id).
  { intros o2 b2 id Hne Eo Ed. split; [eauto|]. intros ->. destruct Hd as [[_ F]|(b & Eb & Ebd)]; [discriminate|]. apply Hne. eapply U; eauto. }
  constructor; auto.
  - intros o2 b2 id. destruct (decide (o = o2)) as [<-|Hne].
    + rewrite lookup_insert. intros [= <-] E. rewrite E in TD. destruct TD as [F|[F|(i & [= <-] & F)]]; [|discriminate|lia].
      destruct Hd as [[_ ->]|(b & Eb & Ebd)]; [discriminate|]. assert (id < h_next h)%nat; [|lia]. eapply O; eauto. congruence.
    + rewrite lookup_insert_ne by assumption. intros Eo Ed. destruct (Hoth o2 b2 id) as [H _]; auto. lia.
  - assert (Hx : forall o2 b2 id, o2 <> o -> objs !! o2 = Some b2 -> dat b2 = Some id -> dat b' = Some id -> False).
    { intros o2 b2 id Hne Eo Ed Ed'. destruct (Hoth o2 b2 id Hne Eo Ed) as [Hlt Hd2]. rewrite Ed' in TD. destruct TD as [F|[F|(i & [= <-] & F)]]; [congruence|discriminate|lia]. }
    intros o1 o2 b1 b2 id. destruct (decide (o = o1)) as [<-|H1], (decide (o = o2)) as [<-|H2]; rewrite ?lookup_insert, ?lookup_insert_ne by assumption; auto.
    + intros [= <-] E2 D1 D2. exfalso. eauto.
    + intros E1 [= <-] D1 D2. exfalso. eauto.
    + eauto.
  - intros o2 b2 id n. destruct (decide (o = o2)) as [<-|Hne]; [rewrite lookup_insert; intros [= <-]; eauto|].
    rewrite lookup_insert_ne by assumption. intros Eo Ed En. destruct (Hoth o2 b2 id) as [H1 H2]; auto. rewrite TF in En by assumption. eauto.
  - intros id n En Hn. destruct (decide (dat b' = Some id)) as [E|Hne]; [exists o, b'; rewrite lookup_insert; auto|].
    assert (Hlt : (id < h_next h)%nat) by (destruct (decide (id < h_next h)%nat) as [?|?]; [assumption|exfalso; apply Hne; eapply TE; eauto; lia]).
    assert (Hdn : d <> Some id) by (intros ->; apply Hne; eauto). rewrite TF in En by assumption. destruct (C id n En Hn) as (o2 & b2 & E2 & D2).
    exists o2, b2. rewrite lookup_insert_ne; [auto|]. intros <-. destruct Hd as [[F _]|(b & Eb & Ebd)]; congruence.
  - intros o2 b2. destruct (decide (o = o2)) as [<-|Hne]; [rewrite lookup_insert; intros [= <-]; assumption|rewrite lookup_insert_ne by assumption; eauto].
Qed.

Lemma linv_drop h objs o h' b : linv h objs -> objs !! o = Some b -> tr h h' (dat b) None 0 -> linv h' (delete o objs).
Proof.
  intros [N O U L C Q P] Eo [TN TF TW TE TK TD TL TQ TP]. constructor; auto.
  - intros o2 b2 id. rewrite lookup_delete_Some. intros [_ E] Ed. specialize (O _ _ _ E Ed). lia.
  - intros o1 o2 b1 b2 id. rewrite !lookup_delete_Some. intros [_ H1] [_ H2]. eauto.
  - intros o2 b2 id n. rewrite lookup_delete_Some. intros [Hne E] Ed En. rewrite TF in En; [eauto|eauto|]. intros F. apply Hne. eapply U; eauto.
  - intros id n En Hn.
    assert (Hlt : (id < h_next h)%nat) by (destruct (decide (id < h_next h)%nat) as [?|?]; [assumption|exfalso; enough (None = Some id) by discriminate; eapply TE; eauto; lia]).
    assert (Hdn : dat b <> Some id) by (intros F; enough (None = Some id) by discriminate; eauto). rewrite TF in En by assumption. destruct (C id n En Hn) as (o2 & b2 & E2 & D2).
    exists o2, b2. rewrite lookup_delete_ne; [auto|]. congruence.
  - intros o2 b2. rewrite lookup_delete_Some. intros [_ E]. eauto.
Qed.

(** The value of [src] moves to [o], which holds no block; [src] keeps an object that holds none *)
Lemma linv_move h objs o src b b0 :
  linv h objs -> o <> src -> (objs !! o = None \/ exists b2, objs !! o = Some b2 /\ dat b2 = None) -> objs !! src = Some b -> dat b0 = None -> 0 <= cap b0 ->
  linv h (<[src := b0]> (<[o := b]> objs)).
Proof.
  intros [N O U L C Q P] Hne Ho Es E0 Q0.
  assert (Hx : forall o1 b1 id, (<[src := b0]> (<[o := b]> objs)) !! o1 = Some b1 -> dat b1 = Some id ->
            exists o2, objs !! o2 = Some b1 /\ (o1 = o /\ o2 = src \/ o1 = o2 /\ o1 <> src /\ o1 <> o)).
  { intros o1 b1 id. destruct (decide (src = o1)) as [<-|H1]; [rewrite lookup_insert; congruence|rewrite lookup_insert_ne by assumption].
    destruct (decide (o = o1)) as [<-|H2]; [rewrite lookup_insert; intros [= <-]; eauto|rewrite lookup_insert_ne by assumption]. intros E _. exists o1. split; [assumption|]. right. auto. }
  constructor; auto.
  - intros o1 b1 id E D. destruct (Hx _ _ _ E D) as (o2 & E2 & _). eauto.
  - intros o1 o1' b1 b1' id E E' D D'. destruct (Hx _ _ _ E D) as (o2 & E2 & C2), (Hx _ _ _ E' D') as (o2' & E2' & C2').
    assert (o2 = o2') as <- by eauto. intuition congruence.
  - intros o1 b1 id n E D. destruct (Hx _ _ _ E D) as (o2 & E2 & _). eauto.
  - intros id n En Hn. destruct (C id n En Hn) as (o2 & b2 & E2 & D2). destruct (decide (o2 = src)) as [->|H2].
    + exists o, b. rewrite lookup_insert_ne, lookup_insert by congruence. split; congruence.
    + exists o2, b2. rewrite !lookup_insert_ne; auto. intros <-. destruct Ho as [F|(b3 & E3 & F)]; congruence.
  - intros o2 b2. destruct (decide (src = o2)) as [<-|H1]; [rewrite lookup_insert; intros [= <-]; assumption|rewrite lookup_insert_ne by assumption].
    destruct (decide (o = o2)) as [<-|H2]; [rewrite lookup_insert; intros [= <-]; eauto|rewrite lookup_insert_ne by assumption; eauto].
Qed.

(** A step that only changes what blocks hold *)
Lemma tr_same h h' objs o b b' : linv h objs -> objs !! o = Some b ->
  (forall id, hl h' id = hl h id) -> h_next h' = h_next h -> dat b' = dat b -> cap b' = cap b -> tr h h' (dat b) (dat b') (cap b').
Proof.
  intros [N O U L C Q P] Eo E En -> ->. constructor; intros *; rewrite ?E, ?En; eauto; try lia.
  - intros H _. apply N in H. lia.
  - intros S id n. rewrite E. eauto.
Qed.
Lemma tr_ext h h1 h2 d d' c : tr h h1 d d' c -> (forall id, hl h2 id = hl h1 id) -> h_next h2 = h_next h1 -> tr h h2 d d' c.
Proof. intros [] E En. constructor; intros *; rewrite ?E, ?En; eauto. intros S id n. rewrite E. eauto. Qed.
(** new[] and delete[] of the same block; a pointer to it may be left *)
Lemma tr_tmp h h' objs d' : linv h objs -> h_next h' = S (h_next h) -> (forall i, i <> h_next h -> hl h' i = hl h i) -> hl h' (h_next h) = None ->
  d' = None \/ d' = Some (h_next h) -> tr h h' None d' 0.
Proof.
  intros [N O U L C Q P] En E E0 Hd.
  assert (Hs : forall i m, hl h' i = Some m -> hl h i = Some m) by (intros i m F; destruct (decide (i = h_next h)) as [->|Hi]; [congruence|rewrite E in F by assumption; assumption]).
  constructor; rewrite ?En; try lia; try discriminate.
  - intros i Hi _. apply E. lia.
  - intros i m F%Hs%N. lia.
  - intros i m F%Hs%N. lia.
  - destruct Hd as [->| ->]; [auto|]. right. right. exists (h_next h). split; [reflexivity|lia].
  - intros i m F1 F2. destruct Hd as [->| ->]; [discriminate|]. congruence.
Qed.
(** new[] for an object that holds nothing *)
Lemma tr_alloc h h' objs n : linv h objs -> 0 <= n -> (strict -> n <> 0) -> h_next h' = S (h_next h) ->
  (forall i, hl h' i = if decide (h_next h = i) then Some n else hl h i) -> tr h h' None (Some (h_next h)) n.
Proof.
  intros [N O U L C Q P] Hn Hz En E. constructor; rewrite ?En; auto; try lia; try discriminate.
  - intros i Hi _. rewrite E. case_decide; [lia|reflexivity].
  - intros i m. rewrite E. case_decide; [lia|]. intros F%N. lia.
  - intros i m. rewrite E. case_decide; [congruence|]. intros F%N. lia.
  - right. right. exists (h_next h). split; [reflexivity|lia].
  - intros i m [= <-]. rewrite E. rewrite decide_True by reflexivity. congruence.
  - intros S i m. rewrite E. case_decide; [intros [= <-]; specialize (Hz S); lia|eauto].
Qed.
(** delete[] of what the object holds *)
Lemma tr_free h h' objs o b : linv h objs -> objs !! o = Some b -> h_next h' = h_next h ->
  (forall i, hl h' i = if decide (dat b = Some i) then None else hl h i) -> tr h h' (dat b) None 0.
Proof.
  intros [N O U L C Q P] Eo En E. constructor; rewrite ?En; auto; try lia; try discriminate.
  - intros i _ Hi. rewrite E. case_decide; [congruence|reflexivity].
  - intros i m. rewrite E. case_decide; [discriminate|eauto].
  - intros i m. rewrite E. case_decide; [discriminate|]. intros F%N. lia.
  - intros i m Hi. rewrite E. case_decide; [discriminate|congruence].
  - intros S i m. rewrite E. case_decide; [discriminate|eauto].
Qed.
(** Nothing is done with what the object holds, and it is forgotten; allowed if that has size 0 *)
Lemma tr_forget h objs o b : linv h objs -> objs !! o = Some b -> cap b = 0 -> tr h h (dat b) None 0.
Proof.
  intros [N O U L C Q P] Eo Hc. constructor; auto; try lia; try discriminate.
  - intros i m F _. apply N in F. lia.
  - intros i m Hi F. specialize (L _ _ _ _ Eo Hi F). lia.
Qed.
(** resizeMemory where it asks for memory: new[n], and delete[] of the old block if its size is not 0 *)
Lemma tr_realloc h h' objs o b n : linv h objs -> objs !! o = Some b -> cap b < n -> h_next h' = S (h_next h) ->
  hl h' (h_next h) = Some n -> (forall i, i <> h_next h -> 0 < cap b -> dat b = Some i -> hl h' i = None) ->
  (forall i, i <> h_next h -> ~ (0 < cap b /\ dat b = Some i) -> hl h' i = hl h i) -> tr h h' (dat b) (Some (h_next h)) n.
Proof.
  intros [N O U L C Q P] Eo Hn En E1 E2 E3. specialize (Q _ _ Eo) as Hq.
  assert (Hs : forall i m, hl h' i = Some m -> i = h_next h /\ m = n \/ i <> h_next h /\ hl h i = Some m /\ ~ (0 < cap b /\ dat b = Some i)).
  { intros i m F. destruct (decide (i = h_next h)) as [->|Hi]; [left; split; congruence|]. right. split; [assumption|].
    destruct (decide (0 < cap b /\ dat b = Some i)) as [[D1 D2]|D]; [rewrite E2 in F by assumption; discriminate|]. rewrite E3 in F by assumption. auto. }
  constructor; rewrite ?En; try lia.
  - intros i Hi Hd. apply E3; [lia|tauto].
  - intros i m F. destruct (Hs _ _ F) as [[-> _]|(_ & G & _)]; [lia|]. apply N in G. lia.
  - intros i m F Hm Hi. destruct (Hs _ _ F) as [[-> _]|(_ & G & _)]; [reflexivity|]. apply N in G. lia.
  - intros i m Hi F Hm. destruct (Hs _ _ F) as [[-> _]|(_ & G & D)]; [reflexivity|]. specialize (L _ _ _ _ Eo Hi G). subst m. tauto.
  - right. right. exists (h_next h). split; [reflexivity|lia].
  - intros i m [= <-]. rewrite E1. congruence.
  - intros S i m F. destruct (Hs _ _ F) as [[_ ->]|(_ & G & _)]; [lia|eauto].
Qed.

(** Two objects exchange what they hold *)
Lemma linv_swap h objs o o' b b' : linv h objs -> objs !! o = Some b -> objs !! o' = Some b' -> linv h (<[o := b']> (<[o' := b]> objs)).
Proof.
  intros [N O U L C Q P] E E'.
  set (f := fun i => if decide (i = o) then o' else if decide (i = o') then o else i).
  assert (Hf : forall i, (<[o := b']> (<[o' := b]> objs)) !! i = objs !! f i).
  { intros i. unfold f. destruct (decide (i = o)) as [->|H1]; [rewrite lookup_insert; congruence|]. rewrite lookup_insert_ne by congruence.
    destruct (decide (i = o')) as [->|H2]; [rewrite lookup_insert; congruence|]. rewrite lookup_insert_ne by congruence. reflexivity. }
  assert (Hff : forall i, f (f i) = i).
  { intros i. unfold f. destruct (decide (i = o)) as [->|]; [destruct (decide (o' = o)) as [->|]; [reflexivity|destruct (decide (o' = o')); congruence]|].
    destruct (decide (i = o')) as [->|]; [destruct (decide (o = o)); congruence|]. destruct (decide (i = o)); [congruence|]. destruct (decide (i = o')); congruence. }
  constructor; auto.
  - intros i x id. rewrite Hf. eauto.
  - intros i i' x x' id. rewrite !Hf. intros. rewrite <- (Hff i), <- (Hff i'). f_equal. eauto.
  - intros i x id n. rewrite Hf. eauto.
  - intros id n F Hn. destruct (C _ _ F Hn) as (i & x & G & D). exists (f i), x. rewrite Hf, Hff. auto.
  - intros i x. rewrite Hf. eauto.
Qed.
Lemma linv_same h objs h' : linv h objs -> (forall id, hl h' id = hl h id) -> h_next h' = h_next h -> linv h' objs.
Proof. intros [N O U L C Q P] E En. constructor; intros *; rewrite ?E, ?En; eauto. intros S id n. rewrite E. eauto. Qed.
End leak.
