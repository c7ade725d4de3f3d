(** Objects that each own at most one heap block: what survives updates of one object.
    Used for StackBuffer. *)
From stdpp Require Import gmap.
From Verif Require Import Base Heap.

Definition heap_ok (h : heap) : Prop := forall id m, h_live h !! id = Some m -> (id < h_next h)%nat.

(** A step from [h] to [h'] that touches only block [d] or new blocks; the object then owns [d']. *)
Definition local (h h' : heap) (d d' : ptr) : Prop :=
  (h_next h <= h_next h')%nat /\
  (forall id, (id < h_next h)%nat -> d <> Some id -> h_live h' !! id = h_live h !! id) /\
  heap_ok h' /\
  (d' = d \/ (exists id, d' = Some id /\ (h_next h <= id)%nat) \/ d' = None).

Lemma local_refl h d : heap_ok h -> local h h d d.
Proof. intros. unfold local. splits; auto. Qed.

Lemma local_none h d : heap_ok h -> local h h d None.
Proof. intros. unfold local. splits; auto. Qed.

Lemma local_alloc h m d :
  heap_ok h -> local h (Heap (<[h_next h := m]> (h_live h)) (S (h_next h)) (h_junk h)) d (Some (h_next h)).
Proof.
  intros Hh. unfold local; cbn. splits.
  - lia.
  - intros id Hid _. rewrite lookup_insert_ne by lia. reflexivity.
  - intros id m'. cbn. destruct (decide (h_next h = id)) as [<-|Hne]; [lia|].
    rewrite lookup_insert_ne by assumption. intros H%Hh. lia.
  - right. left. exists (h_next h). split; [reflexivity|lia].
Qed.

Lemma local_put h id m m0 :
  heap_ok h -> h_live h !! id = Some m0 -> local h (hput h (Some id) m) (Some id) (Some id).
Proof.
  intros Hh Hl. unfold local, hput. rewrite Hl. cbn. splits; auto.
  - intros id' _ Hne. rewrite lookup_insert_ne by congruence. reflexivity.
  - intros id' m'. cbn. destruct (decide (id = id')) as [<-|Hne].
    + intros _. eapply Hh; eassumption.
    + rewrite lookup_insert_ne by assumption. apply Hh.
Qed.

Lemma local_put_trans h h' d id m m0 :
  local h h' d (Some id) -> h_live h' !! id = Some m0 -> local h (hput h' (Some id) m) d (Some id).
Proof.
  intros (L1 & L2 & L3 & L4) Hl. destruct (local_put h' id m m0 L3 Hl) as (P1 & P2 & P3 & _).
  unfold local. splits; try assumption.
  - lia.
  - intros i Hi Hne. destruct L4 as [E|[(i' & E & Hge)|E]]; [| |discriminate].
    + subst d. rewrite P2; [apply L2; assumption|lia|assumption].
    + injection E as <-. rewrite P2; [apply L2; assumption|lia|]. intros [= ->]. lia.
Qed.

Lemma local_free h d :
  heap_ok h -> (forall id, d = Some id -> is_Some (h_live h !! id)) ->
  exists h', hfree h d = Ok h' /\ local h h' d None.
Proof.
  intros Hh Hl. unfold hfree. destruct d as [id|].
  - destruct (Hl id eq_refl) as [m ->]. eexists; split; [reflexivity|]. unfold local; cbn. splits; auto.
    + intros i _ Hi. rewrite lookup_delete_ne by congruence. reflexivity.
    + intros i m'. cbn. rewrite lookup_delete_Some. intros [_ H]. eapply Hh; eassumption.
  - eexists; split; [reflexivity|]. apply local_refl. assumption.
Qed.

Section own.
Context {B V : Type} (dat : B -> ptr) (inv : heap -> B -> V -> Prop).
Hypothesis inv_frame : forall h h' b v d d',
  heap_ok h -> local h h' d d' -> inv h b v -> (forall id, dat b = Some id -> d <> Some id) -> inv h' b v.
Hypothesis inv_old : forall h b v id, heap_ok h -> inv h b v -> dat b = Some id -> (id < h_next h)%nat.

Record own_inv (h : heap) (objs : gmap nat B) (A : gmap nat V) : Prop := {
  oi_heap : heap_ok h;
  oi_none : forall o, objs !! o = None <-> A !! o = None;
  oi_obj : forall o b v, objs !! o = Some b -> A !! o = Some v -> inv h b v;
  oi_uniq : forall o o' b b' id, objs !! o = Some b -> objs !! o' = Some b' ->
     dat b = Some id -> dat b' = Some id -> o = o';
}.

Lemma own_lookup h objs A o v :
  own_inv h objs A -> A !! o = Some v -> exists b, objs !! o = Some b /\ inv h b v.
Proof.
  intros Hw Hv. destruct (objs !! o) as [b|] eqn:E.
  - exists b. split; [reflexivity|]. eapply oi_obj; eassumption.
  - apply (oi_none _ _ _ Hw) in E. congruence.
Qed.

Lemma own_lookup_rev h objs A o b :
  own_inv h objs A -> objs !! o = Some b -> exists v, A !! o = Some v /\ inv h b v.
Proof.
  intros Hw Hb. destruct (A !! o) as [v|] eqn:E.
  - exists v. split; [reflexivity|]. eapply oi_obj; eassumption.
  - apply (oi_none _ _ _ Hw) in E. congruence.
Qed.

Lemma own_update h objs A o h' b' v' d :
  own_inv h objs A ->
  (forall b, objs !! o = Some b -> dat b = d) -> (objs !! o = None -> d = None) ->
  local h h' d (dat b') -> inv h' b' v' ->
  own_inv h' (<[o := b']> objs) (<[o := v']> A).
Proof.
  intros [Hh Hn Ho Hu] Hd Hdn Hloc Hnew. constructor.
  - apply Hloc.
  - intros o2. destruct (decide (o = o2)) as [<-|Hne].
    + rewrite !lookup_insert. split; discriminate.
    + rewrite !lookup_insert_ne by assumption. apply Hn.
  - intros o2 b2 v2. destruct (decide (o = o2)) as [<-|Hne].
    + rewrite !lookup_insert. intros [= <-] [= <-]. assumption.
    + rewrite !lookup_insert_ne by assumption. intros Hb Hv.
      eapply inv_frame; [exact Hh|exact Hloc|eapply Ho; eassumption|].
      intros id Hid Habs. destruct (objs !! o) as [b|] eqn:Eo.
      * specialize (Hd b eq_refl). apply Hne. apply (Hu o o2 b b2 id Eo Hb); congruence.
      * specialize (Hdn eq_refl). congruence.
  - assert (Hkey : forall o2 b2 id, o <> o2 -> objs !! o2 = Some b2 -> dat b' = Some id ->
              dat b2 = Some id -> False).
    { intros o2 b2 id Hne Hb2 Hid Hid2. destruct Hloc as (_ & _ & _ & [E|[(i & E & Hge)|E]]).
      - destruct (objs !! o) as [b|] eqn:Eo.
        + specialize (Hd b eq_refl). apply Hne. apply (Hu o o2 b b2 id Eo Hb2); congruence.
        + specialize (Hdn eq_refl). congruence.
      - destruct (A !! o2) as [v2|] eqn:Ev.
        + pose proof (inv_old _ _ _ _ Hh (Ho _ _ _ Hb2 Ev) Hid2).
          rewrite E in Hid. injection Hid as <-. lia.
        + apply Hn in Ev. congruence.
      - congruence. }
    intros o1 o2 b1 b2 id. destruct (decide (o = o1)) as [<-|Hne1], (decide (o = o2)) as [<-|Hne2];
      rewrite ?lookup_insert, ?lookup_insert_ne by assumption; intros H1 H2 Hd1 Hd2.
    + reflexivity.
    + injection H1 as <-. exfalso. eauto.
    + injection H2 as <-. exfalso. eauto.
    + eapply Hu; eassumption.
Qed.

Lemma own_drop h objs A o b h' :
  own_inv h objs A -> objs !! o = Some b -> local h h' (dat b) None ->
  own_inv h' (delete o objs) (delete o A).
Proof.
  intros [Hh Hn Hoi Hu] Ho Hloc. constructor.
  - apply Hloc.
  - intros o2. destruct (decide (o = o2)) as [<-|N1]; [rewrite !lookup_delete; tauto|].
    rewrite !lookup_delete_ne by assumption. apply Hn.
  - intros o2 b2 v2. rewrite !lookup_delete_Some. intros [N1 Hb2] [_ Hv2].
    eapply inv_frame; [exact Hh|exact Hloc|eapply Hoi; eassumption|].
    intros id Hid Habs. apply N1. eapply (Hu o o2); eassumption.
  - intros o1 o2 b1 b2 id. rewrite !lookup_delete_Some. intros [_ H1] [_ H2]. eapply Hu; eassumption.
Qed.

(** The value of [src] moves to the new object [o]; [src] keeps an object [b0] that owns nothing. *)
Lemma own_move h objs A o src b v b0 v0 :
  own_inv h objs A -> o <> src -> objs !! o = None -> objs !! src = Some b -> A !! src = Some v ->
  dat b0 = None -> inv h b0 v0 ->
  own_inv h (<[o := b]> (<[src := b0]> objs)) (<[o := v]> (<[src := v0]> A)).
Proof.
  intros Hw Hne Ho Hs Hv Hd0 Hi0.
  pose proof (oi_obj _ _ _ Hw _ _ _ Hs Hv) as Hobj.
  destruct Hw as [Hh Hn Hoi Hu]. constructor.
  - exact Hh.
  - intros o2. destruct (decide (o = o2)) as [<-|N1]; [rewrite !lookup_insert; split; discriminate|].
    rewrite !(lookup_insert_ne _ o o2) by assumption.
    destruct (decide (src = o2)) as [<-|N2]; [rewrite !lookup_insert; split; discriminate|].
    rewrite !lookup_insert_ne by assumption. apply Hn.
  - intros o2 b2 v2. destruct (decide (o = o2)) as [<-|N1].
    { rewrite !lookup_insert. intros [= <-] [= <-]. assumption. }
    rewrite !(lookup_insert_ne _ o o2) by assumption.
    destruct (decide (src = o2)) as [<-|N2].
    { rewrite !lookup_insert. intros [= <-] [= <-]. assumption. }
    rewrite !lookup_insert_ne by assumption. apply Hoi.
  - assert (Hback : forall o2 b2 id, <[o := b]> (<[src := b0]> objs) !! o2 = Some b2 ->
        dat b2 = Some id -> (o2 = o /\ b2 = b) \/ (o2 <> o /\ o2 <> src /\ objs !! o2 = Some b2)).
    { intros o2 b2 id H Hd. destruct (decide (o = o2)) as [<-|N1].
      { rewrite lookup_insert in H. injection H as <-. left; auto. }
      rewrite lookup_insert_ne in H by assumption. right.
      destruct (decide (src = o2)) as [<-|N2].
      { rewrite lookup_insert in H. injection H as <-. congruence. }
      rewrite lookup_insert_ne in H by assumption. auto. }
    intros o1 o2 b1 b2 id H1 H2 D1 D2.
    destruct (Hback _ _ _ H1 D1) as [(E1 & F1)|(E1 & E1' & F1)], (Hback _ _ _ H2 D2) as [(E2 & F2)|(E2 & E2' & F2)]; subst.
    + reflexivity.
    + exfalso. apply E2'. symmetry. eapply (Hu src o2); eassumption.
    + exfalso. apply E1'. symmetry. eapply (Hu src o1); eassumption.
    + eapply Hu; eassumption.
Qed.

(** Move assignment: the target's block is freed first. *)
Lemma own_move_assign h objs A o src b bd v b0 v0 :
  own_inv h objs A -> o <> src -> objs !! o = Some bd -> objs !! src = Some b -> A !! src = Some v ->
  (forall id, dat bd = Some id -> is_Some (h_live h !! id)) ->
  dat b0 = None -> (forall h', inv h' b0 v0) ->
  exists h', hfree h (dat bd) = Ok h' /\
    own_inv h' (<[src := b0]> (<[o := b]> objs)) (<[src := v0]> (<[o := v]> A)).
Proof.
  intros Hw Hne Ho Hs Hv Hlive Hd0 Hi0.
  destruct (local_free h (dat bd) (oi_heap _ _ _ Hw) Hlive) as (h' & Hf & Hloc).
  exists h'. split; [exact Hf|].
  pose proof (own_drop _ _ _ _ _ _ Hw Ho Hloc) as Hdrop.
  assert (Hb' : delete o objs !! src = Some b) by (rewrite lookup_delete_ne by congruence; assumption).
  assert (Hv' : delete o A !! src = Some v) by (rewrite lookup_delete_ne by congruence; assumption).
  pose proof (own_move _ _ _ o src b v b0 v0 Hdrop Hne (lookup_delete _ _) Hb' Hv' Hd0 (Hi0 h')) as Hfin.
  rewrite insert_commute, insert_delete_insert in Hfin by congruence.
  rewrite (insert_commute (delete o A)), insert_delete_insert in Hfin by congruence.
  exact Hfin.
Qed.

Lemma own_swap h objs A o o' b b' v v' :
  own_inv h objs A -> objs !! o = Some b -> objs !! o' = Some b' -> A !! o = Some v -> A !! o' = Some v' ->
  own_inv h (<[o := b']> (<[o' := b]> objs)) (<[o := v']> (<[o' := v]> A)).
Proof.
  intros Hw Ho Ho' Hv Hv'.
  destruct (decide (o = o')) as [<-|Hne].
  { rewrite !insert_insert. assert (b' = b) by congruence. assert (v' = v) by congruence. subst.
    rewrite !insert_id by assumption. exact Hw. }
  destruct Hw as [Hh Hn Hoi Hu]. constructor.
  - exact Hh.
  - intros o2. destruct (decide (o = o2)) as [<-|N1]; [rewrite !lookup_insert; split; discriminate|].
    rewrite !(lookup_insert_ne _ o o2) by assumption.
    destruct (decide (o' = o2)) as [<-|N2]; [rewrite !lookup_insert; split; discriminate|].
    rewrite !lookup_insert_ne by assumption. apply Hn.
  - intros o2 b2 v2. destruct (decide (o = o2)) as [<-|N1].
    { rewrite !lookup_insert. intros [= <-] [= <-]. eapply Hoi; eassumption. }
    rewrite !(lookup_insert_ne _ o o2) by assumption.
    destruct (decide (o' = o2)) as [<-|N2].
    { rewrite !lookup_insert. intros [= <-] [= <-]. eapply Hoi; eassumption. }
    rewrite !lookup_insert_ne by assumption. apply Hoi.
  - set (f := fun x => if decide (x = o) then o' else if decide (x = o') then o else x).
    assert (Hf : forall x, <[o := b']> (<[o' := b]> objs) !! x = objs !! f x).
    { intros x. unfold f. destruct (decide (x = o)) as [->|N1]; [rewrite lookup_insert; congruence|].
      rewrite lookup_insert_ne by congruence. destruct (decide (x = o')) as [->|N2]; [rewrite lookup_insert; congruence|].
      rewrite lookup_insert_ne by congruence. reflexivity. }
    intros o1 o2 b1 b2 id. rewrite !Hf. intros H1 H2 D1 D2.
    pose proof (Hu _ _ _ _ _ H1 H2 D1 D2) as E. unfold f in E.
    destruct (decide (o1 = o)), (decide (o2 = o)), (decide (o1 = o')), (decide (o2 = o')); congruence.
Qed.

Lemma own_init h : heap_ok h -> own_inv h ∅ ∅.
Proof.
  constructor; auto.
  - intros o. rewrite !lookup_empty. tauto.
  - intros o b v. rewrite lookup_empty. discriminate.
  - intros o o' b b' id. rewrite lookup_empty. discriminate.
Qed.
End own.
