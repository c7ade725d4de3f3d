(** Programs over any number of CircularBuffers refine the memory-free specification. *)
From stdpp Require Import gmap.
From Verif Require Import Base Heap CircModel CircSpec CircProofs CircMore CircBufModel CircBufSpec CircBufProofs.

Section world.
(** Whether buffers whose data pointer dangles may exist (see [idle]). *)
Variable D : Prop.
Local Notation obj_inv := (obj_inv D).
Local Notation idle := (idle D).
Local Notation world_inv := (world_inv D).

(** C++ preconditions of the calls (object lifetimes, int ranges, no self copy-assignment). *)
Definition wop_legal {V} (M : Z) (A : gmap nat V) (p : wop) : Prop :=
  match p with
  | WDefault o => A !! o = None
  | WNew o n => A !! o = None /\ n <= int_max
  | WCopy o src | WMove o src => A !! o = None /\ is_Some (A !! src)
  | WCopyAssign o src => o <> src /\ is_Some (A !! o) /\ is_Some (A !! src)
  | WMoveAssign o src => is_Some (A !! o) /\ is_Some (A !! src)
  | WResize o _ | WDestroy o => is_Some (A !! o)
  | WCall o c => is_Some (A !! o) /\ cop_legal M c
  end.

(** The guards forced by the code (each is a defect when violated). *)
Definition wop_safe (w : world) (p : wop) : Prop :=
  match p with
  | WCopy _ src => D \/ forall b, w_objs w !! src = Some b -> b_data b <> None
  | WMoveAssign o _ => D -> forall b id, w_objs w !! o = Some b -> b_data b = Some id ->
                         is_Some (h_live (w_heap w) !! id)
  | WResize o n => forall b, w_objs w !! o = Some b -> resize_safe b n
  | WCall o c => forall b, w_objs w !! o = Some b -> cop_safe (raw_of (w_heap w) b) c
  | _ => True
  end.

Lemma wi_lookup M w A o v :
  world_inv M w A -> A !! o = Some v -> exists b, w_objs w !! o = Some b /\ obj_inv M (w_heap w) b v.
Proof.
  intros Hw Hv. destruct (w_objs w !! o) as [b|] eqn:E.
  - exists b. split; [reflexivity|]. eapply wi_obj; eassumption.
  - apply (wi_none _ _ _ _ Hw) in E. congruence.
Qed.

Lemma idle_null M h : obj_inv M h (CBuf None 0 0 None 0 0 0) (0, []).
Proof. right. unfold idle; cbn. splits; auto. intros; discriminate. Qed.

(** Transfer of an object's value from [src] to [o] leaving [src] null. *)
Lemma world_move M w A o src b v :
  world_inv M w A -> o <> src -> w_objs w !! o = None -> w_objs w !! src = Some b -> A !! src = Some v ->
  world_inv M (World (w_heap w) (<[o := b]> (<[src := CBuf None 0 0 None 0 0 0]> (w_objs w))))
    (<[o := v]> (<[src := (0, [])]> A)).
Proof.
  intros Hw Hne Ho Hs Hv.
  pose proof (wi_obj _ _ _ _ Hw _ _ _ Hs Hv) as Hobj.
  destruct Hw as [Hh Hn Hoi Hu]. constructor; cbn [w_heap w_objs].
  - exact Hh.
  - intros o2. destruct (decide (o = o2)) as [<-|N1]; [rewrite !lookup_insert; split; discriminate|].
    rewrite !(lookup_insert_ne _ o o2) by assumption.
    destruct (decide (src = o2)) as [<-|N2]; [rewrite !lookup_insert; split; discriminate|].
    rewrite !lookup_insert_ne by assumption. apply Hn.
  - intros o2 b2 v2. destruct (decide (o = o2)) as [<-|N1].
    { rewrite !lookup_insert. intros [= <-] [= <-]. assumption. }
    rewrite !(lookup_insert_ne _ o o2) by assumption.
    destruct (decide (src = o2)) as [<-|N2].
    { rewrite !lookup_insert. intros [= <-] [= <-]. apply idle_null. }
    rewrite !lookup_insert_ne by assumption. apply Hoi.
  - assert (Hback : forall o2 b2 id, <[o := b]> (<[src := CBuf None 0 0 None 0 0 0]> (w_objs w)) !! o2 = Some b2 ->
        b_data b2 = Some id -> (o2 = o /\ b2 = b) \/ (o2 <> o /\ o2 <> src /\ w_objs w !! o2 = Some b2)).
    { intros o2 b2 id H Hd. destruct (decide (o = o2)) as [<-|N1].
      { rewrite lookup_insert in H. injection H as <-. left; auto. }
      rewrite lookup_insert_ne in H by assumption. right.
      destruct (decide (src = o2)) as [<-|N2].
      { rewrite lookup_insert in H. injection H as <-. discriminate. }
      rewrite lookup_insert_ne in H by assumption. auto. }
    intros o1 o2 b1 b2 id H1 H2 D1 D2.
    destruct (Hback _ _ _ H1 D1) as [(E1 & F1)|(E1 & E1' & F1)], (Hback _ _ _ H2 D2) as [(E2 & F2)|(E2 & E2' & F2)]; subst.
    + reflexivity.
    + exfalso. apply E2'. symmetry. eapply (Hu src o2); eassumption.
    + exfalso. apply E1'. symmetry. eapply (Hu src o1); eassumption.
    + eapply Hu; eassumption.
Qed.

Lemma circ_inv_read M m w r cap q : circ_inv M (Circ m w r cap) q -> 0 <= cap <= zlen m /\ cap <= int_max /\ 4 <= M.
Proof. intros (? & ? & ? & _). cbn in *. auto. Qed.

Lemma world_free_move M w A o src b bd v :
  world_inv M w A -> o <> src -> w_objs w !! o = Some bd -> w_objs w !! src = Some b -> A !! src = Some v ->
  is_Some (A !! o) ->
  (forall id, b_data bd = Some id -> is_Some (h_live (w_heap w) !! id)) ->
  exists h', hfree (w_heap w) (b_data bd) = Ok h' /\
  world_inv M (World h' (<[src := CBuf None 0 0 None 0 0 0]> (<[o := b]> (w_objs w))))
    (<[src := (0, [])]> (<[o := v]> A)).
Proof.
  intros Hw Hne Ho Hs Hv HAo Hlive.
  set (h' := match b_data bd with
             | Some id => Heap (delete id (h_live (w_heap w))) (h_next (w_heap w)) (h_junk (w_heap w))
             | None => w_heap w end).
  exists h'. split.
  { unfold hfree, h'. destruct (b_data bd) as [id|] eqn:E; [|reflexivity].
    destruct (Hlive id eq_refl) as [m ->]. reflexivity. }
  assert (Hloc : local (w_heap w) h' (b_data bd) None).
  { unfold h'. destruct (b_data bd) as [id|] eqn:E.
    - unfold local; cbn. splits; auto.
      + intros i _ Hi. rewrite lookup_delete_ne by congruence. reflexivity.
      + intros i m. cbn. rewrite lookup_delete_Some. intros [_ H]. eapply (wi_heap _ _ _ _ Hw). eassumption.
    - apply local_refl, Hw. }
  (* drop o, then move *)
  assert (Hdrop : world_inv M (World h' (delete o (w_objs w))) (delete o A)).
  { destruct Hw as [Hh Hn Hoi Hu]. constructor; cbn [w_heap w_objs].
    - apply Hloc.
    - intros o2. destruct (decide (o = o2)) as [<-|N1]; [rewrite !lookup_delete; tauto|].
      rewrite !lookup_delete_ne by assumption. apply Hn.
    - intros o2 b2 v2. rewrite !lookup_delete_Some. intros [N1 Hb2] [_ Hv2].
      eapply obj_frame; [exact Hh|exact Hloc|eapply Hoi; eassumption|].
      intros id Hid Habs. apply N1. eapply (Hu o o2); eassumption.
    - intros o1 o2 b1 b2 id. rewrite !lookup_delete_Some. intros [_ H1] [_ H2]. eapply Hu; eassumption. }
  assert (Hb' : delete o (w_objs w) !! src = Some b) by (rewrite lookup_delete_ne by congruence; assumption).
  assert (Hv' : delete o A !! src = Some v) by (rewrite lookup_delete_ne by congruence; assumption).
  pose proof (world_move M _ _ o src b v Hdrop Hne (lookup_delete _ _) Hb' Hv') as Hfin.
  cbn [w_heap w_objs] in Hfin.
  assert (E1 : <[o:=b]> (<[src:=CBuf None 0 0 None 0 0 0]> (delete o (w_objs w)))
             = <[src:=CBuf None 0 0 None 0 0 0]> (<[o:=b]> (w_objs w))).
  { rewrite insert_commute by congruence. rewrite insert_delete_insert. reflexivity. }
  assert (E2 : <[o:=v]> (<[src:=(0,[])]> (delete o A)) = <[src:=(0,[])]> (<[o:=v]> A)).
  { rewrite insert_commute by congruence. rewrite insert_delete_insert. reflexivity. }
  rewrite E1, E2 in Hfin. exact Hfin.
Qed.

Lemma world_drop M w A o b h' :
  world_inv M w A -> w_objs w !! o = Some b -> local (w_heap w) h' (b_data b) None ->
  world_inv M (World h' (delete o (w_objs w))) (delete o A).
Proof.
  intros [Hh Hn Hoi Hu] Ho Hloc. constructor; cbn [w_heap w_objs].
  - apply Hloc.
  - intros o2. destruct (decide (o = o2)) as [<-|N1]; [rewrite !lookup_delete; tauto|].
    rewrite !lookup_delete_ne by assumption. apply Hn.
  - intros o2 b2 v2. rewrite !lookup_delete_Some. intros [N1 Hb2] [_ Hv2].
    eapply obj_frame; [exact Hh|exact Hloc|eapply Hoi; eassumption|].
    intros id Hid Habs. apply N1. eapply (Hu o o2); eassumption.
  - intros o1 o2 b1 b2 id. rewrite !lookup_delete_Some. intros [_ H1] [_ H2]. eapply Hu; eassumption.
Qed.

(** ** Copy construction *)
Lemma copy_ok M h b v :
  4 <= M -> D \/ b_data b <> None -> heap_ok h -> obj_inv M h b v ->
  exists h' b', cb_copy h b = Ok (h', b') /\ local h h' None (b_data b') /\ obj_inv M h' b' v.
Proof.
  intros HM4 HD Hh Ho. unfold cb_copy.
  destruct Ho as [(id & m & Hd & Horg & Hl & Hm & Has & Hv & Hinv)|(H1 & H2 & H3 & H4 & H5 & -> & H7 & Hd)].
  - destruct (circ_inv_read _ _ _ _ _ _ Hinv) as (Hc & Hi & HM).
    destruct (halloc_ok h (b_asize b) ltac:(lia)) as (mj & Hmj & Ha). rewrite Ha; cbn [obind]. rewrite Hd.
    set (h1 := Heap (<[h_next h := mj]> (h_live h)) (S (h_next h)) (h_junk h)) in *.
    assert (Hlt : (id < h_next h)%nat) by (eapply Hh; eassumption).
    assert (Hl1 : h_live h1 !! h_next h = Some mj) by (subst h1; cbn; apply lookup_insert).
    destruct (hcopy_spec h1 (h_next h) id mj m (b_asize b)) as (m' & Hcp & Hml & Hag & Hlive);
      [assumption|subst h1; cbn; rewrite lookup_insert_ne by lia; assumption|lia|lia|lia|lia|].
    rewrite Hcp; cbn [obind]. eexists _, _. split; [reflexivity|]. cbn [b_data]. split.
    + eapply local_put_trans; [|exact Hl1]. apply local_alloc. assumption.
    + left. exists (h_next h), m'. cbn [b_data b_org b_asize b_acap b_w b_r b_cap].
      rewrite Hlive. splits; try assumption; try lia.
      * apply lookup_insert.
      * eapply inv_agree; [exact Hinv| |lia]. intros a k ? ? ?. apply Hag; lia.
  - rewrite H1. destruct (halloc_ok h 0 ltac:(lia)) as (mj & Hmj & Ha). rewrite Ha; cbn [obind].
    destruct (b_data b) as [id|] eqn:Ed.
    + unfold hcopy. cbn [Z.eqb]. cbn [obind].
      eexists _, _. split; [reflexivity|]. cbn [b_data]. split; [apply local_alloc; assumption|]. left.
      exists (h_next h), mj. cbn [b_data b_org b_asize b_acap b_w b_r b_cap fst snd h_live].
      rewrite H3, H4, H5. splits; try lia; [apply lookup_insert|].
      apply (circ_new_inv M mj 0); unfold int_max; lia.
    + unfold hfree. cbn [h_live]. rewrite lookup_insert. cbn [obind].
      eexists _, _. split; [reflexivity|]. cbn [b_data]. split.
      * unfold local; cbn [h_live h_next]. splits.
        -- lia.
        -- intros i Hi _. rewrite lookup_delete_ne, lookup_insert_ne by lia. reflexivity.
        -- intros i mi. cbn [h_live h_next]. rewrite lookup_delete_Some. intros [Hne Hi].
           rewrite lookup_insert_ne in Hi by assumption. apply Hh in Hi. lia.
        -- right. left. exists (h_next h). split; [reflexivity|lia].
      * right. unfold idle; cbn [b_data b_org b_asize b_acap b_w b_r b_cap h_live h_next].
        splits; try assumption.
        -- left. destruct H7; assumption.
        -- intros i [= <-]. splits; [|apply lookup_delete|lia]. destruct HD; [assumption|congruence].
Qed.

(** ** Copy assignment between different objects *)
Lemma copy_assign_ok M h bd vd bs vs :
  4 <= M -> heap_ok h -> obj_inv M h bd vd -> obj_inv M h bs vs ->
  (forall id, b_data bd = Some id -> b_data bs = Some id -> False) ->
  exists h' b', cb_copy_assign h bd bs = Ok (h', b') /\ local h h' (b_data bd) (b_data b') /\ obj_inv M h' b' vs.
Proof.
  intros HM Hh Hod Hos Hdis. unfold cb_copy_assign.
  (* the effect of resizeMemory(n, false) on the target *)
  assert (Hrm : forall org w r c n, 0 <= n ->
     exists h1 b1, cb_resize_memory h (CBuf (b_data bd) (b_asize bd) (b_acap bd) org w r c) n false = Ok (h1, b1) /\
       local h h1 (b_data bd) (b_data b1) /\ b_asize b1 = n /\ b_w b1 = w /\ b_r b1 = r /\ b_cap b1 = c /\
       ((exists id1 m1, b_data b1 = Some id1 /\ h_live h1 !! id1 = Some m1 /\ zlen m1 = b_acap b1 /\ n <= b_acap b1) \/
        (n = 0 /\ h1 = h /\ b_acap b1 = 0 /\ b_data b1 = b_data bd /\ idle h bd vd))).
  { intros org w r c n Hn. unfold cb_resize_memory; cbn [b_acap b_data b_asize b_org b_w b_r b_cap].
    destruct (Z.ltb_spec (b_acap bd) n) as [Hgt|Hle].
    - destruct (halloc_ok h n Hn) as (mj & Hmj & Ha). rewrite Ha; cbn [obind].
      destruct (Z.ltb_spec 0 (b_acap bd)) as [Hpos|Hz].
      + destruct Hod as [(id & m & Hd & Horg & Hl & Hm & Has & Hv & Hinv)|(H1 & H2 & _)]; [|lia].
        assert (Hlt : (id < h_next h)%nat) by (eapply Hh; eassumption).
        cbn [obind]. rewrite Hd. unfold hfree. cbn [h_live]. rewrite lookup_insert_ne by lia. rewrite Hl.
        cbn [obind]. eexists _, _. split; [reflexivity|]. cbn [b_acap b_data b_asize b_org b_w b_r b_cap].
        splits.
        * unfold local; cbn [h_live h_next]. splits.
          -- lia.
          -- intros i Hi Hne. rewrite lookup_delete_ne by congruence. rewrite lookup_insert_ne by lia. reflexivity.
          -- intros i mi. cbn [h_live h_next]. rewrite lookup_delete_Some. intros [Hne Hi].
             destruct (decide (h_next h = i)) as [<-|Hni]; [lia|].
             rewrite lookup_insert_ne in Hi by assumption. apply Hh in Hi. lia.
          -- right. left. exists (h_next h). split; [reflexivity|lia].
        * left. exists (h_next h), mj. cbn [h_live]. splits; try lia.
          rewrite lookup_delete_ne by lia. apply lookup_insert.
      + cbn [obind]. eexists _, _. split; [reflexivity|]. cbn [b_acap b_data b_asize b_org b_w b_r b_cap].
        splits.
        * apply local_alloc; assumption.
        * left. exists (h_next h), mj. cbn [h_live]. splits; try lia. apply lookup_insert.
    - eexists _, _. split; [reflexivity|]. cbn [b_acap b_data b_asize b_org b_w b_r b_cap]. splits.
      + apply local_refl; assumption.
      + destruct Hod as [(id & m & Hd & Horg & Hl & Hm & Has & Hv & Hinv)|Hid].
        * left. exists id, m. splits; try assumption; lia.
        * right. pose proof Hid as (H1 & H2 & _). splits; try assumption. lia. }
  assert (Hn0 : 0 <= b_asize bs).
  { destruct Hos as [(id & m & Hd & Horg & Hl & Hm & Has & Hv & Hinv)|(H1 & _)]; [|lia].
    destruct (circ_inv_read _ _ _ _ _ _ Hinv). lia. }
  destruct (Hrm (b_org bs) (b_w bs) (b_r bs) (b_cap bs) (b_asize bs) Hn0)
    as (h1 & b1 & -> & Hloc & Has1 & Hw1 & Hr1 & Hc1 & Hcase); cbn [obind].
  pose proof Hloc as (L1 & L2 & L3 & L4).
  destruct Hos as [(id & m & Hd & Horg & Hl & Hm & Has & Hv & Hinv)|(H1 & H2 & H3 & H4 & H5 & -> & H7 & Hd)].
  - destruct (circ_inv_read _ _ _ _ _ _ Hinv) as (Hc & Hi & _).
    assert (Hidlt : (id < h_next h)%nat) by (eapply Hh; eassumption).
    assert (Hl1 : h_live h1 !! id = Some m).
    { rewrite L2; [assumption|assumption|]. intros E. eapply Hdis; eassumption. }
    destruct Hcase as [(id1 & m1 & Hd1 & Hlv1 & Hm1 & Hge)|(Hz & -> & Hac & Hdd & Hidle)].
    + assert (Hne1 : id1 <> id).
      { intros ->. destruct L4 as [E|[(i & E & Hgi)|E]]; rewrite Hd1 in E.
        - eapply Hdis; [symmetry; exact E|exact Hd].
        - injection E as <-. lia.
        - discriminate. }
      rewrite Hd1, Hd.
      destruct (hcopy_spec h1 id1 id m1 m (b_asize bs)) as (m' & Hcp & Hml & Hag & Hlive); try assumption; try lia.
      rewrite Hcp; cbn [obind]. eexists _, _. split; [reflexivity|]. cbn [b_data]. split.
      * eapply local_put_trans; [|exact Hlv1]. rewrite <- Hd1. assumption.
      * left. exists id1, m'. cbn [b_data b_org b_asize b_acap b_w b_r b_cap]. rewrite Hlive, Hw1, Hr1, Hc1.
        splits; try assumption; try lia; [apply lookup_insert|].
        eapply inv_agree; [exact Hinv| |lia]. intros a k ? ? ?. apply Hag; lia.
    + unfold hcopy. rewrite Hz. cbn [Z.eqb obind]. eexists _, _. split; [reflexivity|]. cbn [b_data].
      split; [rewrite Hdd; apply local_refl; assumption|].
      right. assert (Hcap0 : b_cap bs = 0) by lia. rewrite Hcap0 in *.
      destruct (inv_cap0 _ _ _ _ _ Hinv) as (Hw0 & Hr0 & Hq0).
      destruct Hidle as (I1 & I2 & I3 & I4 & I5 & I6 & I7 & I8).
      unfold idle; cbn [b_data b_org b_asize b_acap b_w b_r b_cap]. rewrite Hdd.
      splits; try assumption; try lia; [|right; reflexivity].
      destruct vs as [c q]; cbn in *; congruence.
  - rewrite H1. unfold hcopy. cbn [Z.eqb obind]. eexists _, _. split; [reflexivity|]. cbn [b_data].
    split; [assumption|]. rewrite Hw1, Hr1, Hc1, H3, H4, H5, Has1, H1.
    destruct Hcase as [(id1 & m1 & Hd1 & Hlv1 & Hm1 & Hge)|(Hz & -> & Hac & Hdd & Hidle)].
    + left. exists id1, m1. cbn [b_data b_org b_asize b_acap b_w b_r b_cap fst snd]. splits; try assumption.
      apply (circ_new_inv M m1 0); unfold int_max; lia.
    + right. destruct Hidle as (I1 & I2 & I3 & I4 & I5 & I6 & I7 & I8).
      unfold idle; cbn [b_data b_org b_asize b_acap b_w b_r b_cap]. rewrite Hdd.
      splits; try assumption. right; reflexivity.
Qed.

(** ** Forwarded calls *)
Lemma call_ok M h b v o :
  heap_ok h -> 4 <= M -> obj_inv M h b v -> cop_legal M o -> cop_safe (raw_of h b) o ->
  exists h' b' x q', cb_op h b o = Ok (h', b', x) /\ fifo_step v.1 v.2 o x q' /\
    local h h' (b_data b) (b_data b') /\ obj_inv M h' b' (v.1, q').
Proof.
  intros Hh HM Ho Hl Hs. unfold cb_op, raw_of in *.
  destruct Ho as [(id & m & Hd & Horg & Hlv & Hm & Has & Hv & Hinv)|(H1 & H2 & H3 & H4 & H5 & -> & H7 & Hd)].
  - rewrite Horg in *. rewrite (hget_live _ _ _ Hlv) in *.
    destruct (step_ok M _ _ o Hinv Hl Hs) as (s' & x & q' & Hst & Hf & Hi & Hc & Hml).
    cbn [c_cap c_mem] in *. rewrite Hst; cbn [obind]. eexists _, _, x, q'. split; [reflexivity|].
    rewrite Hv. split; [exact Hf|]. cbn [b_data]. split; [rewrite Hd; eapply local_put; eassumption|].
    left. exists id, (c_mem s'). cbn [b_data b_org b_asize b_acap b_w b_r b_cap fst snd].
    rewrite (hput_live _ _ _ _ Hlv). splits; try assumption; try lia; try apply lookup_insert.
  - assert (Hget : hget h (b_org b) = []).
    { destruct H7 as [-> | ->]; [reflexivity|]. destruct (b_data b) as [id|]; [|reflexivity].
      destruct (Hd id eq_refl) as (_ & Hn & _). cbn [hget]. rewrite Hn. reflexivity. }
    assert (Hput : forall mm, hput h (b_org b) mm = h).
    { intros mm. destruct H7 as [-> | ->]; [reflexivity|]. destruct (b_data b) as [id|]; [|reflexivity].
      destruct (Hd id eq_refl) as (_ & Hn & _). cbn [hput]. rewrite Hn. reflexivity. }
    rewrite Hget, H3, H4, H5 in *.
    destruct (step_ok M (Circ [] 0 0 0) [] o) as (s' & x & q' & Hst & Hf & Hi & Hc & Hml); try assumption.
    { apply (circ_new_inv M [] 0); unfold int_max, zlen; cbn; lia. }
    cbn [c_cap c_mem] in *. rewrite Hst; cbn [obind]. rewrite Hput. eexists _, _, x, q'. split; [reflexivity|].
    cbn [fst snd]. split; [exact Hf|]. cbn [b_data]. split; [apply local_refl; assumption|].
    destruct s' as [m' w' r' c']; cbn [c_cap c_mem c_w c_r] in *. subst c'.
    destruct (inv_cap0 _ _ _ _ _ Hi) as (-> & -> & ->).
    right. unfold idle; cbn [b_data b_org b_asize b_acap b_w b_r b_cap]. splits; assumption.
Qed.

(** ** One step of a program *)
Lemma wstep_ok M w A p :
  4 <= M -> world_inv M w A -> wop_legal M A p -> wop_safe w p ->
  exists w' x A', wstep w p = Ok (w', x) /\ ws_step M A p x A' /\ world_inv M w' A'.
Proof.
  intros HM Hw Hl Hs.
  assert (Hnone : forall o, A !! o = None -> w_objs w !! o = None) by (intros o Ho; apply (wi_none _ _ _ _ Hw); exact Ho).
  destruct p as [o|o n|o src|o src|o src|o src|o n|o c|o]; cbn [wop_legal wop_safe wstep] in *.
  - eexists _, _, _. split; [reflexivity|]. split; [constructor|].
    eapply world_update with (d := None); [exact Hw| |reflexivity| |apply idle_null].
    + intros b Hb. rewrite Hnone in Hb by assumption. discriminate.
    + cbn. apply local_refl, Hw.
  - destruct Hl as [Ho Hn]. unfold cb_new. destruct (Z_lt_le_dec n 0) as [Hneg|Hpos].
    + unfold halloc. destruct (Z.ltb_spec n 0); [|lia]. cbn [obind].
      eexists _, _, _. split; [reflexivity|]. split; [apply ws_new_throw; assumption|assumption].
    + destruct (halloc_ok (w_heap w) n Hpos) as (mj & Hmj & ->); cbn [obind].
      eexists _, _, _. split; [reflexivity|]. split; [apply ws_new; assumption|].
      eapply world_update with (d := None); [exact Hw| |reflexivity| |].
      * intros b Hb. rewrite Hnone in Hb by assumption. discriminate.
      * cbn [b_data]. apply local_alloc, Hw.
      * left. eexists _, mj. cbn [b_data b_org b_asize b_acap b_w b_r b_cap fst snd h_live]. splits; try assumption.
        -- apply lookup_insert.
        -- apply (circ_new_inv M mj n); lia.
  - destruct Hl as [Ho [v Hv]]. destruct (wi_lookup _ _ _ _ _ Hw Hv) as (b & Hb & Hobj).
    unfold wget. rewrite Hb; cbn [obind].
    destruct (copy_ok M (w_heap w) b v HM ltac:(destruct Hs as [?|Hs]; [left; assumption|right; auto]) (wi_heap _ _ _ _ Hw) Hobj) as (h' & b' & -> & Hloc & Hobj').
    eexists _, _, _. split; [reflexivity|]. split; [apply ws_copy; eassumption|].
    eapply world_update with (d := None); [exact Hw| |reflexivity|exact Hloc|exact Hobj'].
    intros b2 Hb2. rewrite Hnone in Hb2 by assumption. discriminate.
  - destruct Hl as [Ho [v Hv]]. destruct (wi_lookup _ _ _ _ _ Hw Hv) as (b & Hb & Hobj).
    unfold wget. rewrite Hb; cbn [obind cb_move].
    eexists _, _, _. split; [reflexivity|]. split; [apply ws_move; eassumption|].
    apply world_move; try assumption; [|auto]. intros ->. congruence.
  - destruct Hl as (Hne & [vd Hvd] & [v Hv]).
    destruct (wi_lookup _ _ _ _ _ Hw Hvd) as (bd & Hbd & Hobjd).
    destruct (wi_lookup _ _ _ _ _ Hw Hv) as (bs & Hbs & Hobjs).
    unfold wget. rewrite Hbd, Hbs; cbn [obind].
    destruct (copy_assign_ok M (w_heap w) bd vd bs v HM (wi_heap _ _ _ _ Hw) Hobjd Hobjs) as (h' & b' & -> & Hloc & Hobj').
    { intros id H1 H2. apply Hne. eapply (wi_uniq _ _ _ _ Hw); eassumption. }
    cbn [obind]. eexists _, _, _. split; [reflexivity|]. split; [apply ws_copy_assign; eassumption|].
    eapply world_update with (d := b_data bd); [exact Hw| | |exact Hloc|exact Hobj'].
    + intros b2 Hb2. congruence.
    + congruence.
  - destruct Hl as ([vd Hvd] & [v Hv]).
    destruct (wi_lookup _ _ _ _ _ Hw Hvd) as (bd & Hbd & Hobjd).
    destruct (wi_lookup _ _ _ _ _ Hw Hv) as (bs & Hbs & Hobjs).
    unfold wget. rewrite Hbd, Hbs; cbn [obind]. unfold cb_move_assign.
    assert (Hlive : forall id, b_data bd = Some id -> is_Some (h_live (w_heap w) !! id)) by 
      (intros id Hid; destruct Hobjd as [(i & m & Hd & _ & Hlv & _)|(_ & _ & _ & _ & _ & _ & _ & Hd)];
       [rewrite Hid in Hd; injection Hd as <-; eauto|eapply Hs; [apply (Hd id Hid)|exact Hbd|exact Hid]]).
    destruct (decide (o = src)) as [<-|Hne].
    + assert (bs = bd) by congruence. subst bs.
      assert (Hfree : exists h', hfree (w_heap w) (b_data bd) = Ok h' /\ local (w_heap w) h' (b_data bd) None).
      { unfold hfree. destruct (b_data bd) as [id|] eqn:E.
        - destruct (Hlive id eq_refl) as [mm ->]. eexists; split; [reflexivity|].
          unfold local; cbn. splits; auto.
          + intros i _ Hi. rewrite lookup_delete_ne by congruence. reflexivity.
          + intros i m. cbn. rewrite lookup_delete_Some. intros [_ H]. eapply (wi_heap _ _ _ _ Hw). eassumption.
        - eexists; split; [reflexivity|]. apply local_refl, Hw. }
      destruct Hfree as (h' & -> & Hloc); cbn [obind].
      eexists _, _, _. split; [reflexivity|]. split; [apply ws_move_assign; eassumption|].
      rewrite !insert_insert.
      eapply world_update with (d := b_data bd); [exact Hw| | |exact Hloc|apply idle_null].
      * intros b2 Hb2. congruence.
      * congruence.
    + destruct (world_free_move M w A o src bs bd v Hw Hne Hbd Hbs Hv ltac:(eauto) Hlive) as (h' & -> & Hw').
      cbn [obind]. eexists _, _, _. split; [reflexivity|]. split; [apply ws_move_assign; eassumption|exact Hw'].
  - destruct Hl as [[c q] Hv]. destruct (wi_lookup _ _ _ _ _ Hw Hv) as (b & Hb & Hobj).
    unfold wget. rewrite Hb; cbn [obind].
    destruct (resize_ok D M (w_heap w) b (c, q) n (wi_heap _ _ _ _ Hw) Hobj HM (Hs b Hb))
      as [(-> & Hlt & Hq & Hfp)|(h' & b' & -> & Hloc & Hobj')]; cbn [obind].
    + eexists _, _, _. split; [reflexivity|]. split; [eapply ws_resize_throw; eassumption|].
      rewrite insert_id by assumption. destruct w; exact Hw.
    + eexists _, _, _. split; [reflexivity|]. split; [eapply ws_resize; eassumption|].
      eapply world_update with (d := b_data b); [exact Hw| | |exact Hloc|exact Hobj'].
      * intros b2 Hb2. congruence.
      * congruence.
  - destruct Hl as [[[cp q] Hv] Hlc]. destruct (wi_lookup _ _ _ _ _ Hw Hv) as (b & Hb & Hobj).
    unfold wget. rewrite Hb; cbn [obind].
    destruct (call_ok M (w_heap w) b (cp, q) c (wi_heap _ _ _ _ Hw) HM Hobj Hlc (Hs b Hb))
      as (h' & b' & x & q' & -> & Hf & Hloc & Hobj'); cbn [obind].
    eexists _, _, _. split; [reflexivity|]. split; [eapply ws_call; eassumption|].
    eapply world_update with (d := b_data b); [exact Hw| | |exact Hloc|exact Hobj'].
    + intros b2 Hb2. congruence.
    + congruence.
  - destruct Hl as [v Hv]. destruct (wi_lookup _ _ _ _ _ Hw Hv) as (b & Hb & Hobj).
    unfold wget. rewrite Hb; cbn [obind].
    assert (Hd : exists h', cb_destroy (w_heap w) b = Ok h' /\ local (w_heap w) h' (b_data b) None).
    { unfold cb_destroy. destruct (Z.ltb_spec 0 (b_acap b)) as [Hp|Hz].
      - destruct Hobj as [(id & m & Hd & Horg & Hlv & _)|(_ & H2 & _)]; [|lia].
        unfold hfree. rewrite Hd, Hlv. eexists; split; [reflexivity|].
        unfold local; cbn. splits; auto.
        + intros i _ Hi. rewrite lookup_delete_ne by congruence. reflexivity.
        + intros i mi. cbn. rewrite lookup_delete_Some. intros [_ H]. eapply (wi_heap _ _ _ _ Hw). eassumption.
      - eexists; split; [reflexivity|]. unfold local. splits; auto. apply Hw. }
    destruct Hd as (h' & -> & Hloc); cbn [obind].
    eexists _, _, _. split; [reflexivity|]. split; [apply ws_destroy; eauto|].
    eapply world_drop; eassumption.
Qed.

(** ** Whole programs *)
Fixpoint wprog_ok (M : Z) (w : world) (ps : list wop) : Prop :=
  match ps with
  | [] => True
  | p :: ps' => wop_legal M (w_objs w) p /\ wop_safe w p /\
      (forall w' x, wstep w p = Ok (w', x) -> wprog_ok M w' ps')
  end.

Lemma legal_transfer M w A p : world_inv M w A -> wop_legal M (w_objs w) p -> wop_legal M A p.
Proof.
  intros Hw.
  assert (Hs : forall o, is_Some (w_objs w !! o) -> is_Some (A !! o)).
  { intros o [b Hb]. destruct (A !! o) as [v|] eqn:E; [eauto|]. apply (wi_none _ _ _ _ Hw) in E. congruence. }
  assert (Hn : forall o, w_objs w !! o = None -> A !! o = None) by (intros o; apply (wi_none _ _ _ _ Hw)).
  destruct p; cbn [wop_legal]; intuition auto.
Qed.

Lemma wrun_ok M w A ps :
  4 <= M -> world_inv M w A -> wprog_ok M w ps ->
  exists w' tr A', wrun w ps = Ok (w', tr) /\ ws_trace M A tr A' /\ world_inv M w' A' /\ map fst tr = ps.
Proof.
  intros HM. revert w A; induction ps as [|p ps IH]; intros w A Hw Hok; cbn [wrun].
  - exists w, [], A. splits; try assumption. constructor.
  - destruct Hok as (Hl & Hs & Hrest). apply (legal_transfer _ _ _ _ Hw) in Hl.
    destruct (wstep_ok M w A p HM Hw Hl Hs) as (w1 & x & A1 & Hst & Hsp & Hw1). rewrite Hst; cbn [obind].
    destruct (IH w1 A1 Hw1 (Hrest _ _ Hst)) as (w2 & tr & A2 & -> & Ht & Hw2 & Hm); cbn [obind].
    exists w2, ((p, x) :: tr), A2. splits; try assumption.
    + econstructor; eassumption.
    + cbn. congruence.
Qed.

Lemma world0_inv M junk : world_inv M (world0 junk) ∅.
Proof.
  constructor; cbn.
  - intros id m. cbn. rewrite lookup_empty. discriminate.
  - intros o. rewrite !lookup_empty. tauto.
  - intros o b v. rewrite lookup_empty. discriminate.
  - intros o o' b b' id. rewrite lookup_empty. discriminate.
Qed.
End world.

(** ** A caller-level discipline under which no guard can be violated *)
Definition anext (A : gmap nat abuf) (p : wop) : gmap nat abuf :=
  match p with
  | WDefault o => <[o := (0, [])]> A
  | WNew o n => <[o := (n, [])]> A
  | WCopy o src | WCopyAssign o src => match A !! src with Some v => <[o := v]> A | None => A end
  | WMove o src => match A !! src with Some v => <[o := v]> (<[src := (0, [])]> A) | None => A end
  | WMoveAssign o src => match A !! src with Some v => <[src := (0, [])]> (<[o := v]> A) | None => A end
  | WResize o n => match A !! o with Some (_, q) => <[o := (n, q)]> A | None => A end
  | WCall o c => match A !! o with Some (cp, q) => <[o := (cp, fifo_next q c)]> A | None => A end
  | WDestroy o => delete o A
  end.

(** Sizes are ints; buffers without memory are not copy-constructed; a buffer is resized only when empty or to
    grow it; pushes obey the slack rule of [disciplined]. *)
Definition wop_disc (M : Z) (A : gmap nat abuf) (p : wop) : Prop :=
  match p with
  | WNew _ n => 0 <= n
  | WCopy _ src => forall c q, A !! src = Some (c, q) -> 0 < c
  | WResize o n => 0 <= n <= int_max /\ forall c q, A !! o = Some (c, q) -> q = [] \/ c <= n
  | WCall o (CPush (Some d) n) => forall c q, A !! o = Some (c, q) ->
      0 < n -> footprint q + (n + 4) <= c - M - 4
  | _ => True
  end.

Fixpoint wdisciplined (M : Z) (A : gmap nat abuf) (ps : list wop) : Prop :=
  match ps with
  | [] => True
  | p :: ps' => wop_legal M A p /\ wop_disc M A p /\ wdisciplined M (anext A p) ps'
  end.

Definition wpush_accepted (e : wop * wret) : Prop :=
  match e with (WCall _ (CPush (Some _) n), x) => 0 < n -> x = WRet (RBool true) | (_, x) => x <> WThrew end.

Lemma wdisc_step M w A p :
  4 <= M -> world_inv False M w A -> wop_legal M A p -> wop_disc M A p ->
  wop_safe False w p /\
  forall w' x A', wstep w p = Ok (w', x) -> ws_step M A p x A' -> wpush_accepted (p, x) /\ A' = anext A p.
Proof.
  intros HM Hw Hl Hd.
  assert (Hsafe : wop_safe False w p).
  { destruct p as [o|o n|o src|o src|o src|o src|o n|o c|o]; cbn [wop_legal wop_safe wop_disc] in *; try exact I.
    - right. intros b Hb. destruct Hl as [_ [[c q] Hv]]. specialize (Hd c q Hv).
      destruct (wi_obj _ _ _ _ Hw _ _ _ Hb Hv) as [(i & m & E & _)|(_ & _ & _ & _ & _ & E & _)]; [congruence|].
      injection E as -> ->. lia.
    - intros [].
    - intros b Hb. destruct Hd as [Hn Hd]. destruct Hl as [[c q] Hv]. specialize (Hd c q Hv).
      destruct (wi_obj _ _ _ _ Hw _ _ _ Hb Hv) as [(i & m & _ & _ & _ & _ & _ & E & Hinv)|Hid]; unfold resize_safe.
      + cbn [fst snd] in *. splits; try lia; intros Hrw Hlt; exfalso.
        * destruct Hd as [->|]; [|lia]. apply empty_ok in Hinv. unfold circ_empty in Hinv; cbn [c_w c_r] in Hinv.
          destruct (Z.eqb_spec (b_w b) (b_r b)); [lia|discriminate].
      + destruct Hid as (_ & _ & _ & E4 & E5 & _). splits; lia.
    - intros b Hb. destruct Hl as [[[c' q] Hv] Hlc].
      destruct c as [[d|] n| | | | | |]; cbn [cop_safe cop_legal] in *; try exact I. intros Hn.
      specialize (Hd c' q Hv Hn). pose proof (footprint_nonneg q).
      destruct (wi_obj _ _ _ _ Hw _ _ _ Hb Hv) as [(i & m & _ & Eo & Hlv & _ & _ & E & Hinv)|Hid].
      + unfold raw_of. rewrite Eo, (hget_live _ _ _ Hlv). cbn [fst snd] in *.
        apply (slack_ok M _ q n Hinv); cbn [c_cap]; lia.
      + destruct Hid as (_ & _ & _ & _ & _ & E & _). injection E as -> ->. lia. }
  split; [exact Hsafe|]. intros w' x A' Hst Hsp.
  destruct Hsp; cbn [anext wpush_accepted wop_disc wop_legal] in *.
  - split; [discriminate|reflexivity].
  - split; [discriminate|reflexivity].
  - lia.
  - rewrite H. split; [discriminate|reflexivity].
  - rewrite H. split; [discriminate|reflexivity].
  - rewrite H. split; [discriminate|reflexivity].
  - rewrite H. split; [discriminate|reflexivity].
  - rewrite H. split; [discriminate|reflexivity].
  - destruct Hd as [_ Hd]. specialize (Hd c q H). destruct Hd; [congruence|lia].
  - rewrite H. destruct Hl as [_ Hl].
    assert (Hacc : match p with CPush (Some _) n => 0 < n -> x = RBool true | _ => True end).
    { destruct p as [[d|] n| | | | | |]; try exact I. intros Hn. specialize (Hd c q H Hn). cbn in Hl.
      destruct (wi_lookup _ _ _ _ _ _ Hw H) as (b & Hb & Hobj).
      cbn [wstep] in Hst. unfold wget in Hst. rewrite Hb in Hst. cbn [obind] in Hst. unfold cb_op in Hst. cbn [obind circ_step] in Hst.
      destruct (circ_push (raw_of (w_heap w) b) (Some d) n) as [[s1 bb]| |] eqn:Ep; cbn [obind] in Hst; try discriminate.
      injection Hst as _ <-. f_equal. rewrite (push_iff_space _ _ _ _ _ Hn Ep).
      destruct Hobj as [(i & m & _ & Eo & Hlv & _ & _ & E & Hinv)|Hid].
      + unfold raw_of. rewrite Eo, (hget_live _ _ _ Hlv). cbn [fst snd] in *.
        apply (slack_ok M _ q n Hinv); cbn [c_cap]; lia.
      + destruct Hid as (_ & _ & _ & _ & _ & E & _). injection E as -> ->. pose proof (footprint_nonneg []). lia. }
    split.
    { destruct p as [[d|] n| | | | | |]; try discriminate. intros Hn. rewrite (Hacc Hn). reflexivity. }
    f_equal. f_equal. inversion H0; subst; cbn [fifo_next]; try reflexivity.
    + destruct (Z.ltb_spec 0 n); [reflexivity|lia].
    + destruct data as [d|]; [|reflexivity]. destruct (Z.ltb_spec 0 n) as [Hn|Hn]; [|reflexivity].
      specialize (Hacc Hn). discriminate.
    + destruct (Z.leb_spec (zlen b) k); [reflexivity|lia].
    + destruct (Z.leb_spec (zlen b) k); [lia|reflexivity].
  - split; [discriminate|reflexivity].
Qed.

Lemma wdisciplined_ok M w A ps :
  4 <= M -> world_inv False M w A -> wdisciplined M A ps ->
  exists w' tr A', wrun w ps = Ok (w', tr) /\ ws_trace M A tr A' /\ world_inv False M w' A' /\ map fst tr = ps /\
    Forall wpush_accepted tr.
Proof.
  intros HM. revert w A; induction ps as [|p ps IH]; intros w A Hw Hok; cbn [wrun].
  - exists w, [], A. splits; try assumption; constructor.
  - destruct Hok as (Hl & Hd & Hrest).
    destruct (wdisc_step M w A p HM Hw Hl Hd) as [Hs Hnext].
    destruct (wstep_ok False M w A p HM Hw Hl Hs) as (w1 & x & A1 & Hst & Hsp & Hw1). rewrite Hst; cbn [obind].
    destruct (Hnext _ _ _ Hst Hsp) as [Hacc ->].
    destruct (IH w1 _ Hw1 Hrest) as (w2 & tr & A2 & -> & Ht & Hw2 & Hm & Hall); cbn [obind].
    exists w2, ((p, x) :: tr), A2. splits; try assumption.
    + econstructor; eassumption.
    + cbn. congruence.
    + constructor; assumption.
Qed.
