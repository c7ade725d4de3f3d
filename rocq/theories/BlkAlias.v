(** Arguments that refer to elements of the container itself: push_back(v[i]), v.assign(v.begin() + a, v.begin() + b).

    The calls of [VecModel] and [DeqModel] take values; here the argument is a slot or a pair of iterators, read when the code
    reads it.  [mv]: what an element is left with when it is moved from ([None]: it is copied). *)
From stdpp Require Import gmap.
From Verif Require Import Base BlkHeap BlkProofs BlkMore BlkRun BlkIter BlkIterProofs BlkWorld VecModel VecSpec VecProofs VecWorld VecFinal
  DeqModel DeqSpec DeqProofs DeqMore DeqWorld DeqFinal.

Section alias.
Context {V : Type}.
Variable P : params.
Notation B := (bsz P).
Implicit Types (h : bheap V) (v : vec) (d : deq) (xs ys : list V) (c : cell) (mv : option (V -> V)).

(** X{val} or X{std::move(val)} where val is c[j] *)
Definition slot_take h c j mv : outcome (bheap V * V) :=
  x <-! eget P h c j ;; match mv with None => Ok (h, x) | Some f => h1 <-! eset P h c j (f x) ;; Ok (h1, x) end.

(** StableBlockVector.hpp:135-157 *)
Definition vec_push_ref h v c j mv : outcome (bheap V * vec) :=
  '(h1, v1) <-! vec_block_check P h v ;;
  c1 <-! tget h1 (v_data v1) (v_idx v1) ;;
  '(h2, x) <-! slot_take h1 c j mv ;;
  h3 <-! emake P h2 c1 (v_bsize v1) x ;;
  Ok (h3, Vec (v_size v1 + 1) (v_data v1) (v_slots v1) (v_idx v1) (v_bsize v1 + 1) (v_fl v1)).

(** StableBlockDeque.hpp:179-200 *)
Definition deq_push_ref h d c j mv : outcome (bheap V * deq) :=
  '(h1, d1) <-! deq_check P h d ;;
  c1 <-! tget h1 (d_data d1) (d_back d1) ;;
  '(h2, x) <-! slot_take h1 c j mv ;;
  h3 <-! emake P h2 c1 (d_bsize d1) x ;;
  Ok (h3, Deq (d_size d1 + 1) (d_data d1) (d_slots d1) (d_back d1) (d_front d1) (d_bsize d1 + 1) (d_fsize d1) (d_fl d1)).
(** StableBlockDeque.hpp:217-238 *)
Definition deq_push_front_ref h d c j mv : outcome (bheap V * deq) :=
  '(h1, d1) <-! deq_check_front P h d ;;
  c1 <-! tget h1 (d_data d1) (d_front d1) ;;
  '(h2, x) <-! slot_take h1 c j mv ;;
  h3 <-! emake P h2 c1 (d_fsize d1) x ;;
  Ok (h3, Deq (d_size d1 + 1) (d_data d1) (d_slots d1) (d_back d1) (d_front d1) (d_bsize d1) (d_fsize d1 - 1) (d_fl d1)).

(** *it or std::move of it *)
Definition it_take h (it : biter) mv : outcome (bheap V * V) :=
  match i_ptr it with PSlot b j => slot_take h (Some b) j mv | _ => UB end.

(** StableBlockVector.hpp:178-182, 199-203: while (ii < csize && cur != last); more than [fuel] rounds count as an error *)
Fixpoint vec_over_it h v (i : Z) (cur last : biter) mv (fuel : nat) : outcome (bheap V * Z * biter) :=
  if (i <? v_size v) && negb (it_eq cur last) then
    match fuel with
    | O => UB
    | S k =>
        '(h1, x) <-! it_take h cur mv ;;
        h2 <-! vec_set P h1 v i x ;;
        cur' <-! it_add P h2 cur 1 ;;
        vec_over_it h2 v (i + 1) cur' last mv k
    end
  else Ok (h, i, cur).
(** StableBlockVector.hpp:188-191, 209-212: while (cur != last) push_back( *cur ) *)
Fixpoint vec_push_it h v (cur last : biter) mv (fuel : nat) : outcome (bheap V * vec) :=
  if it_eq cur last then Ok (h, v)
  else match fuel with
       | O => UB
       | S k =>
           match i_ptr cur with
           | PSlot b j => '(h1, v1) <-! vec_push_ref h v (Some b) j mv ;; cur' <-! it_add P h1 cur 1 ;; vec_push_it h1 v1 cur' last mv k
           | _ => UB
           end
       end.
(** StableBlockVector.hpp:174-214 assign, move_assign *)
Definition vec_assign_it h v (first last : biter) mv : outcome (bheap V * vec) :=
  '(h1, i, cur) <-! vec_over_it h v 0 first last mv (Z.to_nat (v_size v)) ;;
  if it_eq cur last then vec_pops P h1 v (Z.to_nat (v_size v - i)) else vec_push_it h1 v cur last mv (Z.to_nat (v_size v)).

(** StableBlockDeque.hpp:260-264, 293-297: while (copyFrom != last && assignTo != endAssign) *)
Fixpoint deq_over_it h (cur last to stop : biter) mv (fuel : nat) : outcome (bheap V * biter * biter) :=
  if negb (it_eq cur last) && negb (it_eq to stop) then
    match fuel with
    | O => UB
    | S k =>
        '(h1, x) <-! it_take h cur mv ;;
        h2 <-! it_write P h1 to x ;;
        to' <-! it_add P h2 to 1 ;;
        cur' <-! it_add P h2 cur 1 ;;
        deq_over_it h2 cur' last to' stop mv k
    end
  else Ok (h, cur, to).
(** StableBlockDeque.hpp:279-283, 312-316 *)
Fixpoint deq_push_it h d (cur last : biter) mv (fuel : nat) : outcome (bheap V * deq) :=
  if it_eq cur last then Ok (h, d)
  else match fuel with
       | O => UB
       | S k =>
           match i_ptr cur with
           | PSlot b j => '(h1, d1) <-! deq_push_ref h d (Some b) j mv ;; cur' <-! it_add P h1 cur 1 ;; deq_push_it h1 d1 cur' last mv k
           | _ => UB
           end
       end.
(** StableBlockDeque.hpp:253-317 assign, move_assign *)
Definition deq_assign_it h d (first last : biter) mv : outcome (bheap V * deq) :=
  '(h1, d1, cur) <-!
    (if d_size d =? 0 then Ok (h, d, first)
     else
       to <-! deq_begin P h d ;;
       stop <-! deq_end P h d ;;
       '(h1, cur, to') <-! deq_over_it h first last to stop mv (Z.to_nat (d_size d)) ;;
       if it_eq cur last then
         n <-! it_count P h1 to' stop (Z.to_nat (d_size d)) ;; '(h2, d2) <-! deq_pops P h1 d n ;; Ok (h2, d2, cur)
       else Ok (h1, d, cur)) ;;
  deq_push_it h1 d1 cur last mv (Z.to_nat (d_size d)).

(** The sequence when element [n], which is [x], has been taken *)
Definition taken mv (n : nat) (x : V) xs : list V := match mv with None => xs | Some f => <[n := f x]> xs end.

Lemma taken_length mv n x xs : length (taken mv n x xs) = length xs.
Proof. destruct mv; [apply insert_length|reflexivity]. Qed.
Lemma taken_zlen mv n x xs : zlen (taken mv n x xs) = zlen xs.
Proof. unfold zlen. rewrite taken_length. reflexivity. Qed.

Hypothesis HP : 0 <= expo P <= 30.

Lemma eset_tb h c j x h' : eset P h c j x = Ok h' -> tb h' = tb h.
Proof. unfold eset. intros E. apply obind_ok in E as (b & _ & E). destruct (el h !! (b, j)); [|discriminate]. injection E as <-. reflexivity. Qed.

Lemma slot_take_ok h t slots lo ids off xs f frees mv (i : nat) b j (n : nat) x :
  blocks P h t slots lo ids off xs f frees -> ids !! i = Some b -> 0 <= j < B -> Z.of_nat i * B + j = off + Z.of_nat n -> xs !! n = Some x ->
  exists h1, slot_take h (Some b) j mv = Ok (h1, x) /\ blocks P h1 t slots lo ids off (taken mv n x xs) f frees /\
    upd (frees ++ ids) (rts f t) h (frees ++ ids) (rts f t) h1 /\ tb h1 = tb h.
Proof.
  pose proof HP as [HP1 HP2]. intros Hbk Hi Hj Hp Hx. pose proof (lookup_lt_Some _ _ _ Hx) as Hlt. unfold slot_take.
  rewrite (bk_read P h t slots lo ids off xs f frees i b j (Z.of_nat n) x Hbk Hi Hj Hp) by (rewrite zl_nat; exact Hx). cbn [obind].
  destruct mv as [g|]; cbn [taken].
  - destruct (bk_set P HP1 h t slots lo ids off xs f frees i b j (Z.of_nat n) (g x) Hbk Hi Hj Hp) as (h1 & E1 & Hbk1 & U1); [unfold zlen; lia|].
    rewrite E1. cbn [obind]. rewrite Nat2Z.id in Hbk1. exists h1. splits; try assumption. eapply eset_tb; exact E1.
  - exists h. splits; try assumption. apply upd_refl. apply Hbk.
Qed.

Lemma it_take_ok h t slots lo ids off xs f frees mv (n : nat) it x :
  blocks P h t slots lo ids off xs f frees -> 0 <= off -> off + zlen xs <= B * zlen ids ->
  it_at P h t (lo * B + off + Z.of_nat n) it -> xs !! n = Some x ->
  exists h1, it_take h it mv = Ok (h1, x) /\ blocks P h1 t slots lo ids off (taken mv n x xs) f frees /\
    upd (frees ++ ids) (rts f t) h (frees ++ ids) (rts f t) h1 /\ tb h1 = tb h.
Proof.
  pose proof HP as [HP1 HP2]. intros Hbk Ho Hl Hat Hx. pose proof (B_pos P HP1) as HB. pose proof (lookup_lt_Some _ _ _ Hx) as Hlt.
  destruct (bk_locate P HP1 h t slots lo ids off xs f frees (Z.of_nat n) Hbk Ho Hl) as (i & b & E1 & E2 & E3 & E4 & E5); [unfold zlen; lia|].
  apply it_at_inv in Hat as (c & E & ->).
  replace (lo * B + off + Z.of_nat n) with ((off + Z.of_nat n) + lo * B) in * by lia.
  rewrite Z.div_add in E by lia. rewrite Z.mod_add by lia. rewrite Z.add_comm, E5 in E. injection E as <-.
  unfold it_take. cbn [i_ptr]. eapply slot_take_ok; eassumption.
Qed.

(** ** Elements pushed *)
Lemma vpush_ref_ok h v xs ids frees mv (n : nat) x c j :
  vinv P h v xs ids frees -> xs !! n = Some x -> vec_at P h v (Z.of_nat n) = Ok (c, j) ->
  exists h' v' ids' frees', vec_push_ref h v c j mv = Ok (h', v') /\ vinv P h' v' (taken mv n x xs ++ [x]) ids' frees' /\ ~ phantom v' /\
    upd (frees ++ ids) (vts v) h (frees' ++ ids') (vts v') h' /\ mono ids ids'.
Proof.
  pose proof HP as [HP1 HP2]. intros Hv Hx Eat. pose proof (B_pos P HP1) as HB. pose proof (lookup_lt_Some _ _ _ Hx) as Hlt.
  destruct (vat_ok P HP1 _ _ _ _ _ (Z.of_nat n) Hv) as (i & b & E0 & Hib & _ & Hj & Hp); [unfold zlen; lia|]. rewrite E0 in Eat. injection Eat as <- <-.
  destruct (vcheck_ok P HP1 h v xs ids frees 0 ltac:(lia) (vinv_room P _ _ _ _ _ Hv)) as
    (h1 & v1 & t & ids1 & frees1 & E & (Ed & Hbk & Hi & Hb & Hz & Hs) & Hsz & Hlb & Hge & U & Hm).
  rewrite (vinv_size P _ _ _ _ _ Hv) in Hsz.
  unfold vec_push_ref. rewrite E; cbn [obind]. rewrite Ed.
  destruct (ids_last ids1) as (ids' & b1 & Eids); [lia|].
  assert (Hlk : ids1 !! length ids' = Some b1) by (rewrite Eids; apply list_lookup_middle; reflexivity).
  assert (Hli : v_idx v1 = Z.of_nat (length ids')) by (rewrite Hi, Eids, zlen_app; unfold zlen; cbn; lia).
  rewrite (bk_get P h1 t (v_slots v1) 0 ids1 0 xs (v_fl v1) frees1 (length ids') b1) by (try assumption; lia). cbn [obind].
  destruct (slot_take_ok h1 t _ 0 ids1 0 xs _ frees1 mv i b (Z.of_nat n mod B) n x Hbk) as (h2 & -> & Hbk2 & U2 & _);
    [eapply mono_lookup; eassumption|exact Hj|lia|exact Hx|]. cbn [obind].
  destruct (bk_push P HP1 h2 t (v_slots v1) 0 ids1 0 _ (v_fl v1) frees1 (length ids') b1 (v_bsize v1) x Hbk2 Hlk) as (h3 & -> & Hbk3 & U3);
    [lia|rewrite taken_zlen; nia|].
  cbn [obind]. eexists h3, _, ids1, frees1. split; [reflexivity|]. splits.
  - right. exists t. unfold vlive; cbn. rewrite zlen_app, taken_zlen. change (zlen [x]) with 1. splits; try assumption; lia.
  - intros [_ Hph]. cbn in Hph. lia.
  - eapply upd_trans; [exact U|]. unfold vts; cbn. unfold vts. rewrite Ed. eapply upd_trans; eassumption.
  - exact Hm.
Qed.

Lemma dpush_ref_ok h d xs ids frees mv (n : nat) x c j :
  dinv P h d xs ids frees -> xs !! n = Some x -> deq_at P h d (Z.of_nat n) = Ok (c, j) ->
  exists h' d' ids' frees', deq_push_ref h d c j mv = Ok (h', d') /\ dinv P h' d' (taken mv n x xs ++ [x]) ids' frees'.
Proof.
  pose proof HP as [HP1 HP2]. intros Hd Hx Eat. pose proof (B_pos P HP1) as HB. pose proof (lookup_lt_Some _ _ _ Hx) as Hlt.
  destruct (dat_ok P HP1 _ _ _ _ _ (Z.of_nat n) Hd) as (i & b & E0 & Hib & _ & Hj & Hp); [unfold zlen; lia|]. rewrite E0 in Eat. injection Eat as <- <-.
  assert (Hne : ids <> []) by (intros ->; rewrite lookup_nil in Hib; discriminate).
  destruct (dcheck_ok P HP1 h d xs ids frees Hd) as (h1 & d1 & t & ids1 & frees1 & E & (Ed & Hbk & Hsz & Hi & Hn & Hfs & Hbs & Hz & Hs) & Hlb & U & Hm & Hf).
  unfold deq_push_ref. rewrite E; cbn [obind]. rewrite Ed. specialize (Hf Hne).
  destruct (ids_last ids1) as (ids' & b1 & Eids); [lia|].
  assert (Hlk : ids1 !! length ids' = Some b1) by (rewrite Eids; apply list_lookup_middle; reflexivity).
  assert (Hli : zlen ids1 - 1 = Z.of_nat (length ids')) by (rewrite Eids, zlen_app; unfold zlen; cbn; lia).
  rewrite (bk_get P h1 t _ _ ids1 _ xs _ frees1 (length ids') b1 _ Hbk Hlk) by lia. cbn [obind].
  destruct (slot_take_ok h1 t _ _ ids1 _ xs _ frees1 mv i b ((d_fsize d + 1 + Z.of_nat n) mod B) n x Hbk) as (h2 & -> & Hbk2 & U2 & _);
    [eapply mono_lookup; eassumption|exact Hj|lia|exact Hx|]. cbn [obind].
  destruct (bk_push P HP1 h2 t _ _ ids1 _ _ _ frees1 (length ids') b1 (d_bsize d1) x Hbk2 Hlk) as (h3 & -> & Hbk3 & U3); [lia|rewrite taken_zlen; lia|].
  cbn [obind]. eexists h3, _, ids1, frees1. split; [reflexivity|].
  right. exists t. unfold dlive; cbn. rewrite zlen_app, taken_zlen. change (zlen [x]) with 1. splits; try assumption; lia.
Qed.

Lemma grown_lookup ids off ids' off' (i : nat) b j n : grown P ids off ids' off' -> ids !! i = Some b -> Z.of_nat i * B + j = off + n ->
  exists i' : nat, ids' !! i' = Some b /\ Z.of_nat i' * B + j = off' + n.
Proof.
  intros [[-> ->]|(b0 & -> & ->)] Hi Hp; [exists i; auto|]. exists (S i). split; [exact Hi|]. lia.
Qed.

Lemma dpush_front_ref_ok h d xs ids frees mv (n : nat) x c j :
  dinv P h d xs ids frees -> front_guard P d -> xs !! n = Some x -> deq_at P h d (Z.of_nat n) = Ok (c, j) ->
  exists h' d' ids' frees', deq_push_front_ref h d c j mv = Ok (h', d') /\ dinv P h' d' (x :: taken mv n x xs) ids' frees'.
Proof.
  pose proof HP as [HP1 HP2]. intros Hd Hg Hx Eat. pose proof (B_pos P HP1) as HB. pose proof (lookup_lt_Some _ _ _ Hx) as Hlt.
  destruct (dat_ok P HP1 _ _ _ _ _ (Z.of_nat n) Hd) as (i & b & E0 & Hib & _ & Hj & Hp); [unfold zlen; lia|]. rewrite E0 in Eat. injection Eat as <- <-.
  assert (Hne : ids <> []) by (intros ->; rewrite lookup_nil in Hib; discriminate).
  destruct (dcheck_front_ok P HP1 h d xs ids frees Hd Hg) as (h1 & d1 & t & ids1 & frees1 & E & (Ed & Hbk & Hsz & Hi & Hn & Hfs & Hbs & Hz & Hs) & Hlb & U & Hm).
  unfold deq_push_front_ref. rewrite E; cbn [obind]. rewrite Ed. specialize (Hm Hne).
  destruct (grown_lookup _ _ _ _ _ _ _ _ Hm Hib Hp) as (i1 & Hi1 & Hp1).
  destruct ids1 as [|b1 ids']; [unfold zlen in Hn; cbn in Hn; lia|].
  rewrite (bk_get P h1 t _ _ _ _ xs _ frees1 0 b1 _ Hbk) by (reflexivity || lia). cbn [obind].
  destruct (slot_take_ok h1 t _ _ _ _ xs _ frees1 mv i1 b ((d_fsize d + 1 + Z.of_nat n) mod B) n x Hbk) as (h2 & -> & Hbk2 & U2 & _);
    [exact Hi1|exact Hj|lia|exact Hx|]. cbn [obind].
  destruct (bk_push_front P HP1 h2 t _ _ _ _ _ _ frees1 0 b1 (d_fsize d1) x Hbk2 eq_refl) as (h3 & -> & Hbk3 & U3); [lia|lia|].
  cbn [obind]. eexists h3, _, (b1 :: ids'), frees1. split; [reflexivity|].
  right. exists t. unfold dlive; cbn. replace (d_fsize d1 - 1 + 1) with (d_fsize d1 + 1 - 1) by lia.
  rewrite !zlen_cons, taken_zlen. rewrite zlen_cons in Hi, Hn, Hz. splits; try assumption; lia.
Qed.

(** ** Ranges assigned *)

(** [ys]: the elements of [xs] when [i] of those from [a] on have been assigned to the front *)
Definition shifted xs (a i : nat) ys : Prop :=
  length ys = length xs /\ (forall k, (k < i)%nat -> ys !! k = xs !! (a + k)%nat) /\ (forall k, (a + i <= k)%nat -> ys !! k = xs !! k).

Lemma shifted0 xs a : shifted xs a 0 xs.
Proof. split; [reflexivity|]. split; [lia|reflexivity]. Qed.

Lemma shifted_step mv xs a i ys x : shifted xs a i ys -> xs !! (a + i)%nat = Some x -> mv = None \/ (0 < a)%nat ->
  shifted xs a (S i) (<[i := x]> (taken mv (a + i) x ys)).
Proof.
  intros (Hl & H1 & H2) Hx Hm. pose proof (lookup_lt_Some _ _ _ Hx) as Hlt. split; [rewrite insert_length, taken_length; exact Hl|]. split.
  - intros k Hk. destruct (decide (k = i)) as [->|Hne].
    + rewrite list_lookup_insert by (rewrite taken_length; lia). symmetry; exact Hx.
    + rewrite list_lookup_insert_ne by congruence. unfold taken. destruct mv as [f|]; [|apply H1; lia].
      destruct Hm as [Hm|Hm]; [discriminate|]. rewrite list_lookup_insert_ne by lia. apply H1. lia.
  - intros k Hk. rewrite list_lookup_insert_ne by lia. unfold taken. destruct mv as [f|]; [|apply H2; lia].
    rewrite list_lookup_insert_ne by lia. apply H2. lia.
Qed.

Lemma shifted_take xs a i ys : shifted xs a i ys -> (a + i <= length xs)%nat -> take i ys = take i (drop a xs).
Proof.
  intros (Hl & H1 & _) Hle. apply list_eq. intros k. destruct (decide (k < i)%nat) as [Hk|Hk].
  - rewrite !lookup_take by exact Hk. rewrite lookup_drop. apply H1. exact Hk.
  - rewrite !lookup_take_ge by lia. reflexivity.
Qed.

Lemma it_at_next h t q it it' : it_at P h t q it -> it_add P h it 1 = Ok it' -> it_at P h t (q + 1) it'.
Proof.
  pose proof HP as [HP1 HP2]. pose proof (B_pos P HP1) as HB. pose proof (B_int P HP) as HBi. intros Hit E.
  assert (He : entry h t ((q + 1) / B)).
  { pose proof (it_at_inv P h t q it Hit) as (c & Ec & ->). unfold it_add in E. cbn [i_off i_pos i_tab i_ptr] in E. change (wrap32 1) with 1 in E.
    destruct (negb (int_ok (q mod B + 1))); [discriminate|]. pose proof (Z.div_mod q B ltac:(lia)) as Hq. pose proof (Z.mod_pos_bound q B HB) as Hr.
    destruct (Z.leb_spec B (q mod B + 1)) as [Hge|Hlt].
    - assert (Hq1 : (q + 1) / B = q / B + 1) by (symmetry; apply Z.div_unique with 0; lia).
      replace (q mod B + 1 - B) with 0 in E by lia. rewrite Z.div_0_l in E by lia. rewrite Hq1.
      apply obind_ok in E as (p & E & _). unfold it_ptr in E. rewrite Z.add_0_r in E. apply obind_ok in E as (c' & E & _). eexists; exact E.
    - assert (Hq1 : (q + 1) / B = q / B) by (symmetry; apply Z.div_unique with (q mod B + 1); lia). rewrite Hq1. eexists; exact Ec. }
  destruct (it_add_ok P HP1 h t q it 1 Hit) as (it1 & E1 & H1); [lia|exact He|]. rewrite E in E1. injection E1 as <-. exact H1.
Qed.
Lemma it_at_steps n : forall h t q it it', it_at P h t q it -> it_steps P h it n = Ok it' -> it_at P h t (q + Z.of_nat n) it'.
Proof.
  induction n as [|n IH]; intros h t q it it' Hit E; cbn [it_steps] in E; [injection E as <-; rewrite Z.add_0_r; exact Hit|].
  apply obind_ok in E as (it1 & E1 & E). apply (it_at_next _ _ _ _ _ Hit) in E1. apply (IH _ _ _ _ _ E1) in E.
  replace (q + Z.of_nat (S n)) with (q + 1 + Z.of_nat n) by lia. exact E.
Qed.
Lemma it_at_entry h t q it : it_at P h t q it -> entry h t (q / B).
Proof. intros H. apply it_at_inv in H as (c & E & _). eexists; exact E. Qed.

Lemma vset_tb h v n x h' : vec_set P h v n x = Ok h' -> tb h' = tb h.
Proof. unfold vec_set. intros E. apply obind_ok in E as ([c j] & _ & E). eapply eset_tb; exact E. Qed.

Lemma vover_ok v t ids frees mv xs a b last :
  (a <= b <= length xs)%nat -> mv = None \/ (0 < a)%nat -> forall k h ys i cur fuel, (i + k = b - a)%nat -> (k <= fuel)%nat -> shifted xs a i ys ->
  vlive P h v t ys ids frees -> it_at P h t (Z.of_nat (a + i)) cur -> it_at P h t (Z.of_nat b) last ->
  exists h' ys' cur', vec_over_it h v (Z.of_nat i) cur last mv fuel = Ok (h', Z.of_nat (b - a), cur') /\ shifted xs a (b - a) ys' /\
    vlive P h' v t ys' ids frees /\ it_at P h' t (Z.of_nat b) cur' /\ it_at P h' t (Z.of_nat b) last.
Proof.
  pose proof HP as [HP1 HP2]. pose proof (B_pos P HP1) as HB. pose proof (B_int P HP) as HBi. intros Hab Hm.
  induction k as [|k IH]; intros h ys i cur fuel Hik Hfl Hsh Hl Hcur Hlast.
  - assert (it_eq cur last = true) as He.
    { rewrite (it_at_eq P HP1 _ _ _ _ _ _ Hcur Hlast). apply Z.eqb_eq. lia. }
    exists h, ys, cur. assert (vec_over_it h v (Z.of_nat i) cur last mv fuel = Ok (h, Z.of_nat i, cur)) as ->.
    { destruct fuel; cbn [vec_over_it]; rewrite He, andb_false_r; reflexivity. }
    replace (b - a)%nat with i by lia. replace (a + i)%nat with b in Hcur by lia. splits; try assumption; reflexivity.
  - destruct fuel as [|fuel]; [lia|]. cbn [vec_over_it]. rewrite (it_at_eq P HP1 _ _ _ _ _ _ Hcur Hlast).
    pose proof Hsh as (Hlen & Hs1 & Hs2). pose proof Hl as (Ed & Hbk & Hsz & Hi & Hb & Hz & Hsl).
    destruct (Z.ltb_spec (Z.of_nat i) (v_size v)); [|unfold zlen in Hsz; lia]. destruct (Z.eqb_spec (Z.of_nat (a + i)) (Z.of_nat b)); [lia|]. cbn [negb andb].
    destruct (lookup_lt_is_Some_2 xs (a + i)%nat) as [x Hx]; [lia|]. assert (Hy : ys !! (a + i)%nat = Some x) by (rewrite Hs2 by lia; exact Hx).
    pose proof (vlen_ids P HP1 _ _ _ _ _ _ Hl) as Hll.
    destruct (it_take_ok h t (v_slots v) 0 ids 0 ys (v_fl v) frees mv (a + i) cur x Hbk) as (h1 & -> & Hbk1 & U1 & T1); [lia|exact Hll|exact Hcur|exact Hy|]. cbn [obind].
    assert (Hl1 : vlive P h1 v t (taken mv (a + i) x ys) ids frees) by (unfold vlive; rewrite taken_zlen; splits; try assumption; lia).
    destruct (vset_ok P HP1 h1 v _ ids frees i x (or_intror (ex_intro _ t Hl1))) as (h2 & E2 & Hv2 & U2); [rewrite taken_length; lia|].
    rewrite E2. cbn [obind]. pose proof (vset_tb _ _ _ _ _ E2) as T2.
    assert (Hl2 : vlive P h2 v t (<[i := x]> (taken mv (a + i) x ys)) ids frees).
    { destruct Hv2 as [(Edd & _)|(t' & Hl2)]; [rewrite Edd in Ed; discriminate|]. assert (t' = t) as -> by (destruct Hl2 as (Ed2 & _); congruence). exact Hl2. }
    assert (Hc2 : it_at P h2 t (Z.of_nat (a + i)) cur) by (eapply it_at_tb; [|exact Hcur]; congruence).
    assert (Hla2 : it_at P h2 t (Z.of_nat b) last) by (eapply it_at_tb; [|exact Hlast]; congruence).
    destruct (it_add_ok P HP1 h2 t _ cur 1 Hc2) as (cur1 & -> & Hc3); [lia| |].
    { destruct (decide (a + i + 1 = b)%nat) as [Eb|Hne].
      - replace (Z.of_nat (a + i) + 1) with (Z.of_nat b) by lia. eapply it_at_entry; exact Hla2.
      - destruct Hl2 as (_ & Hbk2 & _). destruct (bk_locate P HP1 h2 t _ _ _ _ _ _ _ (Z.of_nat (a + i) + 1) Hbk2) as (i' & b' & _ & _ & _ & _ & E5);
          [lia|unfold zlen in *; rewrite insert_length, taken_length; exact Hll|unfold zlen; rewrite insert_length, taken_length; lia|].
        rewrite !Z.add_0_l in E5. eexists; exact E5. }
    cbn [obind]. replace (Z.of_nat i + 1) with (Z.of_nat (S i)) by lia. replace (Z.of_nat (a + i) + 1) with (Z.of_nat (a + S i)) in Hc3 by lia.
    apply (IH h2 (<[i := x]> (taken mv (a + i) x ys)) (S i) cur1 fuel); try assumption; [lia|lia|]. apply shifted_step; assumption.
Qed.

Lemma vassign_it_ok h v xs ids frees mv a b first ia ib :
  vgood P h v xs ids frees -> (a <= b <= length xs)%nat -> mv = None \/ (0 < a)%nat ->
  vec_begin P h v = Ok first -> it_steps P h first a = Ok ia -> it_steps P h first b = Ok ib ->
  exists h' v' ids' frees', vec_assign_it h v ia ib mv = Ok (h', v') /\ vgood P h' v' (take (b - a) (drop a xs)) ids' frees' /\ mono ids' ids.
Proof.
  pose proof HP as [HP1 HP2]. pose proof (B_pos P HP1) as HB. intros [Hv Hph] Hab Hm Ef Ea Eb. pose proof (vinv_size P _ _ _ _ _ Hv) as Hsz.
  assert (Hrefl : forall it, it_eq it it = true).
  { intros it. unfold it_eq. rewrite bool_decide_eq_true_2 by reflexivity. rewrite !Z.eqb_refl. reflexivity. }
  destruct (decide (xs = [])) as [->|Hne].
  - cbn in Hab. assert (a = 0%nat) as -> by lia. assert (b = 0%nat) as -> by lia. cbn [it_steps] in Ea, Eb. injection Ea as <-. injection Eb as <-.
    unfold vec_assign_it. rewrite Hsz. change (Z.to_nat (zlen (@nil V))) with 0%nat. cbn [vec_over_it]. rewrite Hrefl, andb_false_r. cbn [obind].
    rewrite Hrefl. change (Z.to_nat (zlen (@nil V) - 0)) with 0%nat. cbn [vec_pops]. exists h, v, ids, frees. split; [reflexivity|]. split; [split; assumption|apply mono_refl].
  - destruct Hv as [(_ & E & _)|(t & Hl)]; [congruence|]. pose proof Hl as (Ed & Hbk & _).
    assert (Hf : it_at P h t 0 first).
    { unfold vec_begin in Ef. rewrite Hsz in Ef. destruct (Z.eqb_spec (zlen xs) 0) as [E0|_]; [apply zlen_0 in E0; congruence|].
      unfold it_at. rewrite Z.div_0_l, Z.mod_0_l by lia. rewrite <- Ed. exact Ef. }
    pose proof (it_at_steps _ _ _ _ _ _ Hf Ea) as Hia. pose proof (it_at_steps _ _ _ _ _ _ Hf Eb) as Hib. rewrite Z.add_0_l in Hia, Hib.
    destruct (vover_ok v t ids frees mv xs a b ib Hab Hm (b - a) h xs 0 ia (Z.to_nat (v_size v))) as (h1 & ys & cur & E1 & Hsh & Hl1 & Hc & Hla);
      try assumption; [lia|rewrite Hsz; unfold zlen; lia|apply shifted0|rewrite Nat.add_0_r; exact Hia|].
    unfold vec_assign_it. change 0 with (Z.of_nat 0) at 1. rewrite E1. cbn [obind]. rewrite (it_at_eq P HP1 _ _ _ _ _ _ Hc Hla), Z.eqb_refl.
    pose proof Hsh as (Hlen & _). assert (Hv1 : vinv P h1 v (take (b - a) ys ++ drop (b - a) ys) ids frees) by (rewrite take_drop; right; exists t; exact Hl1).
    destruct (vpops_ok P HP1 (Z.to_nat (v_size v - Z.of_nat (b - a))) h1 v _ _ ids frees Hv1) as (h2 & v2 & ids2 & frees2 & -> & Hv2 & Hp2 & _ & M2);
      [rewrite drop_length, Hsz, Hlen; unfold zlen; lia|auto|].
    rewrite (shifted_take _ _ _ _ Hsh) in Hv2 by lia. exists h2, v2, ids2, frees2. split; [reflexivity|]. split; [|exact M2]. split; [exact Hv2|]. intros X. apply Hph, Hp2, X.
Qed.

Lemma dover_ok d t ids frees mv xs a b last stop :
  (a <= b <= length xs)%nat -> mv = None \/ (0 < a)%nat -> forall k h ys i cur to fuel, (i + k = b - a)%nat -> (k <= fuel)%nat -> shifted xs a i ys ->
  dlive P h d t ys ids frees -> it_at P h t (dq0 P d + Z.of_nat (a + i)) cur -> it_at P h t (dq0 P d + Z.of_nat b) last ->
  it_at P h t (dq0 P d + Z.of_nat i) to -> it_at P h t (dq0 P d + zlen xs) stop ->
  exists h' ys' cur' to', deq_over_it h cur last to stop mv fuel = Ok (h', cur', to') /\ shifted xs a (b - a) ys' /\
    dlive P h' d t ys' ids frees /\ it_at P h' t (dq0 P d + Z.of_nat b) cur' /\ it_at P h' t (dq0 P d + Z.of_nat b) last /\
    it_at P h' t (dq0 P d + Z.of_nat (b - a)) to' /\ it_at P h' t (dq0 P d + zlen xs) stop.
Proof.
  pose proof HP as [HP1 HP2]. pose proof (B_pos P HP1) as HB. pose proof (B_int P HP) as HBi. intros Hab Hm.
  induction k as [|k IH]; intros h ys i cur to fuel Hik Hfl Hsh Hl Hcur Hlast Hto Hstop.
  - assert (it_eq cur last = true) as He.
    { rewrite (it_at_eq P HP1 _ _ _ _ _ _ Hcur Hlast). apply Z.eqb_eq. lia. }
    exists h, ys, cur, to. assert (deq_over_it h cur last to stop mv fuel = Ok (h, cur, to)) as ->.
    { destruct fuel; cbn [deq_over_it]; rewrite He; reflexivity. }
    replace (b - a)%nat with i by lia. replace (a + i)%nat with b in Hcur by lia. splits; try assumption; reflexivity.
  - destruct fuel as [|fuel]; [lia|]. cbn [deq_over_it]. rewrite (it_at_eq P HP1 _ _ _ _ _ _ Hcur Hlast), (it_at_eq P HP1 _ _ _ _ _ _ Hto Hstop).
    pose proof Hsh as (Hlen & Hs1 & Hs2). pose proof Hl as (Ed & Hbk & Hsz & Hi & Hn & Hfs & Hb & Hz & Hsl).
    destruct (Z.eqb_spec (dq0 P d + Z.of_nat (a + i)) (dq0 P d + Z.of_nat b)); [lia|].
    destruct (Z.eqb_spec (dq0 P d + Z.of_nat i) (dq0 P d + zlen xs)); [unfold zlen in *; lia|]. cbn [negb andb].
    destruct (lookup_lt_is_Some_2 xs (a + i)%nat) as [x Hx]; [lia|]. assert (Hy : ys !! (a + i)%nat = Some x) by (rewrite Hs2 by lia; exact Hx).
    pose proof (dlen_ids P _ _ _ _ _ _ Hl) as [Ho Hll]. unfold dq0 in *.
    destruct (it_take_ok h t _ _ ids _ ys _ frees mv (a + i) cur x Hbk) as (h1 & -> & Hbk1 & U1 & T1); [lia|exact Hll|exact Hcur|exact Hy|]. cbn [obind].
    assert (Hto1 : it_at P h1 t (d_front d * B + (d_fsize d + 1) + Z.of_nat i) to) by (eapply it_at_tb; eassumption).
    destruct (it_write_ok P HP1 h1 t _ _ ids _ _ _ frees i to x Hbk1 Ho) as (h2 & -> & Hbk2 & U2 & T2);
      [rewrite taken_zlen; exact Hll|rewrite taken_length; lia|exact Hto1|]. cbn [obind].
    assert (Hzl : zlen (<[i:=x]> (taken mv (a + i) x ys)) = zlen ys) by (unfold zlen; rewrite insert_length, taken_length; reflexivity).
    assert (Hl2 : dlive P h2 d t (<[i := x]> (taken mv (a + i) x ys)) ids frees) by (unfold dlive; rewrite Hzl; splits; try assumption; lia).
    assert (T : tb h2 = tb h) by congruence.
    pose proof (it_at_tb P _ _ _ _ _ T Hcur) as Hc2. pose proof (it_at_tb P _ _ _ _ _ T Hlast) as Hla2.
    pose proof (it_at_tb P _ _ _ _ _ T Hto) as Hto2. pose proof (it_at_tb P _ _ _ _ _ T Hstop) as Hst2.
    assert (Hent : forall m : Z, 0 <= m <= zlen xs -> entry h2 t ((d_front d * B + (d_fsize d + 1) + m) / B)).
    { intros m Hmm. assert (zlen xs = zlen ys) as Hxy by (unfold zlen; lia). rewrite Hxy in *.
      eapply (bk_entries P HP1); [exact Hbk2|exact Ho|rewrite Hzl; exact Hll|rewrite Hzl; eapply it_at_entry; exact Hst2|rewrite Hzl; exact Hmm]. }
    destruct (it_add_ok P HP1 h2 t _ to 1 Hto2) as (to1 & -> & Hto3); [lia|rewrite <- Z.add_assoc; apply Hent; unfold zlen; lia|].
    destruct (it_add_ok P HP1 h2 t _ cur 1 Hc2) as (cur1 & E3 & Hc3); [lia|rewrite <- Z.add_assoc; apply Hent; unfold zlen; lia|]. cbn [obind]. rewrite E3. cbn [obind].
    replace (d_front d * B + (d_fsize d + 1) + Z.of_nat (a + i) + 1) with (d_front d * B + (d_fsize d + 1) + Z.of_nat (a + S i)) in Hc3 by lia.
    replace (d_front d * B + (d_fsize d + 1) + Z.of_nat i + 1) with (d_front d * B + (d_fsize d + 1) + Z.of_nat (S i)) in Hto3 by lia.
    apply (IH h2 (<[i := x]> (taken mv (a + i) x ys)) (S i) cur1 to1 fuel); try assumption; [lia|lia|]. apply shifted_step; assumption.
Qed.

Lemma dassign_it_ok h d xs ids frees mv a b first ia ib :
  dinv P h d xs ids frees -> ~ dfull P d -> (a <= b <= length xs)%nat -> mv = None \/ (0 < a)%nat ->
  deq_begin P h d = Ok first -> it_steps P h first a = Ok ia -> it_steps P h first b = Ok ib ->
  exists h' d' ids' frees', deq_assign_it h d ia ib mv = Ok (h', d') /\ dinv P h' d' (take (b - a) (drop a xs)) ids' frees' /\ mono ids' ids /\
    d_fsize d' = d_fsize d.
Proof.
  pose proof HP as [HP1 HP2]. pose proof (B_pos P HP1) as HB. intros Hd Hnf Hab Hm Ef Ea Eb. pose proof (dinv_size P _ _ _ _ _ Hd) as Hsz.
  assert (Hrefl : forall it, it_eq it it = true).
  { intros it. unfold it_eq. rewrite bool_decide_eq_true_2 by reflexivity. rewrite !Z.eqb_refl. reflexivity. }
  assert (Hpush : forall h d it last fuel, it_eq it last = true -> deq_push_it h d it last mv fuel = Ok (h, d)).
  { intros h' d' it last fuel E. destruct fuel; cbn [deq_push_it]; rewrite E; reflexivity. }
  destruct (decide (xs = [])) as [->|Hne].
  - cbn in Hab. assert (a = 0%nat) as -> by lia. assert (b = 0%nat) as -> by lia. cbn [it_steps] in Ea, Eb. injection Ea as <-. injection Eb as <-.
    unfold deq_assign_it. rewrite Hsz. change (zlen (@nil V) =? 0) with true. cbn [obind]. rewrite Hpush by apply Hrefl.
    exists h, d, ids, frees. split; [reflexivity|]. split; [exact Hd|]. split; [apply mono_refl|reflexivity].
  - destruct Hd as [(_ & E & _)|(t & Hl)]; [congruence|]. pose proof Hl as (Ed & Hbk & _).
    destruct (dbegin_ok P HP1 _ _ _ _ _ _ Hl Hnf) as (to & E1 & Hf). rewrite Ef in E1. injection E1 as <-.
    destruct (dend_ok P HP1 _ _ _ _ _ _ Hl Hnf) as (stop & E2 & Hst).
    pose proof (it_at_steps _ _ _ _ _ _ Hf Ea) as Hia. pose proof (it_at_steps _ _ _ _ _ _ Hf Eb) as Hib.
    destruct (dover_ok d t ids frees mv xs a b ib stop Hab Hm (b - a) h xs 0 ia first (Z.to_nat (d_size d))) as (h1 & ys & cur & to1 & E3 & Hsh & Hl1 & Hc & Hla & Hto & Hst1);
      try assumption; [lia|rewrite Hsz; unfold zlen; lia|apply shifted0|rewrite Nat.add_0_r; exact Hia|change (Z.of_nat 0) with 0; rewrite Z.add_0_r; exact Hf|].
    unfold deq_assign_it. destruct (Z.eqb_spec (d_size d) 0) as [E0|_]; [rewrite Hsz in E0; apply zlen_0 in E0; congruence|].
    rewrite Ef, E2. cbn [obind]. rewrite E3. cbn [obind]. assert (He : it_eq cur ib = true) by (rewrite (it_at_eq P HP1 _ _ _ _ _ _ Hc Hla); apply Z.eqb_refl).
    rewrite He. pose proof Hsh as (Hlen & _). pose proof (dlen_ids P _ _ _ _ _ _ Hl1) as [Ho Hll].
    assert (Hxy : zlen ys = zlen xs) by (unfold zlen; lia).
    rewrite (it_count_ok P HP1 h1 t (dq0 P d) (zlen xs) stop (small_B P HP1 HP2)) with (k := (length xs - (b - a))%nat).
    + cbn [obind]. assert (Hd1 : dinv P h1 d (take (b - a) ys ++ drop (b - a) ys) ids frees) by (rewrite take_drop; right; exists t; exact Hl1).
      destruct (dpops_ok P HP1 (length xs - (b - a)) h1 d _ _ ids frees Hd1) as (h2 & d2 & ids2 & frees2 & -> & Hd2 & _ & M2 & F2).
      { rewrite drop_length. lia. }
      cbn [obind]. rewrite Hpush by exact He. rewrite (shifted_take _ _ _ _ Hsh) in Hd2 by lia. exists h2, d2, ids2, frees2. splits; assumption.
    + intros m Hmm. rewrite <- Hxy in *. destruct Hl1 as (_ & Hbk1 & _). unfold dq0 in *.
      eapply (bk_entries P HP1); [exact Hbk1|exact Ho|exact Hll|eapply it_at_entry; exact Hst1|exact Hmm].
    + exact Hst1.
    + unfold zlen. lia.
    + rewrite Hsz. unfold zlen. lia.
    + replace (zlen xs - Z.of_nat (length xs - (b - a))) with (Z.of_nat (b - a)) by (unfold zlen; lia). exact Hto.
Qed.

End alias.
