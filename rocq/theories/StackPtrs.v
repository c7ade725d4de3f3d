(** The pointers StackBuffer.hpp forms, and the addresses at which it accesses index records.
    StackModel checks the bytes that are accessed; this file lists the rest: a pointer may be formed only up to one past
    the end of its array, and a [dataIndex] (two int32_t, so 4 byte alignment) may be accessed only at an address divisible
    by 4.  All offsets are relative to [origin]. *)
From stdpp Require Import gmap.
From Verif Require Import Base Heap Own CircInts StackModel StackSpec StackProofs StackWorld StackFinal StackInts.

(** Offsets of the index records that are read or written through a [dataIndex] pointer.  std::reverse swaps the i-th
    record from the left with the i-th from the right. *)
Definition stk_touch (s : stk) (o : kop) : list Z :=
  match o with
  | KPush (Some _) n => if n <=? 0 then [] else if negb (stk_space s n) then [] else [k_idx s]                    (* :80-81 *)
  | KPop _ | KNextSize => if 0 <? k_count s then [k_idx s + 8] else []                                          (* :90, 96-99 *)
  | KReverse =>
      if 1 <? k_count s then
        flat_map (fun i => [k_idx s + 8 + 8 * Z.of_nat i; k_idx s + 8 * (k_count s - Z.of_nat i)]) (seq 0 (Z.to_nat (k_count s / 2)))  (* :124 *)
      else []
  | _ => []
  end.

(** Offsets of all pointers formed by StackBufferRaw (StackBuffer.hpp:45-134). *)
Definition new_ptrs (n : Z) : list Z := [n; n - diSize].                                                         (* :48-49 *)
Definition stk_ptrs (s : stk) (o : kop) : outcome (list Z) :=
  match o with
  | KPush (Some _) n => if n <=? 0 then Ok [] else if negb (stk_space s n) then Ok [] else Ok [k_next s + n; k_idx s - diSize]   (* :82-83 *)
  | KNextSize => Ok (if 0 <? k_count s then [k_idx s + 8] else [])                                               (* :90 *)
  | KPop k =>
      if 0 <? k_count s then
        b <-! top_size s ;;
        if b <=? k then
          off <-! top_offset s ;;
          Ok ([k_idx s + 8; off] ++ (if off + b =? k_next s then [k_next s - b] else []) ++                      (* :96-103 *)
              (if k_count s - 1 =? 0 then new_ptrs (k_size s) else []))                                          (* :108-110 *)
        else Ok [k_idx s + 8]
      else Ok []
  | KReverse => Ok (if 1 <? k_count s then [k_idx s + 8; k_idx s + 8 * (k_count s + 1)] else [])                 (* :124 *)
  | KClear => Ok (new_ptrs (k_size s))                                                                          (* :132-133 *)
  | _ => Ok []
  end.

(** Pointers formed by the members of StackBuffer, into the block the object has afterwards. *)
Definition set_ptrs (next size count : Z) : list Z := [next; size; size - diSize; size - diSize - diSize * count].
Definition sw_ptrs (w : sworld) (p : swop) : outcome (list Z) :=
  match p with
  | SNew _ n => Ok (if n <? 0 then [] else new_ptrs n)                                                          (* :147 *)
  | SCopy _ src =>                                                                                              (* :172-176 *)
      b <-! sget w src ;;
      Ok (if match b_data b with Some _ => true | None => false end && (0 <? b_stated b) then set_ptrs (b_next b) (b_size b) (b_count b) else [])
  | SCopyAssign _ src => b <-! sget w src ;; Ok (set_ptrs (b_next b) (b_size b) (b_count b))                     (* :208-213 *)
  | SResize o n =>
      b <-! sget w o ;;
      Ok (if n <? 0 then [] else if n =? b_size b then []
          else if b_count b =? 0 then new_ptrs n                                                                 (* :227 *)
          else if negb (b_stated b <? n) && (n <? b_next b + diSize * b_count b) then []                         (* :248-252 *)
          else [n - diSize * b_count b; b_size b - diSize * b_count b] ++ set_ptrs n n (b_count b))              (* :232-241, 253-262 *)
  | SCall o c => b <-! sget w o ;; stk_ptrs (sraw_of (s_heap w) b) c
  | _ => Ok []
  end.
(** ... and the index records accessed: resize and the copies move them as bytes (memmove, memcpy). *)
Definition sw_touch (w : sworld) (p : swop) : outcome (list (ptr * Z)) :=
  match p with
  | SCall o c => b <-! sget w o ;; Ok (map (fun z => (b_org b, z)) (stk_touch (sraw_of (s_heap w) b) c))
  | _ => Ok []
  end.

Definition into (len z : Z) : Prop := 0 <= z <= len.

(** ** Alignment *)
Lemma touch_mod s q e o z : stk_inv s (q, e) -> In z (stk_touch s o) -> exists k, z = k_size s - 8 * k.
Proof.
  intros [es Hok]. pose proof (ok_idx _ _ _ _ Hok) as Hi. destruct o as [[d|] n|k| | |n| | | |]; cbn [stk_touch]; try (intros []).
  - destruct (n <=? 0); [intros []|]. destruct (negb _); [intros []|]. intros [<-|[]]. exists (1 + k_count s). lia.
  - destruct (0 <? k_count s); [|intros []]. intros [<-|[]]. exists (k_count s). lia.
  - destruct (0 <? k_count s); [|intros []]. intros [<-|[]]. exists (k_count s). lia.
  - destruct (1 <? k_count s); [|intros []]. intros (i & _ & Hz)%in_flat_map. destruct Hz as [<-|[<-|[]]]; [exists (k_count s - Z.of_nat i)|exists (1 + Z.of_nat i)]; lia.
Qed.

Lemma shift_mod a n k : (a + (n - 8 * k)) mod 4 = (a + n) mod 4.
Proof. replace (a + (n - 8 * k)) with (a + n + (- 2 * k) * 4) by lia. apply Z_mod_plus_full. Qed.

Lemma raw_reach mem n ops s tr : zlen mem = n -> n <= int_max -> Forall kop_legal ops -> stk_run (stk_new mem n) ops = Ok (s, tr) ->
  exists q e, stk_inv s (q, e) /\ lifo_trace n ([], true) tr (q, e) /\ k_size s = n /\ zlen (k_mem s) = n.
Proof.
  intros Hm Hn Hl Er. pose proof (zlen_nonneg mem). destruct (krun_ok ops (stk_new mem n) ([], true) (stk_new_inv mem n ltac:(lia) Hn) Hl) as (s' & tr' & a' & E' & H2 & H3 & H4 & H5 & H6).
  rewrite Er in E'. injection E' as <- <-. destruct a' as [q e]. exists q, e. cbn in *. splits; congruence || assumption.
Qed.

Lemma stack_raw_aligned mem n ops s tr o z base : zlen mem = n -> n <= int_max -> Forall kop_legal ops -> stk_run (stk_new mem n) ops = Ok (s, tr) ->
  In z (stk_touch s o) -> ((base + z) mod 4 = 0 <-> (base + n) mod 4 = 0).
Proof.
  intros Hm Hn Hl Er Hz. destruct (raw_reach _ _ _ _ _ Hm Hn Hl Er) as (q & e & Hi & _ & Hs & _). destruct (touch_mod _ _ _ _ _ Hi Hz) as (k & ->).
  rewrite Hs, shift_mod. reflexivity.
Qed.

(** What is accessed is where the record of the block is. *)
Lemma touch_push s q e d n : stk_inv s (q, e) -> 0 < n -> n <= zlen d -> stk_space s n = true ->
  exists s' z, stk_push s (Some d) n = Ok (s', true) /\ stk_touch s (KPush (Some d) n) = [z] /\ mread (k_mem s') z 8 = Ok (enc32 (k_next s) ++ enc32 n).
Proof.
  intros Hi Hn Hd Hsp. destruct (push_ok _ _ _ _ _ Hi Hn Hd Hsp) as (s' & E & Hi' & _). exists s', (k_idx s). split; [exact E|]. cbn [stk_touch]. rewrite Hsp.
  split; [destruct (Z.leb_spec n 0); [lia|reflexivity]|]. unfold stk_push in E. destruct (Z.leb_spec n 0); [lia|]. rewrite Hsp in E; cbn [negb] in E.
  apply obind_ok in E as (bs & _ & E). apply obind_ok in E as (m1 & W1 & E). apply obind_ok in E as (m2 & W2 & E). apply obind_ok in E as (m3 & W3 & [= <-]). cbn [k_mem].
  replace 8 with (zlen (enc32 (k_next s)) + zlen (enc32 n)) by (rewrite !zlen_enc32; reflexivity). apply mread_app; [|rewrite zlen_enc32; apply (mread_mwrite_same _ _ _ _ W3)].
  rewrite (mread_mwrite_disj _ _ _ _ (k_idx s) _ W3) by (rewrite !zlen_enc32; lia). apply (mread_mwrite_same _ _ _ _ W2).
Qed.

(** ** Pointers *)
Definition moves_index (o : kop) (x : kret) (n : Z) (q : list (list byte)) : Prop :=
  match o with
  | KPush _ _ => x = RBool true -> 8 * (zlen q + 1) <= n
  | KClear => 8 <= n
  | _ => True
  end.

Lemma kstep_inv s a o s' x : stk_inv s a -> kop_legal o -> stk_step s o = Ok (s', x) ->
  exists a', stk_inv s' a' /\ lifo_step (k_size s) a o x a' /\ k_size s' = k_size s /\ zlen (k_mem s') = zlen (k_mem s).
Proof.
  intros Hi Hl E. destruct (kstep_ok s a o Hi Hl) as (s1 & x1 & a1 & E1 & H). rewrite E in E1. injection E1 as <- <-. exists a1. tauto.
Qed.

Lemma inv_count s q e : stk_inv s (q, e) -> k_count s = zlen q /\ 0 <= k_count s /\ k_idx s = k_size s - 8 - 8 * k_count s /\ 0 <= k_next s <= k_size s /\ held q + 8 * zlen q <= k_size s /\ k_size s <= zlen (k_mem s).
Proof.
  intros [es Hok]. pose proof (ok_count _ _ _ _ Hok) as Hc. pose proof (zlen_forall2 _ _ _ (ok_blocks _ _ _ _ Hok)) as Hq. pose proof (ok_size _ _ _ _ Hok). pose proof (ok_need _ _ _ _ Hok) as Hn. unfold need in Hn.
  pose proof (zlen_nonneg q). splits; try (apply Hok); cbn in *; try lia.
Qed.

Lemma ptrs_exact s q e o s' x q' e' zs : stk_inv s (q, e) -> lifo_step (k_size s) (q, e) o x (q', e') -> stk_step s o = Ok (s', x) -> stk_inv s' (q', e') -> k_size s' = k_size s ->
  stk_ptrs s o = Ok zs -> (Forall (into (k_size s)) zs <-> moves_index o x (k_size s) q').
Proof.
  intros Hi Hls Es Hi' Hk Ez. destruct (inv_count _ _ _ Hi) as (Hc & Hc0 & Hx & Hn & Hne & _). destruct (inv_count _ _ _ Hi') as (Hc' & Hc0' & Hx' & Hn' & Hne' & _).
  pose proof (held_nonneg q). pose proof (held_nonneg q').
  assert (Hin : forall z, into (k_size s) z <-> 0 <= z <= k_size s) by reflexivity.
  destruct o as [d n|k| | |n| | | |]; cbn [stk_ptrs moves_index] in *; try (injection Ez as <-; split; [auto|constructor]; fail).
  - destruct d as [d|]; cycle 1.
    { injection Ez as <-. cbn in Es. injection Es as <- <-. split; [discriminate|constructor]. }
    cbn [stk_step] in Es. unfold stk_push in Es. destruct (Z.leb_spec n 0); [injection Ez as <-; injection Es as <- <-; split; [discriminate|constructor]|].
    destruct (stk_space s n) eqn:Hsp; cbn [negb] in *; [|injection Ez as <-; injection Es as <- <-; split; [discriminate|constructor]].
    injection Ez as <-. rewrite !Forall_cons, Forall_nil. rewrite !Hin. unfold stk_space, diSize in *.
    apply obind_ok in Es as ([s1 b1] & Es & [= <- <-]).
    apply obind_ok in Es as (bs & _ & E). apply obind_ok in E as (m1 & W1 & E). apply obind_ok in E as (m2 & W2 & E). apply obind_ok in E as (m3 & W3 & [= <- <-]). cbn [k_count k_size k_next k_idx] in *.
    split; [intros (_ & Hq1 & _) _; lia|intros Hq1; specialize (Hq1 eq_refl); splits; lia].
  - split; [auto|]. intros _. destruct (Z.ltb_spec 0 (k_count s)) as [Hp|]; [|injection Ez as <-; constructor].
    destruct q as [|b q0]; [exfalso; unfold zlen in *; cbn in *; lia|].
    destruct (top_near _ _ _ _ Hi) as (off & E1 & E2 & Hb & Ho & Hob). rewrite E1, E2 in Ez. cbn [obind] in Ez. rewrite zlen_cons in *. cbn [held] in *. pose proof (zlen_nonneg q0). pose proof (held_nonneg q0).
    destruct (Z.leb_spec (zlen b) k); injection Ez as <-; [|repeat constructor; unfold into; lia].
    constructor; [unfold into; lia|]. constructor; [unfold into; lia|]. apply Forall_app. split.
    + destruct (off + zlen b =? k_next s); repeat constructor; unfold into; lia.
    + destruct (k_count s - 1 =? 0); unfold new_ptrs, diSize; repeat constructor; unfold into; lia.
  - injection Ez as <-. split; [auto|]. intros _. destruct (Z.ltb_spec 0 (k_count s)); repeat constructor; unfold into; lia.
  - injection Ez as <-. split; [auto|]. intros _. destruct (Z.ltb_spec 1 (k_count s)); repeat constructor; unfold into; lia.
  - injection Ez as <-. unfold new_ptrs, diSize. rewrite !Forall_cons, Forall_nil. rewrite !Hin. split; [lia|intros; splits; lia].
Qed.

Lemma stack_raw_ptrs mem n ops s tr o s' x zs : zlen mem = n -> n <= int_max -> Forall kop_legal (ops ++ [o]) -> stk_run (stk_new mem n) ops = Ok (s, tr) ->
  stk_step s o = Ok (s', x) -> stk_ptrs s o = Ok zs ->
  exists a q' e', lifo_trace n ([], true) tr a /\ lifo_step n a o x (q', e') /\ (Forall (into n) zs <-> moves_index o x n q').
Proof.
  intros Hm Hn Hl Er Es Ez. apply Forall_app in Hl as [Hl Ho]. apply Forall_cons in Ho as [Ho _]. destruct (raw_reach _ _ _ _ _ Hm Hn Hl Er) as (q & e & Hi & Ht & Hs & _).
  destruct (kstep_inv _ _ _ _ _ Hi Ho Es) as ([q' e'] & Hi' & Hls & Hk & _). exists (q, e), q', e'. split; [exact Ht|]. rewrite Hs in Hls. split; [exact Hls|].
  rewrite <- Hs in Hls |- * at 1. rewrite (ptrs_exact _ _ _ _ _ _ _ _ _ Hi Hls Es Hi' Hk Ez). rewrite Hs. reflexivity.
Qed.

(** ** StackBuffer *)
(** The object whose pointers a call sets. *)
Definition sets (p : swop) : option nat :=
  match p with SNew o _ | SCopy o _ | SCopyAssign o _ | SResize o _ | SCall o _ => Some o | _ => None end.
(** Room for the index pointer itself: 8 bytes per block held, and 8 more. *)
Definition spacious (v : sval) : Prop := 8 * (zlen v.2.1 + 1) <= v.1.

Lemma sobj_get w A o b : swi True w A -> sget w o = Ok b -> exists v, A !! o = Some v /\ sobj True (s_heap w) b v.
Proof.
  intros Hw. unfold sget. destruct (s_objs w !! o) as [b'|] eqn:E; [|discriminate]. intros [= ->]. destruct (A !! o) as [v|] eqn:EA; [|apply (oi_none _ _ _ _ _ Hw) in EA; congruence].
  exists v. split; [reflexivity|]. eapply oi_obj; eassumption.
Qed.

Lemma sobj_facts h b c q e : sobj True h b (c, (q, e)) -> b_size b = c /\ b_stated b = c /\ b_count b = zlen q /\ 0 <= b_next b <= c /\ 0 <= zlen q /\ 0 <= c /\ c <= zlen (hget h (b_data b)).
Proof.
  intros [(id & m & Hd & Ho & Hlv & Hm & Hst & Hv & Hi)|(Hd & Hst & Hs & Hn & Hc & [= -> -> ->] & _)].
  - destruct (inv_count _ _ _ Hi) as (Hc & Hc0 & Hx & Hn & Hne & Hlen). cbn in *. pose proof (zlen_nonneg q). rewrite Hd. cbn [hget]. rewrite Hlv. cbn. splits; try lia.
  - rewrite Hd. cbn. unfold zlen. cbn. splits; lia.
Qed.

(** What a call must leave for the index pointer. *)
Definition index_room (p : swop) (x : swret) (c : Z) (q : list (list byte)) : Prop :=
  match p, x with
  | SCall _ k, SRet y => moves_index k y c q
  | _, _ => spacious (c, (q, true))
  end.

Definition olen (w : sworld) (o : nat) : Z := match s_objs w !! o with Some b => zlen (hget (s_heap w) (b_org b)) | None => 0 end.

Lemma set_into len next c count : 0 <= next <= c -> 0 <= count -> 0 <= c <= len -> (Forall (into len) (set_ptrs next c count) <-> 8 * (count + 1) <= c).
Proof.
  intros H1 H2 H3. unfold set_ptrs, diSize. rewrite !Forall_cons, Forall_nil. unfold into. split; [lia|]. intros H. splits; lia.
Qed.
Lemma new_into len n : 0 <= n <= len -> (Forall (into len) (new_ptrs n) <-> 8 <= n).
Proof. intros H. unfold new_ptrs, diSize. rewrite !Forall_cons, Forall_nil. unfold into. split; [lia|]. intros. splits; lia. Qed.

Lemma olen_ge w A o (v : sval) : swi True w A -> A !! o = Some v -> 0 <= v.1 <= olen w o.
Proof.
  intros Hw HA. unfold olen. destruct (s_objs w !! o) as [b|] eqn:Eb; [|pose proof (proj1 (oi_none _ _ _ _ _ Hw o) Eb); congruence].
  destruct v as [c [q e]]. pose proof (oi_obj _ _ _ _ _ Hw _ _ _ Eb HA) as Ho. cbn [fst]. pose proof (sobj_facts _ _ _ _ _ Ho) as (_ & _ & _ & _ & _ & Hc & Hl). split; [exact Hc|].
  destruct Ho as [(id & m & Hd & Horg & _)|(_ & _ & _ & _ & _ & [= -> -> ->] & _)]; [rewrite Horg, <- Hd; exact Hl|apply zlen_nonneg].
Qed.

Lemma mmove_len m dst src n m' : mmove m dst src n = Ok m' -> zlen m' = zlen m.
Proof. unfold mmove. intros (bs & _ & E)%obind_ok. apply (mwrite_len _ _ _ _ E). Qed.

Lemma ptrs_upper s q e o zs : stk_inv s (q, e) -> stk_ptrs s o = Ok zs -> Forall (fun z => z <= k_size s) zs.
Proof.
  intros Hi Ez. destruct (inv_count _ _ _ Hi) as (Hc & Hc0 & Hx & Hn & Hne & _).
  destruct o as [d n|k| | |n| | | |]; cbn [stk_ptrs] in *; try (injection Ez as <-; constructor; fail).
  - destruct d as [d|]; [|injection Ez as <-; constructor]. destruct (Z.leb_spec n 0); [injection Ez as <-; constructor|].
    unfold stk_space in Ez. destruct (Z.leb_spec n (k_size s - k_next s - (k_count s + 1) * diSize)); cbn [negb] in Ez; injection Ez as <-; unfold diSize in *; repeat constructor; lia.
  - destruct (Z.ltb_spec 0 (k_count s)) as [Hp|]; [|injection Ez as <-; constructor]. destruct q as [|b q0]; [exfalso; unfold zlen in *; cbn in *; lia|].
    destruct (top_near _ _ _ _ Hi) as (off & E1 & E2 & Hb & Ho & Hob). rewrite E1, E2 in Ez. cbn [obind] in Ez.
    destruct (Z.leb_spec (zlen b) k); injection Ez as <-; [|repeat constructor; lia]. constructor; [lia|]. constructor; [lia|]. apply Forall_app. split.
    + destruct (off + zlen b =? k_next s); repeat constructor; lia.
    + destruct (k_count s - 1 =? 0); unfold new_ptrs, diSize; repeat constructor; lia.
  - injection Ez as <-. destruct (Z.ltb_spec 0 (k_count s)); repeat constructor; lia.
  - injection Ez as <-. destruct (Z.ltb_spec 1 (k_count s)); repeat constructor; lia.
  - injection Ez as <-. unfold new_ptrs, diSize. repeat constructor; lia.
Qed.

Lemma moves_same c a o x q1 e1 q2 e2 : lifo_step c a o x (q1, e1) -> lifo_step c a o x (q2, e2) -> (moves_index o x c q1 <-> moves_index o x c q2).
Proof.
  intros H1 H2. destruct o as [d n|k| | |n| | | |]; cbn [moves_index]; try reflexivity. destruct d as [d|]; inversion H1; subst; inversion H2; subst; try reflexivity; split; intros ? [=].
Qed.
Lemma sws_copy_inv A o s x A' : sws_step A (SCopy o s) x A' -> exists v : sval, A !! s = Some v /\ A' = <[o := v]> A.
Proof. inversion 1; subst; eauto. Qed.
Lemma sws_copy_assign_inv A o s x A' : sws_step A (SCopyAssign o s) x A' -> exists v : sval, A !! s = Some v /\ A' = <[o := v]> A.
Proof. inversion 1; subst; eauto. Qed.
Lemma sws_resize_inv A o n x A' : sws_step A (SResize o n) x A' ->
  n < 0 \/ x = SThrew \/ (exists c a, A !! o = Some (c, a) /\ n = c) \/ (exists c q e e', A !! o = Some (c, (q, e)) /\ A' = <[o := (n, (q, e'))]> A).
Proof. inversion 1; subst; eauto 12. Qed.
Lemma sws_call_inv A o k x A' : sws_step A (SCall o k) x A' -> exists y c a a', x = SRet y /\ A !! o = Some (c, a) /\ lifo_step c a k y a' /\ A' = <[o := (c, a')]> A.
Proof. inversion 1; subst; eauto 10. Qed.

Lemma sw_ptrs_exact w A p w' x A' zs o : swi True w A -> swop_legal A p -> swstep w p = Ok (w', x) -> sws_step A p x A' -> swi True w' A' -> sw_ptrs w p = Ok zs -> sets p = Some o ->
  zs = [] \/ exists c q e, A' !! o = Some (c, (q, e)) /\ (Forall (into (olen w' o)) zs <-> index_room p x c q).
Proof.
  intros Hw Hl Es Hsp Hw' Ez Ho. destruct p; cbn [sets] in Ho; try discriminate; injection Ho as ->; cbn [sw_ptrs] in Ez.
  - (* new *) destruct (Z.ltb_spec n 0); [left; congruence|]. injection Ez as <-. inversion Hsp; subst; [|lia]. right. exists n, [], true. rewrite lookup_insert. split; [reflexivity|].
    rewrite new_into by (apply (olen_ge _ _ _ _ Hw' (lookup_insert _ _ _))). unfold index_room, spacious, zlen; cbn. lia.
  - (* copy *) apply obind_ok in Ez as (b & Hb & [= <-]). destruct (_ && _) eqn:Ec; [|left; reflexivity]. right. destruct (sobj_get _ _ _ _ Hw Hb) as ([c [q e]] & HA & Hob).
    apply sws_copy_inv in Hsp as (v & HA' & ->). pose proof (eq_trans (eq_sym HA') HA) as Hv; apply (inj Some) in Hv; subst v. exists c, q, e. rewrite lookup_insert. split; [reflexivity|].
    destruct (sobj_facts _ _ _ _ _ Hob) as (-> & _ & -> & Hn & Hq & Hc & _). rewrite set_into by (assumption || (apply (olen_ge _ _ _ _ Hw' (lookup_insert _ _ _)))). reflexivity.
  - apply obind_ok in Ez as (b & Hb & [= <-]). right. destruct (sobj_get _ _ _ _ Hw Hb) as ([c [q e]] & HA & Hob).
    apply sws_copy_assign_inv in Hsp as (v & HA' & ->). pose proof (eq_trans (eq_sym HA') HA) as Hv; apply (inj Some) in Hv; subst v. exists c, q, e. rewrite lookup_insert. split; [reflexivity|].
    destruct (sobj_facts _ _ _ _ _ Hob) as (-> & _ & -> & Hn & Hq & Hc & _). rewrite set_into by (assumption || (apply (olen_ge _ _ _ _ Hw' (lookup_insert _ _ _)))). reflexivity.
  - (* resize *) apply obind_ok in Ez as (b & Hb & [= <-]). destruct (sobj_get _ _ _ _ Hw Hb) as ([c [q e]] & HA & Hob). cbn [swstep] in Es. rewrite Hb in Es. cbn [obind] in Es.
    destruct (sobj_facts _ _ _ _ _ Hob) as (Hs & Hst & Hct & Hn & Hq & Hc & Hlen). unfold sb_resize in Es.
    destruct (Z.ltb_spec n 0); [left; reflexivity|]. destruct (Z.eqb_spec n (b_size b)); [left; reflexivity|].
    assert (Hx : x = SThrew \/ exists e', A' !! o = Some (n, (q, e'))).
    { apply sws_resize_inv in Hsp as [H1|[->|[(c2 & a2 & H1 & ->)|(c2 & q2 & e2 & e3 & H1 & ->)]]]; [lia|left; reflexivity|..].
      - pose proof (eq_trans (eq_sym H1) HA) as Hv; apply (inj Some) in Hv. injection Hv as -> ->. lia.
      - pose proof (eq_trans (eq_sym H1) HA) as Hv; apply (inj Some) in Hv. injection Hv as -> -> ->. right. exists e3. apply lookup_insert. }
    destruct (Z.eqb_spec (b_count b) 0).
    { destruct Hx as [->|(e' & HA')]; [apply obind_ok in Es as ([[h1 b1] r] & E1 & [= <- Hr]); apply obind_ok in E1 as ([h2 b2] & _ & [= _ _ <-]); discriminate|].
      right. exists n, q, e'. split; [exact HA'|]. rewrite new_into by (apply (olen_ge _ _ _ _ Hw' HA')). unfold index_room, spacious; cbn [fst snd]. lia. }
    assert (Hneed : 8 * zlen q <= c).
    { destruct Hob as [(id & m & _ & _ & _ & _ & _ & Hv & Hi)|(_ & _ & _ & _ & H0 & _)]; [|lia]. apply inv_count in Hi. pose proof (held_nonneg q). cbn in *. lia. }
    destruct (negb (b_stated b <? n) && (n <? b_next b + diSize * b_count b)) eqn:Ec; [left; reflexivity|]. right.
    assert (Hnx : x <> SThrew /\ c <= olen w' o).
    { destruct (Z.ltb_spec (b_stated b) n); cbn [negb andb] in Ec.
      - split; [intros ->; apply obind_ok in Es as ([[h1 b1] r] & E1 & [= <- Hr]); apply obind_ok in E1 as ([h2 b2] & _ & E1); apply obind_ok in E1 as (m & _ & [= _ _ <-]); discriminate|].
        destruct Hx as [->|(e' & HA')]; [exfalso; apply obind_ok in Es as ([[h1 b1] r] & E1 & [= <- Hr]); apply obind_ok in E1 as ([h2 b2] & _ & E1); apply obind_ok in E1 as (m & _ & [= _ _ <-]); discriminate|].
        pose proof (olen_ge _ _ _ _ Hw' HA') as Hol. cbn [fst] in Hol. lia.
      - rewrite Ec in Es. apply obind_ok in Es as ([[h1 b1] r] & E1 & [= <- <-]). apply obind_ok in E1 as (m & Em & [= <- <- <-]). split; [discriminate|]. unfold olen. cbn [s_objs s_heap]. rewrite lookup_insert. cbn [b_org].
        apply mmove_len in Em. destruct (b_data b) as [id|] eqn:Ed; [|unfold zlen in Hlen; cbn in *; lia]. cbn [hget hput] in *. destruct (h_live (s_heap w) !! id) as [m0|] eqn:El; cbn in *; [rewrite lookup_insert; cbn; lia|].
        rewrite El. cbn. lia. }
    destruct Hnx as [Hnx Hcl]. destruct Hx as [->|(e' & HA')]; [congruence|]. exists n, q, e'. split; [exact HA'|]. pose proof (olen_ge _ _ _ _ Hw' HA') as Hol. cbn [fst] in Hol.
    unfold set_ptrs, diSize, index_room, spacious, into. cbn [app fst snd]. rewrite !Forall_cons, Forall_nil. rewrite Hs, Hct. split; [lia|]. intros Hr. splits; lia.
  - (* call *) apply obind_ok in Ez as (b & Hb & Ez). destruct (sobj_get _ _ _ _ Hw Hb) as ([cp [q e]] & HA & Hob). cbn [swstep] in Es. rewrite Hb in Es. cbn [obind] in Es.
    apply obind_ok in Es as ([[h1 b1] y] & E1 & [= <- <-]). unfold sb_op in E1. apply obind_ok in E1 as ([s y'] & Est & [= <- <- <-]).
    apply sws_call_inv in Hsp as (y & c2 & a2 & [q' e'] & Hy & HA2 & Hls & ->). injection Hy as <-. pose proof (eq_trans (eq_sym HA2) HA) as Hv2; apply (inj Some) in Hv2. injection Hv2 as -> ->.
    right. exists cp, q', e'. rewrite lookup_insert. split; [reflexivity|]. cbn [index_room]. pose proof (olen_ge _ _ o _ Hw' (lookup_insert _ _ _)) as Hol. cbn [fst] in Hol.
    set (len := olen _ o) in *. clearbody len. destruct Hl as [_ Hl].
    destruct Hob as [(id & m & Hd & Horg & Hlv & _ & _ & Hv & Hi)|(_ & _ & Hs & Hn & Hc & [= -> -> ->] & _)].
    + cbn [fst snd] in *. subst cp. unfold sraw_of in *. rewrite Horg in *. cbn [hget] in *. rewrite Hlv in *. cbn [default from_option] in *.
      destruct (kstep_inv _ _ _ _ _ Hi Hl Est) as ([q2 e2] & Hi' & Hls2 & Hk & _).
      assert (Hiff : Forall (into len) zs <-> Forall (into (b_size b)) zs).
      { rewrite !Forall_forall. pose proof (ptrs_upper _ _ _ _ _ Hi Ez) as Hup. rewrite Forall_forall in Hup. unfold into in *. split; intros Hf z Hz; specialize (Hf z Hz); specialize (Hup z Hz); cbn in Hup; lia. }
      rewrite Hiff. apply (ptrs_exact _ _ _ _ _ _ _ _ _ Hi Hls2 Est Hi' Hk) in Ez. cbn [k_size] in Ez. etransitivity; [exact Ez|]. eapply moves_same; [exact Hls2|exact Hls].
    + unfold sraw_of in *. rewrite Hs, Hn, Hc in *. destruct c as [[d|] n|k| | |n| | | |]; cbn [stk_ptrs moves_index k_count k_next k_size] in *; try (injection Ez as <-; split; [auto|constructor]; fail).
      * cbn [stk_step stk_push] in Est. unfold stk_space in *. cbn [k_size k_next k_count] in *. destruct (Z.leb_spec n 0); [injection Ez as <-; injection Est as <- <-; split; [discriminate|constructor]|].
        unfold diSize in *. destruct (Z.leb_spec n (0 - 0 - (0 + 1) * 8)); [lia|]. injection Ez as <-. injection Est as <- <-. split; [discriminate|constructor].
      * cbn in Est. injection Est as <- <-. injection Ez as <-. split; [discriminate|constructor].
      * injection Ez as <-. unfold new_ptrs, diSize. rewrite !Forall_cons, Forall_nil. unfold into. lia.
Qed.

(** Everything at once, over programs. *)
Lemma stack_world_ptrs junk ps p w tr w' x zs o : swprog_ok True (sworld0 junk) (ps ++ [p]) -> swrun (sworld0 junk) ps = Ok (w, tr) -> swstep w p = Ok (w', x) -> sw_ptrs w p = Ok zs -> sets p = Some o ->
  exists A A', sws_trace ∅ tr A /\ sws_step A p x A' /\
    (zs = [] \/ exists c q e, A' !! o = Some (c, (q, e)) /\ (Forall (into (olen w' o)) zs <-> index_room p x c q)).
Proof.
  intros Hok Er Es Ez Ho. destruct (swprog_ok_app _ _ _ _ _ _ Hok Er) as [Hok1 Hok2]. destruct (swrun_ok True ps _ _ (sworld0_inv True junk) Hok1) as (w1 & tr1 & A & E1 & Ht & Hw & _).
  rewrite Er in E1. injection E1 as <- <-. destruct Hok2 as (Hl & Hs & _). apply (slegal_transfer _ _ _ _ Hw) in Hl.
  destruct (swstep_ok True _ _ _ Hw Hl Hs) as (w2 & x2 & A' & E2 & Hsp & Hw'). rewrite Es in E2. injection E2 as <- <-. exists A, A'. split; [exact Ht|]. split; [exact Hsp|].
  exact (sw_ptrs_exact _ _ _ _ _ _ _ _ Hw Hl Es Hsp Hw' Ez Ho).
Qed.

Lemma stack_world_aligned junk ps p w tr zs id z addr : swprog_ok True (sworld0 junk) (ps ++ [p]) -> swrun (sworld0 junk) ps = Ok (w, tr) -> sw_touch w p = Ok zs -> In (Some id, z) zs -> addr mod 4 = 0 ->
  exists A o k c a, sws_trace ∅ tr A /\ p = SCall o k /\ A !! o = Some (c, a) /\ ((addr + z) mod 4 = 0 <-> c mod 4 = 0).
Proof.
  intros Hok Er Ez Hz Hal. destruct (swprog_ok_app _ _ _ _ _ _ Hok Er) as [Hok1 Hok2]. destruct (swrun_ok True ps _ _ (sworld0_inv True junk) Hok1) as (w1 & tr1 & A & E1 & Ht & Hw & _).
  rewrite Er in E1. injection E1 as <- <-. destruct p; cbn [sw_touch] in Ez; try (injection Ez as <-; destruct Hz). apply obind_ok in Ez as (b & Hb & [= <-]). destruct (sobj_get _ _ _ _ Hw Hb) as ([cp [q e]] & HA & Hob).
  exists A, o, c, cp, (q, e). splits; try assumption. apply in_map_iff in Hz as (z' & [= Horg ->] & Hz).
  assert (Hk : exists k, z = cp - 8 * k).
  { destruct Hob as [(i & m & Hd & Ho & Hlv & _ & _ & Hv & Hi)|(_ & _ & Hs & Hn & Hc & [= -> -> ->] & _)].
    - cbn [fst] in Hv. subst cp. unfold sraw_of in Hz. rewrite Ho in Hz. cbn [hget] in Hz. rewrite Hlv in Hz. apply (touch_mod _ _ _ _ _ Hi) in Hz as (k & Hk). exists k. exact Hk.
    - exfalso. unfold sraw_of in Hz. destruct c as [[d|] n|k| | |n| | | |]; cbn [stk_touch k_count] in Hz; try (destruct Hz; fail); try (rewrite Hc in Hz; destruct Hz; fail).
      destruct (Z.leb_spec n 0); [destruct Hz|]. unfold stk_space in Hz. cbn in Hz. rewrite Hs, Hn, Hc in Hz. unfold diSize in Hz. destruct (Z.leb_spec n (0 - 0 - (0 + 1) * 8)); [lia|destruct Hz]. }
  destruct Hk as (k & ->). rewrite shift_mod. rewrite <- (Z.add_0_l cp) at 2. rewrite Z.add_mod, Hal by lia. rewrite Z.add_0_l, Z.mod_mod by lia. reflexivity.
Qed.

(** Sizes that are multiples of 4 keep every capacity a multiple of 4. *)
Definition even_sizes (p : swop) : Prop := match p with SNew _ n | SResize _ n => n mod 4 = 0 | _ => True end.
Definition caps4 (A : gmap nat sval) : Prop := forall o c a, A !! o = Some (c, a) -> c mod 4 = 0.
Lemma caps4_insert A o c a : caps4 A -> c mod 4 = 0 -> caps4 (<[o := (c, a)]> A).
Proof. intros H Hc o' c' a'. destruct (decide (o = o')) as [<-|Hne]; [rewrite lookup_insert; intros [= <- _]; exact Hc|rewrite lookup_insert_ne by assumption; apply H]. Qed.
Lemma caps4_step A p x A' : caps4 A -> even_sizes p -> sws_step A p x A' -> caps4 A'.
Proof.
  intros Hc He Hs. assert (Hv : forall o v, A !! o = Some v -> v.1 mod 4 = 0) by (intros o [c a] E; apply (Hc _ _ _ E)).
  inversion Hs; subst; try assumption; cbn [even_sizes] in He; repeat match goal with H : A !! ?o = Some ?v |- _ => pose proof (Hv _ _ H); clear H end;
    repeat match goal with v : sval |- _ => destruct v as [? ?] end; unfold nostk; cbn [fst] in *; repeat (apply caps4_insert); try assumption; try reflexivity.
  intros o' c a. rewrite lookup_delete_Some. intros [_ E]. eauto.
Qed.
Lemma caps4_trace A tr A' : caps4 A -> Forall (fun e => even_sizes e.1) tr -> sws_trace A tr A' -> caps4 A'.
Proof.
  intros Hc He Ht. induction Ht as [|A p x A1 tr A2 Hs _ IH]; [exact Hc|]. apply Forall_cons in He as [Hp He]. apply IH; [|exact He]. eapply caps4_step; [exact Hc|exact Hp|exact Hs].
Qed.
Lemma swrun_fst ps : forall w w' tr, swrun w ps = Ok (w', tr) -> map fst tr = ps.
Proof.
  induction ps as [|p ps IH]; intros w w' tr; cbn [swrun]; [intros [= _ <-]; reflexivity|]. intros ([w1 x] & _ & E)%obind_ok. apply obind_ok in E as ([w2 tr2] & E2 & [= _ <-]). cbn. f_equal. eapply IH, E2.
Qed.
Lemma stack_world_all_aligned junk ps p w tr zs id z addr : swprog_ok True (sworld0 junk) (ps ++ [p]) -> Forall even_sizes ps -> swrun (sworld0 junk) ps = Ok (w, tr) -> sw_touch w p = Ok zs ->
  In (Some id, z) zs -> addr mod 4 = 0 -> (addr + z) mod 4 = 0.
Proof.
  intros Hok He Er Ez Hz Ha. destruct (stack_world_aligned _ _ _ _ _ _ _ _ _ Hok Er Ez Hz Ha) as (A & o & k & c & a & Ht & _ & HA & Hiff). apply Hiff.
  eapply (caps4_trace ∅ tr A); [intros ? ? ?; rewrite lookup_empty; discriminate| |exact Ht|exact HA]. rewrite <- (swrun_fst _ _ _ _ Er) in He. rewrite Forall_forall in He. apply Forall_forall. intros [p' x'] Hin. apply He. apply elem_of_list_fmap. exists (p', x'). auto.
Qed.
