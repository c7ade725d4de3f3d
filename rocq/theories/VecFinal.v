(** Final forms of the StableBlockVector results. *)
From stdpp Require Import gmap.
From Verif Require Import Base BlkHeap BlkProofs BlkMore BlkRun BlkIter BlkIterProofs BlkWorld VecModel VecSpec VecProofs VecWorld.

Section vec.
Context {V : Type}.
Variable P : params.
Hypothesis HP : 0 <= expo P <= 30.
Notation B := (bsz P).
Implicit Types (h : bheap V) (v : vec) (xs : list V).

Lemma seq_next_ok xs o r xs' : seq_step xs o r xs' -> xs' = seq_next xs o.
Proof.
  destruct 1; cbn; try reflexivity.
  - rewrite removelast_last. reflexivity.
  - rewrite Nat2Z.id. reflexivity.
Qed.

(** A vector in use: reached from its construction by legal calls. *)
Definition vgood h v xs ids frees : Prop := vinv P h v xs ids frees /\ ~ phantom v.

Lemma default_good : vgood bheap0 (vec_default P) [] [] [].
Proof.
  split; [left; splits|intros [A _]; cbn in A; congruence].
  unfold hok; splits; [|intros b Hb; inversion Hb|intros b Hb; inversion Hb]. intros b _. split; [|reflexivity]. split; [set_solver|reflexivity].
Qed.

Lemma vrun_ok ops : forall h v xs ids frees,
  vgood h v xs ids frees -> seq_ok xs ops -> Forall no_walk ops ->
  exists h' v' tr ids' frees', vec_run P h v ops = Ok (h', v', tr) /\ map fst tr = ops /\ seq_trace xs tr (seq_after xs ops) /\
    vgood h' v' (seq_after xs ops) ids' frees'.
Proof.
  destruct HP as [HP1 HP2].
  induction ops as [|o ops IH]; intros h v xs ids frees [Hv Hp] Hok Hnw; cbn [vec_run].
  - exists h, v, [], ids, frees. splits; [constructor|split; assumption].
  - destruct Hok as [Hl Hok]. inversion Hnw as [|? ? Hn Hnw']; subst.
    destruct (vstep_ok P HP1 h v xs ids frees o HP2 Hv Hl) as (h1 & v1 & r & xs1 & ids1 & frees1 & -> & Hs & Hv1 & U & Hp1 & M).
    { destruct o; cbn in *; tauto. }
    cbn [obind]. pose proof (seq_next_ok _ _ _ _ Hs). subst xs1.
    destruct (IH h1 v1 _ ids1 frees1 (conj Hv1 (fun X => Hp (Hp1 X))) Hok Hnw') as (h2 & v2 & tr & ids2 & frees2 & -> & E & Ht & Hg).
    cbn [obind]. exists h2, v2, ((o, r) :: tr), ids2, frees2. splits; [cbn; congruence| |exact Hg].
    eapply sqt_cons; [exact Hs|exact Ht].
Qed.

(** A start state: default constructed or sized. *)
Inductive vstart : bheap V -> vec -> list V -> Prop :=
| vst_default : vstart bheap0 (vec_default P) []
| vst_sized n x h v : 0 <= n -> vec_sized P bheap0 n x = Ok (h, v) -> vstart h v (replicate (Z.to_nat n) x).

Lemma vstart_good h v xs : vstart h v xs -> exists ids frees, vgood h v xs ids frees.
Proof.
  destruct HP as [HP1 HP2]. destruct 1 as [|n x h v Hn E].
  - exists [], []. apply default_good.
  - destruct (vsized_ok P HP1 bheap0 n x) as (h' & v' & ids & E' & Hv & Hp & _); [apply (vinv_hok P _ _ _ _ _ (proj1 default_good))|assumption|].
    rewrite E in E'. injection E' as <- <-. exists ids, []. split; assumption.
Qed.

Lemma vsized_start n x : 0 <= n -> exists h v, vec_sized P (@bheap0 V) n x = Ok (h, v).
Proof.
  intros Hn. destruct HP as [HP1 HP2].
  destruct (vsized_ok P HP1 bheap0 n x) as (h' & v' & ids & E' & _); [apply (vinv_hok P _ _ _ _ _ (proj1 default_good))|assumption|]. eauto.
Qed.

Lemma vec_sequence h0 v0 xs0 ops :
  vstart h0 v0 xs0 -> seq_ok xs0 ops -> Forall no_walk ops ->
  exists h v tr, vec_run P h0 v0 ops = Ok (h, v, tr) /\ map fst tr = ops /\ seq_trace xs0 tr (seq_after xs0 ops).
Proof.
  intros H0 Hok Hnw. destruct (vstart_good _ _ _ H0) as (ids & frees & Hg).
  destruct (vrun_ok ops h0 v0 xs0 ids frees Hg Hok Hnw) as (h & v & tr & ids' & frees' & H1 & H2 & H3 & _). exists h, v, tr. auto.
Qed.

(** ** Stability *)
Lemma vat_loc h v xs ids frees n b :
  vinv P h v xs ids frees -> 0 <= n < zlen xs -> ids !! Z.to_nat (n / B) = Some b -> vec_at P h v n = Ok (Some b, n mod B).
Proof.
  intros Hv Hn Hb. destruct HP as [HP1 HP2]. destruct (vat_ok P HP1 h v xs ids frees n Hv Hn) as (i & b' & E & Hi & Ei & _).
  replace (Z.to_nat (n / B)) with i in Hb by lia. congruence.
Qed.

Lemma mono_lookup ids ids' i b : mono ids ids' -> ids !! i = Some b -> ids' !! i = Some b.
Proof. intros [k ->] H. apply lookup_app_l_Some. exact H. Qed.

Lemma vstep_stable h v xs ids frees o h1 v1 r :
  vgood h v xs ids frees -> seq_legal xs o -> no_walk o -> vec_step P h v o = Ok (h1, v1, r) ->
  forall n, 0 <= n < zlen xs -> n < zlen (seq_next xs o) -> vec_at P h1 v1 n = vec_at P h v n.
Proof.
  intros [Hv Hp] Hl Hnw E n Hn Hn'. destruct HP as [HP1 HP2].
  destruct (vstep_ok P HP1 h v xs ids frees o HP2 Hv Hl) as (h1' & v1' & r' & xs1 & ids1 & frees1 & E' & Hs & Hv1 & U & Hp1 & M).
  { destruct o; cbn in *; tauto. }
  rewrite E in E'. injection E' as <- <- <-. pose proof (seq_next_ok _ _ _ _ Hs). subst xs1.
  destruct (vat_ok P HP1 h v xs ids frees n Hv Hn) as (i & b & E1 & Hi & Ei & _).
  destruct (vat_ok P HP1 h1 v1 (seq_next xs o) ids1 frees1 n Hv1 ltac:(lia)) as (i' & b' & E1' & Hi' & Ei' & _).
  replace i' with i in * by lia. rewrite E1, E1'.
  destruct M as [M|[M|M]].
  - apply (mono_lookup _ _ _ _ M) in Hi. congruence.
  - apply (mono_lookup _ _ _ _ M) in Hi'. congruence.
  - rewrite M in Hn'. unfold zlen in Hn'; cbn in Hn'. lia.
Qed.

Lemma vrun_stable ops : forall h v xs ids frees h' v' tr n,
  vgood h v xs ids frees -> seq_ok xs ops -> Forall no_walk ops -> vec_run P h v ops = Ok (h', v', tr) ->
  0 <= n -> (forall k, (k <= length ops)%nat -> n < zlen (seq_after xs (take k ops))) ->
  vec_at P h' v' n = vec_at P h v n.
Proof.
  destruct HP as [HP1 HP2].
  induction ops as [|o ops IH]; intros h v xs ids frees h' v' tr n Hg Hok Hnw E Hn Hlen; cbn [vec_run] in E.
  - injection E as <- <- <-. reflexivity.
  - destruct Hok as [Hl Hok]. inversion Hnw as [|? ? Hn1 Hnw']; subst.
    apply obind_ok in E as ([[h1 v1] r] & E1 & E). apply obind_ok in E as ([[h2 v2] tr2] & E2 & E). injection E as <- <- <-.
    pose proof (Hlen 0%nat ltac:(lia)) as L0. pose proof (Hlen 1%nat ltac:(cbn; lia)) as L1.
    cbn [take seq_after fold_left] in L0. unfold seq_after in L1. cbn [take fold_left] in L1.
    assert (Hx : exists ids1 frees1, vgood h1 v1 (seq_next xs o) ids1 frees1).
    { destruct (vrun_ok [o] h v xs ids frees Hg (conj Hl I)) as (h1' & v1' & tr' & ids1 & frees1 & E' & _ & _ & Hg1); [repeat constructor; assumption|].
      cbn [vec_run] in E'. rewrite E1 in E'. cbn [obind] in E'. injection E' as <- <- <-. eauto. }
    destruct Hx as (ids1 & frees1 & Hg1).
    rewrite (IH h1 v1 _ ids1 frees1 h2 v2 tr2 n Hg1 Hok Hnw' E2 Hn).
    + eapply vstep_stable; try eassumption. split; assumption.
    + intros k Hk. specialize (Hlen (S k) ltac:(cbn; lia)). exact Hlen.
Qed.

Lemma vec_stable h0 v0 xs0 ops1 ops2 h1 v1 tr1 h2 v2 tr2 n :
  vstart h0 v0 xs0 -> seq_ok xs0 (ops1 ++ ops2) -> Forall no_walk (ops1 ++ ops2) ->
  vec_run P h0 v0 ops1 = Ok (h1, v1, tr1) -> vec_run P h1 v1 ops2 = Ok (h2, v2, tr2) -> 0 <= n ->
  (forall k, (k <= length ops2)%nat -> n < zlen (seq_after xs0 (ops1 ++ take k ops2))) ->
  exists b, vec_at P h1 v1 n = Ok (Some b, n mod B) /\ vec_at P h2 v2 n = Ok (Some b, n mod B).
Proof.
  destruct HP as [HP1 HP2]. intros H0 Hok Hnw E1 E2 Hn Hlen. destruct (vstart_good _ _ _ H0) as (ids & frees & Hg).
  assert (Hok1 : seq_ok xs0 ops1 /\ seq_ok (seq_after xs0 ops1) ops2).
  { clear -Hok. revert xs0 Hok. induction ops1 as [|o ops1 IH]; intros xs0 Hok; [split; [exact I|exact Hok]|].
    destruct Hok as [H1 H2]. destruct (IH _ H2) as [H3 H4]. split; [split; assumption|exact H4]. }
  apply Forall_app in Hnw as [Hn1 Hn2].
  destruct (vrun_ok ops1 h0 v0 xs0 ids frees Hg (proj1 Hok1) Hn1) as (h1' & v1' & tr1' & ids1 & frees1 & E1' & _ & _ & Hg1).
  rewrite E1 in E1'. injection E1' as <- <- <-.
  assert (Hlen' : forall k, (k <= length ops2)%nat -> n < zlen (seq_after (seq_after xs0 ops1) (take k ops2))).
  { intros k Hk. specialize (Hlen k Hk). unfold seq_after in *. rewrite fold_left_app in Hlen. exact Hlen. }
  pose proof (vrun_stable ops2 h1 v1 _ ids1 frees1 h2 v2 tr2 n Hg1 (proj2 Hok1) Hn2 E2 Hn Hlen') as Heq.
  pose proof (Hlen' 0%nat ltac:(lia)) as L0. rewrite take_0 in L0. unfold seq_after at 1 in L0; cbn [fold_left] in L0.
  destruct (vat_ok P HP1 h1 v1 _ ids1 frees1 n (proj1 Hg1) ltac:(split; [exact Hn|exact L0])) as (i & b & E & _).
  exists b. split; congruence.
Qed.

Lemma vec_distinct h0 v0 xs0 ops h v tr n m :
  vstart h0 v0 xs0 -> seq_ok xs0 ops -> Forall no_walk ops -> vec_run P h0 v0 ops = Ok (h, v, tr) ->
  0 <= n < zlen (seq_after xs0 ops) -> 0 <= m < zlen (seq_after xs0 ops) -> n <> m -> vec_at P h v n <> vec_at P h v m.
Proof.
  destruct HP as [HP1 HP2]. intros H0 Hok Hnw E Hn Hm Hne. destruct (vstart_good _ _ _ H0) as (ids & frees & Hg).
  destruct (vrun_ok ops h0 v0 xs0 ids frees Hg Hok Hnw) as (h' & v' & tr' & ids' & frees' & E' & _ & _ & [Hv Hp]).
  rewrite E in E'. injection E' as <- <- <-.
  destruct (vat_ok P HP1 h v _ ids' frees' n Hv Hn) as (i & b & E1 & Hi & Ei & Hj & Hs).
  destruct (vat_ok P HP1 h v _ ids' frees' m Hv Hm) as (i' & b' & E1' & Hi' & Ei' & Hj' & Hs').
  rewrite E1, E1'. intros [= -> Hmod].
  assert (Hnd : NoDup ids').
  { destruct Hv as [(_ & _ & -> & _)|(t & _ & Hbk & _)]; [constructor|]. pose proof (bk_nd _ _ _ _ _ _ _ _ _ _ Hbk) as Hd. apply NoDup_app in Hd. tauto. }
  assert (i = i') by (eapply NoDup_lookup; eassumption). subst i'. lia.
Qed.

(** The contents at the fixed location are those of the list. *)
Lemma vec_contents h0 v0 xs0 ops h v tr n x :
  vstart h0 v0 xs0 -> seq_ok xs0 ops -> Forall no_walk ops -> vec_run P h0 v0 ops = Ok (h, v, tr) ->
  seq_after xs0 ops !! n = Some x -> exists b j, vec_at P h v (Z.of_nat n) = Ok (Some b, j) /\ eget P h (Some b) j = Ok x.
Proof.
  destruct HP as [HP1 HP2]. intros H0 Hok Hnw E Hx. destruct (vstart_good _ _ _ H0) as (ids & frees & Hg).
  destruct (vrun_ok ops h0 v0 xs0 ids frees Hg Hok Hnw) as (h' & v' & tr' & ids' & frees' & E' & _ & _ & [Hv Hp]).
  rewrite E in E'. injection E' as <- <- <-.
  pose proof (vget_ok P HP1 h v _ ids' frees' n x Hv Hx) as G. unfold vec_get in G. apply obind_ok in G as ([c j] & G1 & G2).
  pose proof (lookup_lt_Some _ _ _ Hx). destruct (vat_ok P HP1 h v _ ids' frees' (Z.of_nat n) Hv) as (i & b & E1 & _); [unfold zlen; lia|].
  rewrite E1 in G1. injection G1 as <- <-. eauto.
Qed.

(** ** at() *)
Lemma vec_at_checked h0 v0 xs0 ops h v tr n :
  vstart h0 v0 xs0 -> seq_ok xs0 ops -> Forall no_walk ops -> vec_run P h0 v0 ops = Ok (h, v, tr) -> 0 <= n ->
  (v_size v <= n /\ vec_step P h v (VAt n) = Ok (h, v, VOutOfRange)) \/
  (n < v_size v /\ exists x, seq_after xs0 ops !! Z.to_nat n = Some x /\ vec_step P h v (VAt n) = Ok (h, v, VVal x) /\
     vec_step P h v (VGet n) = Ok (h, v, VVal x)).
Proof.
  destruct HP as [HP1 HP2]. intros H0 Hok Hnw E Hn. destruct (vstart_good _ _ _ H0) as (ids & frees & Hg).
  destruct (vrun_ok ops h0 v0 xs0 ids frees Hg Hok Hnw) as (h' & v' & tr' & ids' & frees' & E' & _ & _ & [Hv Hp]).
  rewrite E in E'. injection E' as <- <- <-. cbn [vec_step]. pose proof (vinv_size P _ _ _ _ _ Hv) as Hsz.
  destruct (Z.leb_spec (v_size v) n) as [Hle|Hlt]; [left; auto|right]. split; [assumption|].
  destruct (lookup_lt_is_Some_2 (seq_after xs0 ops) (Z.to_nat n)) as [x Hx]; [unfold zlen in *; lia|].
  pose proof (vget_ok P HP1 h v _ ids' frees' (Z.to_nat n) x Hv Hx) as G. rewrite Z2Nat.id in G by lia. rewrite G. cbn [obind]. eauto.
Qed.

(** ** Iterators *)

(** [iters h xs first last pos]: [pos i] are the iterators of a sequence [xs]. *)
Record iters h xs (first last : biter) (pos : Z -> biter) : Prop := {
  is_first : pos 0 = first;
  is_last : pos (zlen xs) = last;
  is_read : forall n x, xs !! n = Some x -> it_read P h (pos (Z.of_nat n)) = Ok x;
  is_add : forall i k, 0 <= i -> 0 <= k -> i + k <= zlen xs -> k <= 2147483648 - B -> it_add P h (pos i) k = Ok (pos (i + k));
  is_sub : forall i k, 0 <= i -> 0 <= k -> i + k <= zlen xs -> k <= 2147483647 -> it_sub P h (pos (i + k)) k = Ok (pos i);
  is_eq : forall i k, 0 <= i <= zlen xs -> 0 <= k <= zlen xs -> it_eq (pos i) (pos k) = (i =? k);
}.

Lemma B_int : B <= 1073741824.
Proof.
  destruct HP as [HP1 HP2]. unfold bsz. rewrite Z.shiftl_mul_pow2 by assumption.
  pose proof (Z.pow_le_mono_r 2 (expo P) 30 ltac:(lia) HP2) as Hp. change (2 ^ 30) with 1073741824 in Hp. lia.
Qed.

Lemma iters_ex h t slots lo ids off xs f frees first last :
  blocks P h t slots lo ids off xs f frees -> 0 <= off -> off + zlen xs <= B * zlen ids ->
  it_at P h t (lo * B + off) first -> it_at P h t (lo * B + off + zlen xs) last ->
  exists pos, iters h xs first last pos.
Proof.
  destruct HP as [HP1 HP2]. intros Hbk Ho Hl Hf Hla. pose proof (B_pos P HP1) as HB. pose proof B_int as HBi.
  assert (Hent : forall i, 0 <= i <= zlen xs -> entry h t ((lo * B + off + i) / B)).
  { intros i Hi. destruct (Z.eq_dec i (zlen xs)) as [->|Hne]; [apply it_at_inv in Hla as (c & E & _); eexists; exact E|].
    destruct (bk_locate P HP1 h t slots lo ids off xs f frees i Hbk Ho Hl) as (j & b & _ & _ & _ & _ & E5); [lia|].
    replace (lo * B + off + i) with ((off + i) + lo * B) by lia. rewrite Z.div_add by lia. rewrite Z.add_comm. eexists; exact E5. }
  exists (fun i => match it_new h (Some t) ((lo * B + off + i) / B) ((lo * B + off + i) mod B) with Ok it => it | _ => first end).
  assert (Hpos : forall i, 0 <= i <= zlen xs ->
    it_at P h t (lo * B + off + i) (match it_new h (Some t) ((lo * B + off + i) / B) ((lo * B + off + i) mod B) with Ok it => it | _ => first end)).
  { intros i Hi. destruct (it_at_ex P h t _ (Hent i Hi)) as [it Hit]. pose proof Hit as E. unfold it_at in E. rewrite E. exact Hit. }
  pose proof (zlen_nonneg xs) as Hnn.
  constructor.
  - eapply it_at_fun; [apply Hpos; lia|]. rewrite Z.add_0_r. exact Hf.
  - eapply it_at_fun; [apply Hpos; lia|exact Hla].
  - intros n x Hx. pose proof (lookup_lt_Some _ _ _ Hx). eapply it_read_ok; [exact HP1|exact Hbk|exact Ho|exact Hl|apply Hpos; unfold zlen; lia|]. rewrite zl_nat. exact Hx.
  - intros i k Hi Hk Hik Hkm.
    destruct (it_add_ok P HP1 h t _ _ k (Hpos i ltac:(lia))) as (it' & E & Hit'); [lia| |].
    { rewrite <- Z.add_assoc. apply Hent. lia. }
    rewrite E. f_equal. eapply it_at_fun; [exact Hit'|]. rewrite <- Z.add_assoc. apply Hpos. lia.
  - intros i k Hi Hk Hik Hkm.
    destruct (it_sub_ok P HP1 h t _ _ k (Hpos (i + k) ltac:(lia))) as (it' & E & Hit'); [lia| |lia|].
    { replace (lo * B + off + (i + k) - k) with (lo * B + off + i) by lia. apply Hent. lia. }
    rewrite E. f_equal. eapply it_at_fun; [exact Hit'|]. replace (lo * B + off + (i + k) - k) with (lo * B + off + i) by lia. apply Hpos. lia.
  - intros i k Hi Hk. rewrite (it_at_eq P HP1 _ _ _ _ _ _ (Hpos i Hi) (Hpos k Hk)).
    destruct (Z.eqb_spec i k) as [->|Hne]; [apply Z.eqb_refl|]. apply Z.eqb_neq. lia.
Qed.

Lemma iters_empty h : iters h [] (BIter None 0 PNull 0) (BIter None 0 PNull 0) (fun _ => BIter None 0 PNull 0).
Proof.
  destruct HP as [HP1 HP2]. pose proof (B_pos P HP1) as HB. constructor; try reflexivity.
  - intros n x Hx. rewrite lookup_nil in Hx. discriminate.
  - intros i k H1 H2 H3 _. unfold zlen in H3; cbn in H3. assert (k = 0) as -> by lia. unfold it_add; cbn. change (wrap32 0) with 0. change (0 + 0) with 0. change (int_ok 0) with true. cbn [negb].
    destruct (Z.leb_spec B 0); [lia|]. reflexivity.
  - intros i k H1 H2 H3 _. unfold zlen in H3; cbn in H3. assert (k = 0) as -> by lia. reflexivity.
  - intros i k Hi Hk. unfold zlen in *; cbn in *. assert (i = 0) as -> by lia. assert (k = 0) as -> by lia. reflexivity.
Qed.

(** ++ repeated is += *)
Lemma iters_steps h xs first last pos : iters h xs first last pos ->
  forall n i, 0 <= i -> i + Z.of_nat n <= zlen xs -> it_steps P h (pos i) n = Ok (pos (i + Z.of_nat n)).
Proof.
  intros Hi. pose proof B_int. induction n as [|n IH]; intros i H0 Hl; cbn [it_steps].
  - rewrite Z.add_0_r. reflexivity.
  - rewrite (is_add _ _ _ _ _ Hi i 1) by lia. cbn [obind]. rewrite IH by lia. do 2 f_equal. lia.
Qed.

Lemma vec_iterators h0 v0 xs0 ops h v tr :
  vstart h0 v0 xs0 -> seq_ok xs0 ops -> Forall no_walk ops -> vec_run P h0 v0 ops = Ok (h, v, tr) -> ~ vfull P v ->
  exists first last pos, vec_begin P h v = Ok first /\ vec_end P h v = Ok last /\ iters h (seq_after xs0 ops) first last pos /\
    (forall n, (n <= length (seq_after xs0 ops))%nat -> it_steps P h first n = Ok (pos (Z.of_nat n))) /\
    it_walk P h first last (length (seq_after xs0 ops)) = Ok (seq_after xs0 ops).
Proof.
  destruct HP as [HP1 HP2]. intros H0 Hok Hnw E Hf. destruct (vstart_good _ _ _ H0) as (ids & frees & Hg).
  destruct (vrun_ok ops h0 v0 xs0 ids frees Hg Hok Hnw) as (h' & v' & tr' & ids' & frees' & E' & _ & _ & [Hv Hp]).
  rewrite E in E'. injection E' as <- <- <-. set (xs := seq_after xs0 ops) in *.
  pose proof (vwalk_ok P HP1 h v xs ids' frees' HP2 Hv Hf) as Hwalk. pose proof (vinv_size P _ _ _ _ _ Hv) as Hsz.
  assert (exists first last pos, vec_begin P h v = Ok first /\ vec_end P h v = Ok last /\ iters h xs first last pos) as (first & last & pos & E1 & E2 & Hi).
  { destruct Hv as [(-> & Ex & _)|(t & Hl)].
    - rewrite Ex. eexists _, _, _. splits; [..|apply iters_empty]; unfold vec_begin, vec_end; cbn; rewrite Z.eqb_refl; reflexivity.
    - destruct (vbegin_ok P HP1 _ _ _ _ _ _ Hl Hf) as (first & E1 & H1). destruct (vend_ok P HP1 _ _ _ _ _ _ Hl Hf) as (last & E2 & H2).
      pose proof (vlen_ids P HP1 _ _ _ _ _ _ Hl) as Hlen.
      destruct (iters_ex h t (v_slots v) 0 ids' 0 xs (v_fl v) frees' first last) as [pos Hpos]; try assumption; try lia; try apply Hl.
      exists first, last, pos. auto. }
  exists first, last, pos. splits; try assumption.
  - intros n Hn. rewrite <- (is_first _ _ _ _ _ Hi). rewrite (iters_steps _ _ _ _ _ Hi n 0) by (unfold zlen; lia). reflexivity.
  - unfold vec_walk in Hwalk. rewrite E1, E2 in Hwalk. cbn [obind] in Hwalk. rewrite Hsz in Hwalk. unfold zlen in Hwalk. rewrite Nat2Z.id in Hwalk. exact Hwalk.
Qed.

Lemma vec_begin_end h0 v0 xs0 ops h v tr :
  vstart h0 v0 xs0 -> seq_ok xs0 ops -> Forall no_walk ops -> vec_run P h0 v0 ops = Ok (h, v, tr) ->
  (exists it, vec_begin P h v = Ok it) /\
  (vfull P v -> vec_end P h v = UB) /\ (~ vfull P v -> exists it, vec_end P h v = Ok it) /\
  (vfull P v -> zlen (seq_after xs0 ops) = v_slots v * B).
Proof.
  destruct HP as [HP1 HP2]. intros H0 Hok Hnw E. destruct (vstart_good _ _ _ H0) as (ids & frees & Hg).
  destruct (vrun_ok ops h0 v0 xs0 ids frees Hg Hok Hnw) as (h' & v' & tr' & ids' & frees' & E' & _ & _ & [Hv Hp]).
  rewrite E in E'. injection E' as <- <- <-. set (xs := seq_after xs0 ops) in *. pose proof (B_pos P HP1) as HB.
  destruct Hv as [(-> & Ex & _)|(t & Hl)].
  - assert (Hnf : ~ vfull P (vec_default P)) by (intros (A & _); cbn in A; congruence).
    splits; try tauto; unfold vec_begin, vec_end; cbn; rewrite ?Z.eqb_refl; eauto.
  - assert (Hsize : vfull P v -> zlen xs = v_slots v * B).
    { intros (_ & F1 & F2). destruct Hl as (_ & _ & _ & _ & _ & Hz & _). rewrite Hz, F1, <- F2. lia. }
    assert (Hfull : vfull P v -> vec_end P h v = UB).
    { intros F. rewrite (vend_pos P HP1 _ _ _ _ _ _ Hl). rewrite (Hsize F). rewrite Z.div_mul, Z.mod_mul by lia.
      destruct Hl as (_ & Hbk & _). destruct (bk_row _ _ _ _ _ _ _ _ _ _ Hbk) as (cs & Hcs & Hlen & _ & _).
      unfold it_new, it_ptr, tget. rewrite Hcs. pose proof (zlen_nonneg cs). destruct (Z.ltb_spec (v_slots v) 0); [lia|].
      rewrite lookup_ge_None_2 by (unfold zlen in *; lia). reflexivity. }
    splits; try assumption.
    + destruct (Z.eq_dec (zlen xs) 0) as [E0|Hne].
      * destruct (vbegin_ok P HP1 _ _ _ _ _ _ Hl) as (it & E1 & _); [|eauto].
        intros F. specialize (Hsize F). assert (0 < v_slots v) by apply Hl. nia.
      * unfold vec_begin. assert (v_size v = zlen xs) as -> by apply Hl. destruct (Z.eqb_spec (zlen xs) 0); [lia|].
        destruct Hl as (Ed & Hbk & _ & _ & _ & _ & Hs). rewrite Ed. destruct (row_entry h t (v_slots v) 0 ids' 0) as [c Ec]; [apply Hbk|lia|].
        unfold it_new, it_ptr. rewrite Ec. cbn. eauto.
    + intros F. destruct (vend_ok P HP1 _ _ _ _ _ _ Hl F) as (it & E1 & _). eauto.
Qed.

(** ** Lifetimes over several vectors *)
Lemma vec_world ps :
  vw_ok P vworld0 ∅ ps ->
  exists w tr A, vwrun P (@vworld0 V) ps = Ok (w, tr) /\ map fst tr = ps /\ vw_trace ∅ tr A /\
    (forall o, w_vecs w !! o = None <-> A !! o = None) /\
    (w_vecs w = ∅ -> el (w_heap w) = ∅ /\ bl (w_heap w) = ∅ /\ tb (w_heap w) = ∅).
Proof.
  destruct HP as [HP1 HP2]. intros Hok.
  destruct (vw_run_ok P HP1 ps HP2 vworld0 ∅ ∅ (w_init _) Hok) as (w & tr & A & G & E & Ht & Htr & Hw).
  exists w, tr, A. splits; try assumption; [apply (wi_dom _ _ _ _ _ Hw)|].
  intros He. destruct w as [h objs]. cbn in *. subst objs. eapply w_empty. exact Hw.
Qed.

(** ** Moved-from vectors *)
Lemma vec_moved_push h v x : vec_push P h (snd (vec_move v)) x = UB.
Proof.
  destruct HP as [HP1 HP2]. pose proof (B_pos P HP1) as HB. unfold vec_push, vec_block_check; cbn.
  destruct (Z.leb_spec B 0); [lia|]. reflexivity.
Qed.
Lemma vec_moved_iter h v : vec_end P h (snd (vec_move v)) = UB /\ vec_begin P h (snd (vec_move v)) = UB.
Proof.
  destruct HP as [HP1 HP2]. pose proof (B_pos P HP1) as HB. unfold vec_begin, vec_end; cbn [vec_move snd v_size v_bsize v_data]. rewrite (Z.eqb_refl 0).
  rewrite (proj2 (Z.eqb_neq 0 B)) by lia. auto.
Qed.
Lemma vec_moved_destroy h v : vec_free_all P h (snd (vec_move v)) = Ok h.
Proof. reflexivity. Qed.
Lemma vec_moved_assign h (d s : vec) h' d' s' :
  vec_move_assign P h d s = Ok (h', d', s') -> d' = s /\ vec_free_all P h' s' = Ok h' /\ v_size s' = v_size s.
Proof. unfold vec_move_assign. intros E. apply obind_ok in E as (h1 & _ & E). injection E as <- <- <-. auto. Qed.
Lemma vec_moved_reuse h v w : vec_move_assign P h (snd (vec_move v)) w =
  Ok (h, w, Vec (v_size w) None 0 (v_idx w) (v_bsize w) (FList 0 (f_idx (v_fl w)) None)).
Proof. reflexivity. Qed.

(** += uses a 32 bit offset. *)
Lemma it_add_wrap h t q it :
  it_at P h t q it -> exists it', it_add P h it 4294967296 = Ok it' /\ it_eq it' it = true.
Proof.
  destruct HP as [HP1 HP2]. intros H. pose proof (B_pos P HP1) as HB. pose proof B_int as HBi. pose proof (Z.mod_pos_bound q B HB) as Hm.
  apply it_at_inv in H as (c & E & ->). unfold it_add; cbn [i_off i_pos i_tab i_ptr]. change (wrap32 4294967296) with 0. rewrite Z.add_0_r.
  unfold int_ok, int_max.
  assert (Hio : negb ((-2147483648 <=? q mod B) && (q mod B <=? 2147483647)) = false) by lia. rewrite Hio.
  destruct (Z.leb_spec B (q mod B)); [lia|]. eexists. split; [reflexivity|]. unfold it_eq; cbn.
  rewrite bool_decide_eq_true_2 by reflexivity. rewrite !Z.eqb_refl. reflexivity.
Qed.

Lemma vec_iter_wrap (x : V) :
  exists h v first last it, vec_sized P bheap0 4294967297 x = Ok (h, v) /\ vec_begin P h v = Ok first /\ vec_end P h v = Ok last /\
    it_add P h first 4294967296 = Ok it /\ it_eq it first = true /\
    (forall pos, iters h (replicate (Z.to_nat 4294967297) x) first last pos -> it_eq it (pos 4294967296) = false).
Proof.
  destruct HP as [HP1 HP2]. pose proof (B_pos P HP1) as HB. pose proof B_int as HBi.
  destruct (vsized_ok P HP1 (@bheap0 V) 4294967297 x) as (h & v & ids & E & Hv & Hp & _); [apply (vinv_hok P _ _ _ _ _ (proj1 default_good))|lia|].
  assert (Hz : zlen (replicate (Z.to_nat 4294967297) x) = 4294967297) by (unfold zlen; rewrite replicate_length; lia).
  destruct Hv as [(_ & Ex & _)|(t & Hl)]; [rewrite Ex in Hz; discriminate|].
  assert (Hnf : ~ vfull P v).
  { intros (_ & F1 & F2). destruct Hl as (_ & _ & _ & _ & _ & Hz' & _).
    unfold vec_sized in E. destruct (talloc _ _) as [h1 t1]. apply obind_ok in E as (h2 & _ & E). injection E as <- <-. cbn in F1.
    rewrite land_bsz in F1 by assumption. pose proof (Z.mod_pos_bound 4294967297 B HB). lia. }
  destruct (vbegin_ok P HP1 _ _ _ _ _ _ Hl Hnf) as (first & E1 & H1). destruct (vend_ok P HP1 _ _ _ _ _ _ Hl Hnf) as (last & E2 & H2).
  destruct (it_add_wrap h t 0 first H1) as (it & E3 & H3).
  exists h, v, first, last, it. splits; try assumption. intros pos Hpos.
  destruct (it_eq it (pos 4294967296)) eqn:E4; [exfalso|reflexivity].
  assert (H5 : it_eq first (pos 4294967296) = true).
  { unfold it_eq in *. rewrite !andb_true_iff, !bool_decide_eq_true, !Z.eqb_eq in *. intuition congruence. }
  rewrite <- (is_first _ _ _ _ _ Hpos) in H5. rewrite (is_eq _ _ _ _ _ Hpos) in H5 by lia. discriminate.
Qed.

End vec.
