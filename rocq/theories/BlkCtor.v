(** The constructors of StableBlockDeque when an element cannot be constructed. *)
From stdpp Require Import gmap.
From Verif Require Import Base BlkHeap BlkProofs BlkMore BlkRun BlkIter BlkIterProofs BlkWorld DeqModel DeqSpec DeqProofs DeqMore DeqWorld DeqFinal DeqThrow BlkAssign.

Section model.
Context {V : Type}.
Variable P : params.
Notation B := (bsz P).
Implicit Types (h : bheap V) (d : deq) (x : V).

(** StableBlockDeque.hpp:51-111 for [n] elements when the constructor of element [k < n], in the order of lines 88-109, throws:
    the memory left behind (the deque does not exist then, and its destructor does not run), and the members the deque would
    have had.  [c0] elements go to the front block. *)
Definition deq_sized_fail h (n : Z) x (k : Z) : outcome (bheap V * deq) :=
  let slots := Z.max (Z.shiftr n (expo P) + 2) 64 in
  let '(h1, t) := talloc h slots in
  let '(front, back, fs, bs) := deq_layout P n slots in
  let c0 := (if front <? back then B else bs) - (fs + 1) in
  let '(h2, c) := balloc h1 in
  h3 <-! tset h2 t front c ;;
  h6 <-! (if k <? c0 then make_up P h3 t front (fs + 1) (Z.to_nat k) x
          else
            h4 <-! make_up P h3 t front (fs + 1) (Z.to_nat c0) x ;;
            h5 <-! full_blocks P h4 t (front + 1) (Z.to_nat ((k - c0) / B)) x ;;
            let '(h', c') := balloc h5 in
            h'' <-! tset h' t (front + 1 + (k - c0) / B) c' ;;
            make_up P h'' t (front + 1 + (k - c0) / B) 0 (Z.to_nat ((k - c0) mod B)) x) ;;
  Ok (h6, Deq n t slots back front bs fs flist0).

(** StableBlockDeque.hpp:113-125 after [xs] have been copied: the new deque is empty, so [assign] only pushes (:279-283) *)
Definition deq_copy_part h (src : deq) (xs : list V) : outcome (bheap V * deq) :=
  let slots := Z.max (d_slots src) 64 in
  let '(h1, t) := talloc h slots in
  '(h2, f, c) <-! fl_get h1 flist0 ;;
  h3 <-! tset h2 t (d_front src) c ;;
  deq_pushes P h3 (Deq 0 t slots (d_front src) (d_front src) (d_fsize src + 1) (d_fsize src) f) xs.
End model.

Section proofs.
Context {V : Type}.
Variable P : params.
Hypothesis HP : 0 <= expo P <= 30.
Notation B := (bsz P).
Implicit Types (h : bheap V) (d : deq) (ids frees : list nat) (xs ys : list V).

Lemma blocks_get h d t slots lo ids off xs i x :
  d_data d = Some t -> d_front d = lo -> d_fsize d + 1 = off -> blocks P h t slots lo ids off xs flist0 [] -> 0 <= off -> off + zlen xs <= B * zlen ids ->
  0 <= i -> xs !! Z.to_nat i = Some x -> deq_get P h d i = Ok x.
Proof.
  destruct HP as [HP1 _]. intros Ed <- <- Hbk Ho Hl Hi Hx. pose proof (lookup_lt_Some _ _ _ Hx).
  destruct (bk_locate P HP1 h t _ _ ids _ _ _ [] i Hbk Ho Hl) as (j & b & Hlk & Hdi & Hj & Hp & Et); [unfold zlen; lia|].
  unfold deq_get, deq_at. rewrite shiftr_bsz, land_bsz by assumption. rewrite Ed.
  replace (d_fsize d + i + 1) with (d_fsize d + 1 + i) by lia. rewrite Et. cbn [obind].
  eapply bk_read with (n := i); try eassumption. replace i with (Z.of_nat (Z.to_nat i)) by lia. rewrite zl_nat. exact Hx.
Qed.

Lemma dsized_fail_ok h n x k : hok [] [] h -> 0 <= k < n ->
  exists h' d t, deq_sized_fail P h n x k = Ok (h', d) /\ d_data d = Some t /\ t = nx h /\ is_Some (tb h' !! t) /\
    forall i, 0 <= i < k -> deq_get P h' d i = Ok x.
Proof.
  pose proof HP as [HP1 _]. intros Hok Hk. pose proof (B_pos P HP1) as HB. unfold deq_sized_fail. pose proof (dlayout_ok P HP1 n ltac:(lia)) as HL. cbv zeta in HL.
  set (slots := Z.max (Z.shiftr n (expo P) + 2) 64) in *. assert (Hslots : 64 <= slots) by lia. clearbody slots.
  destruct (talloc h slots) as [h1 t0] eqn:Ea. pose proof Ea as Ea'.
  destruct (deq_layout P n slots) as [[[front back] fs] bs]. destruct HL as (L1 & L2 & L3 & L4 & L5).
  destruct (bk_fresh P h slots front h1 t0 Hok ltac:(lia) Ea) as (t & -> & Hbk & U).
  assert (Et : t = nx h) by (unfold talloc in Ea'; injection Ea' as _ <-; reflexivity).
  destruct (bk_alloc_back P HP1 h1 t slots front [] 0 [] front Hbk) as (h2 & b0 & h3 & -> & E3 & Hbk3 & U3); try (change (zlen []) with 0; lia).
  rewrite E3. cbn [obind app] in *. apply (bk_nil_off P _ _ _ _ _ _ (fs + 1)) in Hbk3.
  set (c0 := (if front <? back then B else bs) - (fs + 1)).
  assert (Hc0 : 0 <= c0 /\ c0 + (fs + 1) <= B /\ (front < back -> c0 = B - (fs + 1)) /\ (back = front -> c0 = n)).
  { unfold c0. destruct (Z.ltb_spec front back); [lia|]. assert (back = front) by lia. subst back. lia. }
  clearbody c0. destruct Hc0 as (C1 & C2 & C3 & C4).
  assert (Hmk : forall m : nat, Z.of_nat m <= c0 -> exists h4, make_up P h3 (Some t) front (fs + 1) m x = Ok h4 /\
            blocks P h4 t slots front [b0] (fs + 1) (replicate m x) flist0 []).
  { intros m Hm. destruct (bk_make_up P HP1 h3 t slots front [b0] (fs + 1) [] flist0 [] 0 b0 (fs + 1) m x Hbk3 eq_refl) as (h4 & E4 & Hbk4 & U4);
      [lia|lia|change (zlen []) with 0; lia|]. rewrite Z.add_0_r in E4. exists h4. split; [exact E4|exact Hbk4]. }
  assert (Hfin : forall h6 ids, blocks P h6 t slots front ids (fs + 1) (replicate (Z.to_nat k) x) flist0 [] -> 1 <= zlen ids -> fs + 1 + k <= B * zlen ids ->
            is_Some (tb h6 !! t) /\ forall i, 0 <= i < k -> deq_get P h6 (Deq n (Some t) slots back front bs fs flist0) i = Ok x).
  { intros h6 ids Hbk6 Hi6 Hl6. split.
    - destruct (lookup_lt_is_Some_2 ids 0%nat) as [b Hb]; [unfold zlen in Hi6; lia|].
      pose proof (bk_get P h6 t _ _ ids _ _ _ [] 0%nat b _ Hbk6 Hb eq_refl) as G. unfold tget in G. destruct (tb h6 !! t); [eauto|discriminate].
    - intros i Hik. eapply blocks_get; try eassumption; try reflexivity; [lia|unfold zlen in *; rewrite replicate_length; lia|lia|].
      apply lookup_replicate. split; [reflexivity|lia]. }
  destruct (Z.ltb_spec k c0) as [Hkc|Hkc].
  - destruct (Hmk (Z.to_nat k)) as (h4 & E4 & Hbk4); [lia|]. rewrite E4. cbn [obind]. eexists h4, _, t. split; [reflexivity|]. cbn [d_data].
    split; [reflexivity|]. split; [exact Et|]. apply (Hfin _ _ Hbk4); change (zlen [b0]) with 1; lia.
  - destruct (Hmk (Z.to_nat c0)) as (h4 & E4 & Hbk4); [lia|]. rewrite E4. cbn [obind].
    assert (Hlt : front < back) by (destruct (Z.eq_dec back front) as [e|]; [specialize (C4 e); lia|lia]). specialize (C3 Hlt).
    pose proof (Z.div_pos (k - c0) B ltac:(lia) HB). pose proof (Z.mod_pos_bound (k - c0) B HB). pose proof (Z.div_mod (k - c0) B ltac:(lia)).
    assert (Hq : (k - c0) / B <= back - 1 - front) by (apply Z.lt_succ_r, Z.div_lt_upper_bound; nia).
    destruct (full_blocks_ok P HP1 (Z.to_nat ((k - c0) / B)) h4 t slots front [b0] (fs + 1) (replicate (Z.to_nat c0) x) (front + 1) x Hbk4) as (h5 & ids & -> & Hbk5 & Hi5 & U5);
      try (change (zlen [b0]) with 1; unfold zlen; rewrite ?replicate_length; lia).
    cbn [obind]. change (zlen [b0]) with 1 in Hi5.
    assert (Hz5 : fs + 1 + zlen (replicate (Z.to_nat c0) x ++ replicate (Z.to_nat ((k - c0) / B) * Z.to_nat B) x) = B * zlen ids).
    { unfold zlen in *. rewrite app_length, !replicate_length, Nat2Z.inj_add, Nat2Z.inj_mul. nia. }
    destruct (bk_alloc_back P HP1 h5 t slots front ids (fs + 1) _ (front + 1 + (k - c0) / B) Hbk5) as (h6 & b & h7 & -> & E7 & Hbk7 & U7); try lia.
    rewrite E7. cbn [obind].
    assert (Hlk : (ids ++ [b]) !! length ids = Some b) by (apply list_lookup_middle; reflexivity).
    destruct (bk_make_up P HP1 h7 t slots front (ids ++ [b]) (fs + 1) _ flist0 [] (length ids) b 0 (Z.to_nat ((k - c0) mod B)) x Hbk7 Hlk) as (h8 & E8 & Hbk8 & U8);
      try (unfold zlen in *; lia).
    replace (front + Z.of_nat (length ids)) with (front + 1 + (k - c0) / B) in E8 by (unfold zlen in *; lia). rewrite E8. cbn [obind].
    rewrite <- !replicate_add in Hbk8.
    assert (Hcnt : (Z.to_nat c0 + Z.to_nat ((k - c0) / B) * Z.to_nat B + Z.to_nat ((k - c0) mod B))%nat = Z.to_nat k).
    { apply Nat2Z.inj. rewrite !Nat2Z.inj_add, Nat2Z.inj_mul. rewrite !Z2Nat.id by lia. nia. }
    rewrite Hcnt in Hbk8. eexists h8, _, t. split; [reflexivity|]. cbn [d_data]. split; [reflexivity|]. split; [exact Et|].
    apply (Hfin _ _ Hbk8); rewrite zlen_app; change (zlen [b]) with 1; [lia|]. rewrite Hi5. nia.
Qed.

Lemma dsized_fail_members h n x k h1 d1 h2 d2 : 0 < n -> deq_sized P h n x = Ok (h1, d1) -> deq_sized_fail P h n x k = Ok (h2, d2) -> d1 = d2.
Proof.
  intros Hn. unfold deq_sized, deq_sized_fail. destruct (talloc h _) as [h3 t]. destruct (Z.eqb_spec n 0); [lia|].
  destruct (deq_layout P n _) as [[[front back] fs] bs]. destruct (balloc h3) as [h4 c]. intros E1 E2.
  apply obind_ok in E1 as (h5 & _ & E1). apply obind_ok in E1 as (h6 & _ & E1). apply obind_ok in E1 as (h7 & _ & E1). apply obind_ok in E1 as (h8 & _ & E1).
  apply obind_ok in E2 as (h9 & _ & E2). apply obind_ok in E2 as (h10 & _ & E2). injection E1 as <- <-. injection E2 as <- <-. reflexivity.
Qed.

Lemma dcopy_part_ok h d xs ids frees ys :
  dinv P h d xs ids frees -> d_data d <> None ->
  exists h' d' ids' frees', deq_copy_part P h d ys = Ok (h', d') /\ dinv P h' d' ys ids' frees' /\ upd [] [] h (frees' ++ ids') (dts d') h'.
Proof.
  pose proof HP as [HP1 _]. intros Hd Hnn. pose proof (B_pos P HP1) as HB. pose proof (dinv_hok P _ _ _ _ _ Hd) as Hok0.
  assert (Hok : hok [] [] h) by (eapply hok_eqv; [exact Hok0|intros b Hb; inversion Hb|intros b Hb; inversion Hb]).
  unfold deq_copy_part. destruct Hd as [(-> & _)|(t & Hl)]; [cbn in Hnn; congruence|].
  pose proof (dlive_row P _ _ _ _ _ _ Hl) as [R1 R2]. destruct Hl as (Ed & Hbk & Hsz & Hi & Hn & Hfs & Hb & Hz & Hs).
  replace (Z.max (d_slots d) 64) with (d_slots d) by lia. destruct (talloc h (d_slots d)) as [h1 t0] eqn:Ea.
  destruct (bk_fresh P h (d_slots d) (d_front d) h1 t0 Hok ltac:(lia) Ea) as (u & -> & Hbk1 & U1).
  destruct (bk_alloc_back P HP1 h1 u (d_slots d) (d_front d) [] 0 [] (d_front d) Hbk1) as (h2 & b & h3 & E2 & E3 & Hbk3 & U3); try (change (zlen []) with 0; lia).
  change (fl_get h1 flist0) with (let '(h', c) := balloc h1 in Ok (h', flist0, c)). rewrite E2. cbn [obind]. rewrite E3. cbn [obind].
  assert (U : upd [] [] h [b] [u] h3) by (eapply upd_trans; [exact U1|exact U3]).
  assert (Hd4 : dinv P h3 (Deq 0 (Some u) (d_slots d) (d_front d) (d_front d) (d_fsize d + 1) (d_fsize d) flist0) [] [b] []).
  { right. exists u. unfold DeqProofs.dlive; cbn. change (zlen [b]) with 1. change (zlen []) with 0. splits; try lia. eapply bk_nil_off. exact Hbk3. }
  destruct (dpushes_ok P HP1 ys h3 _ [] [b] [] Hd4) as (h' & d' & ids' & frees' & E & Hd' & U' & _).
  rewrite E. exists h', d', ids', frees'. splits; try assumption. eapply upd_trans; [exact U|exact U'].
Qed.

(** The copy constructor (C22) does just this, and goes on with the rest. *)
Lemma dcopy_split h d xs ids frees ys zs :
  dinv P h d xs ids frees -> d_data d <> None -> ~ dfull P d -> xs = ys ++ zs ->
  deq_copy P h d = ('(h1, d1) <-! deq_copy_part P h d ys ;; deq_pushes P h1 d1 zs).
Proof.
  pose proof HP as [HP1 HP2]. intros Hd Hnn Hf Hxs. pose proof (B_pos P HP1) as HB. pose proof (dinv_hok P _ _ _ _ _ Hd) as Hok0.
  assert (Hok : hok [] [] h) by (eapply hok_eqv; [exact Hok0|intros b Hb; inversion Hb|intros b Hb; inversion Hb]).
  unfold deq_copy_part, deq_copy. pose proof Hd as Hd0. destruct Hd as [(-> & _)|(t & Hl)]; [cbn in Hnn; congruence|].
  pose proof (dlive_row P _ _ _ _ _ _ Hl) as [R1 R2]. destruct Hl as (Ed & Hbk & Hsz & Hi & Hn & Hfs & Hb & Hz & Hs).
  replace (Z.max (d_slots d) 64) with (d_slots d) by lia. destruct (talloc h (d_slots d)) as [h1 t0] eqn:Ea. rewrite Ed.
  destruct (bk_fresh P h (d_slots d) (d_front d) h1 t0 Hok ltac:(lia) Ea) as (u & -> & Hbk1 & U1).
  destruct (bk_alloc_back P HP1 h1 u (d_slots d) (d_front d) [] 0 [] (d_front d) Hbk1) as (h2 & b & h3 & E2 & E3 & Hbk3 & U3); try (change (zlen []) with 0; lia).
  change (fl_get h1 flist0) with (let '(h', c) := balloc h1 in Ok (h', flist0, c)). rewrite E2. cbn [obind]. rewrite E3. cbn [obind].
  assert (U : upd [] [] h [b] [u] h3) by (eapply upd_trans; [exact U1|exact U3]).
  assert (Hd3 : dinv P h3 d xs ids frees).
  { destruct Hok0 as (K1 & K2 & K3). eapply (dinv_frame P HP1); [exact Hd0| | |].
    - intros b' Hb'. eapply u_bsame; [exact U|apply not_elem_of_nil|auto].
    - intros b' Hb'. eapply u_tsame; [exact U|apply not_elem_of_nil|auto].
    - pose proof (u_nx _ _ _ _ _ _ U). unfold hok; splits.
      + apply (bk_ok _ _ _ _ _ _ _ _ _ _ Hbk3).
      + intros b' Hb'. specialize (K2 b' Hb'). lia.
      + intros b' Hb'. specialize (K3 b' Hb'). lia. }
  rewrite (dwalk_ok P HP1 h3 d xs ids frees HP2 Hd3 Hf). cbn [obind]. unfold deq_assign. cbn [d_size Z.eqb obind]. subst xs. apply (dpushes_app P).
Qed.
End proofs.
