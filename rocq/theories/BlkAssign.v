(** assign, move_assign and copy assignment of StableBlockVector and StableBlockDeque, and their constructors, when an element
    cannot be assigned or constructed. *)
From stdpp Require Import gmap.
From Verif Require Import Base BlkHeap BlkProofs BlkMore BlkRun BlkIter BlkIterProofs BlkWorld VecModel VecSpec VecProofs VecWorld VecFinal VecThrow
  DeqModel DeqSpec DeqProofs DeqMore DeqWorld DeqFinal DeqThrow.

Section model.
Context {V : Type}.
Variable P : params.
Notation B := (bsz P).
Implicit Types (h : bheap V) (v : vec) (d : deq) (x : V).

(** StableBlockVector.hpp:174-193 and 195-214 after the elements [xs] have been dealt with; the next one is assigned to index
    [i + zlen xs] if there is such an element, else pushed. *)
Fixpoint vec_assign_part h v (i : Z) (xs : list V) : outcome (bheap V * vec) :=
  match xs with
  | [] => Ok (h, v)
  | x :: xs' =>
      if i <? v_size v then h1 <-! vec_set P h v i x ;; vec_assign_part h1 v (i + 1) xs'
      else '(h1, v1) <-! vec_push P h v x ;; vec_assign_part h1 v1 (i + 1) xs'
  end.

(** StableBlockDeque.hpp:253-284 and 286-317 after the elements [xs] have been dealt with.  [Some it]: the next one is
    assigned to [*it]; [None]: it is pushed. *)
Definition deq_assign_part h d (xs : list V) : outcome (bheap V * deq * option biter) :=
  if d_size d =? 0 then '(h1, d1) <-! deq_pushes P h d xs ;; Ok (h1, d1, None)
  else
    first <-! deq_begin P h d ;;
    last <-! deq_end P h d ;;
    '(h1, it, rest) <-! assign_over P h first last xs ;;
    if it_eq it last then '(h2, d2) <-! deq_pushes P h1 d rest ;; Ok (h2, d2, None) else Ok (h1, d, Some it).

(** StableBlockVector.hpp:51-80 for [n] elements when the constructor of element [k < n] throws: the memory left behind (the
    vector does not exist then, and its destructor does not run), and the members the vector would have had *)
Definition vec_sized_fail h (n : Z) x (k : Z) : outcome (bheap V * vec) :=
  let '(h1, t) := talloc h (Z.max (Z.shiftr n (expo P) + 1) 64) in
  h2 <-! fill_blocks P h1 t 0 (Z.to_nat (k / B + 1)) (k / B) (k mod B) x ;;
  Ok (h2, Vec n t (Z.max (Z.shiftr n (expo P) + 1) 64) (Z.shiftr n (expo P)) (Z.land n (B - 1)) flist0).
(** StableBlockVector.hpp:82-90 after [xs] have been copied *)
Definition vec_copy_part h (src : vec) (xs : list V) : outcome (bheap V * vec) :=
  let '(h1, t) := talloc h (v_slots src) in vec_assign_part h1 (Vec 0 t (v_slots src) (-1) B flist0) 0 xs.
End model.

Section vector.
Context {V : Type}.
Variable P : params.
Hypothesis HP : 0 <= expo P.
Notation B := (bsz P).
Implicit Types (h : bheap V) (v : vec) (ids frees : list nat) (xs ys : list V).

Lemma push_size h v x h1 v1 : vec_push P h v x = Ok (h1, v1) -> v_size v1 = v_size v + 1.
Proof.
  intros E1. unfold vec_push in E1. apply obind_ok in E1 as ([h2 v2] & F1 & F2). apply obind_ok in F2 as (c & _ & F2).
  apply obind_ok in F2 as (h3 & _ & F2). injection F2 as <- <-. cbn. f_equal.
  unfold vec_block_check in F1. destruct (_ <=? _); [|injection F1 as <- <-; reflexivity].
  apply obind_ok in F1 as ([h4 v4] & G1 & G2). apply obind_ok in G2 as ([[h5 f] c5] & _ & G2). apply obind_ok in G2 as (h6 & _ & G2).
  injection G2 as <- <-. cbn.
  destruct (_ =? _); [destruct (talloc h 64); injection G1 as <- <-; reflexivity|].
  destruct (_ <=? _); [|injection G1 as <- <-; reflexivity].
  destruct (talloc h _). apply obind_ok in G1 as (h7 & _ & G1). apply obind_ok in G1 as (h8 & _ & G1). injection G1 as <- <-. reflexivity.
Qed.

(** The call is its first part followed by the rest. *)
Lemma part_app ys : forall h v i zs, i <= v_size v ->
  vec_assign P h v i (ys ++ zs) = ('(h1, v1) <-! vec_assign_part P h v i ys ;; vec_assign P h1 v1 (i + zlen ys) zs).
Proof.
  induction ys as [|y ys IH]; intros h v i zs Hi; cbn [app vec_assign_part].
  - cbn [obind]. change (zlen []) with 0. rewrite Z.add_0_r. reflexivity.
  - cbn [vec_assign]. rewrite zlen_cons. destruct (Z.ltb_spec i (v_size v)).
    + destruct (vec_set P h v i y) as [h1| |]; cbn [obind]; [|reflexivity..]. rewrite IH by lia.
      replace (i + 1 + zlen ys) with (i + (1 + zlen ys)) by lia. reflexivity.
    + cbn [vec_pushes]. destruct (vec_push P h v y) as [[h1 v1]| |] eqn:E; cbn [obind]; [|reflexivity..].
      apply push_size in E. replace (i + (1 + zlen ys)) with (i + 1 + zlen ys) by lia. rewrite <- IH by lia.
      destruct (ys ++ zs) as [|w ws]; cbn [vec_assign].
      * replace (Z.to_nat (v_size v1 - (i + 1))) with O by lia. reflexivity.
      * destruct (Z.ltb_spec (i + 1) (v_size v1)); [lia|reflexivity].
Qed.

Lemma part_over ys : forall h v xs done ids frees, vinv P h v (done ++ xs) ids frees -> (length ys <= length xs)%nat ->
  exists h', vec_assign_part P h v (zlen done) ys = Ok (h', v) /\ vinv P h' v (done ++ ys ++ drop (length ys) xs) ids frees /\
    upd (frees ++ ids) (vts v) h (frees ++ ids) (vts v) h'.
Proof.
  induction ys as [|y ys IH]; intros h v xs done ids frees Hv Hl; cbn [vec_assign_part length].
  - exists h. rewrite drop_0. splits; try assumption. apply upd_refl. eapply vinv_hok; eassumption.
  - destruct xs as [|x xs]; cbn [length] in Hl; [lia|]. rewrite (vinv_size P _ _ _ _ _ Hv), zlen_app, zlen_cons.
    pose proof (zlen_nonneg xs). destruct (Z.ltb_spec (zlen done) (zlen done + (1 + zlen xs))); [|lia].
    destruct (vset_ok P HP h v (done ++ x :: xs) ids frees (length done) y Hv) as (h1 & E & Hv1 & U1); [rewrite app_length; cbn; lia|].
    unfold zlen at 1. rewrite E. cbn [obind]. rewrite insert_app_r_alt in Hv1 by lia. rewrite Nat.sub_diag in Hv1. cbn in Hv1.
    replace (done ++ y :: xs) with ((done ++ [y]) ++ xs) in Hv1 by (rewrite <- app_assoc; reflexivity).
    destruct (IH h1 v xs (done ++ [y]) ids frees Hv1) as (h2 & E2 & Hv2 & U2); [lia|].
    rewrite zlen_app in E2. change (zlen [y]) with 1 in E2. exists h2. rewrite E2. splits; [|eapply upd_trans; eassumption].
    cbn [drop]. rewrite <- app_assoc in Hv2. exact Hv2.
Qed.

Lemma part_push ys : forall h v xs ids frees, vinv P h v xs ids frees -> ~ phantom v \/ ys <> [] ->
  exists h' v' ids' frees', vec_assign_part P h v (zlen xs) ys = Ok (h', v') /\ vinv P h' v' (xs ++ ys) ids' frees' /\ ~ phantom v' /\
    upd (frees ++ ids) (vts v) h (frees' ++ ids') (vts v') h'.
Proof.
  induction ys as [|y ys IH]; intros h v xs ids frees Hv Hp; cbn [vec_assign_part].
  - exists h, v, ids, frees. rewrite app_nil_r. splits; try assumption; [tauto|]. apply upd_refl. eapply vinv_hok; eassumption.
  - rewrite (vinv_size P _ _ _ _ _ Hv), Z.ltb_irrefl.
    destruct (vpush_ok P HP h v xs ids frees y Hv) as (h1 & v1 & ids1 & frees1 & -> & Hv1 & Hp1 & U1 & _). cbn [obind].
    destruct (IH h1 v1 (xs ++ [y]) ids1 frees1 Hv1 (or_introl Hp1)) as (h2 & v2 & ids2 & frees2 & E2 & Hv2 & Hp2 & U2).
    rewrite zlen_app in E2. change (zlen [y]) with 1 in E2. rewrite <- app_assoc in Hv2.
    exists h2, v2, ids2, frees2. splits; try assumption. eapply upd_trans; eassumption.
Qed.

Lemma part_split ys zs h v i : i <= v_size v ->
  vec_assign_part P h v i (ys ++ zs) = ('(h1, v1) <-! vec_assign_part P h v i ys ;; vec_assign_part P h1 v1 (i + zlen ys) zs).
Proof.
  revert h v i. induction ys as [|y ys IH]; intros h v i Hi; cbn [app vec_assign_part].
  - cbn [obind]. change (zlen []) with 0. rewrite Z.add_0_r. reflexivity.
  - rewrite zlen_cons. replace (i + (1 + zlen ys)) with (i + 1 + zlen ys) by lia. destruct (Z.ltb_spec i (v_size v)).
    + destruct (vec_set P h v i y) as [h1| |]; cbn [obind]; [|reflexivity..]. apply IH. lia.
    + destruct (vec_push P h v y) as [[h1 v1]| |] eqn:E; cbn [obind]; [|reflexivity..]. apply push_size in E. apply IH. lia.
Qed.

(** All elements overwritten, the rest pushed *)
Lemma part_all ys h v xs ids frees : vinv P h v xs ids frees -> (length xs <= length ys)%nat -> ~ phantom v \/ ys <> [] ->
  exists h' v' ids' frees', vec_assign_part P h v 0 ys = Ok (h', v') /\ vinv P h' v' ys ids' frees' /\ ~ phantom v' /\
    upd (frees ++ ids) (vts v) h (frees' ++ ids') (vts v') h'.
Proof.
  intros Hv Hl Hp. assert (Ep : vec_assign_part P h v 0 ys = vec_assign_part P h v 0 (take (length xs) ys ++ drop (length xs) ys)) by (rewrite take_drop; reflexivity).
  rewrite Ep, part_split by (rewrite (vinv_size P _ _ _ _ _ Hv); apply zlen_nonneg).
  destruct (part_over (take (length xs) ys) h v xs [] ids frees Hv) as (h1 & E1 & Hv1 & U1); [rewrite take_length; lia|].
  change (zlen []) with 0 in E1. rewrite E1. cbn [obind app] in *. rewrite take_length_le in Hv1 by lia. rewrite drop_ge, app_nil_r in Hv1 by lia.
  destruct (part_push (drop (length xs) ys) h1 v _ ids frees Hv1) as (h2 & v2 & ids2 & frees2 & E2 & Hv2 & Hp2 & U2).
  { destruct Hp as [Hp|Hne]; [left; exact Hp|]. destruct xs as [|x xs]; [right; rewrite drop_0; exact Hne|left].
    intros [_ Hph]. destruct Hv as [(_ & F & _)|(t & Hlv)]; [discriminate|]. destruct Hlv as (_ & _ & _ & Hi & Hb & Hz & _).
    pose proof (zlen_nonneg xs). rewrite zlen_cons in Hz. pose proof (B_pos P HP). nia. }
  exists h2, v2, ids2, frees2. rewrite Z.add_0_l, E2. rewrite take_drop in Hv2. splits; try assumption. eapply upd_trans; eassumption.
Qed.

(** Constructors left by an exception *)
Lemma sized_fail_ok h n x k : hok [] [] h -> 0 <= k < n ->
  exists h' v t, vec_sized_fail P h n x k = Ok (h', v) /\ v_data v = Some t /\ t = nx h /\ is_Some (tb h' !! t) /\
    forall i, 0 <= i < k -> vec_get P h' v i = Ok x.
Proof.
  intros Hok Hk. pose proof (B_pos P HP) as HB. unfold vec_sized_fail. rewrite shiftr_bsz, land_bsz by assumption.
  pose proof (Z.div_pos k B ltac:(lia) HB). pose proof (Z.mod_pos_bound k B HB). pose proof (Z.div_mod k B ltac:(lia)).
  assert (k / B <= n / B) by (apply Z.div_le_mono; lia).
  destruct (talloc h (Z.max (n / B + 1) 64)) as [h1 t0] eqn:Ea. pose proof Ea as Ea'.
  destruct (bk_fresh P h (Z.max (n / B + 1) 64) 0 h1 t0 Hok ltac:(lia) Ea) as (t & -> & Hbk & U).
  destruct (fill_ok P HP (Z.to_nat (k / B + 1)) h1 t (Z.max (n / B + 1) 64) [] [] (k / B) (k mod B) x Hbk) as (h2 & ids & E & Hbk2 & Hi & U2);
    [reflexivity|unfold zlen; cbn; lia|unfold zlen; cbn; lia|lia|lia|].
  change (zlen []) with 0 in E, Hbk2. rewrite E. cbn [obind]. eexists h2, _, t. split; [reflexivity|]. cbn [v_data]. split; [reflexivity|].
  assert (Et : t = nx h) by (unfold talloc in Ea'; injection Ea' as _ <-; reflexivity). split; [exact Et|]. split.
  - destruct (lookup_lt_is_Some_2 ids 0%nat) as [b Hb]; [unfold zlen in Hi; lia|].
    pose proof (bk_get P h2 t _ _ ids _ _ _ [] 0%nat b 0 Hbk2 Hb eq_refl) as G. unfold tget in G. destruct (tb h2 !! t); [eauto|discriminate].
  - intros i Hik. cbn [app] in Hbk2. rewrite Z.sub_0_r in Hbk2.
    destruct (bk_locate P HP h2 t _ 0 ids 0 _ flist0 [] i Hbk2) as (j & b & Hlk & Hdi & Hj & Hp & Et2); [lia|unfold zlen in *; rewrite replicate_length; lia|unfold zlen; rewrite replicate_length; lia|].
    unfold vec_get, vec_at. cbn [v_data]. rewrite shiftr_bsz, land_bsz by assumption. rewrite !Z.add_0_l in *. rewrite Et2. cbn [obind].
    eapply bk_read with (n := i); try eassumption. replace i with (Z.of_nat (Z.to_nat i)) by lia. rewrite zl_nat. apply lookup_replicate. split; [reflexivity|lia].
Qed.

Lemma copy_part_ok h src xs : hok [] [] h -> 0 < v_slots src -> xs <> [] ->
  exists h' v t ids frees, vec_copy_part P h src xs = Ok (h', v) /\ vinv P h' v xs ids frees /\ ~ phantom v /\ v_data v = Some t /\ (nx h <= t)%nat /\ upd [] [] h (frees ++ ids) (vts v) h'.
Proof.
  intros Hok Hs Hne. unfold vec_copy_part. destruct (talloc h (v_slots src)) as [h1 t0] eqn:Ea.
  destruct (bk_fresh P h (v_slots src) 0 h1 t0 Hok ltac:(lia) Ea) as (u & -> & Hbk & U).
  assert (Hv2 : vinv P h1 (Vec 0 (Some u) (v_slots src) (-1) B flist0) [] [] []).
  { right. exists u. pose proof (B_pos P HP). unfold vlive; cbn. unfold zlen; cbn. splits; try assumption; lia. }
  destruct (part_push xs h1 _ [] [] [] Hv2 (or_intror Hne)) as (h' & v' & ids' & frees' & E & Hv' & Hp & U').
  change (zlen []) with 0 in E. rewrite E. destruct Hv' as [(-> & F & _)|(t & Hl)]; [cbn in F; congruence|].
  exists h', v', t, ids', frees'. pose proof Hl as (Ed & _). splits; try assumption; [right; eauto| |eapply upd_trans; [exact U|exact U']].
  assert (Ht : t ∈ vts v') by (rewrite (vts_live _ _ Ed); unfold rts; set_solver).
  apply (u_tnew _ _ _ _ _ _ U') in Ht as [_ [Ht|Ht]].
  - unfold vts in Ht; cbn in Ht. apply elem_of_list_singleton in Ht as ->.
    destruct (u_tnew _ _ _ _ _ _ U u) as [_ [Hu|Hu]]; [set_solver|inversion Hu|exact Hu].
  - pose proof (u_nx _ _ _ _ _ _ U). lia.
Qed.

End vector.

Section deque.
Context {V : Type}.
Variable P : params.
Hypothesis HP : 0 <= expo P <= 30.
Notation B := (bsz P).
Implicit Types (h : bheap V) (d : deq) (ids frees : list nat) (xs ys : list V).

Lemma over_app ys : forall h it last zs h1 it1 rest, assign_over P h it last ys = Ok (h1, it1, rest) ->
  assign_over P h it last (ys ++ zs) =
    if it_eq it1 last then Ok (h1, it1, rest ++ zs) else assign_over P h1 it1 last zs.
Proof.
  induction ys as [|y ys IH]; intros h it last zs h1 it1 rest E; cbn [assign_over app] in *.
  - injection E as <- <- <-. destruct (it_eq it last) eqn:Ei; [|reflexivity]. destruct zs as [|z zs]; cbn [assign_over]; [reflexivity|]. rewrite Ei. reflexivity.
  - destruct (it_eq it last) eqn:Ei.
    + injection E as <- <- <-. rewrite Ei. reflexivity.
    + apply obind_ok in E as (h2 & -> & E). cbn [obind]. apply obind_ok in E as (it2 & -> & E). cbn [obind]. apply IH. exact E.
Qed.
Lemma over_last ys : forall h it last h1 it1 rest, assign_over P h it last ys = Ok (h1, it1, rest) -> it_eq it1 last = false -> rest = [].
Proof.
  induction ys as [|y ys IH]; intros h it last h1 it1 rest E Hn; cbn [assign_over] in *; [congruence|].
  destruct (it_eq it last) eqn:Ei; [congruence|]. apply obind_ok in E as (h2 & _ & E). apply obind_ok in E as (it2 & _ & E). eauto.
Qed.
Lemma dpushes_app ys : forall h d zs, deq_pushes P h d (ys ++ zs) = ('(h1, d1) <-! deq_pushes P h d ys ;; deq_pushes P h1 d1 zs).
Proof.
  induction ys as [|y ys IH]; intros h d zs; cbn [deq_pushes app obind]; [reflexivity|].
  destruct (deq_push P h d y) as [[h1 d1]| |]; cbn [obind]; [apply IH|reflexivity..].
Qed.

(** The call is its first part followed by the rest. *)
Lemma dpart_none h d ys z zs h1 d1 :
  deq_assign_part P h d ys = Ok (h1, d1, None) -> deq_assign P h d (ys ++ z :: zs) = deq_pushes P h1 d1 (z :: zs).
Proof.
  unfold deq_assign_part, deq_assign. destruct (d_size d =? 0).
  - intros E. apply obind_ok in E as ([h2 d2] & E & F). injection F as <- <-. cbn [obind]. rewrite dpushes_app, E. reflexivity.
  - intros E. apply obind_ok in E as (first & -> & E). cbn [obind]. apply obind_ok in E as (last & -> & E). cbn [obind]. apply obind_ok in E as ([[h2 it] rest] & Eo & E).
    cbn [obind]. rewrite (over_app _ _ _ _ _ _ _ _ Eo). destruct (it_eq it last); [|discriminate].
    apply obind_ok in E as ([h3 d3] & E & F). injection F as <- <-. cbn [obind].
    destruct (rest ++ z :: zs) eqn:Er; [destruct rest; discriminate|]. cbn [obind]. rewrite <- Er, dpushes_app, E. reflexivity.
Qed.
Lemma dpart_some h d ys z zs h1 d1 it :
  deq_assign_part P h d ys = Ok (h1, d1, Some it) ->
  d1 = d /\ (it_write P h1 it z = UB -> deq_assign P h d (ys ++ z :: zs) = UB) /\
  (forall h2 it', it_write P h1 it z = Ok h2 -> it_add P h2 it 1 = Ok it' -> deq_assign_part P h d (ys ++ [z]) =
     (last <-! deq_end P h d ;; if it_eq it' last then Ok (h2, d, None) else Ok (h2, d, Some it'))).
Proof.
  unfold deq_assign_part, deq_assign. destruct (d_size d =? 0).
  - intros E. apply obind_ok in E as ([h2 d2] & E & F). discriminate.
  - intros E. apply obind_ok in E as (first & -> & E). cbn [obind]. apply obind_ok in E as (last & -> & E). cbn [obind]. apply obind_ok in E as ([[h2 it2] rest] & Eo & E).
    destruct (it_eq it2 last) eqn:Ei; [apply obind_ok in E as ([h3 d3] & _ & F); discriminate|]. injection E as <- <- <-.
    cbn [obind]. split; [reflexivity|]. rewrite !(over_app _ _ _ _ _ _ _ _ Eo), Ei. cbn [assign_over]. rewrite Ei. split.
    + intros ->. reflexivity.
    + intros h3 it' -> E2. cbn [obind]. rewrite E2. cbn [obind]. destruct (it_eq it' last); reflexivity.
Qed.

Lemma dpart_over h d xs ys ids frees : dinv P h d xs ids frees -> ~ dfull P d -> (length ys < length xs)%nat ->
  exists h1 it, deq_assign_part P h d ys = Ok (h1, d, Some it) /\
    (deq_at P h d (zlen ys) = match i_ptr it with PSlot b j => Ok (Some b, j) | _ => UB end) /\
    forall w, exists h2, it_write P h1 it w = Ok h2 /\ dinv P h2 d (ys ++ w :: drop (S (length ys)) xs) ids frees.
Proof.
  pose proof HP as [HP1 HP2]. intros Hd Hf Hl. pose proof Hd as Hd0. unfold deq_assign_part. rewrite (dinv_size P _ _ _ _ _ Hd).
  assert (Hpos : zlen ys < zlen xs) by (unfold zlen; lia). pose proof (zlen_nonneg ys). destruct (Z.eqb_spec (zlen xs) 0); [lia|].
  destruct Hd as [(_ & E & _)|(t & Hlv)]; [subst; cbn in Hl; lia|].
  destruct (dbegin_ok P HP1 _ _ _ _ _ _ Hlv Hf) as (it & -> & Hit). destruct (dend_ok P HP1 _ _ _ _ _ _ Hlv Hf) as (last & -> & Hlast). cbn [obind].
  pose proof (dend_entry P HP1 _ _ _ _ _ _ Hlv Hf) as He. pose proof (dlen_ids P _ _ _ _ _ _ Hlv) as [Ho Hz].
  pose proof Hlv as (Ed & Hbk & Hsz & Hi & Hn & Hfs & Hb & Hzz & Hs). unfold dq0 in *.
  destruct (assign_over_ok P HP1 t (d_slots d) (d_front d) ids (d_fsize d + 1) (d_fl d) frees last (small_B P HP1 HP2) Ho ys h [] xs it Hbk Hz He) as
    (h1 & it1 & -> & Hbk1 & U1 & T1 & Hit1); [change (zlen []) with 0; rewrite Z.add_0_r; exact Hit|exact Hlast|].
  cbn [obind app] in *. change (zlen []) with 0 in *. rewrite Z.add_0_r in Hit1. specialize (Hit1 ltac:(lia)).
  rewrite (it_at_eq P HP1 _ _ _ _ _ _ Hit1 (it_at_tb P _ _ _ _ _ T1 Hlast)).
  destruct (Z.eqb_spec (d_front d * B + (d_fsize d + 1) + Z.of_nat (length ys)) (d_front d * B + (d_fsize d + 1) + zlen xs)); [unfold zlen in *; lia|].
  exists h1, it1. split; [reflexivity|].
  rewrite take_ge in Hbk1 by lia.
  assert (Hlen : zlen (ys ++ drop (length ys) xs) = zlen xs) by (unfold zlen; rewrite app_length, drop_length; lia).
  split.
  - destruct (dat_ok P HP1 h d xs ids frees (zlen ys) Hd0) as (i & b & -> & Hlk & Ei & _); [lia|].
    apply it_at_inv in Hit1 as (c & E & ->). cbn [i_ptr]. fold (zlen ys) in E |- *. pose proof (B_pos P HP1).
    replace (d_front d * B + (d_fsize d + 1) + zlen ys) with ((d_fsize d + 1 + zlen ys) + d_front d * B) in * by lia.
    rewrite Z.div_add in E by lia. rewrite Z.mod_add by lia.
    rewrite (bk_get P h1 t _ _ ids _ _ _ frees i b _ Hbk1 Hlk) in E by lia. injection E as <-. reflexivity.
  - intros w. destruct (it_write_ok P HP1 h1 t _ _ ids _ _ _ frees (length ys) it1 w Hbk1 Ho) as (h2 & E2 & Hbk2 & _ & _); [lia|unfold zlen in *; lia|exact Hit1|].
    exists h2. split; [exact E2|]. right. exists t. rewrite insert_app_r_alt in Hbk2 by lia. rewrite Nat.sub_diag in Hbk2.
    destruct (drop (length ys) xs) as [|x0 rest] eqn:Edr; [apply (f_equal length) in Edr; rewrite drop_length in Edr; cbn in Edr; lia|].
    assert (Er : drop (S (length ys)) xs = rest) by (change rest with (drop 1 (x0 :: rest)); rewrite <- Edr, drop_drop; f_equal; lia).
    cbn in Hbk2. rewrite Er. assert (zlen (ys ++ w :: rest) = zlen xs) by (rewrite <- Hlen, !zlen_app, !zlen_cons; reflexivity).
    unfold DeqProofs.dlive. splits; try assumption; lia.
Qed.

Lemma dpart_all h d xs ys ids frees : dinv P h d xs ids frees -> (xs <> [] -> ~ dfull P d) -> (length xs <= length ys)%nat ->
  exists h1 d1 ids1 frees1, deq_assign_part P h d ys = Ok (h1, d1, None) /\ dinv P h1 d1 ys ids1 frees1.
Proof.
  pose proof HP as [HP1 HP2]. intros Hd Hf Hl. unfold deq_assign_part. rewrite (dinv_size P _ _ _ _ _ Hd). destruct xs as [|x0 xs0].
  - change (zlen [] =? 0) with true. cbn iota.
    destruct (dpushes_ok P HP1 ys h d [] ids frees Hd) as (h' & d' & ids' & frees' & -> & Hd' & _). cbn [obind]. exists h', d', ids', frees'. auto.
  - set (xs := x0 :: xs0) in *. assert (Hpos : 0 < zlen xs) by (unfold xs; rewrite zlen_cons; pose proof (zlen_nonneg xs0); lia).
    destruct (Z.eqb_spec (zlen xs) 0); [lia|]. specialize (Hf ltac:(discriminate)).
    destruct Hd as [(_ & E & _)|(t & Hlv)]; [discriminate|].
    destruct (dbegin_ok P HP1 _ _ _ _ _ _ Hlv Hf) as (it & -> & Hit). destruct (dend_ok P HP1 _ _ _ _ _ _ Hlv Hf) as (last & -> & Hlast). cbn [obind].
    pose proof (dend_entry P HP1 _ _ _ _ _ _ Hlv Hf) as He. pose proof (dlen_ids P _ _ _ _ _ _ Hlv) as [Ho Hz].
    destruct Hlv as (Ed & Hbk & Hsz & Hi & Hn & Hfs & Hb & Hzz & Hs). unfold dq0 in *.
    rewrite <- (take_drop (length xs) ys).
    destruct (assign_over_ok P HP1 t (d_slots d) (d_front d) ids (d_fsize d + 1) (d_fl d) frees last (small_B P HP1 HP2) Ho (take (length xs) ys) h [] xs it Hbk Hz He) as
      (h1 & it1 & Eo & Hbk1 & U1 & T1 & Hit1); [change (zlen []) with 0; rewrite Z.add_0_r; exact Hit|exact Hlast|].
    rewrite (over_app _ _ _ _ _ _ _ _ Eo). rewrite take_length_le in Hit1 by lia. specialize (Hit1 ltac:(lia)). change (zlen []) with 0 in Hit1. rewrite Z.add_0_r in Hit1.
    rewrite (it_at_eq P HP1 _ _ _ _ _ _ Hit1 (it_at_tb P _ _ _ _ _ T1 Hlast)). fold (zlen xs). cbn [app]. rewrite Z.eqb_refl. cbn [obind].
    rewrite (it_at_eq P HP1 _ _ _ _ _ _ Hit1 (it_at_tb P _ _ _ _ _ T1 Hlast)). fold (zlen xs). cbn [app]. rewrite Z.eqb_refl. cbn [obind].
    rewrite (drop_ge (take _ _)) by (rewrite take_length; lia). cbn [app].
    cbn [app] in Hbk1. rewrite take_ge in Hbk1 by (rewrite take_length; lia). rewrite (drop_ge xs), app_nil_r in Hbk1 by (rewrite take_length; lia).
    assert (Hd1 : dinv P h1 d (take (length xs) ys) ids frees).
    { right. exists t. assert (zlen (take (length xs) ys) = zlen xs) by (unfold zlen; rewrite take_length; lia).
      unfold DeqProofs.dlive. splits; try assumption; lia. }
    destruct (dpushes_ok P HP1 (drop (length xs) ys) h1 d _ ids frees Hd1) as (h2 & d2 & ids2 & frees2 & -> & Hd2 & _). cbn [obind]. eauto 10.
Qed.
End deque.
