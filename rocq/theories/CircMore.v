(** More about CircularBufferRaw: a caller-level discipline, acceptance, and tightness of the push guard. *)
From Verif Require Import Base CircModel CircSpec CircProofs.

(** ** push is predicted by isSpaceAvailable, in every state *)
Lemma push_iff_space s d n s' b :
  0 < n -> circ_push s (Some d) n = Ok (s', b) -> b = circ_space s n.
Proof.
  intros Hn. unfold circ_push, circ_space.
  destruct (Z.leb_spec n 0); [lia|].
  destruct (Z.leb_spec (c_r s) (c_w s)).
  - destruct (Z.leb_spec (n + 4) (c_cap s - c_w s)).
    + destruct (circ_put _ _ _ _); cbn [obind]; congruence.
    + destruct (Z.leb_spec (n + 4) (c_r s)); [|congruence].
      destruct (mwrite _ _ _) as [m1| |]; cbn [obind]; try congruence.
      destruct (circ_put _ _ _ _); cbn [obind]; congruence.
  - destruct (Z.leb_spec (n + 4) (c_r s - c_w s)); [|congruence].
    destruct (circ_put _ _ _ _); cbn [obind]; congruence.
Qed.

Lemma push_refused_unchanged s data n s' :
  circ_push s data n = Ok (s', false) -> s' = s.
Proof.
  unfold circ_push. destruct data as [d|]; [|congruence].
  destruct (Z.leb_spec n 0); [congruence|].
  destruct (Z.leb_spec (c_r s) (c_w s)).
  - destruct (Z.leb_spec (n + 4) (c_cap s - c_w s)).
    + destruct (circ_put _ _ _ _); cbn [obind]; congruence.
    + destruct (Z.leb_spec (n + 4) (c_r s)); [|congruence].
      destruct (mwrite _ _ _) as [m1| |]; cbn [obind]; try congruence.
      destruct (circ_put _ _ _ _); cbn [obind]; congruence.
  - destruct (Z.leb_spec (n + 4) (c_r s - c_w s)); [|congruence].
    destruct (circ_put _ _ _ _); cbn [obind]; congruence.
Qed.

Lemma push_no_space s d n : 0 < n -> circ_space s n = false -> circ_push s (Some d) n = Ok (s, false).
Proof.
  unfold circ_push, circ_space. intros Hn Hs.
  destruct (Z.leb_spec n 0); [lia|].
  destruct (Z.leb_spec (c_r s) (c_w s)).
  - destruct (Z.leb_spec (n + 4) (c_cap s - c_w s)); [discriminate|].
    destruct (Z.leb_spec (n + 4) (c_r s)); [discriminate|reflexivity].
  - destruct (Z.leb_spec (n + 4) (c_r s - c_w s)); [discriminate|reflexivity].
Qed.

Lemma push_bad_args s data n : n <= 0 \/ data = None -> circ_push s data n = Ok (s, false).
Proof.
  intros H. unfold circ_push. destruct data as [d|]; [|reflexivity].
  destruct (Z.leb_spec n 0); [reflexivity|]. destruct H; [lia|discriminate].
Qed.

(** ** Enough slack: the push is accepted and safe *)
Lemma slack_ok M s q n :
  circ_inv M s q -> 0 < n <= M -> footprint q + n + M + 8 <= c_cap s ->
  circ_space s n = true /\ push_safe s n.
Proof.
  intros (Hc & Hi & HM & H) Hn Hf. unfold circ_space, push_safe.
  pose proof (footprint_nonneg q) as Hfn.
  destruct H as [(Hr & Hrw & Hw & Hs)|(q1 & q2 & e & -> & H0 & H1 & H2 & Hs1 & He & HeM & Hor & Hs2)].
  - apply seg_len in Hs.
    destruct (Z.leb_spec (c_r s) (c_w s)); [|lia].
    destruct (Z.leb_spec (n + 4) (c_cap s - c_w s)); [split; [reflexivity|lia]|].
    destruct (Z.leb_spec (n + 4) (c_r s)); [split; [reflexivity|lia]|]. lia.
  - apply seg_len in Hs1. apply seg_len in Hs2. rewrite footprint_app in *.
    destruct (Z.leb_spec (c_r s) (c_w s)); [lia|].
    destruct (Z.leb_spec (n + 4) (c_r s - c_w s)); [split; [reflexivity|lia]|]. lia.
Qed.

(** What one call does to the content when nothing is refused. *)
Definition fifo_next (q : list (list byte)) (o : cop) : list (list byte) :=
  match o with
  | CPush (Some d) n => if 0 <? n then q ++ [take (Z.to_nat n) d] else q
  | CPop k => match q with b :: q' => if zlen b <=? k then q' else q | [] => [] end
  | CClear => []
  | _ => q
  end.

(** The caller never pushes a block larger than [M], and never has more than [cap - M - 4] bytes
    outstanding (4 bytes of overhead per block counted). *)
Fixpoint disciplined (M cap : Z) (q : list (list byte)) (ops : list cop) : Prop :=
  match ops with
  | [] => True
  | o :: os =>
      (match o with
       | CPush (Some d) n => 0 < n -> n <= zlen d /\ n <= M /\ footprint q + (n + 4) <= cap - M - 4
       | _ => True
       end) /\ disciplined M cap (fifo_next q o) os
  end.

Definition push_accepted (e : cop * cret) : Prop :=
  match e with (CPush (Some _) n, x) => 0 < n -> x = RBool true | _ => True end.

Lemma disciplined_ok M s q ops :
  circ_inv M s q -> disciplined M (c_cap s) q ops ->
  exists s' tr q', circ_run s ops = Ok (s', tr) /\ fifo_trace (c_cap s) q tr q' /\ circ_inv M s' q' /\
    map fst tr = ops /\ Forall push_accepted tr.
Proof.
  revert s q; induction ops as [|o ops IH]; intros s q Hinv Hd; cbn [circ_run].
  - exists s, [], q. splits; try assumption; constructor.
  - destruct Hd as [Ho Hd].
    assert (Hl : cop_legal M o /\ cop_safe s o).
    { destruct o as [[d|] n| | | | | |]; try (split; exact I). cbn.
      destruct (Z_lt_le_dec 0 n) as [Hn|Hn].
      - specialize (Ho Hn). pose proof (footprint_nonneg q). destruct Hinv as (Hc & Hi & HM & Hx).
        splits; try lia. intros _.
        apply (slack_ok M s q n); [split; auto|lia|lia].
      - pose proof (zlen_nonneg d). destruct Hinv as (Hc & Hi & HM & Hx). unfold int_max.
        splits; lia. }
    destruct Hl as [Hl Hsafe].
    destruct (step_ok M s q o Hinv Hl Hsafe) as (s1 & x & q1 & Hst & Hf & Hi1 & Hc1 & Hm1).
    assert (Hacc : push_accepted (o, x)).
    { destruct o as [[d|] n| | | | | |]; try exact I. cbn. intros Hn. specialize (Ho Hn).
      cbn [circ_step] in Hst. destruct (circ_push s (Some d) n) as [[s1' b]| |] eqn:Hp; cbn [obind] in Hst; try discriminate.
      injection Hst as <- <-. f_equal. rewrite (push_iff_space _ _ _ _ _ Hn Hp).
      apply (slack_ok M s q n Hinv); lia. }
    assert (Hq : q1 = fifo_next q o).
    { inversion Hf; subst; cbn [fifo_next]; try reflexivity.
      - destruct (Z.ltb_spec 0 n); [reflexivity|lia].
      - destruct data as [d|]; [|reflexivity]. destruct (Z.ltb_spec 0 n); [|reflexivity].
        cbn in Hacc. specialize (Hacc H). discriminate.
      - destruct (Z.leb_spec (zlen b) k); [reflexivity|lia].
      - destruct (Z.leb_spec (zlen b) k); [lia|reflexivity]. }
    rewrite Hst; cbn [obind]. subst q1. rewrite <- Hc1 in Hd.
    destruct (IH s1 _ Hi1 Hd) as (s2 & tr & q2 & -> & Hft & Hi2 & Hops & Hall); cbn [obind].
    exists s2, ((o, x) :: tr), q2. split; [reflexivity|]. splits; try assumption.
    + econstructor; [eassumption|]. rewrite <- Hc1. assumption.
    + cbn [map fst]. rewrite Hops. reflexivity.
    + constructor; assumption.
Qed.

(** ** Tightness: a push accepted outside the guard breaks the FIFO behaviour *)
Definition blk (m : list byte) (a : Z) (x : list byte) : Prop :=
  0 < zlen x <= int_max /\ mread m a 4 = Ok (enc32 (zlen x)) /\ mread m (a + 4) (zlen x) = Ok x.

Lemma pop_blk s x :
  blk (c_mem s) (c_r s) x -> c_w s <> c_r s ->
  circ_pop s int_max = Ok (Circ (c_mem s) (c_w s)
     (if c_cap s - (c_r s + zlen x + 4) <? 8 then 0 else c_r s + zlen x + 4) (c_cap s), zlen x, x).
Proof.
  intros (Hx & Hh & Hb) Hne. unfold circ_pop.
  destruct (Z.eqb_spec (c_w s) (c_r s)); [lia|].
  rewrite (read_int_enc _ _ (zlen x)) by (assumption || lia). cbn [obind].
  destruct (Z.ltb_spec (zlen x) 0); [lia|]. cbn [obind].
  destruct (Z.leb_spec (zlen x) int_max); [|lia].
  rewrite Hb; cbn [obind]. reflexivity.
Qed.

Lemma drain q : forall m w r cap x,
  blk m r x -> seg m cap (r + 4 + zlen x) q w -> cap < w + 8 ->
  circ_run (Circ m w r cap) (repeat (CPop int_max) (S (length q))) =
    Ok (Circ m w 0 cap, map (fun b => (CPop int_max, RPop (zlen b) b)) (x :: q)).
Proof.
  induction q as [|y q IH]; intros m w r cap x Hx Hs Hw.
  - cbn [seg] in Hs. cbn [length repeat circ_run circ_step].
    rewrite (pop_blk _ x); cbn [c_mem c_r c_w c_cap]; [|exact Hx|destruct Hx; lia]. cbn [obind].
    destruct (Z.ltb_spec (cap - (r + zlen x + 4)) 8); [|lia]. reflexivity.
  - pose proof (seg_len _ _ _ _ _ Hs) as Hl. pose proof (footprint_nonneg (y :: q)) as Hnn.
    cbn [seg] in Hs. destruct Hs as (Hy & Ha & Hh & Hb & Ht).
    cbn [length]. change (repeat (CPop int_max) (S (S (length q))))
      with (CPop int_max :: repeat (CPop int_max) (S (length q))).
    cbn [circ_run circ_step].
    rewrite (pop_blk _ x); cbn [c_mem c_r c_w c_cap]; [|exact Hx|destruct Hx; lia]. cbn [obind].
    destruct (Z.ltb_spec (cap - (r + zlen x + 4)) 8); [lia|].
    replace (r + zlen x + 4) with (r + 4 + zlen x) by lia.
    rewrite (IH m w (r + 4 + zlen x) cap y); [reflexivity| |exact Ht|exact Hw].
    split; [exact Hy|]. split; assumption.
Qed.

Lemma fifo_drained cap q tr q' :
  Forall (fun b => zlen b <= int_max) q -> fifo_trace cap q tr q' ->
  map fst tr = repeat (CPop int_max) (length q) -> q' = [].
Proof.
  revert q; induction tr as [|[o x] tr IH]; intros q Hq Ht Hm.
  - inversion Ht; subst. destruct q'; [reflexivity|discriminate].
  - destruct q as [|b q]; [discriminate|]. cbn in Hm. injection Hm as -> Hm.
    inversion Ht as [|? ? ? q1 ? ? Hst Ht']; subst. inversion Hq; subst.
    inversion Hst; subst; try discriminate.
    + match goal with H : _ :: _ = _ :: _ |- _ => injection H as <- <- end. eapply IH; eauto.
    + match goal with H : _ :: _ = _ :: _ |- _ => injection H as <- <- end. lia.
Qed.

Lemma fifo_trace_app cap q tr1 tr2 q' :
  fifo_trace cap q (tr1 ++ tr2) q' -> exists q1, fifo_trace cap q tr1 q1 /\ fifo_trace cap q1 tr2 q'.
Proof.
  revert q; induction tr1 as [|e tr1 IH]; intros q H.
  - exists q. split; [constructor|exact H].
  - inversion H; subst. destruct (IH _ H5) as (q2 & H1 & H2). exists q2. split; [econstructor; eassumption|assumption].
Qed.

Lemma circ_run_app s ops1 ops2 s1 tr1 :
  circ_run s ops1 = Ok (s1, tr1) ->
  circ_run s (ops1 ++ ops2) = ('(s2, tr2) <-! circ_run s1 ops2 ;; Ok (s2, tr1 ++ tr2)).
Proof.
  revert s tr1; induction ops1 as [|o ops1 IH]; intros s tr1; cbn [circ_run app].
  - intros [= <- <-]. destruct (circ_run s ops2) as [[? ?]| |]; reflexivity.
  - destruct (circ_step s o) as [[s' x]| |]; cbn [obind]; try discriminate.
    destruct (circ_run s' ops1) as [[s2 tr2]| |] eqn:Hr; cbn [obind]; try discriminate.
    intros [= <- <-]. rewrite (IH _ _ Hr).
    destruct (circ_run s2 ops2) as [[? ?]| |]; reflexivity.
Qed.

Lemma seg_blocks m cap a q b : seg m cap a q b -> Forall (fun x => zlen x <= int_max) q.
Proof.
  revert a; induction q as [|x q IH]; cbn [seg]; intros a H; [constructor|].
  destruct H as (? & _ & _ & _ & ?). constructor; [lia|eauto].
Qed.

Lemma guard_tight M s q d n :
  circ_inv M s q -> 0 < n -> n <= zlen d -> n <= int_max ->
  circ_space s n = true -> ~ push_safe s n ->
  exists s' ops s'' tr, circ_push s (Some d) n = Ok (s', true) /\
    circ_run s' ops = Ok (s'', tr) /\
    forall q', ~ fifo_trace (c_cap s) (q ++ [take (Z.to_nat n) d]) tr q'.
Proof.
  intros (Hc & Hi & HM4 & H) Hn Hd Hni Hsp Hu.
  assert (Hlt : zlen (take (Z.to_nat n) d) = n).
  { unfold zlen in *. rewrite take_length. lia. }
  assert (Hexact : forall s', circ_push s (Some d) n = Ok (s', true) -> c_w s' = c_r s' ->
     exists s' ops s'' tr, circ_push s (Some d) n = Ok (s', true) /\
      circ_run s' ops = Ok (s'', tr) /\
      forall q', ~ fifo_trace (c_cap s) (q ++ [take (Z.to_nat n) d]) tr q').
  { intros s' Hp Hwr. exists s', [CEmpty], s', [(CEmpty, RBool true)]. split; [exact Hp|]. split.
    - cbn [circ_run circ_step]. unfold circ_empty. rewrite Hwr, Z.eqb_refl. reflexivity.
    - intros q' Ht. inversion Ht as [|? ? ? ? ? ? Hst _]; subst. inversion Hst; subst.
      destruct q; discriminate. }
  unfold circ_space in Hsp. unfold push_safe in Hu. 
  destruct (Z.leb_spec (c_r s) (c_w s)) as [Hrw|Hrw].
  - destruct H as [H|H].
    2:{ exfalso. destruct H as (q1 & q2 & e & -> & H0 & H1 & _). lia. }
    destruct H as (Hr & _ & Hw & Hs).
    destruct (Z.leb_spec (n + 4) (c_cap s - c_w s)) as [Hfit|Hfit].
    + clear Hexact.
      assert (Hr0 : c_r s = 0 /\ c_cap s < c_w s + n + 12) by lia. destruct Hr0 as [Hr0 Hbig].
      destruct (circ_put_spec (c_mem s) (c_w s) d n) as (m' & Hp & Hl & Hh & Hb & Hfr & _); try lia.
      set (b := take (Z.to_nat n) d) in *.
      assert (Hpush : circ_push s (Some d) n = Ok (Circ m' (c_w s + n + 4) 0 (c_cap s), true)).
      { unfold circ_push. destruct (Z.leb_spec n 0); [lia|].
        destruct (Z.leb_spec (c_r s) (c_w s)); [|lia].
        destruct (Z.leb_spec (n + 4) (c_cap s - c_w s)); [|lia].
        rewrite Hp; cbn [obind]. rewrite Hr0. rewrite (Z.ltb_irrefl 0), andb_false_r. reflexivity. }
      assert (Hq0 : Forall (fun x => zlen x <= int_max) (q ++ [b])).
      { apply Forall_app. split; [eapply seg_blocks; eassumption|]. constructor; [lia|constructor]. }
      assert (Hdr : circ_run (Circ m' (c_w s + n + 4) 0 (c_cap s)) (repeat (CPop int_max) (length (q ++ [b])))
        = Ok (Circ m' (c_w s + n + 4) 0 (c_cap s), map (fun b => (CPop int_max, RPop (zlen b) b)) (q ++ [b]))).
      { rewrite Hr0 in Hs. destruct q as [|x q].
        - cbn [seg] in Hs. cbn [app length].
          apply (drain [] m' (c_w s + n + 4) 0 (c_cap s) b); [|cbn [seg]; lia|lia].
          rewrite <- Hs in Hh, Hb. split; [lia|]. rewrite Hlt. split; assumption.
        - cbn [app length]. apply (drain (q ++ [b]) m' (c_w s + n + 4) 0 (c_cap s) x); [| |lia].
          + cbn [seg] in Hs. destruct Hs as (Hx & Ha & Hxh & Hxb & Ht).
            pose proof (seg_len _ _ _ _ _ Ht) as Hlen. pose proof (footprint_nonneg q).
            assert (Hs1 : seg m' (c_cap s) 0 [x] (0 + zlen x + 4)).
            { apply Hfr; [lia|]. apply seg_single; assumption. }
            cbn [seg] in Hs1. split; [lia|]. split; apply Hs1.
          + assert (Hw8 : c_w s + 8 <= c_cap s).
            { apply seg_nonempty in Hs; [lia|congruence]. }
            cbn [seg] in Hs. destruct Hs as (Hx & Ha & Hxh & Hxb & Ht).
            eapply seg_app; [apply Hfr; [|exact Ht]; lia|].
            replace (c_w s + n + 4) with (c_w s + zlen b + 4) by lia.
            apply seg_single; rewrite ?Hlt; try assumption; lia. }
      eexists _, (repeat (CPop int_max) (length (q ++ [b])) ++ [CEmpty]), _, _.
      split; [exact Hpush|]. split.
      { rewrite (circ_run_app _ _ _ _ _ Hdr). cbn [circ_run circ_step obind]. reflexivity. }
      intros q' Ht. apply fifo_trace_app in Ht as (q1 & Ht1 & Ht2).
      apply fifo_drained in Ht1; [|exact Hq0|].
      2:{ rewrite map_map. cbn [fst]. generalize (q ++ [b]). intros l. induction l as [|y l IHl]; cbn [map length repeat]; [reflexivity|]. f_equal. exact IHl. }
      subst q1. clear Hpush Hdr Hp Hh Hb Hfr Hq0. clearbody b. clear Hlt. inversion Ht2 as [|? ? ? ? ? ? Hst _]; subst. 
      unfold circ_empty in Hst. cbn [c_w c_r] in Hst.
      destruct (Z.eqb_spec (c_w s + n + 4) 0) as [Hz|Hz]; [lia|]. inversion Hst.
    + destruct (Z.leb_spec (n + 4) (c_r s)) as [Hwr|Hwr]; [|discriminate].
      assert (Hex : n + 4 = c_r s) by lia.
      assert (Hw1 : exists m1, mwrite (c_mem s) (c_w s) (enc32 (-1)) = Ok m1).
      { rewrite mwrite_ok; eauto; rewrite ?zlen_enc32; lia. }
      destruct Hw1 as [m1 Hw1]. pose proof (mwrite_len _ _ _ _ Hw1) as Hl1.
      destruct (circ_put_spec m1 0 d n) as (m' & Hp & Hl & _); try lia.
      apply (Hexact (Circ m' (n + 4) (c_r s) (c_cap s))); [|exact Hex].
      unfold circ_push. destruct (Z.leb_spec n 0); [lia|].
      destruct (Z.leb_spec (c_r s) (c_w s)); [|lia].
      destruct (Z.leb_spec (n + 4) (c_cap s - c_w s)); [lia|].
      destruct (Z.leb_spec (n + 4) (c_r s)); [|lia].
      rewrite Hw1; cbn [obind]. rewrite Hp; reflexivity.
  - destruct H as [H|H].
    { exfalso. destruct H as (Hr & H & _). lia. }
    destruct H as (q1 & q2 & e & -> & H0 & _ & H2 & Hs1 & He & HeM & Hor & Hs2).
    destruct (Z.leb_spec (n + 4) (c_r s - c_w s)) as [Hfit|Hfit]; [|discriminate].
    destruct (circ_put_spec (c_mem s) (c_w s) d n) as (m' & Hp & Hl & _); try lia.
    apply (Hexact (Circ m' (c_w s + n + 4) (c_r s) (c_cap s))); [|cbn [c_w c_r]; lia].
    unfold circ_push. destruct (Z.leb_spec n 0); [lia|].
    destruct (Z.leb_spec (c_r s) (c_w s)); [lia|].
    destruct (Z.leb_spec (n + 4) (c_r s - c_w s)); [|lia].
    rewrite Hp; reflexivity.
Qed.
