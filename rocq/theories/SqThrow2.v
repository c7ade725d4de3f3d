(** SimpleQueue when swapping elements in std::reverse may throw too *)
From stdpp Require Import list.
From Verif Require Import Base Conc Herlihy SqModel SqSpec SqProofs SqThrow.

(** A pop that is left by an exception from std::reverse has lost its element and may have changed the order of elements. *)
Definition y_spec_swap {V} (strict : bool) (q : list V) (o : sqop V) (r : option (sqret V)) (q' : list V) : Prop :=
  y_spec strict q o r q' \/
  (o = QPop /\ r = None /\ exists v l l' l2, q = v :: l ++ l2 /\ (2 <= length l)%nat /\ Permutation l l' /\ q' = l' ++ l2).

Section proofs.
Context {V : Type}.
Variable strict : bool.
Notation sqcfg := (cfg (sqsh V) (sqpc V)).
Notation ycfg := (cfg (sqsh V) (ypc V)).
Implicit Types (s : sqsh V) (pc : sqpc V) (q : list V) (c : ycfg).

Lemma rev_part_perm (j : nat) (l : list V) : (2 * j <= length l)%nat -> Permutation (rev_part j l) l.
Proof.
  intros Hj. unfold rev_part. set (n := length l).
  assert (E : l = take j l ++ drop j (take (n - j) l) ++ drop (n - j) l).
  { rewrite <- (take_drop (n - j) l) at 1. rewrite app_assoc. f_equal. rewrite <- (take_drop j (take (n - j) l)) at 1. rewrite take_take, Nat.min_l by lia. reflexivity. }
  assert (E2 : rev l = rev (drop (n - j) l) ++ rev (drop j (take (n - j) l)) ++ rev (take j l)).
  { rewrite E at 1. rewrite !rev_app_distr. rewrite <- app_assoc. reflexivity. }
  assert (L1 : length (rev (drop (n - j) l)) = j) by (rewrite rev_length, drop_length; lia).
  assert (L2 : length (rev (drop j (take (n - j) l))) = (n - j - j)%nat) by (rewrite rev_length, drop_length, take_length; lia).
  rewrite E2. rewrite take_app_alt by congruence. rewrite (app_assoc (rev (drop (n - j) l)) (rev (drop j (take (n - j) l))) (rev (take j l))). rewrite drop_app_alt by (rewrite app_length, L1, L2; lia).
  rewrite E at 4. rewrite Permutation_app_comm. rewrite <- app_assoc. rewrite (Permutation_app_comm (drop j (take (n - j) l))). rewrite <- app_assoc.
  apply Permutation_app; [symmetry; apply Permutation_rev|]. rewrite Permutation_app_comm. apply Permutation_app; [reflexivity|symmetry; apply Permutation_rev].
Qed.

(** The element that a pop holds while it reverses the vector is counted as still in the queue. *)
Definition inhand (x : option (sqpc V)) : list V := match x with Some (C4 (Some v)) | Some (C5 (Some v)) => [v] | _ => [] end.
Definition hand c : list V := inhand (holder (pullL (sh c)) (th (yer c))).
Definition zR c q : Prop := exists q0, yR strict c q0 /\ q = hand c ++ q0.
Definition zalpha (y : ypc V) : ast (sqop V) (option (sqret V)) :=
  match y with YP (C4 (Some _)) | YP (C5 (Some _)) => APend QPop | _ => yalpha y end.

Lemma step_pullL s t pc s' pc' : sq_step s t pc tt = Some (s', pc') ->
  (pullL s' = pullL s /\ hpull pc' = hpull pc) \/ (pullL s = None /\ pullL s' = Some t) \/ (hpull pc = true /\ pullL s' = None).
Proof.
  destruct pc; cbn [sq_step]; try discriminate; unfold lock_push, lock_pull; intros Es;
    try (destruct (pushL s) eqn:E1; [discriminate|]); try (destruct (pullL s) eqn:E2; [discriminate|]); try (destruct (rev (pullE s)));
    try (destruct (nonempty _)); try (destruct (eflag s)); try (destruct k as [?|]); injection Es as <- <-; cbn; auto.
Qed.

Lemma z_case c q t k y s' y' : zR c q -> th c t = Some y -> y_step true (sh c) t y k = Some (s', y') ->
  (exists j v, k = YRev j /\ y = YP (C5 (Some v)) /\ (2 * j + 2 <= length (pullE (sh c)))%nat /\ s' = set_pull (sh c) (rev_part j (pullE (sh c))) /\ y' = YU (O3 None)) \/
  y_step false (sh c) t y k = Some (s', y').
Proof.
  intros (q0 & [HR _] & _) Et Es. destruct k as [| |j]; [right; exact Es..|]. destruct y as [pc|pc]; cbn [y_step] in Es |- *; [|discriminate].
  destruct pc; try discriminate. destruct k as [v|].
  - left. exists j, v. destruct (Nat.leb_spec (2 * j + 2) (length (pullE (sh c)))); cbn [andb] in Es; [|discriminate]. injection Es as <- <-. auto.
  - exfalso. assert (Et' : th (yer c) t = Some (C5 None)) by (cbn; rewrite Et; reflexivity). pose proof (r_q _ _ _ HR) as H.
    rewrite (lk_owner _ _ _ _ _ (r_pull _ _ _ HR) Et' eq_refl) in H. cbn [holder] in H. rewrite Et' in H. exact H.
Qed.

Lemma zR_int c q t k y s' y' : zR c q -> th c t = Some y -> y_step true (sh c) t y k = Some (s', y') ->
  exists q', zR (Cfg s' (fupd t (Some y') (th c))) q' /\
    ((q' = q /\ zalpha y' = zalpha y) \/ exists o r, zalpha y = APend o /\ zalpha y' = ADone r /\ y_spec_swap strict q o r q').
Proof.
  intros Hz Et Es. pose proof (z_case _ _ _ _ _ _ _ Hz Et Es) as Hc. destruct Hz as (q0 & HR & ->). pose proof HR as [HR0 Hu].
  assert (Et' : th (yer c) t = Some (ypt y)) by (cbn; rewrite Et; reflexivity).
  destruct Hc as [(j & v & -> & -> & Hj & -> & ->)|Es'].
  - (* std::reverse throws *)
    cbn [ypt] in Et'. pose proof (lk_owner _ _ _ _ _ (r_pull _ _ _ HR0) Et' eq_refl) as EL. pose proof (r_q _ _ _ HR0) as Hq. rewrite EL in Hq. cbn [holder] in Hq. rewrite Et' in Hq.
    cbn [hinv] in Hq. destruct Hq as (Hne & Eq & Ef). set (l' := rev_part j (pullE (sh c))) in *.
    assert (Hp : Permutation (rev l') (pullE (sh c))) by (rewrite <- Permutation_rev; apply rev_part_perm; lia).
    assert (Hl' : rev l' <> []) by (intros E; rewrite E in Hp; apply Permutation_nil in Hp; contradiction).
    exists (rev l' ++ pushE (sh c)). split.
    + exists (rev l' ++ pushE (sh c)). split; [split|].
      * eapply sqR_ext; [intros u; symmetry; apply yer_fupd|]. eapply (R_self strict (yer c)); [exact HR0|exact Et'|reflexivity|reflexivity|reflexivity| |exact I|].
        -- eapply lk_keep; [exact (r_push _ _ _ HR0)|exact Et'|reflexivity].
        -- intros _. cbn [hinv ypt]. unfold gen. cbn [set_pull pullE pushE eflag sh]. split; [reflexivity|]. split.
           ++ intros E. exfalso. apply Hl'. rewrite E. reflexivity.
           ++ change (eflag (sh (yer c))) with (eflag (sh c)) in Ef. rewrite Ef. split; [discriminate|]. intros _ E. apply app_eq_nil in E as [E _]. contradiction.
      * intros u p E. cbn in E. unfold fupd in E. destruct (Nat.eqb u t); [injection E as <-; exact I|eapply Hu; exact E].
      * unfold hand. cbn [sh set_pull pullL]. change (pullL (sh c)) with (pullL (sh (yer c))). rewrite EL. cbn. unfold fupd. rewrite Nat.eqb_refl. reflexivity.
    + right. exists QPop, None. splits. right. splits. unfold hand. change (pullL (sh c)) with (pullL (sh (yer c))). rewrite EL. cbn [holder]. rewrite Et'. cbn [inhand app].
      exists v, (pullE (sh c)), (rev l'), (pushE (sh c)). rewrite Eq. splits; [lia|symmetry; exact Hp].
  - destruct (yR_int strict c q0 t k y s' y' HR Et Es') as (q' & HR' & Hcase).
    (* whether the stepping thread has an element in hand *)
    assert (Hown : hpull (ypt y) = true -> hand c = inhand (Some (ypt y))).
    { intros Hh. unfold hand. change (pullL (sh c)) with (pullL (sh (yer c))). rewrite (lk_owner _ _ _ _ _ (r_pull _ _ _ HR0) Et' Hh). cbn [holder]. rewrite Et'. reflexivity. }
    assert (Hnot : hpull (ypt y) = false -> pullL (sh c) <> Some t) by (intros Hh; exact (lk_other _ _ _ _ _ (r_pull _ _ _ HR0) Et' Hh)).
    set (c' := Cfg s' (fupd t (Some y') (th c))) in *.
    assert (Hhand : inhand (Some (ypt y)) = [] -> inhand (Some (ypt y')) = [] -> hand c' = hand c).
    { intros H1 H2.
      assert (Hl : (pullL s' = pullL (sh c) /\ hpull (ypt y') = hpull (ypt y)) \/ (pullL (sh c) = None /\ pullL s' = Some t) \/ (hpull (ypt y) = true /\ pullL s' = None)).
      { destruct k as [| |j].
        - destruct y as [pc|pc]; cbn [y_step ypt] in *; destruct (sq_step (sh c) t pc tt) as [[s1 p1]|] eqn:E; try discriminate; injection Es' as <- <-; eapply step_pullL; exact E.
        - left. destruct y as [pc|pc]; cbn [y_step] in Es'; [|discriminate]. destruct (yunwind (sh c) pc) as [p1|] eqn:E; [|discriminate]. injection Es' as <- <-. split; [reflexivity|].
          cbn [ypt]. destruct pc; cbn in E; try discriminate; try (destruct (nonempty _); [|discriminate]); injection E as <-; reflexivity.
        - destruct y as [pc|pc]; cbn [y_step] in Es'; [destruct pc|]; discriminate. }
      assert (Hself : forall L, holder L (th (yer c')) = if decide (L = Some t) then Some (ypt y') else holder L (th (yer c))).
      { intros [u|]; [|destruct (decide (None = Some t)); [discriminate|reflexivity]]. cbn. unfold fupd. destruct (Nat.eqb_spec u t) as [->|Hut].
        - rewrite decide_True by reflexivity. reflexivity.
        - rewrite decide_False by congruence. reflexivity. }
      unfold hand at 1. rewrite Hself. cbn [c' sh]. destruct Hl as [[E1 E2]|[[E1 E2]|[E1 E2]]]; rewrite ?E2, ?E1.
      - destruct (decide (pullL (sh c) = Some t)) as [E|E]; [|reflexivity]. rewrite H2. destruct (hpull (ypt y)) eqn:Eh; [rewrite (Hown eq_refl), H1; reflexivity|]. destruct (Hnot eq_refl E).
      - rewrite decide_True by reflexivity. unfold hand. rewrite E1. exact H2.
      - rewrite decide_False by discriminate. rewrite (Hown E1), H1. reflexivity. }
    destruct (decide (inhand (Some (ypt y)) = [])) as [H1|H1]; [destruct (decide (inhand (Some (ypt y')) = [])) as [H2|H2]|].
    + (* the common case *)
      specialize (Hhand H1 H2). exists (hand c ++ q'). split; [exists q'; split; [exact HR'|rewrite Hhand; reflexivity]|].
      assert (Ea : zalpha y = yalpha y) by (destruct y as [pc|pc]; [|reflexivity]; destruct pc as [| | | | | | | | | | | | | | | | |[v|]|[v|]| | | | | | | | | | | | | | | | | | | | | | | | | | | |]; try reflexivity; discriminate).
      assert (Ea' : zalpha y' = yalpha y') by (destruct y' as [pc|pc]; [|reflexivity]; destruct pc as [| | | | | | | | | | | | | | | | |[v|]|[v|]| | | | | | | | | | | | | | | | | | | | | | | | | | | |]; try reflexivity; discriminate).
      rewrite Ea, Ea'. destruct Hcase as [[-> E]|(o & r & E1 & E2 & Hs)]; [left; auto|right]. exists o, r. splits; try assumption. left.
      destruct (hand c) as [|v l] eqn:Eh; [exact Hs|].
      (* another thread has an element in hand *)
      assert (Hh : hpull (ypt y) = false) by (destruct (hpull (ypt y)); [specialize (Hown eq_refl); rewrite H1 in Hown; discriminate|reflexivity]).
      assert (Hl : l = [] /\ eflag (sh c) = false /\ q0 <> []).
      { pose proof (r_q _ _ _ HR0) as Hq. unfold hand in Eh. change (pullL (sh (yer c))) with (pullL (sh c)) in Hq. destruct (holder (pullL (sh c)) (th (yer c))) as [pc|]; [|discriminate].
        destruct pc as [| | | | | | | | | | | | | | | | |[w|]|[w|]| | | | | | | | | | | | | | | | | | | | | | | | | | | |]; try discriminate; cbn in Eh; injection Eh as _ <-; cbn [hinv] in Hq.
        - destruct Hq as (E3 & E4 & -> & E5). auto.
        - destruct Hq as (E3 & -> & E5). splits; [exact E5|]. intros E. apply app_eq_nil in E as [E _]. contradiction. }
      destruct Hl as (-> & Ef & Hq0). cbn [app].
      destruct k as [| |j].
      * assert (Hy : exists pc pc', y = YP pc /\ y' = YP pc' /\ sq_step (sh c) t pc tt = Some (s', pc')).
        { destruct y as [pc|pc]; cbn [y_step] in Es'; destruct (sq_step (sh c) t pc tt) as [[s1 p1]|] eqn:E; try discriminate; injection Es' as <- <-; try discriminate. eauto 6. }
        destruct Hy as (pc & pc' & -> & -> & Eb). cbn [ypt yalpha] in *.
        destruct pc; try discriminate; cbn [sq_step] in Eb; unfold lock_push, lock_pull in Eb; try (destruct (pushL (sh c)); [discriminate|]); try (destruct (pullL (sh c)); [discriminate|]); try discriminate;
          injection Eb as <- <-; cbn [alpha] in *; try (destruct (nonempty _)); try discriminate.
        -- (* P10 *) injection E1 as <-. injection E2 as <-. pose proof (r_ok _ _ _ HR0 _ _ Et') as [Hip _]. destruct o0; cbn in Hip; try contradiction; cbn in Hs |- *; inversion Hs; subst.
           ++ apply (sqs_push _ (v :: q0)).
           ++ apply (sqs_emplace _ (v :: q0)).
           ++ apply (sqs_pushvec _ (v :: q0)).
        -- (* E0 *) injection E1 as <-. injection E2 as <-. cbn in Hs |- *. inversion Hs; subst. rewrite Ef. constructor; [discriminate|discriminate].
      * destruct y as [pc|pc]; cbn [y_step] in Es'; [|discriminate]. destruct (yunwind (sh c) pc) as [p1|] eqn:E; [|discriminate]. injection Es' as <- <-. cbn in E2. injection E2 as <-.
        destruct Hs as [Hm ->]. split; [|reflexivity]. destruct o; cbn in *; auto; discriminate.
      * destruct y as [pc|pc]; cbn [y_step] in Es'; [destruct pc|]; discriminate.
    + (* swap: C3 to C4 *)
      assert (Hy : exists v, y = YP (C3 (Some v)) /\ y' = YP (C4 (Some v))).
      { destruct k as [| |j].
        - destruct y as [pc|pc]; cbn [y_step ypt] in *; destruct (sq_step (sh c) t pc tt) as [[s1 p1]|] eqn:E; try discriminate; injection Es' as <- <-; cbn [ypt] in *.
          + destruct pc; cbn [sq_step] in E; unfold lock_push, lock_pull in E; try (destruct (pushL (sh c)); [discriminate|]); try (destruct (pullL (sh c)); [discriminate|]); try (destruct (rev (pullE (sh c)))); try discriminate;
              injection E as <- <-; try (destruct (nonempty _)); try (destruct (eflag _)); try (destruct k as [?|]); cbn in H1, H2; try contradiction; try discriminate; eauto.
          + pose proof (Hu _ _ Et) as Hup. pose proof (yup_step _ _ _ _ _ _ E Hup) as Hup'. destruct p1; cbn in Hup', H2; contradiction.
        - destruct y as [pc|pc]; cbn [y_step] in Es'; [|discriminate]. destruct (yunwind (sh c) pc) as [p1|] eqn:E; [|discriminate]. injection Es' as <- <-.
          destruct pc; cbn in E; try discriminate; try (destruct (nonempty _); [|discriminate]); injection E as <-; cbn in H2; contradiction.
        - destruct y as [pc|pc]; cbn [y_step] in Es'; [destruct pc|]; discriminate. }
      destruct Hy as (v & -> & ->). cbn [ypt] in *. specialize (Hown eq_refl). cbn in Hown.
      destruct Hcase as [[_ E]|(o & r & E1 & E2 & Hs)]; [discriminate|]. cbn in E1, E2. injection E1 as <-. injection E2 as <-. cbn in Hs. inversion Hs; subst.
      exists (v :: q'). rewrite Hown. split; [|left; auto]. exists q'. split; [exact HR'|].
      assert (EL : pullL s' = Some t).
      { pose proof (lk_owner _ _ _ _ _ (r_pull _ _ _ HR0) Et' eq_refl) as EL. destruct k; cbn in Es'; try discriminate. injection Es' as <-. exact EL. }
      unfold hand, c'. cbn [sh]. rewrite EL. cbn. unfold fupd. rewrite Nat.eqb_refl. reflexivity.
    + (* C4 to C5, C5 to the end *)
      assert (Hy : exists v, (y = YP (C4 (Some v)) /\ y' = YP (C5 (Some v))) \/ (y = YP (C5 (Some v)) /\ y' = YP (O3 (Some v)))).
      { destruct y as [pc|pc]; [|exfalso; pose proof (Hu _ _ Et) as Hup; destruct pc; cbn in Hup, H1; contradiction].
        destruct pc; cbn in H1; try contradiction; destruct k0 as [v|]; try contradiction; exists v; destruct k; cbn in Es'; try discriminate; injection Es' as <- <-; auto. }
      assert (EL : pullL s' = Some t).
      { assert (Hh : hpull (ypt y) = true) by (destruct Hy as (v & [[-> _]|[-> _]]); reflexivity). pose proof (lk_owner _ _ _ _ _ (r_pull _ _ _ HR0) Et' Hh) as EL.
        destruct Hy as (v & [[-> _]|[-> _]]); destruct k; cbn in Es'; try discriminate; injection Es' as <- _; exact EL. }
      assert (Hh' : hand c' = inhand (Some (ypt y'))) by (unfold hand, c'; cbn [sh]; rewrite EL; cbn; unfold fupd; rewrite Nat.eqb_refl; reflexivity).
      destruct Hy as (v & [[-> ->]|[-> ->]]); cbn [ypt] in *; specialize (Hown eq_refl); cbn in Hown, Hh'; rewrite Hown.
      * destruct Hcase as [[-> E]|(o & r & E1 & E2 & Hs)]; [|discriminate]. exists (v :: q0). split; [exists q0; split; [exact HR'|rewrite Hh'; reflexivity]|left; auto].
      * destruct Hcase as [[-> E]|(o & r & E1 & E2 & Hs)]; [|discriminate]. exists q0. split; [exists q0; split; [exact HR'|rewrite Hh'; reflexivity]|].
        right. exists QPop, (Some (QVal (Some v))). splits. left. cbn. constructor.
Qed.

Lemma zR_call c q t o : zR c q -> sq_okop strict o -> th c t = None -> zR (Cfg (sh c) (fupd t (Some (y_start o)) (th c))) q /\ zalpha (y_start o) = APend o.
Proof.
  intros (q0 & HR & ->) Ho Et. destruct (yR_call strict c q0 t o HR Ho Et) as [H1 H2]. split; [|destruct o; reflexivity].
  exists q0. split; [exact H1|]. f_equal. unfold hand. cbn [sh]. f_equal. destruct (pullL (sh c)) as [u|] eqn:EL; [|reflexivity]. cbn. unfold fupd. destruct (Nat.eqb_spec u t) as [->|]; [|reflexivity].
  exfalso. apply (r_pull _ _ _ (y_r _ _ _ HR)) in EL as (pc & E & _). cbn in E. rewrite Et in E. discriminate.
Qed.
Lemma zR_ret c q t y r : zR c q -> th c t = Some y -> y_fin y = Some r -> zR (Cfg (sh c) (fupd t None (th c))) q /\ zalpha y = ADone r.
Proof.
  intros (q0 & HR & ->) Et Ef. destruct (yR_ret strict c q0 t y r HR Et Ef) as [H1 H2]. assert (Et' : th (yer c) t = Some (ypt y)) by (cbn; rewrite Et; reflexivity).
  assert (Hr : exists r0, ypt y = Ret r0) by (destruct y as [pc|pc]; cbn in *; destruct pc; try discriminate; eauto). destruct Hr as [r0 Er0]. split.
  - exists q0. split; [exact H1|]. f_equal. unfold hand. cbn [sh]. f_equal. destruct (pullL (sh c)) as [u|] eqn:EL; [|reflexivity]. cbn. unfold fupd. destruct (Nat.eqb_spec u t) as [->|]; [|reflexivity].
    exfalso. apply (r_pull _ _ _ (y_r _ _ _ HR)) in EL as (pc & E & Hh). rewrite Et' in E. injection E as <-. rewrite Er0 in Hh. discriminate.
  - destruct y as [pc|pc]; cbn in Er0; subst pc; exact H2.
Qed.
Lemma z_sim s xs c H : rest strict s -> (strict = true -> Forall no_empty_batch (calls xs)) -> y_run true (init s) xs = Some (c, H) ->
  exists q' f', atomic (y_spec_swap strict) (sq_content s) (fun _ => AIdle) H q' f' /\ zR c q'.
Proof.
  intros Hr Hok Er. edestruct (sim_run y_start (y_step true) y_fin (y_spec_swap strict) (sq_okop strict) zR zalpha) as (q' & f' & Ha & Hr' & _);
    [| | | | | |exact Er|exists q', f'; split; [exact Ha|exact Hr']].
  - intros c0 q t o. apply zR_call.
  - intros c0 q t k pc s' pc'. apply zR_int.
  - intros c0 q t pc r. apply zR_ret.
  - exists (sq_content s). split; [split; [apply (rest_R strict), Hr|discriminate]|]. unfold hand. cbn. destruct Hr as (_ & -> & _). reflexivity.
  - reflexivity.
  - apply Forall_forall. intros o Ho Hs. specialize (Hok Hs). rewrite Forall_forall in Hok. auto.
Qed.
Lemma zR_rest c q : zR c q -> (forall t, th c t = None) -> rest strict (sh c) /\ q = sq_content (sh c).
Proof.
  intros (q0 & HR & ->) Hn. destruct (yR_rest strict c q0 HR Hn) as [Hr ->]. split; [exact Hr|]. unfold hand. destruct Hr as (_ & E & _). rewrite E. reflexivity.
Qed.
Lemma z_reach_rest s : y_reach true strict s -> rest strict s.
Proof.
  induction 1 as [|s xs c H _ IH Hok Er Hn|s _ IH|s Hg _ IH].
  - split; [reflexivity|]. split; [reflexivity|]. unfold gen, flagok. cbn. tauto.
  - destruct (z_sim _ _ _ _ IH Hok Er) as (q' & f' & _ & Hr). apply (zR_rest _ _ Hr Hn).
  - destruct IH as (E1 & E2 & E3 & E4 & E5). unfold rest, sq_move, gen, flagok, sq_content in *. cbn in *.
    split; [reflexivity|]. split; [reflexivity|]. split; [reflexivity|]. split; [exact E4|]. destruct (pullE s) as [|v l]; cbn in *.
    + destruct (E4 eq_refl) as [-> _]. auto.
    + split; [discriminate|]. intros _ E. apply app_eq_nil in E as [E _]. apply app_eq_nil in E as [_ E]. discriminate.
  - destruct IH as (E1 & E2 & E3 & E4 & E5). unfold rest, sq_move, gen, flagok, sq_content in *. cbn in *. rewrite Hg. intuition congruence.
Qed.
Lemma y_true s t y k s' y' : y_step false s t y k = Some (s', y') -> y_step (V := V) true s t y k = Some (s', y').
Proof. destruct k as [| |j], y as [pc|pc]; auto. destruct pc; auto. cbn. discriminate. Qed.
Lemma z_live c q : zR c q -> (exists t, th c t <> None) -> exists t, can_step y_start (y_step true) y_fin c t.
Proof.
  intros (q0 & HR & _) Ht. destruct (y_live strict c q0 HR Ht) as (t & a & c' & e & Hn & Ex). exists t, a. cbn in Ex. unfold can_step, exec. destruct (th c t) as [y|]; [|congruence].
  destruct a as [o|k|]; [discriminate| |].
  - destruct (y_step false (sh c) t y k) as [[s1 y1]|] eqn:E; [|discriminate]. rewrite (y_true _ _ _ _ _ _ E). eauto.
  - eauto.
Qed.
Lemma ztodo_step s t y k s' y' : y_step true s t y k = Some (s', y') -> (ytodo (V := V) y' < ytodo y)%nat.
Proof.
  intros Es. destruct k as [| |j]; [apply (ytodo_step s t y YStep s' y' Es)|apply (ytodo_step s t y YThrow s' y' Es)|].
  destruct y as [pc|pc]; cbn in Es; [|discriminate]. destruct pc; try discriminate. destruct (Nat.leb _ _); [|discriminate]. injection Es as <- <-. cbn. destruct k; lia.
Qed.
Lemma z_norace c q t u pt pu x w w' : zR c q -> th c t = Some pt -> th c u = Some pu -> In (x, w) (sq_acc (ypt pt)) -> In (x, w') (sq_acc (ypt pu)) -> t = u.
Proof.
  intros (q0 & [HR _] & _) Et Eu. eapply (sq_norace strict (yer c) q0 t u (ypt pt) (ypt pu)); [exact HR|cbn; rewrite Et; reflexivity|cbn; rewrite Eu; reflexivity].
Qed.
Lemma z_nocrash c q t y : zR c q -> th c t = Some y -> ypt y <> Crash.
Proof. intros (q0 & [HR _] & _) Et. eapply (hinv_nocrash strict (yer c) q0 t); [exact HR|cbn; rewrite Et; reflexivity]. Qed.
End proofs.
