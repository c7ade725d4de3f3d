(** Final forms of the CircularBuffer results, and the counterexamples. *)
From stdpp Require Import gmap.
From Verif Require Import Base Heap CircModel CircSpec CircProofs CircMore CircBufModel CircBufSpec CircBufProofs
  CircBufWorld CircCheck.

Lemma new_inv mem n : zlen mem = n -> n <= int_max -> circ_inv int_max (circ_new mem n) [].
Proof. intros H Hn. pose proof (zlen_nonneg mem). apply circ_new_inv; unfold int_max in *; lia. Qed.

Lemma circ_fifo mem n ops :
  zlen mem = n -> n <= int_max -> Forall (cop_legal int_max) ops -> safe_run (circ_new mem n) ops ->
  exists s tr q, circ_run (circ_new mem n) ops = Ok (s, tr) /\ map fst tr = ops /\ fifo_trace n [] tr q.
Proof.
  intros Hm Hn Hl Hs. destruct (run_ok int_max _ _ _ (new_inv mem n Hm Hn) Hl Hs) as (s & tr & q & H1 & H2 & H3 & H4 & H5).
  exists s, tr, q. auto.
Qed.

Lemma circ_fifo_disciplined mem n M ops :
  zlen mem = n -> n <= int_max -> 4 <= M -> disciplined M n [] ops ->
  exists s tr q, circ_run (circ_new mem n) ops = Ok (s, tr) /\ map fst tr = ops /\ fifo_trace n [] tr q /\
    Forall push_accepted tr.
Proof.
  intros Hm Hn HM Hd. pose proof (zlen_nonneg mem).
  destruct (disciplined_ok M (circ_new mem n) [] ops) as (s & tr & q & H1 & H2 & H3 & H4 & H5).
  - apply circ_new_inv; lia.
  - exact Hd.
  - exists s, tr, q. auto.
Qed.

(** Content is determined by the history when blocks are non-empty. *)
Lemma fifo_step_det cap q o x q1 q2 :
  Forall (fun b => 0 < zlen b) q ->
  fifo_step cap q o x q1 -> fifo_step cap q o x q2 -> q1 = q2 /\ Forall (fun b => 0 < zlen b) q1.
Proof.
  intros Hq H1 H2. inversion H1; subst; inversion H2; subst; try (split; [congruence|]; try assumption); try discriminate;
    try (constructor; fail); try congruence.
  - apply Forall_app. split; [assumption|]. constructor; [|constructor]. unfold zlen in *. rewrite take_length. lia.
  - inversion Hq; assumption.
  - match goal with H : _ :: _ = _ :: _ |- _ => injection H as -> -> end. inversion Hq; lia.
  - match goal with H : _ :: _ = _ :: _ |- _ => injection H as -> -> end. inversion Hq; lia.
Qed.

Lemma fifo_trace_det cap q tr : forall q1 q2,
  Forall (fun b => 0 < zlen b) q -> fifo_trace cap q tr q1 -> fifo_trace cap q tr q2 -> q1 = q2.
Proof.
  revert q; induction tr as [|[o x] tr IH]; intros q q1 q2 Hq H1 H2.
  - inversion H1; inversion H2; congruence.
  - inversion H1 as [|? ? ? a ? ? S1 T1]; inversion H2 as [|? ? ? b ? ? S2 T2]; subst.
    destruct (fifo_step_det _ _ _ _ _ _ Hq S1 S2) as [-> Hb]. eapply IH; eassumption.
Qed.

Lemma circ_guard_tight mem n ops s tr q d k :
  zlen mem = n -> n <= int_max ->
  Forall (cop_legal int_max) ops -> safe_run (circ_new mem n) ops ->
  circ_run (circ_new mem n) ops = Ok (s, tr) ->
  0 < k -> k <= zlen d -> k <= int_max ->
  fifo_trace n [] tr q ->
  circ_space s k = true -> ~ push_safe s k ->
  exists more s' tr', circ_run s (CPush (Some d) k :: more) = Ok (s', tr') /\
    forall q', ~ fifo_trace n q tr' q'.
Proof.
  intros Hm Hn Hl Hs Hrun Hk Hkd Hki Ht Hsp Hu.
  destruct (run_ok int_max _ _ _ (new_inv mem n Hm Hn) Hl Hs) as (s0 & tr0 & q0 & H1 & H2 & H3 & H4 & H5).
  rewrite Hrun in H1. injection H1 as <- <-. cbn [c_cap circ_new] in *.
  assert (q0 = q) by (eapply fifo_trace_det; [|exact H2|exact Ht]; constructor). subst q0.
  destruct (guard_tight int_max s q d k H3 Hk Hkd Hki Hsp Hu) as (s' & more & s'' & tr' & Hp & Hr & Hbad).
  exists more, s'', ((CPush (Some d) k, RBool true) :: tr'). split.
  - cbn [circ_run circ_step]. rewrite Hp; cbn [obind]. rewrite Hr; reflexivity.
  - intros q' Hq'. inversion Hq' as [|? ? ? q1 ? ? Hst Ht']; subst.
    rewrite H4 in Hbad. apply (Hbad q'). inversion Hst; subst. exact Ht'.
Qed.

Lemma circ_memory_safe mem n ops :
  zlen mem = n -> n <= int_max -> Forall (cop_legal int_max) ops -> safe_run (circ_new mem n) ops ->
  circ_run (circ_new mem n) ops <> UB /\
  exists s tr, circ_run (circ_new mem n) ops = Ok (s, tr) /\ zlen (c_mem s) = n /\ c_cap s = n.
Proof.
  intros Hm Hn Hl Hs.
  assert (Hgen : forall ops s q, circ_inv int_max s q -> Forall (cop_legal int_max) ops -> safe_run s ops ->
    exists s' tr, circ_run s ops = Ok (s', tr) /\ zlen (c_mem s') = zlen (c_mem s) /\ c_cap s' = c_cap s).
  { clear. induction ops as [|o ops IH]; intros s q Hi Hl Hs; cbn [circ_run].
    - eauto.
    - inversion Hl as [|? ? Ho Hl']; subst. destruct Hs as [Hso Hs].
      destruct (step_ok _ _ _ o Hi Ho Hso) as (s1 & x & q1 & Hst & _ & Hi1 & Hc1 & Hm1). rewrite Hst; cbn [obind].
      destruct (IH s1 q1 Hi1 Hl' (Hs _ _ Hst)) as (s2 & tr & -> & Hm2 & Hc2); cbn [obind].
      eexists _, _. split; [reflexivity|]. split; congruence. }
  destruct (Hgen ops _ _ (new_inv mem n Hm Hn) Hl Hs) as (s & tr & Hr & Hl2 & Hc2).
  split; [rewrite Hr; discriminate|]. exists s, tr. cbn in *. splits; try assumption; congruence.
Qed.

Lemma circ_short_pop mem n ops s tr :
  zlen mem = n -> n <= int_max ->
  Forall (cop_legal int_max) ops -> safe_run (circ_new mem n) ops ->
  circ_run (circ_new mem n) ops = Ok (s, tr) ->
  exists q, fifo_trace n [] tr q /\
    match q with
    | [] => circ_next_size s = Ok 0 /\ forall k, circ_pop s k = Ok (s, 0, [])
    | b :: q' =>
        0 < zlen b /\ circ_next_size s = Ok (zlen b) /\
        (forall k, zlen b <= k -> exists s', circ_pop s k = Ok (s', zlen b, b)) /\
        (forall k, k < zlen b -> exists s1, circ_pop s k = Ok (s1, - zlen b, []) /\
           circ_next_size s1 = Ok (zlen b) /\ circ_empty s1 = false /\
           forall k2, zlen b <= k2 -> exists s2, circ_pop s1 k2 = Ok (s2, zlen b, b))
    end.
Proof.
  intros Hm Hn Hl Hs Hrun.
  destruct (run_ok int_max _ _ _ (new_inv mem n Hm Hn) Hl Hs) as (s0 & tr0 & q & H1 & H2 & H3 & H4 & H5).
  rewrite Hrun in H1. injection H1 as <- <-. cbn [c_cap circ_new] in *.
  exists q. split; [exact H2|].
  destruct q as [|b q].
  - split; [rewrite (next_size_ok _ _ _ H3); reflexivity|]. intros k. eapply pop_empty; eassumption.
  - destruct (front_view _ _ _ _ H3) as (_ & Hb & _).
    splits; [lia|rewrite (next_size_ok _ _ _ H3); reflexivity| |].
    + intros k Hk. destruct (pop_ok _ _ _ _ k H3) as (s' & _ & _ & [(_ & Hp & _)|(Hx & _)]); [eauto|lia].
    + intros k Hk. destruct (pop_ok _ _ _ _ k H3) as (s' & _ & _ & [(Hx & _)|(_ & Hp & Hi)]); [lia|].
      exists s'. splits; try assumption.
      * rewrite (next_size_ok _ _ _ Hi). reflexivity.
      * rewrite (empty_ok _ _ _ Hi). reflexivity.
      * intros k2 Hk2. destruct (pop_ok _ _ _ _ k2 Hi) as (s2 & _ & _ & [(_ & Hp2 & _)|(Hx & _)]); [eauto|lia].
Qed.

Lemma circ_space_push s d n : 0 < n ->
  (forall s' b, circ_push s (Some d) n = Ok (s', b) -> b = circ_space s n) /\
  (circ_space s n = false -> circ_push s (Some d) n = Ok (s, false)).
Proof. intros Hn. split; [intros; eapply push_iff_space; eassumption|intros; apply push_no_space; assumption]. Qed.

Lemma circ_refused s data n :
  (forall s', circ_push s data n = Ok (s', false) -> s' = s) /\
  (n <= 0 \/ data = None -> circ_push s data n = Ok (s, false)).
Proof. split; [apply push_refused_unchanged|apply push_bad_args]. Qed.

(** ** Whole class *)
Lemma circ_world_ok junk M ps :
  4 <= M -> wprog_ok True M (world0 junk) ps ->
  exists w tr A, wrun (world0 junk) ps = Ok (w, tr) /\ map fst tr = ps /\ ws_trace M ∅ tr A.
Proof.
  intros HM Hp. destruct (wrun_ok True M _ _ ps HM (world0_inv True M junk) Hp) as (w & tr & A & H1 & H2 & H3 & H4).
  exists w, tr, A. auto.
Qed.

Lemma circ_world_disciplined junk M ps :
  4 <= M -> wdisciplined M ∅ ps ->
  exists w tr A, wrun (world0 junk) ps = Ok (w, tr) /\ map fst tr = ps /\ ws_trace M ∅ tr A /\
    Forall wpush_accepted tr.
Proof.
  intros HM Hp. destruct (wdisciplined_ok M _ _ ps HM (world0_inv False M junk) Hp) as (w & tr & A & H1 & H2 & H3 & H4 & H5).
  exists w, tr, A. auto.
Qed.

Lemma wprog_ok_app D M ps1 ps2 : forall w w1 tr,
  wprog_ok D M w (ps1 ++ ps2) -> wrun w ps1 = Ok (w1, tr) -> wprog_ok D M w ps1 /\ wprog_ok D M w1 ps2.
Proof.
  induction ps1 as [|p ps1 IH]; intros w w1 tr Hok Hr; cbn [app wprog_ok wrun] in *.
  - injection Hr as <- <-. split; [exact I|exact Hok].
  - destruct Hok as (Hl & Hs & Hrest).
    destruct (wstep w p) as [[w' x]| |] eqn:E; cbn [obind] in Hr; try discriminate.
    destruct (wrun w' ps1) as [[w2 tr2]| |] eqn:E2; cbn [obind] in Hr; try discriminate.
    injection Hr as <- <-. destruct (IH w' w2 tr2 (Hrest _ _ eq_refl) E2) as [Ha Hb].
    split; [|exact Hb]. splits; try assumption. intros w'' x' [= <- <-]. exact Ha.
Qed.

Lemma circ_resize_ok junk M ps o n w tr :
  4 <= M -> wprog_ok True M (world0 junk) (ps ++ [WResize o n]) -> wrun (world0 junk) ps = Ok (w, tr) ->
  exists A c q, ws_trace M ∅ tr A /\ A !! o = Some (c, q) /\
    ((wstep w (WResize o n) = Ok (w, WThrew) /\ q <> [] /\ n < c /\ n < footprint q + M + 4) \/
     (exists w', wstep w (WResize o n) = Ok (w', WDone) /\
        forall more, wprog_ok True M w' more -> exists w2 tr2 A2, wrun w' more = Ok (w2, tr2) /\
          ws_trace M (<[o := (n, q)]> A) tr2 A2)).
Proof.
  intros HM Hok Hr. destruct (wprog_ok_app _ _ _ _ _ _ _ Hok Hr) as [Hok1 (Hl & Hs & _)].
  destruct (wrun_ok True M _ _ ps HM (world0_inv True M junk) Hok1) as (w0 & tr0 & A & H1 & H2 & Hw & H4).
  rewrite Hr in H1. injection H1 as <- <-.
  apply (legal_transfer _ _ _ _ _ Hw) in Hl. destruct Hl as [[c q] Hv].
  exists A, c, q. split; [exact H2|]. split; [exact Hv|].
  destruct (wi_lookup _ _ _ _ _ _ Hw Hv) as (b & Hb & Hobj).
  cbn [wstep]. unfold wget. rewrite Hb; cbn [obind].
  destruct (resize_ok True M (w_heap w) b (c, q) n (wi_heap _ _ _ _ Hw) Hobj HM (Hs b Hb))
      as [(E & Hlt & Hq & Hfp)|(h' & b' & E & Hloc & Hobj')]; rewrite E; cbn [obind].
  - left. rewrite insert_id by assumption. destruct w; splits; assumption.
  - right. eexists. split; [reflexivity|]. intros more Hmore.
    assert (Hw' : world_inv True M (World h' (<[o := b']> (w_objs w))) (<[o := (n, q)]> A)).
    { eapply world_update with (d := b_data b); [exact Hw| | |exact Hloc|exact Hobj'].
      - intros b2 Hb2. congruence.
      - congruence. }
    destruct (wrun_ok True M _ _ more HM Hw' Hmore) as (w2 & tr2 & A2 & R1 & R2 & _).
    exists w2, tr2, A2. auto.
Qed.

(** ** Counterexamples and examples *)
Ltac bad_trace :=
  intros ? Hbad;
  repeat match goal with
  | H : fifo_trace _ _ (_ :: _) _ |- _ => inversion H; clear H; subst
  | H : fifo_step _ _ _ _ _ |- _ => inversion H; clear H; subst; try discriminate
  | H : _ :: _ = _ :: _ |- _ => injection H; clear H; intros; subst
  end;
  try match goal with H : _ ++ _ = [] |- _ => apply app_eq_nil in H; destruct H; discriminate end.

Lemma circ_fifo_loss :
  exists mem n ops s tr, zlen mem = n /\ Forall (cop_legal int_max) ops /\
    circ_run (circ_new mem n) ops = Ok (s, tr) /\ (forall q, ~ fifo_trace n [] tr q) /\
    tr = map (fun b => (CPush (Some b) 4, RBool true)) [[1;1;1;1]; [2;2;2;2]] ++
         [(CPop 100, RPop 4 [1;1;1;1])] ++
         map (fun b => (CPush (Some b) 4, RBool true)) [[3;3;3;3]; [4;4;4;4]] ++
         [(CEmpty, RBool true); (CPop 100, RPop 0 [])].
Proof.
  exists (repeat 0 24), 24,
    [CPush (Some [1;1;1;1]) 4; CPush (Some [2;2;2;2]) 4; CPop 100; CPush (Some [3;3;3;3]) 4;
     CPush (Some [4;4;4;4]) 4; CEmpty; CPop 100].
  eexists _, _. split; [reflexivity|]. split; [apply legalb_ok; vm_compute; reflexivity|].
  split; [vm_compute; reflexivity|]. split; [|reflexivity]. cbn [app map]. bad_trace.
Qed.

Lemma circ_next_size_loss :
  exists mem n ops s tr, zlen mem = n /\ Forall (cop_legal int_max) ops /\
    circ_run (circ_new mem n) ops = Ok (s, tr) /\ (forall q, ~ fifo_trace n [] tr q) /\
    tr = map (fun b => (CPush (Some b) 4, RBool true)) [[1;1;1;1]; [2;2;2;2]] ++
         [(CPop 100, RPop 4 [1;1;1;1])] ++
         map (fun b => (CPush (Some b) 4, RBool true)) [[3;3;3;3]; [4;4;4;4]] ++
         [(CNextSize, RInt 0)].
Proof.
  exists (repeat 0 24), 24,
    [CPush (Some [1;1;1;1]) 4; CPush (Some [2;2;2;2]) 4; CPop 100; CPush (Some [3;3;3;3]) 4;
     CPush (Some [4;4;4;4]) 4; CNextSize].
  eexists _, _. split; [reflexivity|]. split; [apply legalb_ok; vm_compute; reflexivity|].
  split; [vm_compute; reflexivity|]. split; [|reflexivity]. cbn [app map]. bad_trace.
  match goal with E : _ = [1;1;1;1] :: ?q |- _ => cbn in E; injection E as <- end.
  match goal with E : _ = _ :: _ |- _ => cbn in E; injection E as <- _ end. discriminate.
Qed.

Lemma circ_short_pop_any s k s1 z : circ_pop s k = Ok (s1, z, []) -> z < 0 ->
  circ_next_size s = Ok (- z) /\ k < - z /\ c_mem s1 = c_mem s /\ c_w s1 = c_w s /\
  (circ_empty s1 = false -> circ_next_size s1 = Ok (- z) /\ forall k2, circ_pop s1 k2 = circ_pop s k2).
Proof.
  assert (Hneg : forall off n bs, mread (c_mem s) off n = Ok bs -> 0 <= n).
  { intros off n bs. unfold mread. destruct ((0 <=? off) && (0 <=? n) && (off + n <=? zlen (c_mem s))) eqn:E; [|discriminate]. intros _. lia. }
  unfold circ_pop, circ_next_size, circ_empty. destruct (c_w s =? c_r s) eqn:Ee; [intros [= <- <-]; lia|].
  destruct (read_int (c_mem s) (c_r s)) as [sz0| |] eqn:E0; cbn; try discriminate. destruct (sz0 <? 0) eqn:Eneg; cbn.
  - destruct (read_int (c_mem s) 0) as [sz1| |] eqn:E1; cbn; try discriminate. destruct (sz1 <=? k) eqn:Ek.
    + destruct (mread _ _ _) eqn:Em; cbn; try discriminate. intros [= <- <- ->] Hz. exfalso. apply Hneg in Em. lia.
    + intros [= <- <-] Hz. apply Z.leb_gt in Ek. cbn. rewrite Z.opp_involutive. split; [reflexivity|]. split; [lia|]. split; [reflexivity|]. split; [reflexivity|]. intros ->.
      rewrite E1. cbn. destruct (sz1 <? 0) eqn:E2; [lia|]. split; [reflexivity|]. reflexivity.
  - destruct (sz0 <=? k) eqn:Ek.
    + destruct (mread _ _ _); cbn; try discriminate. intros [= <- <- ->] Hz. lia.
    + intros [= <- <-] Hz. apply Z.leb_gt in Ek. cbn. rewrite Z.opp_involutive. split; [reflexivity|]. split; [lia|]. split; [reflexivity|]. split; [reflexivity|]. intros _.
      rewrite Ee, E0. cbn. rewrite Eneg. split; [reflexivity|]. cbn. reflexivity.
Qed.

Lemma circ_fifo_replay :
  exists mem n ops s tr, zlen mem = n /\ Forall (cop_legal int_max) ops /\
    circ_run (circ_new mem n) ops = Ok (s, tr) /\ (forall q, ~ fifo_trace n [] tr q) /\
    tr = [(CPush (Some [7;7;7;7]) 4, RBool true); (CPop 100, RPop 4 [7;7;7;7]); (CPop 100, RPop 4 [7;7;7;7])].
Proof.
  exists (repeat 0 12), 12, [CPush (Some [7;7;7;7]) 4; CPop 100; CPop 100].
  eexists _, _. split; [reflexivity|]. split; [apply legalb_ok; vm_compute; reflexivity|].
  split; [vm_compute; reflexivity|]. split; [|reflexivity]. cbn [app map]. bad_trace.
Qed.

Lemma circ_memory_ub :
  exists mem n ops, zlen mem = n /\ Forall (cop_legal int_max) ops /\ circ_run (circ_new mem n) ops = UB.
Proof.
  exists (repeat 0 24), 24,
    [CPush (Some (repeat 1 4)) 4; CPush (Some (repeat 2 10)) 10; CPop 100; CPush (Some (repeat 3 3)) 3].
  split; [reflexivity|]. split; [apply legalb_ok; vm_compute; reflexivity|]. vm_compute. reflexivity.
Qed.

Lemma circ_fifo_example :
  exists ops s, safe_run (circ_new (repeat 0 40) 40) ops /\ Forall (cop_legal int_max) ops /\
    circ_run (circ_new (repeat 0 40) 40) ops = Ok (s, combine ops
      [RBool true; RBool true; RPop 10 [1;2;3;4;5;6;7;8;9;10]; RBool true; RPop 10 [11;12;13;14;15;16;17;18;19;20];
       RPop (-9) []; RPop 9 [21;22;23;24;25;26;27;28;29]; RBool true]).
Proof.
  exists [CPush (Some [1;2;3;4;5;6;7;8;9;10]) 10; CPush (Some [11;12;13;14;15;16;17;18;19;20]) 10; CPop 10;
    CPush (Some [21;22;23;24;25;26;27;28;29]) 9; CPop 20; CPop 3; CPop 9; CEmpty].
  eexists. split; [apply safe_runb_ok; vm_compute; reflexivity|].
  split; [apply legalb_ok; vm_compute; reflexivity|]. vm_compute. reflexivity.
Qed.

Lemma circ_disciplined_example :
  disciplined 10 64 [] [CPush (Some [1;2;3;4;5;6;7;8;9;10]) 10; CPush (Some [9;9]) 2; CPop 4; CPop 10;
    CPush (Some [1;2;3;4;5;6;7;8;9;10]) 10; CPush (Some [1;2;3;4;5;6;7;8;9;10]) 10; CPop 10; CPop 10; CPop 10; CEmpty].
Proof. vm_compute. repeat match goal with |- _ /\ _ => split | |- True => exact I | |- _ => intro end; discriminate. Qed.

Lemma circ_space_example :
  circ_space (circ_new (repeat 0 16) 16) 12 = true /\ circ_space (circ_new (repeat 0 16) 16) 13 = false /\
  is_ok (circ_push (circ_new (repeat 0 16) 16) (Some (repeat 5 20)) 12) = true.
Proof. vm_compute. auto. Qed.

Lemma circ_double_free :
  exists ps, wrun (world0 (fun _ _ => 0)) ps = UB /\ ps = [WDefault 0; WCopy 1 0; WDefault 2; WMoveAssign 1 2].
Proof. eexists. split; [|reflexivity]. vm_compute. reflexivity. Qed.

Lemma circ_resize_replay :
  exists ps w tr, Forall (fun p => match p with WCall _ c => cop_legal int_max c | _ => True end) ps /\
    wrun (world0 (fun _ _ => 0)) ps = Ok (w, tr) /\ (forall A, ~ ws_trace int_max ∅ tr A) /\
    tr = [(WNew 0 24, WDone); (WCall 0 (CPush (Some [7;7;7;7]) 4), WRet (RBool true)); (WResize 0 12, WDone);
          (WCall 0 (CPop 100), WRet (RPop 4 [7;7;7;7])); (WCall 0 (CPop 100), WRet (RPop 4 [7;7;7;7]))].
Proof.
  exists [WNew 0 24; WCall 0 (CPush (Some [7;7;7;7]) 4); WResize 0 12; WCall 0 (CPop 100); WCall 0 (CPop 100)].
  eexists _, _. split.
  { repeat constructor; vm_compute; discriminate. }
  split; [vm_compute; reflexivity|]. split; [|reflexivity].
  intros A H.
  repeat match goal with
  | H : ws_trace _ _ (_ :: _) _ |- _ => inversion H; clear H; subst
  | H : ws_step _ _ _ _ _ |- _ => inversion H; clear H; subst
  | H : <[_ := _]> _ !! _ = Some _ |- _ => rewrite lookup_insert in H; injection H; clear H; intros; subst
  | H : fifo_step _ _ _ _ _ |- _ => inversion H; clear H; subst; try discriminate
  | H : _ :: _ = _ :: _ |- _ => injection H; clear H; intros; subst
  end.
Qed.

Lemma circ_world_example :
  exists ps w tr, wprog_ok True 100 (world0 (fun _ _ => 3)) ps /\
    wrun (world0 (fun _ _ => 3)) ps = Ok (w, tr) /\
    tr = [(WNew 0 40, WDone); (WCall 0 (CPush (Some [1;2;3]) 3), WRet (RBool true)); (WCopy 1 0, WDone);
          (WCall 1 (CPush (Some [4;5]) 2), WRet (RBool true)); (WMove 2 1, WDone); (WResize 2 64, WDone);
          (WDefault 3, WDone); (WCopyAssign 3 2, WDone); (WMoveAssign 0 3, WDone);
          (WCall 0 (CPop 10), WRet (RPop 3 [1;2;3])); (WCall 2 (CPop 10), WRet (RPop 3 [1;2;3]));
          (WCall 0 (CPop 10), WRet (RPop 2 [4;5])); (WCall 1 CEmpty, WRet (RBool true));
          (WDestroy 0, WDone); (WDestroy 1, WDone); (WDestroy 2, WDone); (WDestroy 3, WDone)].
Proof.
  exists [WNew 0 40; WCall 0 (CPush (Some [1;2;3]) 3); WCopy 1 0; WCall 1 (CPush (Some [4;5]) 2); WMove 2 1;
    WResize 2 64; WDefault 3; WCopyAssign 3 2; WMoveAssign 0 3; WCall 0 (CPop 10); WCall 2 (CPop 10); WCall 0 (CPop 10);
    WCall 1 CEmpty; WDestroy 0; WDestroy 1; WDestroy 2; WDestroy 3].
  eexists _, _. split; [apply wprog_okb_ok; vm_compute; reflexivity|].
  split; [vm_compute; reflexivity|]. reflexivity.
Qed.

Lemma circ_wdisciplined_example :
  wdisciplined 8 ∅ [WNew 0 40; WCall 0 (CPush (Some [1;2;3]) 3); WCopy 1 0; WResize 1 80;
    WCall 1 (CPush (Some [1;2;3;4;5;6;7;8]) 8); WDefault 2; WMoveAssign 2 1; WCall 2 (CPop 8); WDestroy 2].
Proof.
  repeat (cbn [wdisciplined]; split; [apply wop_legalb_ok; vm_compute; reflexivity|]; split;
    [cbn [wop_disc]; try exact I; try lia;
     try (split; [unfold int_max; lia|]);
     try (intros c q E; vm_compute in E; injection E; intros; subst; vm_compute; intros; try reflexivity; try discriminate; try (left; reflexivity); try (right; discriminate))|]).
  exact I.
Qed.
