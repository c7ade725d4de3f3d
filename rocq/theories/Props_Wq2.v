(** WorkQueue: C54, C55 *)
From stdpp Require Import list.
From Verif Require Import Base Conc CondVar Herlihy Serial SqModel SqSpec SqProofs WqModel WqProofs WqSeq WqTurn WqWrap.

Section props.
Variable nw : nat.
Notation wqcfg := (cfg wqsh wqpc).
Implicit Types (s : wqsh) (c : wqcfg) (f : nat -> bool).

(** Any state of a WorkQueue, with any number of threads inside its operations *)
Definition reach c : Prop := exists f xs H, wq_run nw (wq_init nw f) xs = Some (c, H).

Lemma reach_proj c : reach c -> forall i, qproj sq0 i c.
Proof. intros (f & xs & H & Er) i. eapply qproj_run; [|exact Er]. intros j. apply qproj_init. Qed.
Lemma reach_rests c : reach c -> unlocked (sh c) -> rests (sh c).
Proof. intros Hc. apply proj_rests, reach_proj, Hc. Qed.
Lemma reach_run c xs c' H : reach c -> wq_run nw c xs = Some (c', H) -> reach c'.
Proof. intros (f & ys & K & Er) E. exists f, (ys ++ xs), (K ++ H). unfold wq_run in *. rewrite run_app, Er, E. reflexivity. Qed.

(** ** C54: getWorkBlock, called by a user or by a worker, while nobody holds the lock of one of the queues *)
Lemma hands_spec c t g n x c' : reach c -> unlocked (sh c) -> th c t = Some (gstart g) -> hands nw c t n x c' ->
  th c' t = Some (got_pc g x) /\ exists s2, sh c' = log_got t x s2 /\ picked (sh c) x s2.
Proof.
  intros Hc Hu Et Hh. destruct (hands_all nw c t g (reach_rests _ Hc Hu) Et) as (n0 & x0 & c0 & _ & Huniq & Et0 & _ & s2 & Es & Hp).
  destruct (Huniq _ _ _ Hh) as (-> & -> & E1 & E2). rewrite E2. split; [exact Et0|]. exists s2. rewrite E1. auto.
Qed.

(** It always returns. *)
Theorem C54_returns c t g : reach c -> unlocked (sh c) -> th c t = Some (gstart g) ->
  exists n x c', hands nw c t n x c' /\ th c' t = Some (got_pc g x).
Proof.
  intros Hc Hu Et. destruct (hands_all nw c t g (reach_rests _ Hc Hu) Et) as (n & x & c' & Hh & _ & Et' & _). eauto.
Qed.

(** The oldest high priority block comes first. *)
Theorem C54_high_first c t g n x c' y l : reach c -> unlocked (sh c) -> th c t = Some (gstart g) -> hands nw c t n x c' ->
  content Hi (sh c) = y :: l -> x = y /\ content Hi (sh c') = l /\ content Med (sh c') = content Med (sh c) /\ content Lo (sh c') = content Lo (sh c).
Proof.
  intros Hc Hu Et Hh Eh. destruct (hands_spec _ _ _ _ _ _ Hc Hu Et Hh) as (_ & s2 & -> & Hp). destruct Hp as (_ & _ & _ & _ & _ & Hp). unfold choice in Hp. rewrite Eh in Hp.
  destruct Hp as (-> & _ & E1 & E2). rewrite Eh in E1. injection E1 as E1. split; [reflexivity|]. split; [symmetry; exact E1|]. split; [apply (E2 Med)|apply (E2 Lo)]; discriminate.
Qed.

(** Whatever is handed out is the oldest of its queue; something is handed out unless the three queues are empty. *)
Theorem C54_oldest c t g n x c' : reach c -> unlocked (sh c) -> th c t = Some (gstart g) -> hands nw c t n x c' ->
  (exists i, content i (sh c) = x :: content i (sh c') /\ forall j, j <> i -> content j (sh c') = content j (sh c)) \/
  (x = None /\ forall i, content i (sh c) = [] /\ content i (sh c') = []).
Proof.
  intros Hc Hu Et Hh. destruct (hands_spec _ _ _ _ _ _ Hc Hu Et Hh) as (_ & s2 & -> & Hp). destruct Hp as (_ & _ & _ & _ & _ & Hp).
  destruct (choice (sh c)) as [[[i y] m]|] eqn:Ec.
  - destruct Hp as (-> & _ & E1 & E2). left. exists i. split; [exact E1|exact E2].
  - destruct Hp as (-> & _ & E). right. split; [reflexivity|].
    assert (Hz : forall i, content i (sh c) = []).
    { unfold choice in Ec. destruct (content Hi (sh c)) eqn:E1; [|discriminate]. destruct (content Med (sh c)) eqn:E2, (content Lo (sh c)) eqn:E3; try discriminate; [|destruct (Z.leb _ _); discriminate].
      intros []; assumption. }
    intros i. split; [apply Hz|]. change (content i (log_got t None s2)) with (content i s2). rewrite E. apply Hz.
Qed.

(** Submission order: addWorkBlock puts blocks at the end of the queue of their priority. *)
Definition queue_for (p : wprio) : lvl := match p with PMed => Med | PLow => Lo | PHigh => Hi | PReq => Hi end.
(** A null pointer is not taken; a block that has finished only with the priority [required] (a NullWorkBlock is always finished). *)
Definition taken s (x : ptr) (p : wprio) : Prop :=
  match x with None => False | Some BNull => p = PReq | Some (BWork b) => p = PReq \/ bfin s b = false end.
Lemma queue_for_ok p : lvl_of p = queue_for p.
Proof. destruct p; reflexivity. Qed.
Lemma taken_ok s x p : accepted s x p <-> taken s x p.
Proof. destruct x as [[|b]|]; cbn; [|reflexivity|reflexivity]. split; [intros [E|E]; [exact E|discriminate]|auto]. Qed.
Theorem C54_add c t x p ks c' H : reach c -> unlocked (sh c) -> (0 < nw)%nat -> wq_run nw c (block (t, OAdd x p, ks)) = Some (c', H) ->
  (taken (sh c) x p /\ content (queue_for p) (sh c') = content (queue_for p) (sh c) ++ [x] /\ forall j, j <> queue_for p -> content j (sh c') = content j (sh c)) \/
  (~ taken (sh c) x p /\ forall i, content i (sh c') = content i (sh c)).
Proof.
  intros Hc Hu Hn Er. destruct (run_block _ _ _ _ _ _ _ _ _ Er) as (r & _ & Es & _). rewrite <- taken_ok, <- !queue_for_ok. destruct (add_solo nw _ _ _ _ _ _ _ Hn (reach_rests _ Hc Hu) Es) as [[Ha (_ & E1 & E2 & _)]|Ha]; [left|right; exact Ha].
  split; [exact Ha|]. split; [exact E1|exact E2].
Qed.
Theorem C54_add_vector c t l p ks c' H : reach c -> unlocked (sh c) -> (0 < nw)%nat -> wq_run nw c (block (t, OAddV l p, ks)) = Some (c', H) ->
  content (queue_for p) (sh c') = content (queue_for p) (sh c) ++ l /\ forall j, j <> queue_for p -> content j (sh c') = content j (sh c).
Proof.
  intros Hc Hu Hn Er. destruct (run_block _ _ _ _ _ _ _ _ _ Er) as (r & _ & Es & _). rewrite <- !queue_for_ok. destruct (addv_solo nw _ _ _ _ _ _ _ Hn (reach_rests _ Hc Hu) Es) as (_ & E1 & E2 & _). auto.
Qed.

(** ** C55 *)
(** [window c L c']: an execution from [c] to [c'] in which getWorkBlock is called again and again, by users or workers, one call at a
    time, always without high priority work and with both medium and low priority work available; [L] tells from which queue each block
    was taken.  Between the calls anything may happen, except that blocks are handed out or the ratio is changed. *)
Inductive window : wqcfg -> list lvl -> wqcfg -> Prop :=
| w_nil c : window c [] c
| w_other c xs c1 H L c2 : wq_run nw c xs = Some (c1, H) -> got (sh c1) = got (sh c) -> ratio (sh c1) = ratio (sh c) -> window c1 L c2 -> window c L c2
| w_get c t g n x c1 i L c2 : unlocked (sh c) -> th c t = Some (gstart g) -> hands nw c t n x c1 ->
    content Hi (sh c) = [] -> content Med (sh c) <> [] -> content Lo (sh c) <> [] ->
    content i (sh c) = x :: content i (sh c1) -> (forall j, j <> i -> content j (sh c1) = content j (sh c)) ->
    window c1 L c2 -> window c (i :: L) c2.

(** The order given by ratio [R] and counter [m] *)
Fixpoint turns (R m : Z) (L : list lvl) : Prop :=
  match L with
  | [] => True
  | i :: L' => if R <=? m then i = Lo /\ turns R 0 L' else i = Med /\ turns R (wrap32 (m + 1)) L'
  end.

Lemma window_turns c L c' : reach c -> window c L c' -> turns (ratio (sh c)) (medc (sh c)) L.
Proof.
  intros Hc Hw. induction Hw as [c|c xs c1 H L c2 Er Eg Erat Hw IH|c t g n x c1 i L c2 Hu Et Hh Eh Em El Ei Ej Hw IH].
  - exact I.
  - destruct (run_got nw _ _ _ _ Er) as (l & E1 & E2). rewrite Eg in E1. rewrite <- (app_nil_r (got (sh c))) in E1 at 1. apply app_inv_head in E1. subst l.
    rewrite <- Erat, <- (E2 eq_refl). apply IH. eapply reach_run; eassumption.
  - destruct (hands_spec _ _ _ _ _ _ Hc Hu Et Hh) as (_ & s2 & Es & Hp). destruct Hp as (_ & _ & Er & _ & _ & Hp).
    specialize (IH (reach_run _ _ _ _ Hc (proj1 Hh))). rewrite Es in IH, Ei, Ej. change (ratio (log_got t x s2)) with (ratio s2) in IH. change (medc (log_got t x s2)) with (medc s2) in IH. rewrite Er in IH.
    unfold choice in Hp. rewrite Eh in Hp. destruct (content Med (sh c)) as [|y l] eqn:Em'; [congruence|]. destruct (content Lo (sh c)) as [|z k] eqn:El'; [congruence|]. cbn [turns].
    assert (Hi : forall i0, content i0 (sh c) = x :: content i0 s2 -> i = i0).
    { intros i0 E0. destruct (lvl_eqb_spec i0 i) as [->|Hne]; [reflexivity|]. specialize (Ej i0 Hne). change (content i0 (log_got t x s2)) with (content i0 s2) in Ej. rewrite Ej in E0. apply (f_equal length) in E0. cbn in E0. lia. }
    destruct (Z.leb (ratio (sh c)) (medc (sh c))); destruct Hp as (_ & Em2 & Ex & _); rewrite Em2 in IH; (split; [apply Hi, Ex|exact IH]).
Qed.

Lemma wrap_small z : - 2 ^ 31 <= z < 2 ^ 31 -> wrap32 z = z.
Proof. intros Hz. unfold wrap32. rewrite Z.mod_small; lia. Qed.

Lemma turns_first R n : forall m L, 1 <= R < 2 ^ 31 -> - 2 ^ 31 <= m -> turns R m (repeat Med n ++ L) -> (n = 0)%nat \/ m + Z.of_nat n <= R.
Proof.
  induction n as [|n IH]; intros m L HR Hm; [auto|]. cbn [repeat app turns]. destruct (Z.leb_spec R m) as [Hle|Hlt]; [intros [[=] _]|]. intros [_ Ht]. rewrite wrap_small in Ht by lia.
  destruct (IH (m + 1) L HR ltac:(lia) Ht) as [->|Hx]; right; lia.
Qed.
Lemma turns_low R n : forall m L, 1 <= R < 2 ^ 31 -> - 2 ^ 31 <= m -> turns R m (repeat Med n ++ Lo :: L) -> Z.of_nat n = Z.max 0 (R - m) /\ turns R 0 L.
Proof.
  induction n as [|n IH]; intros m L HR Hm; cbn [repeat app turns].
  - destruct (Z.leb_spec R m) as [Hle|Hlt]; [|intros [[=] _]]. intros [_ Ht]. split; [lia|exact Ht].
  - destruct (Z.leb_spec R m) as [Hle|Hlt]; [intros [[=] _]|]. intros [_ Ht]. rewrite wrap_small in Ht by lia. destruct (IH (m + 1) L HR ltac:(lia) Ht) as [E E']. split; [lia|exact E'].
Qed.
Lemma turns_app R A : forall m B, 1 <= R < 2 ^ 31 -> 0 <= m -> turns R m (A ++ B) -> exists m', 0 <= m' /\ turns R m' B.
Proof.
  induction A as [|i A IH]; intros m B HR Hm; cbn [app turns]; [eauto|]. destruct (Z.leb_spec R m) as [Hle|Hlt]; intros [_ Ht].
  - apply (IH 0 B HR ltac:(lia) Ht).
  - rewrite wrap_small in Ht by lia. apply (IH (m + 1) B HR ltac:(lia) Ht).
Qed.

(** After a low priority block exactly [ratio] medium ones are handed out before the next low one. *)
Lemma turns_lo R A m B : 1 <= R < 2 ^ 31 -> - 2 ^ 31 <= m -> turns R m (A ++ Lo :: B) -> turns R 0 B.
Proof.
  revert m. induction A as [|i A IH]; intros m HR Hm; cbn [app turns].
  - destruct (Z.leb_spec R m); [intros [_ Ht]; exact Ht|intros [[=] _]].
  - destruct (Z.leb_spec R m) as [Hle|Hlt]; intros [_ Ht]; [eapply IH; [exact HR| |exact Ht]; lia|]. rewrite wrap_small in Ht by lia. eapply IH; [exact HR| |exact Ht]; lia.
Qed.

(** The first low block comes when the counter has reached the ratio; and there are exactly [ratio] medium blocks between two low
    ones that have only medium ones between them.  [-2^31 <= medc], [ratio < 2^31]: the two are ints; ratio is positive by
    C55_ratio_positive. *)
Theorem C55_between c L c' A n B : reach c -> 1 <= ratio (sh c) < 2 ^ 31 -> - 2 ^ 31 <= medc (sh c) -> window c L c' ->
  L = A ++ Lo :: repeat Med n ++ Lo :: B -> Z.of_nat n = ratio (sh c).
Proof.
  intros Hc HR Hm Hw ->. pose proof (window_turns _ _ _ Hc Hw) as Ht. apply (turns_lo _ _ _ _ HR Hm) in Ht. destruct (turns_low _ n 0 B HR ltac:(lia) Ht) as [E _]. lia.
Qed.
Theorem C55_first c L c' n B : reach c -> 1 <= ratio (sh c) < 2 ^ 31 -> - 2 ^ 31 <= medc (sh c) -> window c L c' ->
  L = repeat Med n ++ Lo :: B -> Z.of_nat n = Z.max 0 (ratio (sh c) - medc (sh c)).
Proof. intros Hc HR Hm Hw ->. apply (turns_low _ _ _ _ HR Hm (window_turns _ _ _ Hc Hw)). Qed.
(** No starvation, if the counter is not negative *)
Theorem C55_no_starvation_partial c L c' A n B : reach c -> 1 <= ratio (sh c) < 2 ^ 31 -> 0 <= medc (sh c) -> window c L c' ->
  L = A ++ repeat Med n ++ B -> Z.of_nat n <= ratio (sh c).
Proof.
  intros Hc HR Hm Hw ->. pose proof (window_turns _ _ _ Hc Hw) as Ht. destruct (turns_app _ _ _ _ HR Hm Ht) as (m' & Hm' & Ht'). destruct (turns_first _ n m' B HR ltac:(lia) Ht') as [->|]; lia.
Qed.

(** The ratio is positive and an int, if setPriorityRatio is called with ints. *)
Definition int_op (o : wqop) : Prop := match o with ORatio n => - 2 ^ 31 <= n < 2 ^ 31 | _ => True end.
Lemma step_ratio s t pc k s' pc' : wq_step nw s t pc k = Some (s', pc') -> ratio s' = ratio s \/ exists n, pc = R0 n /\ ratio s' = if 0 <? n then n else 4.
Proof.
  intros Es. destruct pc; destruct k; cbn [wq_step wq_step0] in Es; try discriminate;
    try (destruct (notify1 (waits s) _); [|discriminate]); unfold lock_q in Es;
    try (match type of Es with context [inb t (waits s)] => destruct (inb t (waits s)); try discriminate end); try (inj Es; left; reflexivity);
    try (destruct (qlock s); [discriminate|]; inj Es; left; reflexivity).
  - destruct (sq_fin p) as [r|].
    + destruct k0, r; cbn in Es; try discriminate; try (inj Es; left; reflexivity); destruct r; inj Es; left; reflexivity.
    + destruct (sq_step (qof i s) t p tt) as [[q' p']|]; [|discriminate]. inj Es. left. destruct i; reflexivity.
  - destruct x as [y|]; [|inj Es; left; reflexivity]. destruct p; try (destruct (is_fin s y)); inj Es; left; reflexivity.
  - destruct xs as [|[[|b]|] xs]; inj Es; left; reflexivity.
  - destruct (bfin s b); inj Es; left; reflexivity.
  - destruct (Nat.ltb k0 nw); [|inj Es; left; reflexivity]. destruct (inb k0 (joined s)); [inj Es; left; reflexivity|].
    destruct (inb k0 (gone s)); [|discriminate]. inj Es. left; reflexivity.
  - inj Es. right. eexists. split; reflexivity.
Qed.
Lemma step_medc s t pc k s' pc' : wq_step nw s t pc k = Some (s', pc') -> medc s' = medc s \/ medc s' = 0 \/ exists z, medc s' = wrap32 z.
Proof.
  intros Es. destruct (step_got nw _ _ _ _ _ _ Es) as [[_ E]|[x E]]; [auto|]. assert (Hne : got s' <> got s) by (rewrite E; intros E'; apply (f_equal length) in E'; rewrite app_length in E'; cbn in E'; lia).
  destruct pc; destruct k; cbn [wq_step wq_step0] in Es; try discriminate; try (destruct (notify1 (waits s) _); [|discriminate]); unfold lock_q in Es;
    try (match type of Es with context [inb t (waits s)] => destruct (inb t (waits s)); try discriminate end); try (inj Es; cbn in Hne; congruence);
    try (destruct (qlock s); [discriminate|]; inj Es; cbn in Hne; congruence).
  - destruct (sq_fin p) as [r|].
    + destruct k0, r; cbn in Es; try discriminate; try (inj Es; left; reflexivity); destruct r; inj Es; left; reflexivity.
    + destruct (sq_step (qof i s) t p tt) as [[q' p']|]; [|discriminate]. inj Es. left. destruct i; reflexivity.
  - destruct x0 as [y|]; [|inj Es; left; reflexivity]. destruct p; try (destruct (is_fin s y)); inj Es; left; reflexivity.
  - destruct xs as [|[[|b]|] xs]; inj Es; left; reflexivity.
  - destruct (bfin s b); inj Es; left; reflexivity.
  - inj Es. right; left. reflexivity.
  - inj Es. right; right. eexists. reflexivity.
  - destruct (Nat.ltb k0 nw); [|inj Es; left; reflexivity]. destruct (inb k0 (joined s)); [inj Es; left; reflexivity|].
    destruct (inb k0 (gone s)); [|discriminate]. inj Es. left; reflexivity.
Qed.
Definition intI c : Prop := 1 <= ratio (sh c) < 2 ^ 31 /\ - 2 ^ 31 <= medc (sh c) < 2 ^ 31 /\ forall t n, th c t = Some (R0 n) -> - 2 ^ 31 <= n < 2 ^ 31.
Lemma wrap_range z : - 2 ^ 31 <= wrap32 z < 2 ^ 31.
Proof. unfold wrap32. pose proof (Z.mod_pos_bound (z + 2 ^ 31) (2 ^ 32) ltac:(lia)). lia. Qed.
Lemma step_r0 s t pc k s' n : wq_step nw s t pc k = Some (s', R0 n) -> False.
Proof.
  assert (Hd : forall r, dummies r <> R0 n) by (intros []; discriminate).
  assert (Ha : forall a, after_add a <> R0 n) by (intros [|r]; [discriminate|apply Hd]).
  assert (He : forall e, after_exec e <> R0 n) by (intros []; discriminate).
  assert (Hs : forall x (y : wqpc), Some (x, y) = Some (s', R0 n) -> y = R0 n) by (intros x y E; inversion E; reflexivity).
  intros Es. destruct pc; destruct k; cbn [wq_step wq_step0] in Es; try discriminate; unfold lock_q in Es;
    try (match type of Es with (match ?x with _ => _ end = _) => destruct x eqn:? end); try discriminate; try (apply Hs in Es; try discriminate; solve [destruct (Ha _ Es)|destruct (Hd _ Es)|destruct (He _ Es)|repeat (match type of Es with context [if ?x then _ else _] => destruct x end); discriminate]).
  - destruct k0, s0; cbn in Es; try discriminate; try (destruct r; cbn in Es; try discriminate); try (destruct g; discriminate); apply Hs in Es; try discriminate;
      try (match type of Es with (if ?x then _ else _) = _ => destruct x end; try discriminate; destruct (Ha _ Es));
      repeat (match type of Es with context [if ?x then _ else _] => destruct x | context [nextq ?x] => destruct x; cbn in Es | context [match ?x with EUser => _ | EWork => _ end] => destruct x end); discriminate.
  - destruct (sq_step (qof i s) t p tt) as [[q' p']|]; discriminate.
  - destruct p; try (destruct (is_fin s b)); apply Hs in Es; try discriminate; destruct (Nat.eqb nw 0); discriminate.
  - destruct o as [[|b]|]; discriminate.
  - destruct x as [[|b]|]; try discriminate. destruct (bfin s b); discriminate.
  - destruct (inb k0 (joined s)); [|destruct (inb k0 (gone s))]; discriminate.
Qed.
Theorem C55_ratio_positive f xs c H : Forall int_op (calls xs) -> wq_run nw (wq_init nw f) xs = Some (c, H) ->
  1 <= ratio (sh c) < 2 ^ 31 /\ - 2 ^ 31 <= medc (sh c) < 2 ^ 31.
Proof.
  intros Hok Er. enough (intI c) by (split; apply H0).
  eapply (inv_run (wq_start nw) (wq_step nw) wq_fin int_op intI); [..|exact Hok|exact Er].
  - intros c0 t o (I1 & I2 & I3) Ho Et. split; [exact I1|]. split; [exact I2|]. intros u n E. cbn in E. unfold fupd in E. destruct (Nat.eqb u t); [|eauto]. destruct o; cbn in E; try discriminate; [destruct (Nat.eqb nw 0); discriminate|]. injection E as <-. exact Ho.
  - intros c0 t k pc s' pc' (I1 & I2 & I3) Et Es. split; [|split]; cbn.
    + destruct (step_ratio _ _ _ _ _ _ Es) as [->|(n & -> & ->)]; [exact I1|]. specialize (I3 _ _ Et). destruct (Z.ltb_spec 0 n); lia.
    + destruct (step_medc _ _ _ _ _ _ Es) as [->|[->|[z ->]]]; [exact I2|lia|apply wrap_range].
    + intros u n E. unfold fupd in E. destruct (Nat.eqb u t); [|eauto]. injection E as ->. destruct (step_r0 _ _ _ _ _ _ Es).
  - intros c0 t pc r (I1 & I2 & I3) Et Ef. split; [exact I1|]. split; [exact I2|]. intros u n E. cbn in E. unfold fupd in E. destruct (Nat.eqb u t); [discriminate|eauto].
  - split; [cbn; lia|]. split; [cbn; lia|]. intros t n. cbn [wq_init th]. destruct (Nat.ltb t nw); intros E; discriminate E.
Qed.
End props.

(** ** The counter overflows *)
(** One worker.  After 2^31 medium priority blocks without low priority work the counter is -2^31, and then a low priority block is
    not handed out before 2^31 + 4 medium priority ones, although the ratio is 4. *)
Lemma starving n : forall k m l c, calm_cfg k m l c -> l <> [] -> reach 1 c -> - 2 ^ 31 <= m -> m + Z.of_nat n <= 4 -> exists c', window 1 c (repeat Med n) c'.
Proof.
  induction n as [|n IH]; intros k m l c Hc Hl Hr Hm Hn; [exists c; constructor|].
  destruct (do_add _ _ _ _ Hc) as (x1 & c1 & H1 & E1 & Eg1 & Hf1 & Hc1 & T0 & T1). assert (Hm4 : m < 4) by lia. destruct (do_get _ _ _ _ _ Hc1 (or_introl Hm4) T0) as (n2 & c2 & Hh & Hc2 & T0' & T1' & Hf2).
  destruct (do_work _ _ _ _ Hc2 T0') as (c3 & E3 & Eg3 & Hc3); [congruence|rewrite Hf2, Hf1; apply Hc|].
  pose proof (reach_run 1 _ _ _ _ Hr E1) as R1. pose proof (reach_run 1 _ _ _ _ R1 (proj1 Hh)) as R2. pose proof (reach_run 1 _ _ _ _ R2 E3) as R3.
  rewrite wrap_small in Hc3 by lia. destruct (IH (S k) (m + 1) l c3 Hc3 Hl R3 ltac:(lia) ltac:(lia)) as [c' Hw]. exists c'. cbn [repeat].
  eapply w_other; [exact E1|exact Eg1|rewrite (ca_r _ _ _ _ Hc1), (ca_r _ _ _ _ (proj1 Hc)); reflexivity|].
  destruct Hc1 as [A1 A2 A3 A4 A5 A6 A7 A8]. pose proof Hc2 as [B1 B2 B3 B4 B5 B6 B7 B8].
  eapply w_get; [|exact T0|exact Hh|unfold content; cbn [qof]..|].
  - intros []; cbn [qof]; rewrite ?A1, ?A2, ?A3; split; reflexivity.
  - rewrite A1. reflexivity.
  - rewrite A2. discriminate.
  - rewrite A3. unfold sq_content, mk. cbn [pullE pushE]. rewrite app_nil_r. intros E. apply Hl. apply (f_equal (@rev _)) in E. rewrite rev_involutive in E. exact E.
  - rewrite A2, B2. reflexivity.
  - intros [] Hj; cbn [qof]; [rewrite A1, B1|congruence|rewrite A3, B3]; reflexivity.
  - eapply w_other; [exact E3|exact Eg3|rewrite (ca_r _ _ _ _ (proj1 Hc3)), B5; reflexivity|exact Hw].
Qed.

Theorem C55_refuted : exists f xs c H, wq_run 1 (wq_init 1 f) xs = Some (c, H) /\ ratio (sh c) = 4 /\ medc (sh c) = - 2 ^ 31 /\
  forall n, Z.of_nat n <= 2 ^ 31 + 4 -> exists c', window 1 c (repeat Med n) c'.
Proof.
  assert (Hk : exists k, Z.of_nat k = 2 ^ 31) by (exists (Z.to_nat (2 ^ 31)); apply Z2Nat.id; lia). destruct Hk as [k Ek].
  destruct (reach_calm k) as (xs & c & H & Er & Hc). rewrite Ek in Hc. replace (wrap32 (2 ^ 31)) with (- 2 ^ 31) in Hc by reflexivity.
  destruct (do_low _ _ _ Hc) as (ys & c1 & H1 & E1 & Hc1). exists (fun _ => false), (xs ++ ys), c1, (H ++ H1).
  assert (E : wq_run 1 (wq_init 1 (fun _ => false)) (xs ++ ys) = Some (c1, H ++ H1)) by (unfold wq_run in *; rewrite run_app, Er, E1; reflexivity).
  split; [exact E|]. split; [apply (ca_r _ _ _ _ (proj1 Hc1))|]. split; [apply (ca_m _ _ _ _ (proj1 Hc1))|]. intros n Hn.
  eapply starving; [exact Hc1|discriminate|exists (fun _ => false), (xs ++ ys), (H ++ H1); exact E|lia|lia].
Qed.

(** ** Examples *)
(** User 1 adds low block 1, medium blocks 2 and 3 and high block 4, and then calls getWorkBlock. *)
Definition four : list (nat * act cvc wqop) :=
  concat (map (fun o => (1%nat, ACall o) :: ints 1 17 ++ [(1%nat, ARet)]) [OAdd (Some (BWork 1)) PLow; OAdd (Some (BWork 2)) PMed; OAdd (Some (BWork 4)) PHigh]) ++
  (1%nat, ACall (OAddV [Some (BWork 3)] PMed)) :: ints 1 11 ++ [(1%nat, ARet)] ++ [(1%nat, ACall (ORatio 1)); (1%nat, AInt CStep); (1%nat, ARet); (1%nat, ACall OGet)].
Example C54_ex : exists c H, wq_run 1 (wq_init 1 (fun _ => false)) four = Some (c, H) /\ reach 1 c /\ unlocked (sh c) /\ th c 1%nat = Some (gstart GUser) /\
  content Hi (sh c) = [Some (BWork 4)] /\ content Med (sh c) = [Some (BWork 2); Some (BWork 3)] /\ content Lo (sh c) = [Some (BWork 1)] /\ ratio (sh c) = 1.
Proof.
  assert (E : option_map (fun '(c, _) => (qH (sh c), qM (sh c), qL (sh c), ratio (sh c), th c 1%nat)) (wq_run 1 (wq_init 1 (fun _ => false)) four) =
    Some (mk [Some (BWork 4)], SqSh None None [Some (BWork 3)] [Some (BWork 2)] false, mk [Some (BWork 1)], 1, Some (gstart GUser))) by (vm_compute; reflexivity).
  destruct (wq_run 1 (wq_init 1 (fun _ => false)) four) as [[c H]|] eqn:Er; [|discriminate]. cbn [option_map] in E. injection E as E1 E2 E3 E4 E5.
  exists c, H. split; [reflexivity|]. split; [exists (fun _ => false), four, H; exact Er|]. unfold unlocked, content. cbn [qof].
  split; [intros []; cbn [qof]; rewrite ?E1, ?E2, ?E3; split; reflexivity|]. rewrite E1, E2, E3. auto.
Qed.

(** The hypotheses of the theorems on C55 are met with any number of calls. *)
Example C55_ex n : Z.of_nat n <= 4 -> exists c c', reach 1 c /\ 1 <= ratio (sh c) < 2 ^ 31 /\ medc (sh c) = 0 /\ window 1 c (repeat Med n) c'.
Proof.
  intros Hn. destruct (reach_calm 0) as (xs & c & H & Er & Hc). destruct (do_low _ _ _ Hc) as (ys & c1 & H1 & E1 & Hc1).
  assert (R : reach 1 c1) by (eapply reach_run; [exists (fun _ => false), xs, H; exact Er|exact E1]).
  change (wrap32 (Z.of_nat 0)) with 0 in Hc1. destruct (starving n _ _ _ _ Hc1 ltac:(discriminate) R ltac:(lia) ltac:(lia)) as [c' Hw]. exists c1, c'. split; [exact R|].
  rewrite (ca_r _ _ _ _ (proj1 Hc1)). split; [lia|]. split; [apply (ca_m _ _ _ _ (proj1 Hc1))|exact Hw].
Qed.

(** A call of getWorkBlock by an idle user makes a window one longer. *)
Lemma turn nw (c : wqcfg) t x m y l : reach nw c -> unlocked (sh c) -> th c t = None -> content Hi (sh c) = [] -> content Med (sh c) = x :: m -> content Lo (sh c) = y :: l ->
  let b := ratio (sh c) <=? medc (sh c) in
  exists c', (forall L c2, window nw c' L c2 -> window nw c ((if b then Lo else Med) :: L) c2) /\ reach nw c' /\ unlocked (sh c') /\ th c' t = None /\ ratio (sh c') = ratio (sh c) /\
    medc (sh c') = (if b then 0 else wrap32 (medc (sh c) + 1)) /\ content Hi (sh c') = [] /\ content Med (sh c') = (if b then x :: m else m) /\ content Lo (sh c') = (if b then l else y :: l).
Proof.
  intros Hc Hu Et Eh Em El b. set (c1 := Cfg (sh c) (fupd t (Some (gstart GUser)) (th c))).
  assert (E1 : wq_run nw c [(t, ACall OGet)] = Some (c1, [HInv t OGet])) by (unfold wq_run; cbn [run exec]; rewrite Et; reflexivity).
  pose proof (reach_run _ _ _ _ _ Hc E1) as Hc1. destruct (hands_all nw c1 t GUser (reach_rests _ _ Hc1 Hu) (fupd_same _ _ _)) as (n & z & c2 & Hh & _ & Et2 & Eo2 & s2 & Es & Hp).
  destruct Hp as (Hr & _ & Er & _ & _ & Hp). unfold choice in Hp. cbn [sh c1] in Hp. rewrite Eh, Em, El in Hp. fold b in Hp. pose proof (reach_run _ _ _ _ _ Hc1 (proj1 Hh)) as Hc2.
  set (c3 := Cfg (sh c2) (fupd t None (th c2))).
  assert (E3 : wq_run nw c2 [(t, ARet)] = Some (c3, [HRet t (RBlk z)])) by (unfold wq_run; cbn [run exec]; rewrite Et2; reflexivity).
  assert (Hx : exists i m2, (if b then Some (Lo, y, 0) else Some (Med, x, wrap32 (medc (sh c) + 1))) = Some (i, z, m2) /\ i = (if b then Lo else Med) /\ m2 = (if b then 0 else wrap32 (medc (sh c) + 1))).
  { destruct b; destruct Hp as (-> & _); eexists _, _; (split; [reflexivity|split; reflexivity]). }
  destruct Hx as (i & m2 & Ec & Ei & Em2). rewrite Ec in Hp. destruct Hp as (_ & Emc & Ex & Ej).
  exists c3. split; [|split; [eapply reach_run; [exact Hc2|exact E3]|]].
  - intros L cc Hw. rewrite <- Ei. eapply w_other; [exact E1|reflexivity|reflexivity|]. eapply w_get with (i := i); [exact Hu|apply fupd_same|exact Hh|exact Eh|cbn [sh c1]; rewrite Em; discriminate|cbn [sh c1]; rewrite El; discriminate|rewrite Es; exact Ex|rewrite Es; exact Ej|].
    eapply w_other; [exact E3|reflexivity|reflexivity|exact Hw].
  - cbn [sh c3]. rewrite Es. split; [intros j; exact (conj (proj1 (Hr j)) (proj1 (proj2 (Hr j))))|]. split; [apply fupd_same|]. split; [exact Er|]. split; [rewrite <- Em2; exact Emc|].
    change (content Hi s2 = [] /\ content Med s2 = (if b then x :: m else m) /\ content Lo s2 = (if b then l else y :: l)). cbn [sh c1] in Ex, Ej.
    destruct b; subst i.
    + rewrite (Ej Hi), (Ej Med) by discriminate. rewrite El in Ex. injection Ex as _ Ex. auto.
    + rewrite (Ej Hi), (Ej Lo) by discriminate. rewrite Em in Ex. injection Ex as _ Ex. auto.
Qed.
(** With ratio 1: medium, low, medium, low *)
Definition six : list (nat * act cvc wqop) :=
  (1%nat, ACall (OAddV [Some (BWork 1); Some (BWork 2); Some (BWork 3)] PMed)) :: ints 1 10 ++ [(1%nat, ARet)] ++
  (1%nat, ACall (OAddV [Some (BWork 4); Some (BWork 5); Some (BWork 6)] PLow)) :: ints 1 10 ++ [(1%nat, ARet)] ++ [(1%nat, ACall (ORatio 1)); (1%nat, AInt CStep); (1%nat, ARet)].
Example C55_between_ex : exists c c', reach 1 c /\ ratio (sh c) = 1 /\ window 1 c [Med; Lo; Med; Lo] c'.
Proof.
  assert (E : option_map (fun '(c, _) => (qH (sh c), qM (sh c), qL (sh c), ratio (sh c), medc (sh c), th c 1%nat)) (wq_run 1 (wq_init 1 (fun _ => false)) six) =
    Some (sq0, mk [Some (BWork 3); Some (BWork 2); Some (BWork 1)], mk [Some (BWork 6); Some (BWork 5); Some (BWork 4)], 1, 0, None)) by (vm_compute; reflexivity).
  destruct (wq_run 1 (wq_init 1 (fun _ => false)) six) as [[c H]|] eqn:Er; [|discriminate]. cbn [option_map] in E. injection E as E1 E2 E3 E4 E5 E6.
  assert (Hc : reach 1 c) by (exists (fun _ => false), six, H; exact Er). assert (Hu : unlocked (sh c)) by (intros []; cbn [qof]; rewrite ?E1, ?E2, ?E3; split; reflexivity).
  assert (K1 : content Hi (sh c) = []) by (unfold content; cbn [qof]; rewrite E1; reflexivity).
  assert (K2 : content Med (sh c) = [Some (BWork 1); Some (BWork 2); Some (BWork 3)]) by (unfold content; cbn [qof]; rewrite E2; reflexivity).
  assert (K3 : content Lo (sh c) = [Some (BWork 4); Some (BWork 5); Some (BWork 6)]) by (unfold content; cbn [qof]; rewrite E3; reflexivity).
  destruct (turn 1 c 1 _ _ _ _ Hc Hu E6 K1 K2 K3) as (d1 & W1 & Hd1 & U1 & N1 & R1 & M1 & A1 & B1 & C1). rewrite E4, E5 in *. cbn in R1, M1, B1, C1, W1. clear Hc Hu E6 K1 K2 K3.
  destruct (turn 1 d1 1 _ _ _ _ Hd1 U1 N1 A1 B1 C1) as (d2 & W2 & Hd2 & U2 & N2 & R2 & M2 & A2 & B2 & C2). rewrite R1, M1 in *. cbn in R2, M2, B2, C2, W2.
  destruct (turn 1 d2 1 _ _ _ _ Hd2 U2 N2 A2 B2 C2) as (d3 & W3 & Hd3 & U3 & N3 & R3 & M3 & A3 & B3 & C3). rewrite R2, M2 in *. cbn in R3, M3, B3, C3, W3.
  destruct (turn 1 d3 1 _ _ _ _ Hd3 U3 N3 A3 B3 C3) as (d4 & W4 & _). rewrite R3, M3 in *. cbn in W4.
  exists c, d4. split; [exists (fun _ => false), six, H; exact Er|]. split; [exact E4|]. apply W1, W2, W3, W4, w_nil.
Qed.

Print Assumptions C54_returns.
Print Assumptions C54_high_first.
Print Assumptions C54_oldest.
Print Assumptions C54_add.
Print Assumptions C54_add_vector.
Print Assumptions C55_between.
Print Assumptions C55_first.
Print Assumptions C55_no_starvation_partial.
Print Assumptions C55_ratio_positive.
Print Assumptions C55_refuted.
