(** WorkQueue: whole calls by one thread alone, and the order in which blocks are handed out *)
From stdpp Require Import list.
From Verif Require Import Base Conc CondVar Herlihy Serial SqModel SqSpec SqProofs WqModel WqProofs WqSeq.

Section wq.
Variable nw : nat.
Notation wqcfg := (cfg wqsh wqpc).
Implicit Types (s : wqsh) (c : wqcfg).

Definition ints (t n : nat) : list (nat * act cvc wqop) := repeat (t, AInt CStep) n.

Lemma run_ints n : forall c t pc, th c t = Some pc ->
  match wq_run nw c (ints t n), witer nw n (sh c) t pc with
  | Some (c', H), Some (s', pc') => sh c' = s' /\ th c' t = Some pc' /\ (forall u, u <> t -> th c' u = th c u) /\ H = []
  | None, None => True
  | _, _ => False
  end.
Proof.
  induction n as [|n IH]; intros c t pc Et; cbn [ints repeat witer].
  - cbn. auto.
  - unfold wq_run. cbn [run exec]. rewrite Et. destruct (wq_step nw (sh c) t pc CStep) as [[s' pc']|]; [|exact I].
    specialize (IH (Cfg s' (fupd t (Some pc') (th c))) t pc' (fupd_same _ _ _)). unfold wq_run, ints in IH. cbn [sh] in IH.
    destruct (run _ _ _ _ _) as [[c2 H2]|]; destruct (witer nw n s' t pc') as [[s2 pc2]|]; try exact IH.
    destruct IH as (E1 & E2 & E3 & ->). split; [exact E1|]. split; [exact E2|]. split; [|reflexivity]. intros u Hu. rewrite E3 by exact Hu. cbn. apply fupd_other, Hu.
Qed.
Lemma run_ints_Some n c t pc c' H : th c t = Some pc -> wq_run nw c (ints t n) = Some (c', H) ->
  exists pc', witer nw n (sh c) t pc = Some (sh c', pc') /\ th c' t = Some pc' /\ (forall u, u <> t -> th c' u = th c u) /\ H = [].
Proof.
  intros Et Er. pose proof (run_ints n c t pc Et) as Hx. rewrite Er in Hx. destruct (witer nw n (sh c) t pc) as [[s' pc']|]; [|destruct Hx]. destruct Hx as (<- & E2 & E3 & E4). eauto.
Qed.
Lemma witer_run n c t pc s' pc' : th c t = Some pc -> witer nw n (sh c) t pc = Some (s', pc') ->
  exists c', wq_run nw c (ints t n) = Some (c', []) /\ sh c' = s' /\ th c' t = Some pc' /\ forall u, u <> t -> th c' u = th c u.
Proof.
  intros Et Er. pose proof (run_ints n c t pc Et) as Hx. rewrite Er in Hx. destruct (wq_run nw c (ints t n)) as [[c' H]|]; [|destruct Hx]. destruct Hx as (E1 & E2 & E3 & ->). eauto.
Qed.

(** ** What is handed out *)
Lemma step_got s t pc k s' pc' : wq_step nw s t pc k = Some (s', pc') ->
  (got s' = got s /\ medc s' = medc s) \/ exists x, got s' = got s ++ [(t, x)].
Proof.
  intros Es. destruct pc; destruct k; cbn [wq_step wq_step0] in Es; try discriminate;
    try (destruct (notify1 (waits s) _); [|discriminate]); unfold lock_q in Es;
    try (match type of Es with context [inb t (waits s)] => destruct (inb t (waits s)); try discriminate end); try (inj Es; left; split; reflexivity);
    try (destruct (qlock s); [discriminate|]; inj Es; left; split; reflexivity).
  - destruct (sq_fin p) as [r|].
    + destruct k0, r; cbn in Es; try discriminate; try (inj Es; left; split; reflexivity).
      * destruct r; inj Es; [right; eexists; reflexivity|left; split; reflexivity].
      * destruct r; inj Es; left; split; reflexivity.
      * destruct r; inj Es; left; split; reflexivity.
      * inj Es. right. eexists. reflexivity.
    + destruct (sq_step (qof i s) t p tt) as [[q' p']|]; [|discriminate]. inj Es. left. destruct i; split; reflexivity.
  - destruct x as [y|]; [|inj Es; left; split; reflexivity]. destruct p; try (destruct (is_fin s y)); inj Es; left; split; reflexivity.
  - destruct xs as [|[[|b]|] xs]; inj Es; try (left; split; reflexivity); right; eexists; reflexivity.
  - destruct (bfin s b); inj Es; left; split; reflexivity.
  - inj Es. right. eexists. reflexivity.
  - inj Es. right. eexists. reflexivity.
  - destruct (Nat.ltb k0 nw); [|inj Es; left; split; reflexivity]. destruct (inb k0 (joined s)); [inj Es; left; split; reflexivity|].
    destruct (inb k0 (gone s)); [|discriminate]. inj Es. left; split; reflexivity.
Qed.

Lemma exec_got c x c' e : wq_exec nw c x = Some (c', e) ->
  (got (sh c') = got (sh c) /\ medc (sh c') = medc (sh c)) \/ exists t y, got (sh c') = got (sh c) ++ [(t, y)].
Proof.
  unfold wq_exec. destruct x as [t [o|k|]]; cbn.
  - destruct (th c t); [discriminate|]. intros [= <- <-]. left; split; reflexivity.
  - destruct (th c t) as [pc|]; [|discriminate]. destruct (wq_step nw (sh c) t pc k) as [[s' pc']|] eqn:Es; [|discriminate]. intros [= <- <-]. cbn. destruct (step_got _ _ _ _ _ _ Es) as [|[y E]]; eauto.
  - destruct (th c t) as [pc|]; [|discriminate]. destruct (wq_fin pc); [|discriminate]. intros [= <- <-]. left; split; reflexivity.
Qed.
Lemma run_got xs : forall c c' H, wq_run nw c xs = Some (c', H) -> exists l, got (sh c') = got (sh c) ++ l /\ (l = [] -> medc (sh c') = medc (sh c)).
Proof.
  unfold wq_run. induction xs as [|x xs IH]; intros c c' H; cbn [run].
  - intros [= <- <-]. exists []. rewrite app_nil_r. auto.
  - destruct (exec _ _ _ c x) as [[c1 e]|] eqn:Ex; [|discriminate]. destruct (run _ _ _ c1 xs) as [[c2 H2]|] eqn:Er; [|discriminate]. intros [= <- <-].
    destruct (IH _ _ _ Er) as (l & E1 & E2). destruct (exec_got _ _ _ _ Ex) as [[E3 E4]|(t & y & E3)].
    + exists l. split; [congruence|]. intros Hl. rewrite E2 by exact Hl. exact E4.
    + exists ((t, y) :: l). split; [rewrite E1, E3, <- app_assoc; reflexivity|discriminate].
Qed.

(** The [n]-th step of [t], running alone, is the first that hands out a block (or null), namely [x]. *)
Definition hands c (t n : nat) (x : ptr) c' : Prop :=
  wq_run nw c (ints t n) = Some (c', []) /\ got (sh c') = got (sh c) ++ [(t, x)] /\
  forall m d, (m < n)%nat -> wq_run nw c (ints t m) = Some (d, []) -> got (sh d) = got (sh c).

Lemma ints_app t n m : ints t (n + m) = ints t n ++ ints t m.
Proof. unfold ints. rewrite repeat_app. reflexivity. Qed.

Lemma witer_got n : forall s t pc s' pc', witer nw n s t pc = Some (s', pc') -> exists l, got s' = got s ++ l.
Proof.
  induction n as [|n IH]; intros s t pc s' pc'; cbn [witer]; [intros [= <- <-]; exists []; rewrite app_nil_r; reflexivity|].
  destruct (wq_step nw s t pc CStep) as [[s1 pc1]|] eqn:Es; [|discriminate]. intros E. destruct (IH _ _ _ _ _ E) as [l El].
  destruct (step_got _ _ _ _ _ _ Es) as [[E1 _]|[x E1]]; rewrite El, E1; [eauto|]. rewrite <- app_assoc. eauto.
Qed.
Lemma witer_prefix n m s t pc s' pc' : witer nw n s t pc = Some (s', pc') -> (m <= n)%nat -> exists s1 pc1, witer nw m s t pc = Some (s1, pc1) /\ witer nw (n - m) s1 t pc1 = Some (s', pc').
Proof.
  revert s pc m. induction n as [|n IH]; intros s pc m E Hm.
  - assert (m = 0%nat) as -> by lia. cbn in E |- *. eauto.
  - destruct m as [|m]; [exists s, pc; split; [reflexivity|exact E]|]. cbn [witer] in E |- *. destruct (wq_step nw s t pc CStep) as [[s1 pc1]|]; [|discriminate].
    cbn [Nat.sub]. apply IH; [exact E|lia].
Qed.

Definition got_pc (g : gctx) (x : ptr) : wqpc := match g with GUser => Ret (RBlk x) | GWork _ => X0 x end.

(** getWorkBlock alone *)
Lemma hands_all c t g : rests (sh c) -> th c t = Some (gstart g) ->
  exists n x c', hands c t n x c' /\ (forall n' x' d, hands c t n' x' d -> n' = n /\ x' = x /\ sh d = sh c' /\ forall u, th d u = th c' u) /\
    th c' t = Some (got_pc g x) /\ (forall u, u <> t -> th c' u = th c u) /\ exists s2, sh c' = log_got t x s2 /\ picked (sh c) x s2.
Proof.
  intros Hr Et. destruct (get_alone nw (sh c) t g Hr) as (n & s1 & pc1 & x & s2 & E & E1 & E2 & Hp).
  assert (Es2 : got s2 = got (sh c)) by apply Hp.
  assert (E3 : witer nw (n + 1) (sh c) t (gstart g) = Some (hand s2 t x g)). { rewrite (witer_app _ _ _ _ _ _ _ _ E). cbn [witer]. rewrite E2. reflexivity. }
  destruct (witer_run _ _ _ _ _ _ Et E3) as (c' & Er & Esh & Et' & Eo).
  assert (Hbefore : forall m d, (m < n + 1)%nat -> wq_run nw c (ints t m) = Some (d, []) -> got (sh d) = got (sh c)).
  { intros m d Hm Ed. destruct (run_ints_Some _ _ _ _ _ _ Et Ed) as (pcd & Ew & _). destruct (witer_prefix _ m _ _ _ _ _ E) as (sm & pm & Em & En); [lia|].
    rewrite Ew in Em. injection Em as <- <-. destruct (witer_got _ _ _ _ _ _ Ew) as [l El]. destruct (witer_got _ _ _ _ _ _ En) as [l' El'].
    rewrite El, E1 in El'. rewrite <- app_assoc in El'. rewrite <- (app_nil_r (got (sh c))) in El' at 1. apply app_inv_head in El'. destruct l; [rewrite El, app_nil_r; reflexivity|discriminate]. }
  assert (Hgot : got (sh c') = got (sh c) ++ [(t, x)]) by (rewrite Esh; cbn; rewrite Es2; reflexivity).
  exists (n + 1)%nat, x, c'. split; [split; [exact Er|split; [exact Hgot|exact Hbefore]]|]. split.
  - intros n' x' d (Er' & Eg' & Hb'). assert (n' = n + 1)%nat as ->.
    { destruct (Nat.lt_trichotomy n' (n + 1)) as [Hlt|[->|Hlt]]; [|reflexivity|].
      - rewrite (Hbefore _ _ Hlt Er') in Eg'. apply (f_equal length) in Eg'. rewrite app_length in Eg'. cbn in Eg'. lia.
      - rewrite (Hb' _ _ Hlt Er) in Hgot. apply (f_equal length) in Hgot. rewrite app_length in Hgot. cbn in Hgot. lia. }
    rewrite Er in Er'. injection Er' as <-. rewrite Hgot in Eg'. apply app_inv_head in Eg'. injection Eg' as <-. auto.
  - split; [rewrite Et'; destruct g; reflexivity|]. split; [exact Eo|]. exists s2. split; [exact Esh|exact Hp].
Qed.

(** ** A call of addWorkBlock alone *)
Notation solo := (solo (wq_step nw) wq_fin).
Lemma solo_sub n : forall s t i p k q' r0 ks s' r, noclr p -> siter n (qof i s) t p = Some (q', SqModel.Ret r0) -> solo s t (Sub i p k) ks = Some (s', r) ->
  exists ks', solo (set_q i q' s) t (Sub i (SqModel.Ret r0) k) ks' = Some (s', r).
Proof.
  induction n as [|n IH]; intros s t i p k q' r0 ks s' r Hp; cbn [siter].
  - intros [= <- ->]. rewrite set_q_same. eauto.
  - destruct (sq_step (qof i s) t p tt) as [[q1 p1]|] eqn:Es; [|discriminate]. intros E Hs. destruct (noclr_step _ _ _ _ _ Hp Es) as [Hp1 Hd].
    assert (Ef : sq_fin p = None) by (destruct p; try reflexivity; discriminate).
    destruct ks as [|kk ks]; cbn [Serial.solo] in Hs; [discriminate|]. destruct kk; cbn [wq_step] in Hs; try discriminate. cbn [wq_step0] in Hs. rewrite Ef, Es, Hd, log_drop_nil in Hs.
    destruct (IH _ _ _ _ _ q' r0 _ _ _ Hp1 (eq_trans (f_equal (fun z => siter n z t p1) (qof_set_same i q1 s)) E) Hs) as [ks' E'].
    rewrite set_set in E'. eauto.
Qed.

Definition accepted s (x : ptr) (p : wprio) : Prop :=
  match x with Some y => p = PReq \/ is_fin s y = false | None => False end.

(** What addWorkBlock does to the queues *)
Definition appended s (i : lvl) (l : list ptr) s' : Prop :=
  rests s' /\ content i s' = content i s ++ l /\ (forall j, j <> i -> content j s' = content j s) /\ medc s' = medc s /\ ratio s' = ratio s /\ got s' = got s.

Lemma push_sub s i q' l : rests s -> rest false q' -> sq_content q' = sq_content (qof i s) ++ l -> appended s i l (set_q i q' s).
Proof.
  intros Hr Hq Hc. split; [apply rests_set; assumption|]. split; [rewrite content_set; destruct (lvl_eqb_spec i i); [exact Hc|congruence]|].
  split; [intros j Hj; rewrite content_set; destruct (lvl_eqb_spec j i); [contradiction|reflexivity]|]. destruct i; (split; [|split]; reflexivity).
Qed.
Lemma appended_ws s i l ws s' : appended s i l s' -> appended s i l (set_waits ws s').
Proof.
  intros (H1 & H2 & H3 & H4). split; [intros j; destruct j; [apply (H1 Hi)|apply (H1 Med)|apply (H1 Lo)]|].
  split; [destruct i; exact H2|]. split; [intros j Hj; rewrite <- (H3 j Hj); destruct j; reflexivity|exact H4].
Qed.

Ltac onestep Es := match type of Es with Serial.solo _ _ _ _ _ ?ks = _ => destruct ks as [|[|?| |] ?] end; cbn [Serial.solo wq_fin wq_step] in Es; try discriminate Es.
Lemma add_solo s t x p ks s' r : (0 < nw)%nat -> rests s -> solo s t (wq_start nw (OAdd x p)) ks = Some (s', r) ->
  (accepted s x p /\ appended s (lvl_of p) [x] s') \/ (~ accepted s x p /\ forall i, content i s' = content i s).
Proof.
  intros Hn Hr Es. cbn [wq_start] in Es. onestep Es. cbn [wq_step0] in Es. assert (En : Nat.eqb nw 0 = false) by (destruct nw; [lia|reflexivity]). rewrite En in Es.
  assert (Hrun : forall ks s', solo s t (Sub (lvl_of p) (sq_start QSize) (KSize x AUser)) ks = Some (s', r) -> appended s (lvl_of p) [x] s').
  { clear Es. intros ks1 s1 Es. destruct (size_alone (qof (lvl_of p) s) t (Hr _)) as (n1 & E1). destruct (solo_sub _ _ _ _ S0 _ _ _ _ _ _ I E1 Es) as [k2 E2]. rewrite set_q_same in E2.
    onestep E2. cbn [wq_step0 sq_fin resume] in E2. destruct (push_alone (qof (lvl_of p) s) t (QPush x) (Hr _) I) as (n3 & q' & Hq & E3 & Hc).
    destruct (solo_sub _ _ _ _ (P0 (QPush x)) _ _ _ _ _ _ I E3 E2) as [k4 E4]. onestep E4. cbn [wq_step0 sq_fin resume] in E4.
    pose proof (push_sub s (lvl_of p) q' [x] Hr Hq Hc) as Ha. destruct (Z.leb _ _).
    - match type of E4 with Serial.solo _ _ _ _ _ ?ks = _ => destruct ks as [|kk ?]; [discriminate E4|] end. cbn [Serial.solo wq_fin wq_step after_add] in E4. destruct (notify1 _ kk) as [ws|]; [|discriminate].
      match type of E4 with Serial.solo _ _ _ _ _ ?ks = _ => destruct ks as [|? ?] end; cbn in E4; [|destruct c; discriminate]. injection E4 as <- _. apply appended_ws, Ha.
    - match type of E4 with Serial.solo _ _ _ _ _ ?ks = _ => destruct ks as [|[|?| |] ?] end; cbn in E4; try discriminate. injection E4 as <- _. exact Ha. }
  assert (Hign : forall ks s1, solo (log_ign x s) t (Ret RUnit) ks = Some (s1, r) -> forall i, content i s1 = content i s).
  { intros [|[|?| |] ?] s1 E; cbn in E; try discriminate. injection E as <- _. intros []; reflexivity. }
  destruct x as [y|].
  - unfold accepted. destruct p.
    1-3: destruct (is_fin s y) eqn:Ef; [right; split; [intros [|]; discriminate|eapply Hign; exact Es]|left; split; [right; reflexivity|eapply Hrun; exact Es]].
    left. split; [left; reflexivity|eapply Hrun; exact Es].
  - right. split; [intros []|]. eapply Hign. exact Es.
Qed.
Lemma addv_solo s t l p ks s' r : (0 < nw)%nat -> rests s -> solo s t (wq_start nw (OAddV l p)) ks = Some (s', r) -> appended s (lvl_of p) l s'.
Proof.
  intros Hn Hr Es. cbn [wq_start] in Es. assert (En : Nat.eqb nw 0 = false) by (destruct nw; [lia|reflexivity]). rewrite En in Es.
  destruct (push_alone (qof (lvl_of p) s) t (QPushVec l) (Hr _) I) as (n3 & q' & Hq & E3 & Hc). destruct (solo_sub _ _ _ _ (P0 (QPushVec l)) _ _ _ _ _ _ I E3 Es) as [k4 E4]. onestep E4. cbn [wq_step0 sq_fin resume] in E4.
  onestep E4. cbn [wq_step0] in E4. match type of E4 with Serial.solo _ _ _ _ _ ?ks = _ => destruct ks as [|[|?| |] ?] end; cbn in E4; try discriminate. injection E4 as <- _.
  apply appended_ws, push_sub; assumption.
Qed.
End wq.
