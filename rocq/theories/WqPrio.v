(** WorkQueue used by many threads: the order of the three queues, and why getWorkBlock answers what it answers *)
From stdpp Require Import list.
From Verif Require Import Base Conc CondVar SqModel SqSpec SqProofs WqModel WqProofs.

(** ** One SimpleQueue *)
Section sq.
Context {V : Type}.
Notation sqcfg := (cfg (sqsh V) (sqpc V)).
Implicit Types (s : sqsh V) (c : sqcfg).
Notation sqR := (sqR (V := V) false).

(** The elements in the order of their arrival.  Between the swap [243] and the reversal [247] pullElements is stored the other way round. *)
Definition sq_ord c : list V :=
  match holder (pullL (sh c)) (th c) with
  | Some (C4 _) | Some (C5 _) => pullE (sh c) ++ pushE (sh c)
  | _ => rev (pullE (sh c)) ++ pushE (sh c)
  end.

(** What the step of a thread at [p] puts into the queue, and what it removes *)
Definition sq_puts (p : sqpc V) : list V := match p with P5 o | P10 o => elems o | _ => [] end.
Definition sq_takes s (p : sqpc V) : list V :=
  match p with O2 => take 1 (rev (pullE s)) | L2 => rev (pullE s) | L3 => pushE s | _ => [] end.

Lemma ord_perm c : sq_ord c ≡ₚ sq_content (sh c).
Proof.
  unfold sq_ord, sq_content. destruct (holder _ _) as [[]|]; try reflexivity; apply Permutation_app_tail, Permutation_rev.
Qed.

Lemma ord_self c t pc : lk (pullL (sh c)) hpull (th c) -> th c t = Some pc -> hpull pc = true ->
  sq_ord c = match pc with C4 _ | C5 _ => pullE (sh c) ++ pushE (sh c) | _ => rev (pullE (sh c)) ++ pushE (sh c) end.
Proof. intros Hl Et Hp. unfold sq_ord. rewrite (lk_owner _ _ _ _ _ Hl Et Hp). cbn. rewrite Et. destruct pc; reflexivity. Qed.
Lemma ord_free c : pullL (sh c) = None -> sq_ord c = rev (pullE (sh c)) ++ pushE (sh c).
Proof. intros E. unfold sq_ord. rewrite E. reflexivity. Qed.

(** A thread that is not the owner of the pull lock, before and after *)
Lemma ord_other c t x s' : pullL (sh c) <> Some t -> pullL s' = pullL (sh c) -> pullE s' = pullE (sh c) -> pushE s' = pushE (sh c) ->
  sq_ord (Cfg s' (fupd t x (th c))) = sq_ord c.
Proof. intros H1 H2 H3 H4. unfold sq_ord. cbn. rewrite H2, H3, H4, holder_other by exact H1. reflexivity. Qed.

Lemma ord_int c q t k pc s' pc' : sqR c q -> th c t = Some pc -> sq_step (sh c) t pc k = Some (s', pc') ->
  sq_ord c ++ sq_puts pc = sq_takes (sh c) pc ++ sq_ord (Cfg s' (fupd t (Some pc') (th c))).
Proof.
  intros HR Et Es. pose proof (sqR_int false c q t k pc s' pc' HR Et Es) as Hx.
  destruct Hx as (q' & HR' & _).
  destruct (hpull pc) eqn:Hp.
  - pose proof (ord_self c t pc (r_pull _ _ _ HR) Et Hp) as E1. pose proof (lk_owner _ _ _ _ _ (r_pull _ _ _ HR) Et Hp) as EL.
    pose proof (r_q _ _ _ HR) as Hq. rewrite EL in Hq. cbn [holder] in Hq. rewrite Et in Hq.
    destruct (hpull pc') eqn:Hp'.
    + pose proof (ord_self _ t pc' (r_pull _ _ _ HR') (fupd_same _ _ _) Hp') as E2. cbn [sh] in E2. rewrite E1, E2. clear E1 E2.
      destruct pc; try discriminate; cbn [sq_step] in Es; unfold lock_push, lock_pull in Es; cbn [hinv] in Hq; cbn [sq_puts sq_takes app]; rewrite ?app_nil_r;
        repeat match type of Es with
        | context [match pushL (sh c) with _ => _ end] => destruct (pushL (sh c)); [discriminate|]
        | context [match rev (pullE (sh c)) with _ => _ end] => destruct (rev (pullE (sh c))) eqn:Er
        end; try discriminate; apply some_pair in Es as [-> ->]; cbn [sh pullE pushE set_pull set_push set_flag unlock_push unlock_pull];
        try (destruct k0 as [?|]); cbn [cont] in *; try (destruct (nonempty _)); try (destruct (eflag _)); cbn [cont app] in *; try reflexivity; try tauto; try discriminate.
      all: try (rewrite rev_involutive; reflexivity).
      all: try (destruct Hq as (E & _); rewrite E; cbn; rewrite ?app_nil_r; reflexivity).
      all: try (destruct Hq as [(Hq & Hn & _) Hz]; destruct (Hn Hz) as [E _]; rewrite Hz, E; cbn; rewrite rev_involutive, ?app_nil_r; reflexivity).
      rewrite Er. reflexivity.
    + assert (EL' : pullL s' = None).
      { destruct pc; try discriminate; cbn [sq_step] in Es; unfold lock_push, lock_pull in Es;
          repeat match type of Es with
          | context [match pushL (sh c) with _ => _ end] => destruct (pushL (sh c)); [discriminate|]
          | context [match rev (pullE (sh c)) with _ => _ end] => destruct (rev (pullE (sh c))) eqn:Er
          end; try discriminate; apply some_pair in Es as [-> ->]; try (destruct k0 as [?|]); cbn [cont] in *; try (destruct (nonempty _)); try (destruct (eflag _)); cbn [cont] in *; try discriminate; reflexivity. }
      rewrite E1, ord_free by exact EL'. cbn [sh].
      destruct pc; try discriminate; cbn [sq_step] in Es; unfold lock_push, lock_pull in Es; cbn [sq_puts sq_takes app]; rewrite ?app_nil_r;
        repeat match type of Es with
        | context [match pushL (sh c) with _ => _ end] => destruct (pushL (sh c)); [discriminate|]
        | context [match rev (pullE (sh c)) with _ => _ end] => destruct (rev (pullE (sh c))) eqn:Er
        end; try discriminate; apply some_pair in Es as [-> ->]; try (destruct k0 as [?|]); cbn [cont] in *; try (destruct (nonempty _)); try (destruct (eflag _)); cbn [cont] in *; try discriminate; try reflexivity.
  - pose proof (lk_other _ _ _ _ _ (r_pull _ _ _ HR) Et Hp) as EL.
    destruct (hpull pc') eqn:Hp'.
    + pose proof (ord_self _ t pc' (r_pull _ _ _ HR') (fupd_same _ _ _) Hp') as E2. cbn [sh] in E2. rewrite E2.
      destruct pc; try discriminate; cbn [sq_step] in Es; unfold lock_push, lock_pull in Es; cbn [sq_puts sq_takes app]; rewrite ?app_nil_r;
        repeat match type of Es with
        | context [match pushL (sh c) with _ => _ end] => destruct (pushL (sh c)); [discriminate|]
        | context [match pullL (sh c) with _ => _ end] => destruct (pullL (sh c)) eqn:EL0; [discriminate|]
        end; try discriminate; apply some_pair in Es as [-> ->]; try discriminate; try (destruct (nonempty _)); try discriminate; cbn [hpull] in *; try discriminate; rewrite ord_free by exact EL0; reflexivity.
    + destruct pc; try discriminate; cbn [sq_step] in Es; unfold lock_push, lock_pull in Es; cbn [sq_puts sq_takes app]; rewrite ?app_nil_r;
        repeat match type of Es with
        | context [match pushL (sh c) with _ => _ end] => destruct (pushL (sh c)) eqn:EP; [discriminate|]
        | context [match pullL (sh c) with _ => _ end] => destruct (pullL (sh c)) eqn:EL0; [discriminate|]
        end; try discriminate; apply some_pair in Es as [-> ->]; try discriminate; try (symmetry; apply ord_other; [exact EL|reflexivity..]).
      unfold sq_ord. cbn [sh th]. cbn [set_push pullL]. rewrite holder_other by exact EL. cbn [pullE pushE]. destruct (holder _ _) as [[]|]; cbn [app set_push pullE pushE]; rewrite <- app_assoc; reflexivity.
Qed.

(** pop() reports an empty queue: it is empty. *)
Lemma pop_none_empty c q t : sqR c q -> th c t = Some O1 -> eflag (sh c) = true -> sq_content (sh c) = [].
Proof.
  intros HR Et Ef. pose proof (lk_owner _ _ _ _ _ (r_pull _ _ _ HR) Et eq_refl) as EL. pose proof (r_q _ _ _ HR) as Hq. rewrite EL in Hq. cbn [holder] in Hq. rewrite Et in Hq.
  cbn in Hq. destruct Hq as [(E & _ & Hf & _) _]. rewrite <- (Hf Ef). symmetry. exact E.
Qed.
(** empty() answers true: the queue is empty, or a push or a clear is at work in it. *)
Definition sq_busy (p : sqpc V) : bool := match p with P6 _ | L3 | L4 => true | _ => false end.
Lemma empty_flag c q : sqR c q -> eflag (sh c) = true -> sq_content (sh c) = [] \/ exists u p, th c u = Some p /\ sq_busy p = true.
Proof.
  intros HR Ef. pose proof (r_q _ _ _ HR) as Hq. pose proof (r_pull _ _ _ HR) as Hl. destruct (pullL (sh c)) as [u|] eqn:EL; cbn [holder] in Hq.
  - destruct (proj1 (Hl u) eq_refl) as (p & Eu & _). rewrite Eu in Hq.
    destruct (sq_busy p) eqn:Eb; [right; eauto|]. left. unfold sq_content.
    assert (Hg : forall pd, gen false (sh c) pd q -> rev (pullE (sh c)) ++ pushE (sh c) = []) by (intros pd (E & _ & Hf & _); rewrite <- (Hf Ef); symmetry; exact E).
    destruct p; try discriminate; cbn [hinv] in Hq; try (destruct k as [?|]); try (apply (Hg _ Hq)); try (apply (Hg _ (proj1 Hq))); try tauto;
      try (destruct Hq as (? & ? & ? & ?); congruence); try (destruct Hq as (? & ? & ?); congruence); try (destruct Hq; congruence).
    all: destruct Hq as (E1 & E2 & _); rewrite E1, E2; reflexivity.
  - left. unfold sq_content. destruct Hq as (E & _ & Hf & _). rewrite <- (Hf Ef). symmetry. exact E.
Qed.

End sq.

(** ** The three queues *)
Section wq.
Variable nw : nat.
Notation wqcfg := (cfg wqsh wqpc).
Implicit Types (s : wqsh) (c : wqcfg) (pc : wqpc) (xs : list (nat * act cvc wqop)).

(** Queue [i] as a SimpleQueue *)
Definition qcfg (i : lvl) c : cfg (sqsh ptr) (sqpc ptr) := Cfg (qof i (sh c)) (fun t => vq i (th c t)).
Definition order (i : lvl) c : list ptr := sq_ord (qcfg i c).
(** What the next step of [t] puts into queue [i] and what it removes from it *)
Definition puts (i : lvl) c (t : nat) : list ptr := match vq i (th c t) with Some p => sq_puts p | None => [] end.
Definition takes (i : lvl) c (t : nat) : list ptr := match vq i (th c t) with Some p => sq_takes (qof i (sh c)) p | None => [] end.
(** ... and what all steps of a run do *)
Fixpoint logs (F : wqcfg -> nat -> list ptr) c xs : list ptr :=
  match xs with
  | [] => []
  | x :: xs' => F c (fst x) ++ match wq_exec nw c x with Some (c1, _) => logs F c1 xs' | None => [] end
  end.

Lemma qR i c : qproj sq0 i c -> exists q, sqR false (qcfg i c) q.
Proof.
  intros (xs & ci & H & Er & Esh & Eth). destruct (sq_sim false _ _ _ _ (reach_rest false _ (sqr_new _)) (fun E => False_rect _ (Bool.diff_false_true E)) Er) as (q & f & _ & Hr).
  exists q. destruct Hr as [R1 R2 R3 R4]. rewrite Esh in *.
  assert (Hh : forall L, holder L (th ci) = holder L (fun t => vq i (th c t))) by (intros [u|]; [cbn; apply Eth|reflexivity]).
  constructor; cbn [qcfg sh th].
  - intros t. rewrite <- Eth. apply R1.
  - intros t. rewrite <- Eth. apply R2.
  - intros t pc. rewrite <- Eth. apply R3.
  - rewrite <- !Hh. exact R4.
Qed.

Lemma ord_ext (s : sqsh ptr) (f g : nat -> option (sqpc ptr)) : (forall t, f t = g t) -> sq_ord (Cfg s f) = sq_ord (Cfg s g).
Proof. intros E. unfold sq_ord. cbn. destruct (pullL s) as [u|]; [cbn; rewrite E; reflexivity|reflexivity]. Qed.
Lemma vq_fupd i t x c u : vq i (fupd t x (th c) u) = fupd t (vq i x) (fun v => vq i (th c v)) u.
Proof. unfold fupd. destruct (Nat.eqb u t); reflexivity. Qed.

(** The thread is not inside an operation of this queue, or at its end. *)
Definition idle (x : option (sqpc ptr)) : Prop := match x with Some p => exists r, sq_fin p = Some r | None => True end.
Lemma order_same i c t s' x : qproj sq0 i c -> idle (vq i (th c t)) -> qof i s' = qof i (sh c) ->
  order i c ++ puts i c t = takes i c t ++ order i (Cfg s' (fupd t x (th c))).
Proof.
  intros Hq Hi Es. destruct (qR _ _ Hq) as [q HR]. unfold order, puts, takes.
  assert (E : sq_ord (qcfg i (Cfg s' (fupd t x (th c)))) = sq_ord (Cfg (qof i s') (fupd t (vq i x) (th (qcfg i c))))) by (apply ord_ext; intros u; cbn; apply vq_fupd).
  rewrite E, Es. clear E. assert (HL : pullL (qof i (sh c)) <> Some t).
  { pose proof (r_pull _ _ _ HR) as Hl. cbn in Hl. intros EL. apply Hl in EL as (p0 & E1 & E2). rewrite E1 in Hi. destruct Hi as [r Hi]. destruct p0; discriminate. }
  rewrite (ord_other (qcfg i c) t (vq i x) (qof i (sh c))) by first [exact HL|reflexivity].
  destruct (vq i (th c t)) as [p|]; [destruct Hi as [r Hi]; destruct p; try discriminate|]; apply app_nil_r.
Qed.
Lemma order_int i c t k p q' p' s' : qproj sq0 i c -> th c t = Some (Sub i p k) -> sq_step (qof i (sh c)) t p tt = Some (q', p') -> qof i s' = q' ->
  order i c ++ puts i c t = takes i c t ++ order i (Cfg s' (fupd t (Some (Sub i p' k)) (th c))).
Proof.
  intros Hq Et Est Es. destruct (qR _ _ Hq) as [q HR]. unfold order, puts, takes.
  assert (E : sq_ord (qcfg i (Cfg s' (fupd t (Some (Sub i p' k)) (th c)))) = sq_ord (Cfg q' (fupd t (Some p') (th (qcfg i c))))).
  { unfold qcfg at 1. cbn [sh]. rewrite Es. apply ord_ext. intros u. cbn [th]. rewrite vq_fupd. replace (vq i (Some (Sub i p' k))) with (Some p') by (destruct i; reflexivity). reflexivity. }
  rewrite E. assert (Ev : vq i (th c t) = Some p) by (rewrite Et; destruct i; reflexivity). rewrite Ev.
  apply (ord_int (qcfg i c) q t tt p q' p' HR Ev Est).
Qed.

Lemma order_exec i c x c' e : (forall j, qproj sq0 j c) -> wq_exec nw c x = Some (c', e) -> order i c ++ puts i c (fst x) = takes i c (fst x) ++ order i c'.
Proof.
  intros Hq Ex. destruct x as [t [o|k|]]; unfold wq_exec in Ex; cbn in Ex; cbn [fst].
  - destruct (th c t) eqn:Et; [discriminate|]. injection Ex as <- <-. apply order_same; [apply Hq|rewrite Et; exact I|reflexivity].
  - destruct (th c t) as [pc|] eqn:Et; [|discriminate]. destruct (wq_step nw (sh c) t pc k) as [[s' pc']|] eqn:Es; [|discriminate]. injection Ex as <- <-.
    assert (Hc : (exists j p kk, pc = Sub j p kk) \/ forall i, vq i (Some pc) = None) by (destruct pc; eauto).
    destruct Hc as [(j & p & kk & ->)|Hn].
    + destruct k; cbn [wq_step wq_step0] in Es; try discriminate. destruct (sq_fin p) as [r|] eqn:Ef.
      * apply resume_fresh in Es as [Hqq _]. apply order_same; [apply Hq| |apply Hqq]. rewrite Et. cbn. destruct (lvl_eqb i j); [exists r; exact Ef|exact I].
      * destruct (sq_step (qof j (sh c)) t p tt) as [[q' p']|] eqn:Eq; [|discriminate]. injection Es as <- <-.
        destruct (lvl_eqb_spec i j) as [->|Hne].
        -- eapply order_int; [apply Hq|exact Et|exact Eq|]. destruct j; reflexivity.
        -- apply order_same; [apply Hq| |destruct i, j; try reflexivity; congruence]. rewrite Et. cbn. destruct (lvl_eqb_spec i j); [congruence|exact I].
    + destruct (step_nosub _ _ _ _ _ _ _ Es Hn) as [Hqq _]. apply order_same; [apply Hq| |apply Hqq]. rewrite Et, Hn. exact I.
  - destruct (th c t) as [pc|] eqn:Et; [|discriminate]. destruct (wq_fin pc) eqn:Ef; [|discriminate]. injection Ex as <- <-.
    apply order_same; [apply Hq| |reflexivity]. rewrite Et. destruct pc; try discriminate. exact I.
Qed.

Lemma order_run i xs : forall c c' H, (forall j, qproj sq0 j c) -> wq_run nw c xs = Some (c', H) ->
  order i c ++ logs (puts i) c xs = logs (takes i) c xs ++ order i c'.
Proof.
  induction xs as [|x xs IH]; intros c c' H Hq; unfold wq_run; cbn [run].
  - intros [= <- <-]. cbn. apply app_nil_r.
  - destruct (exec _ _ _ c x) as [[c1 e]|] eqn:Ex; [|discriminate]. destruct (run _ _ _ c1 xs) as [[c2 H2]|] eqn:Er; [|discriminate]. intros [= <- <-].
    cbn [logs]. change (exec (wq_start nw) (wq_step nw) wq_fin c x) with (wq_exec nw c x) in Ex. rewrite Ex.
    assert (Hq1 : forall j, qproj sq0 j c1). { eapply (qproj_run nw sq0 [x] c c1 (e ++ [])); [exact Hq|]. unfold wq_run. cbn [run]. unfold wq_exec in Ex. rewrite Ex. reflexivity. }
    rewrite app_assoc, (order_exec i c x c1 e Hq Ex), <- !app_assoc. f_equal. eapply IH; [exact Hq1|exact Er].
Qed.

(** ** Why getWorkBlock answers what it answers *)
Variable f : nat -> bool.

(** Thread [t] is inside getWorkBlock. *)
Definition inget pc : bool :=
  match pc with
  | Sub _ _ (KPop1 _ | KLowE _ | KPop2 _ | KPop3 _ | KPop4 _) | G1 _ | G1b _ _ | G2 _ _ | G3 _ _ => true
  | _ => false
  end.
Definition inside c (t : nat) : bool := match th c t with Some pc => inget pc | None => false end.

(** From [c1] on, while [zs] happens, [t] is inside getWorkBlock all the time. *)
Definition stays c1 (zs : list (nat * act cvc wqop)) (t : nat) : Prop :=
  forall zs1 zs2 c2 H2, zs = zs1 ++ zs2 -> wq_run nw c1 zs1 = Some (c2, H2) -> inside c2 t = true.

(** At some moment of the call of getWorkBlock that [t] is executing at the end of [xs], [P] was true. *)
Definition moment xs (t : nat) (P : wqcfg -> Prop) : Prop :=
  exists ys zs c1 H1, xs = ys ++ zs /\ wq_run nw (wq_init nw f) ys = Some (c1, H1) /\ P c1 /\ stays c1 zs t.
(** During this call [t] itself removed [x], and nothing else, from queue [i]. *)
Definition took xs (t : nat) (i : lvl) (x : ptr) : Prop :=
  exists ys k zs c1 H1, xs = ys ++ (t, AInt k) :: zs /\ wq_run nw (wq_init nw f) ys = Some (c1, H1) /\ takes i c1 t = [x] /\ stays c1 ((t, AInt k) :: zs) t.

Lemma run_snoc c xs x c1 H1 : wq_run nw c xs = Some (c1, H1) -> wq_run nw c (xs ++ [x]) =
  match wq_exec nw c1 x with Some (c2, e) => Some (c2, H1 ++ e) | None => None end.
Proof.
  intros E. unfold wq_run, wq_exec in *. rewrite run_app, E. cbn [run]. destruct (exec _ _ _ c1 x) as [[c2 e]|]; [|reflexivity]. rewrite app_nil_r. reflexivity.
Qed.
Lemma snoc_split {A} (zs : list A) x a b : zs ++ [x] = a ++ b -> (b = [] /\ a = zs ++ [x]) \/ exists b', b = b' ++ [x] /\ zs = a ++ b'.
Proof.
  intros E. destruct b as [|y b] using rev_ind.
  - left. rewrite app_nil_r in E. auto.
  - right. rewrite app_assoc in E. apply app_inj_tail in E as [E ->]. eauto.
Qed.
Lemma stays_snoc ys zs x t c1 H1 c' H : wq_run nw (wq_init nw f) ys = Some (c1, H1) -> stays c1 zs t ->
  wq_run nw (wq_init nw f) ((ys ++ zs) ++ [x]) = Some (c', H) -> inside c' t = true -> stays c1 (zs ++ [x]) t.
Proof.
  intros E1 Hs Er Hi zs1 zs2 c2 H2 Ez E2. apply snoc_split in Ez as [[-> ->]|(b & -> & ->)].
  - rewrite <- app_assoc in Er. unfold wq_run in *. rewrite run_app, E1, E2 in Er. injection Er as <- _. exact Hi.
  - eapply Hs; [reflexivity|exact E2].
Qed.

Section snoc.
Context (xs : list (nat * act cvc wqop)) (x : nat * act cvc wqop) (c' : wqcfg) (H' : list (hev wqop wqret)).
Context (Er' : wq_run nw (wq_init nw f) (xs ++ [x]) = Some (c', H')).
Lemma moment_snoc t P : moment xs t P -> inside c' t = true -> moment (xs ++ [x]) t P.
Proof.
  intros (ys & zs & c1 & H1 & -> & E1 & HP & Hs) Hi. exists ys, (zs ++ [x]), c1, H1. rewrite app_assoc. splits; [exact E1|exact HP|]. eapply stays_snoc; eassumption.
Qed.
Lemma took_snoc t i v : took xs t i v -> inside c' t = true -> took (xs ++ [x]) t i v.
Proof.
  intros (ys & k & zs & c1 & H1 & -> & E1 & HP & Hs) Hi. exists ys, k, (zs ++ [x]), c1, H1. rewrite <- app_assoc. splits; [exact E1|exact HP|].
  change ((t, AInt k) :: zs ++ [x]) with (((t, AInt k) :: zs) ++ [x]). eapply stays_snoc; eassumption.
Qed.
End snoc.
Lemma moment_now xs c H t (P : wqcfg -> Prop) : wq_run nw (wq_init nw f) xs = Some (c, H) -> inside c t = true -> P c -> moment xs t P.
Proof.
  intros Er Hi HP. exists xs, [], c, H. rewrite app_nil_r. splits; [exact Er|exact HP|]. intros zs1 zs2 c2 H2 Ez E2. symmetry in Ez. apply app_eq_nil in Ez as [-> ->].
  injection E2 as <- _. exact Hi.
Qed.
Lemma took_now xs c H t k c' e i v : wq_run nw (wq_init nw f) xs = Some (c, H) -> wq_exec nw c (t, AInt k) = Some (c', e) -> inside c t = true -> inside c' t = true ->
  takes i c t = [v] -> took (xs ++ [(t, AInt k)]) t i v.
Proof.
  intros Er Ex Hi Hi' Ht. exists xs, k, [], c, H. splits; [exact Er|exact Ht|]. intros zs1 zs2 c2 H2 Ez E2. destruct zs1 as [|y zs1].
  - injection E2 as <- _. exact Hi.
  - injection Ez as <- Ez. symmetry in Ez. apply app_eq_nil in Ez as [-> ->]. unfold wq_run in E2. cbn [run] in E2. unfold wq_exec in Ex. rewrite Ex in E2. injection E2 as <- _. exact Hi'.
Qed.

Definition qempty (i : lvl) c : Prop := sq_content (qof i (sh c)) = [].
(** ... or somebody is just putting something into it, or clearing it *)
Definition qempty_or_busy (i : lvl) c : Prop := qempty i c \/ exists u p k, th c u = Some (Sub i p k) /\ sq_busy p = true.
Definition due xs t : Prop := exists m r, moment xs t (fun c => medc (sh c) = m) /\ moment xs t (fun c => ratio (sh c) = r) /\ r <= m.
Definition not_due xs t : Prop := exists m r, moment xs t (fun c => medc (sh c) = m) /\ moment xs t (fun c => ratio (sh c) = r) /\ m < r.
Definition low_passed xs t : Prop := not_due xs t \/ moment xs t (qempty_or_busy Lo).

(** What a thread inside pop() on queue [i] knows *)
Definition popped xs t (i : lvl) (p : sqpc ptr) : Prop :=
  match p with
  | C0 (Some x) | C1 (Some x) | C2 (Some x) | C3 (Some x) | C4 (Some x) | C5 (Some x) | C6 (Some x) | C7 (Some x) | O3 (Some x) | SqModel.Ret (QVal (Some x)) => took xs t i x
  | O3 None | SqModel.Ret (QVal None) => moment xs t (qempty i)
  | _ => True
  end.
Definition why xs t pc : Prop :=
  match pc with
  | Sub i p (KPop1 _) => popped xs t Hi p
  | Sub i p (KLowE _) => moment xs t (qempty Hi) /\ due xs t /\ match p with SqModel.Ret (QBool true) => moment xs t (qempty_or_busy Lo) | _ => True end
  | Sub i p (KPop2 _) => moment xs t (qempty Hi) /\ due xs t /\ popped xs t Lo p
  | Sub i p (KPop3 _) => moment xs t (qempty Hi) /\ low_passed xs t /\ popped xs t Med p
  | Sub i p (KPop4 _) => moment xs t (qempty Hi) /\ moment xs t (qempty Med) /\ popped xs t Lo p
  | G1 _ => moment xs t (qempty Hi)
  | G1b _ m => moment xs t (qempty Hi) /\ moment xs t (fun c => medc (sh c) = m)
  | G2 x _ => moment xs t (qempty Hi) /\ due xs t /\ took xs t Lo x
  | G3 x _ => moment xs t (qempty Hi) /\ low_passed xs t /\ took xs t Med x
  | _ => True
  end.

Lemma moment_imp xs t (P Q : wqcfg -> Prop) : (forall c, P c -> Q c) -> moment xs t P -> moment xs t Q.
Proof. intros HPQ (ys & zs & c1 & H1 & E & E1 & HP & Hs). exists ys, zs, c1, H1. auto. Qed.
Lemma why_snoc xs x c' H' t pc : wq_run nw (wq_init nw f) (xs ++ [x]) = Some (c', H') -> why xs t pc -> inside c' t = true -> why (xs ++ [x]) t pc.
Proof.
  intros Er Hw Hi.
  assert (HM : forall P, moment xs t P -> moment (xs ++ [x]) t P) by (intros P HP; eapply moment_snoc; eassumption).
  assert (HT : forall i v, took xs t i v -> took (xs ++ [x]) t i v) by (intros i v HP; eapply took_snoc; eassumption).
  assert (HD : due xs t -> due (xs ++ [x]) t) by (intros (m & r & ? & ? & ?); exists m, r; auto).
  assert (HN : low_passed xs t -> low_passed (xs ++ [x]) t) by (intros [(m & r & ? & ? & ?)|?]; [left; exists m, r; auto|right; auto]).
  assert (HO : forall i p, popped xs t i p -> popped (xs ++ [x]) t i p).
  { intros i p. destruct p; cbn; auto; try (destruct k as [?|]; auto); try (destruct r as [?|]; auto). destruct r as [|v|?|?]; auto. destruct v as [v|]; auto. }
  destruct pc; cbn in *; auto; try (naive_solver; fail). destruct k; auto; try (naive_solver; fail).
  destruct Hw as (? & ? & Hw). split; [auto|]. split; [auto|]. destruct p; auto. destruct r as [| | |[]]; auto.
Qed.

Lemma low_seen xs t : moment xs t (qempty Lo) -> low_passed xs t.
Proof. intros HM. right. eapply moment_imp; [|exact HM]. intros c. left. assumption. Qed.

Lemma popped_start xs t i : popped xs t i (sq_start QPop).
Proof. exact I. Qed.

(** One step of [t] inside pop() *)
Lemma popped_step xs c H t i p k q' p' c' e : wq_run nw (wq_init nw f) xs = Some (c, H) -> (forall j, qproj sq0 j c) -> th c t = Some (Sub i p k) -> sqat QPop p ->
  sq_step (qof i (sh c)) t p tt = Some (q', p') -> wq_exec nw c (t, AInt CStep) = Some (c', e) -> inside c t = true -> inside c' t = true ->
  popped xs t i p -> popped (xs ++ [(t, AInt CStep)]) t i p'.
Proof.
  intros Er Hq Et Ha Es Ex Hi Hi' Hp. destruct (qR i c (Hq i)) as [q HR]. assert (Ev : th (qcfg i c) t = Some p) by (cbn; rewrite Et; destruct i; reflexivity).
  assert (Er' : wq_run nw (wq_init nw f) (xs ++ [(t, AInt CStep)]) = Some (c', H ++ e)) by (rewrite (run_snoc _ _ _ _ _ Er), Ex; reflexivity).
  assert (HM : forall P, moment xs t P -> moment (xs ++ [(t, AInt CStep)]) t P) by (intros P HP; eapply moment_snoc; eassumption).
  assert (HT : forall i v, took xs t i v -> took (xs ++ [(t, AInt CStep)]) t i v) by (intros j v HP; eapply took_snoc; eassumption).
  destruct p; cbn [sqat] in Ha; try discriminate; try (exfalso; apply Ha); cbn [sq_step] in Es; unfold lock_pull, lock_push in Es;
    repeat match type of Es with
    | context [match pushL ?s with _ => _ end] => destruct (pushL s); [discriminate|]
    | context [match pullL ?s with _ => _ end] => destruct (pullL s); [discriminate|]
    end; cbn [popped] in Hp; try (apply some_pair in Es as [-> ->]).
  all: try (destruct k0 as [v|]; cbn [cont]; try destruct (nonempty _); cbn [popped cont] in *; auto; fail).
  - exact I.
  - destruct (eflag (qof i (sh c))) eqn:Ef; [|exact I]. cbn [popped]. apply HM. eapply moment_now; [exact Er|exact Hi|]. apply (pop_none_empty (qcfg i c) q t HR Ev Ef).
  - destruct (rev (pullE (qof i (sh c)))) as [|v l] eqn:E; apply some_pair in Es as [-> ->]; [exact I|]. cbn [popped]. eapply took_now; [exact Er|exact Ex|exact Hi|exact Hi'|].
    unfold takes. rewrite Et. replace (vq i (Some (Sub i O2 k))) with (Some (@O2 ptr)) by (destruct i; reflexivity). cbn. rewrite E. reflexivity.
  - destruct r as [v|]; cbn [popped] in *; auto.
Qed.

Lemma why_out xs t pc : inget pc = false -> why xs t pc.
Proof. destruct pc; cbn; try discriminate; try (intros _; exact I). destruct k; try discriminate; intros _; exact I. Qed.

Definition whyI xs c : Prop := forall t pc, th c t = Some pc -> why xs t pc.

Lemma why_resume xs c H t i p r k s' pc' c' : wq_run nw (wq_init nw f) xs = Some (c, H) ->
  c' = Cfg s' (fupd t (Some pc') (th c)) ->
  wq_exec nw c (t, AInt CStep) = Some (c', []) ->
  th c t = Some (Sub i p k) -> shape (Sub i p k) -> sq_fin p = Some r -> resume nw (sh c) t i r k = Some (s', pc') ->
  why xs t (Sub i p k) -> why (xs ++ [(t, AInt CStep)]) t pc'.
Proof.
  intros Er Ec Ex Et (o & Hk & Ho) Ef Es Hw.
  assert (Er' : wq_run nw (wq_init nw f) (xs ++ [(t, AInt CStep)]) = Some (c', H ++ [])) by (rewrite (run_snoc _ _ _ _ _ Er), Ex; reflexivity).
  destruct p; try discriminate. injection Ef as ->. cbn [sqat] in Ho.
  destruct (inget pc') eqn:Hg; [|apply why_out, Hg].
  assert (Hi' : inside c' t = true) by (subst c'; unfold inside; cbn; rewrite fupd_same; exact Hg).
  enough (Hn : why xs t pc') by (eapply why_snoc; eassumption).
  destruct k; cbn [resume kat] in *; destruct r as [|v|n0|b]; try discriminate; try (destruct v as [v|]); apply some_pair in Es as [-> ->];
    cbn [why popped sq_start] in *; auto; try discriminate; try (destruct g; discriminate).
  - destruct few; [discriminate|]. destruct a as [|[|?]]; discriminate.
  - destruct b, (nextq i), e; try discriminate; cbn; auto.
  - destruct (nextq i); discriminate.
  - destruct Hw as (? & ? & ?). destruct b; cbn; [|auto]. split; [assumption|]. split; [right; assumption|exact I].
  - destruct Hw as (? & ? & ?). split; [assumption|]. split; [apply low_seen; assumption|exact I].
  - destruct Hw as (? & ? & ?). auto.
  - destruct (nextq i); discriminate.
Qed.

Lemma why_step xs c H t pc k s' pc' c' : wq_run nw (wq_init nw f) xs = Some (c, H) -> (forall j, qproj sq0 j c) -> shaped c ->
  c' = Cfg s' (fupd t (Some pc') (th c)) ->
  th c t = Some pc -> wq_step nw (sh c) t pc k = Some (s', pc') -> why xs t pc -> why (xs ++ [(t, AInt k)]) t pc'.
Proof.
  intros Er Hq Hs Ec Et Es Hw.
  assert (Ex : wq_exec nw c (t, AInt k) = Some (c', [])) by (unfold wq_exec; cbn; rewrite Et, Es, Ec; reflexivity).
  assert (Er' : wq_run nw (wq_init nw f) (xs ++ [(t, AInt k)]) = Some (c', H ++ [])) by (rewrite (run_snoc _ _ _ _ _ Er), Ex; reflexivity).
  destruct (inget pc') eqn:Hg; [|apply why_out, Hg].
  assert (Hi' : inside c' t = true) by (subst c'; unfold inside; cbn; rewrite fupd_same; exact Hg).
  assert (Hnow : inget pc = true -> why xs t pc' -> why (xs ++ [(t, AInt k)]) t pc') by (intros _ Hn; eapply why_snoc; eassumption).
  assert (Hpre : inget pc = true -> forall P : wqcfg -> Prop, P c -> moment xs t P) by (intros Hx P HP; eapply moment_now; [exact Er|unfold inside; rewrite Et; exact Hx|exact HP]).
  destruct pc; destruct k; cbn [wq_step wq_step0] in Es; try discriminate.
  - (* inside an operation of one of the queues *)
    destruct (sq_fin p) as [r|] eqn:Ef; [eapply why_resume; eauto|].
    destruct (sq_step (qof i (sh c)) t p tt) as [[q' p']|] eqn:Eq; [|discriminate]. injection Es as <- <-.
    destruct (Hs _ _ Et) as (o & Hk & Ho). pose proof (sqat_step _ _ _ _ _ _ _ Eq Ho) as Ho'.
    assert (Hi : inside c t = true). { unfold inside. rewrite Et. destruct k0; try discriminate; reflexivity. }
    assert (HM : forall P, moment xs t P -> moment (xs ++ [(t, AInt CStep)]) t P) by (intros P HP; eapply moment_snoc; eassumption).
    assert (HD : due xs t -> due (xs ++ [(t, AInt CStep)]) t) by (intros (m & r & ? & ? & ?); exists m, r; auto).
    assert (HN : low_passed xs t -> low_passed (xs ++ [(t, AInt CStep)]) t) by (intros [(m & r & ? & ? & ?)|?]; [left; exists m, r; auto|right; auto]).
    destruct k0; try discriminate; cbn [kat] in Hk; destruct Hk as [-> ->]; cbn [why] in *.
    + eapply popped_step; eassumption.
    + destruct Hw as (? & ? & _). split; [auto|]. split; [auto|]. destruct p; cbn [sqat] in Ho; try discriminate; try (exfalso; apply Ho).
      apply some_pair in Eq as [-> ->]. destruct (eflag (qof Lo (sh c))) eqn:Efl; [|exact I]. apply HM. eapply moment_now; [exact Er|exact Hi|].
      destruct (qR Lo c (Hq Lo)) as [q HR]. destruct (empty_flag _ _ HR Efl) as [E|(u & p & Eu & Hb)]; [left; exact E|right].
      cbn in Eu. destruct (th c u) as [pu|] eqn:Ethu; [|discriminate]. destruct pu; try discriminate. destruct i; try discriminate. injection Eu as ->. eauto.
    + destruct Hw as (? & ? & ?). split; [auto|]. split; [auto|]. eapply popped_step; eassumption.
    + destruct Hw as (? & ? & ?). split; [auto|]. split; [auto|]. eapply popped_step; eassumption.
    + destruct Hw as (? & ? & ?). split; [auto|]. split; [auto|]. eapply popped_step; eassumption.
  - destruct x as [y|]; [|inj Es; discriminate]. destruct p; try destruct (is_fin (sh c) y); inj Es; try discriminate; destruct (Nat.eqb nw 0); discriminate.
  - destruct (notify1 _ _); [|discriminate]. inj Es. destruct a as [|[|?]]; discriminate.
  - destruct (notify1 _ _); [|discriminate]. inj Es. destruct a as [|[|?]]; discriminate.
  - inj Es. discriminate.
  - destruct xs0 as [|[[|b]|] xs0]; inj Es; discriminate.
  - destruct (bfin (sh c) b); inj Es; [destruct e|]; discriminate.
  - inj Es. destruct e; discriminate.
  - inj Es. apply Hnow; [reflexivity|]. split; [exact Hw|]. apply Hpre; reflexivity.
  - inj Es. destruct Hw as [H1 H2]. apply Hnow; [reflexivity|]. destruct (Z.leb_spec (ratio (sh c)) m); cbn.
    + split; [exact H1|]. split; [|exact I]. exists m, (ratio (sh c)). split; [exact H2|]. split; [apply Hpre; reflexivity|assumption].
    + split; [exact H1|]. split; [|exact I]. left. exists m, (ratio (sh c)). split; [exact H2|]. split; [apply Hpre; reflexivity|assumption].
  - inj Es. destruct g; discriminate.
  - inj Es. destruct g; discriminate.
  - unfold lock_q in Es. destruct (qlock (sh c)); [discriminate|]. inj Es. discriminate.
  - inj Es. destruct (halt (sh c)); discriminate.
  - inj Es. discriminate.
  - destruct (inb t (waits (sh c))); [discriminate|]. inj Es. discriminate.
  - destruct (inb t (waits (sh c))); [|discriminate]. inj Es. discriminate.
  - destruct (inb t (waits (sh c))); [|discriminate]. inj Es. discriminate.
  - unfold lock_q in Es. destruct (qlock (sh c)); [discriminate|]. inj Es. discriminate.
  - inj Es. destruct (halt (sh c)); discriminate.
  - inj Es. exact I.
  - inj Es. discriminate.
  - inj Es. discriminate.
  - inj Es. destruct x as [[|b]|]; try discriminate. destruct (bfin (sh c) b); discriminate.
  - unfold lock_q in Es. destruct (qlock (sh c)); [discriminate|]. inj Es. discriminate.
  - inj Es. destruct (halt (sh c)); discriminate.
  - inj Es. discriminate.
  - inj Es. discriminate.
  - inj Es. destruct nw; discriminate.
  - inj Es. discriminate.
  - destruct (Nat.ltb k0 nw); [destruct (inb k0 (joined (sh c))); [|destruct (inb k0 (gone (sh c))); [|discriminate]]|]; inj Es; try discriminate; destruct h; discriminate.
  - inj Es. discriminate.
  - inj Es. discriminate.
  - inj Es. discriminate.
Qed.

Lemma why_run xs : forall c H, wq_run nw (wq_init nw f) xs = Some (c, H) -> whyI xs c.
Proof.
  induction xs as [|x xs IH] using rev_ind; intros c' H' Er'.
  - injection Er' as <- _. intros t pc. cbn [wq_init th]. destruct (Nat.ltb t nw); [intros [= <-]; exact I|discriminate].
  - destruct (wq_run nw (wq_init nw f) xs) as [[c H]|] eqn:Er; [|exfalso; unfold wq_run in *; rewrite run_app, Er in Er'; discriminate].
    pose proof Er' as Er2. rewrite (run_snoc _ _ _ _ _ Er) in Er2. destruct (wq_exec nw c x) as [[c2 e]|] eqn:Ex; [|discriminate]. injection Er2 as <- _. specialize (IH _ _ eq_refl).
    assert (Hq : forall j, qproj sq0 j c) by (eapply qproj_run; [intros j; apply qproj_init|exact Er]). pose proof (shaped_run nw _ _ _ _ (shaped_init nw f) Er) as Hs.
    intros t pc Et. destruct (inget pc) eqn:Hg; [|apply why_out, Hg].
    assert (Hi : inside c2 t = true) by (unfold inside; rewrite Et; exact Hg).
    destruct x as [u a]. pose proof Ex as Ex0. unfold wq_exec in Ex. destruct a as [o|k|]; cbn in Ex.
    + destruct (th c u) eqn:Eu; [discriminate|]. injection Ex as <- <-. cbn in Et. unfold fupd in Et. destruct (Nat.eqb t u).
      * injection Et as <-. destruct o; try exact I; try discriminate. cbn [wq_start] in *. destruct (Nat.eqb nw 0); exact I.
      * eapply why_snoc; [exact Er'|apply IH, Et|exact Hi].
    + destruct (th c u) as [pu|] eqn:Eu; [|discriminate]. destruct (wq_step nw (sh c) u pu k) as [[s' pc']|] eqn:Es; [|discriminate]. injection Ex as <- <-. cbn in Et. unfold fupd in Et.
      destruct (Nat.eqb_spec t u) as [->|].
      * injection Et as <-. eapply why_step; [exact Er|exact Hq|exact Hs|reflexivity|exact Eu|exact Es|apply IH, Eu].
      * eapply why_snoc; [exact Er'|apply IH, Et|exact Hi].
    + destruct (th c u) as [pu|] eqn:Eu; [|discriminate]. destruct (wq_fin pu); [|discriminate]. injection Ex as <- <-. cbn in Et. unfold fupd in Et.
      destruct (Nat.eqb t u); [discriminate|]. eapply why_snoc; [exact Er'|apply IH, Et|exact Hi].
Qed.

(** getWorkBlock returns. *)
Definition served xs t (x : ptr) : Prop :=
  took xs t Hi x \/
  moment xs t (qempty Hi) /\ due xs t /\ took xs t Lo x \/
  moment xs t (qempty Hi) /\ low_passed xs t /\ took xs t Med x \/
  moment xs t (qempty Hi) /\ moment xs t (qempty Med) /\ took xs t Lo x \/
  moment xs t (qempty Hi) /\ moment xs t (qempty Med) /\ moment xs t (qempty Lo) /\ x = None.

Lemma served_run xs c H x t c' e : wq_run nw (wq_init nw f) xs = Some (c, H) -> wq_exec nw c x = Some (c', e) -> inside c t = true -> inside c' t = false ->
  exists v, x = (t, AInt CStep) /\ got (sh c') = got (sh c) ++ [(t, v)] /\ served xs t v.
Proof.
  intros Er Ex Hi Hi'. pose proof (why_run _ _ _ Er) as HW. pose proof (shaped_run nw _ _ _ _ (shaped_init nw f) Er) as Hs.
  unfold inside in Hi. destruct (th c t) as [pc|] eqn:Et; [|discriminate]. specialize (HW _ _ Et).
  destruct x as [u a]. unfold wq_exec in Ex. destruct (Nat.eq_dec u t) as [->|Hne].
  2:{ exfalso. assert (E : th c' t = Some pc).
      { destruct a as [o|k|]; cbn in Ex; destruct (th c u) as [pu|]; try discriminate.
        - injection Ex as <- <-. cbn. rewrite fupd_other by congruence. exact Et.
        - destruct (wq_step nw (sh c) u pu k) as [[s' pc']|]; [|discriminate]. injection Ex as <- <-. cbn. rewrite fupd_other by congruence. exact Et.
        - destruct (wq_fin pu); [|discriminate]. injection Ex as <- <-. cbn. rewrite fupd_other by congruence. exact Et. }
      unfold inside in Hi'. rewrite E in Hi'. congruence. }
  destruct a as [o|k|]; cbn in Ex; rewrite Et in Ex; [discriminate| |destruct pc; discriminate].
  destruct (wq_step nw (sh c) t pc k) as [[s' pc']|] eqn:Es; [|discriminate]. injection Ex as <- <-.
  unfold inside in Hi'. cbn in Hi'. rewrite fupd_same in Hi'. cbn [sh].
  destruct pc; try discriminate; destruct k; try discriminate; cbn [wq_step wq_step0] in Es.
  - destruct (sq_fin p) as [r|] eqn:Ef.
    + destruct p; try discriminate. injection Ef as ->. destruct (Hs _ _ Et) as (o & Hk & Ho).
      destruct k0; try discriminate; cbn [resume] in Es; destruct r as [|v|?|b]; try discriminate; try (destruct v as [v|]); apply some_pair in Es as [-> ->]; try discriminate.
      * exists v. splits. left. exact HW.
      * destruct b; discriminate.
      * cbn [why popped] in HW. exists v. splits. right. right. right. left. exact HW.
      * cbn [why popped] in HW. exists None. splits. right. right. right. right. tauto.
    + destruct (sq_step (qof i (sh c)) t p tt) as [[q' p']|]; [|discriminate]. injection Es as <- <-. destruct k0; discriminate.
  - apply some_pair in Es as [-> ->]. discriminate.
  - apply some_pair in Es as [-> ->]. destruct (Z.leb _ _); discriminate.
  - apply some_pair in Es as [-> ->]. exists x. splits. right. left. exact HW.
  - apply some_pair in Es as [-> ->]. exists x. splits. right. right. left. exact HW.
Qed.

(** A stretch inside getWorkBlock is one call: it begins at the beginning and does not come back to it. *)
Lemma enter_get c t a c' e : shaped c -> wq_exec nw c (t, a) = Some (c', e) -> inside c' t = true -> inside c t = false <-> exists g, th c' t = Some (gstart g).
Proof.
  intros Hs Ex Hi'. unfold wq_exec in Ex. unfold inside in *.
  destruct a as [o|k|]; cbn in Ex; destruct (th c t) as [pc|] eqn:Et; try discriminate.
  - injection Ex as <- <-. cbn in *. rewrite fupd_same in *. split; [intros _|reflexivity]. destruct o; try discriminate; cbn [wq_start] in *; [destruct (Nat.eqb nw 0); discriminate|eauto].
  - destruct (wq_step nw (sh c) t pc k) as [[s' pc']|] eqn:Es; [|discriminate]. injection Ex as <- <-. cbn in *. rewrite fupd_same in *.
    specialize (Hs _ _ Et). destruct pc; destruct k; cbn [wq_step wq_step0] in Es; try discriminate; unfold lock_q in Es;
    repeat match type of Es with
    | context [match qlock ?s with _ => _ end] => destruct (qlock s); [discriminate|]
    | context [match notify1 ?a ?b with _ => _ end] => destruct (notify1 a b); [|discriminate]
    end; try (apply some_pair in Es as [-> ->]); try discriminate.
    all: try (match type of Hi' with context [if ?b then _ else _] => destruct b end; discriminate).
    all: try (destruct g; discriminate).
    all: try (destruct a as [|[|?]]; discriminate).
    + destruct (sq_fin p) as [r|] eqn:Ef.
      * destruct k0; cbn [resume] in Es; destruct r as [|v|?|b]; try discriminate; try (destruct v as [v|]); apply some_pair in Es as [-> ->]; try discriminate; try (destruct g; discriminate).
        -- destruct few; [discriminate|]. destruct a as [|[|?]]; discriminate.
        -- destruct b, (nextq i), e; try discriminate; split; [intros _; eauto|reflexivity|intros _; eauto|reflexivity].
        -- destruct (nextq i); discriminate.
        -- split; [discriminate|intros [? [=]]].
        -- split; [discriminate|]. destruct b; intros [? [=]].
        -- split; [discriminate|intros [? [=]]].
        -- split; [discriminate|intros [? [=]]].
        -- split; [discriminate|intros [? [=]]].
        -- split; [discriminate|intros [? [=]]].
        -- destruct (nextq i); discriminate.
      * destruct (sq_step (qof i (sh c)) t p tt) as [[q' p']|] eqn:Eq; [|discriminate]. apply some_pair in Es as [-> ->]. cbn [inget] in *. split; [congruence|].
        intros [g [= -> Hp ->]]. exfalso. clear -Eq Hp. subst p'. destruct p; cbn [sq_step] in Eq; unfold lock_pull, lock_push in Eq;
          repeat match type of Eq with
          | context [match pushL ?s with _ => _ end] => destruct (pushL s)
          | context [match pullL ?s with _ => _ end] => destruct (pullL s)
          | context [match rev ?s with _ => _ end] => destruct (rev s)
          | context [nonempty ?s] => destruct (nonempty s)
          | context [eflag ?s] => destruct (eflag s)
          end; try discriminate; try (destruct k; discriminate).
    + destruct x as [y|]; [|inj Es; discriminate]. destruct p; try destruct (is_fin (sh c) y); inj Es; try discriminate; destruct (Nat.eqb nw 0); discriminate.
    + destruct xs as [|[[|b]|] xs]; inj Es; discriminate.
    + destruct (bfin (sh c) b); inj Es; [destruct e|]; discriminate.
    + destruct e; discriminate.
    + split; [discriminate|intros [? [=]]].
    + split; [discriminate|]. destruct (Z.leb _ _); intros [? [=]].
    + destruct (inb t (waits (sh c))); [discriminate|]. inj Es. discriminate.
    + destruct (inb t (waits (sh c))); [|discriminate]. inj Es. discriminate.
    + destruct (inb t (waits (sh c))); [|discriminate]. inj Es. discriminate.
    + split; [intros _; eauto|reflexivity].
    + destruct x as [[|b]|]; try discriminate. destruct (bfin (sh c) b); discriminate.
    + destruct nw; discriminate.
    + destruct (Nat.ltb k0 nw); [destruct (inb k0 (joined (sh c))); [|destruct (inb k0 (gone (sh c))); [|discriminate]]|]; inj Es; try discriminate; destruct h; discriminate.
  - destruct (wq_fin pc); [|discriminate]. injection Ex as <- <-. cbn in *. rewrite fupd_same in *. discriminate.
Qed.
End wq.
