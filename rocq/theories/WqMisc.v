(** WorkQueue: isEmpty and numBlock; what closeWorkerQueue leaves behind *)
From stdpp Require Import list.
From Verif Require Import Base Conc CondVar Herlihy SqModel SqSpec SqProofs WqModel WqProofs WqCount WqMore WqBound WqLive WqSeq WqPrio WqOpen WqDrain.
Local Open Scope nat_scope.

Section wq.
Variable nw : nat.
Notation wqcfg := (cfg wqsh wqpc).
Implicit Types (s : wqsh) (pc : wqpc) (c : wqcfg) (H : list (hev wqop wqret)) (xs ys zs : list (nat * act cvc wqop)).

(** ** Workers and users *)
Lemma step_user s t pc k s' pc' : wq_step nw s t pc k = Some (s', pc') -> workpc pc = false -> workpc pc' = false.
Proof.
  intros Es Hw. destruct pc.
  1: { destruct k; cbn [wq_step wq_step0] in Es; try discriminate. destruct (sq_fin p) as [r|] eqn:Ef.
    - destruct k0; wq_resume Es; cbn [workpc] in *; try discriminate; auto; repeat match goal with
      | |- context [if ?z then _ else _] => destruct z
      | |- context [nextq ?i] => destruct (nextq i)
      | |- context [match ?e with EUser => _ | EWork => _ end] => is_var e; destruct e
      | |- context [match ?g with GUser => _ | GWork _ => _ end] => is_var g; destruct g
      | |- context [after_add ?a] => is_var a; destruct a
      | |- context [after_add (AClose ?r)] => is_var r; destruct r
      end; auto.
    - destruct (sq_step (qof i s) t p tt) as [[q' p']|]; [|discriminate]. inj Es. exact Hw. }
  all: destruct k; cbn [wq_step wq_step0] in Es; try discriminate; wq_cases Es; inj Es; cbn [workpc] in *; try discriminate; auto;
    repeat match goal with
    | |- context [if ?z then _ else _] => destruct z
    | |- context [match ?g with GUser => _ | GWork _ => _ end] => is_var g; destruct g
    | |- context [after_add ?a] => is_var a; destruct a
    | |- context [after_exec ?a] => is_var a; destruct a
    | |- context [after_add (AClose ?r)] => is_var r; destruct r
    | |- context [dummies ?r] => is_var r; destruct r
    end; auto; discriminate.
Qed.

(** ** Threads that have ended *)
Lemma step_gone s t pc k s' pc' : wq_step nw s t pc k = Some (s', pc') ->
  (gone s' = gone s \/ gone s' = t :: gone s /\ pc' = WE) /\ (joined s' = joined s \/ exists j, joined s' = j :: joined s /\ inb j (gone s) = true) /\ pc <> WE.
Proof.
  intros Es. destruct pc.
  1: { destruct k; cbn [wq_step wq_step0] in Es; try discriminate. destruct (sq_fin p) as [r|] eqn:Ef.
    - destruct k0; wq_resume Es; splits; auto; discriminate.
    - destruct (sq_step (qof i s) t p tt) as [[q' p']|]; [|discriminate]. inj Es. splits; [left; destruct i; reflexivity|left; destruct i; reflexivity|discriminate]. }
  all: destruct k; cbn [wq_step wq_step0] in Es; try discriminate; wq_cases Es; inj Es; (split; [|split; [|discriminate]]); auto; try (right; eexists; split; [reflexivity|assumption]).
Qed.

(** ** Moments of a call *)
Variable f : nat -> bool.
(** From [c1] on, while [zs] happens, [t] does not return. *)
Definition within c1 zs (t : nat) : Prop := forall zs1 zs2 c2 H2, zs = zs1 ++ zs2 -> wq_run nw c1 zs1 = Some (c2, H2) -> th c2 t <> None.
(** At some moment of the call that [t] is executing at the end of [xs], [P] was true. *)
Definition during xs (t : nat) (P : wqcfg -> Prop) : Prop :=
  exists ys zs c1 H1, xs = ys ++ zs /\ wq_run nw (wq_init nw f) ys = Some (c1, H1) /\ P c1 /\ within c1 zs t.

Lemma during_snoc xs x c' H' t P : wq_run nw (wq_init nw f) (xs ++ [x]) = Some (c', H') -> during xs t P -> th c' t <> None -> during (xs ++ [x]) t P.
Proof.
  intros Er (ys & zs & c1 & H1 & -> & E1 & HP & Hs) Hi0. exists ys, (zs ++ [x]), c1, H1. rewrite app_assoc. splits; [exact E1|exact HP|].
  intros zs1 zs2 c2 H2 Ez E2. apply snoc_split in Ez as [[-> ->]|(b & -> & ->)].
  - rewrite <- app_assoc in Er. unfold wq_run in *. rewrite run_app, E1, E2 in Er. injection Er as <- _. exact Hi0.
  - eapply Hs; [reflexivity|exact E2].
Qed.
Lemma during_now xs c H t (P : wqcfg -> Prop) : wq_run nw (wq_init nw f) xs = Some (c, H) -> th c t <> None -> P c -> during xs t P.
Proof.
  intros Er Hi0 HP. exists xs, [], c, H. rewrite app_nil_r. splits; [exact Er|exact HP|]. intros zs1 zs2 c2 H2 Ez E2. symmetry in Ez. apply app_eq_nil in Ez as [-> ->].
  injection E2 as <- _. exact Hi0.
Qed.

Definition counts (i : lvl) (n : Z) c : Prop := zlen (content i (sh c)) = n.
Definition all_joined s : Prop := forall j, j < nw -> inb j (joined s) = true.

(** What a thread executing operation [o] knows *)
Definition tells xs t s (o : wqop) pc : Prop :=
  match o with
  | OEmpty =>
      match pc with
      | Sub i p (KE EUser) =>
          match i with Hi => True | Med => during xs t (qempty_or_busy Hi) | Lo => during xs t (qempty_or_busy Hi) /\ during xs t (qempty_or_busy Med) end /\
          (p = SqModel.Ret (QBool true) -> during xs t (qempty_or_busy i))
      | Ret (RBool b) => b = true -> forall i, during xs t (qempty_or_busy i)
      | _ => False
      end
  | ONum =>
      match pc with
      | Sub i p (KN n) =>
          match i with Hi => n = 0%Z | Med => during xs t (counts Hi n) | Lo => exists a b, n = (a + b)%Z /\ during xs t (counts Hi a) /\ during xs t (counts Med b) end /\
          match p with S3 m | S4 m | SqModel.Ret (QNum m) => during xs t (counts i m) | _ => True end
      | Ret (RNum n) => exists a b d, n = (a + b + d)%Z /\ during xs t (counts Hi a) /\ during xs t (counts Med b) /\ during xs t (counts Lo d)
      | _ => False
      end
  | OClose =>
      match pc with
      | CJ k _ => forall j, j < k -> inb j (joined s) = true
      | CU | Ret _ => all_joined s
      | _ => in_close pc = true
      end
  | _ => True
  end.

Lemma tells_start xs t s o : tells xs t s o (wq_start nw o).
Proof. destruct o; cbn; auto. split; [exact I|discriminate]. Qed.
Lemma tells_dummies xs t s r : tells xs t s OClose (dummies r).
Proof. destruct r; reflexivity. Qed.
Lemma inb_mono (l l' : list nat) : (l' = l \/ exists j, l' = j :: l) -> forall u, inb u l = true -> inb u l' = true.
Proof. intros [->|[j ->]] u E; [exact E|]. cbn. fold (inb u l). rewrite E. destruct (Nat.eqb u j); reflexivity. Qed.

(** Another thread steps *)
Lemma tells_snoc xs x c' H' t s o pc : wq_run nw (wq_init nw f) (xs ++ [x]) = Some (c', H') -> th c' t <> None -> (forall u, inb u (joined s) = true -> inb u (joined (sh c')) = true) ->
  tells xs t s o pc -> tells (xs ++ [x]) t (sh c') o pc.
Proof.
  intros Er Hn Hj. assert (HM : forall P, during xs t P -> during (xs ++ [x]) t P) by (intros P HP; eapply during_snoc; eassumption).
  assert (Ha : all_joined s -> all_joined (sh c')) by (intros Ha j Hj'; auto).
  destruct o; cbn; auto.
  - destruct pc; auto.
    + destruct k; auto. destruct e; auto. destruct i; intros [H1 H2]; split; auto. destruct H1; auto.
    + destruct r; auto.
  - destruct pc; auto.
    + destruct k; auto. intros [H1 H2]. split; [destruct i; auto; destruct H1 as (a & b & ? & ? & ?); exists a, b; auto|]. destruct p; auto. match goal with |- match ?v with _ => _ end => destruct v; auto end.
    + destruct r; auto. intros (a & b & d & E & H1 & H2 & H3). exists a, b, d. auto.
  - destruct pc; auto.
Qed.

Lemma tells_step xs c H t k pc s' pc' o : wq_run nw (wq_init nw f) xs = Some (c, H) -> th c t = Some pc -> wq_step nw (sh c) t pc k = Some (s', pc') ->
  shaped c -> (forall i, qproj sq0 i c) -> tells xs t (sh c) o pc -> tells (xs ++ [(t, AInt k)]) t s' o pc'.
Proof.
  intros Er Et Es Hsh Hq Hk.
  assert (Er' : wq_run nw (wq_init nw f) (xs ++ [(t, AInt k)]) = Some (Cfg s' (fupd t (Some pc') (th c)), H)).
  { rewrite (run_snoc nw _ _ _ _ _ Er). unfold wq_exec. cbn [exec]. rewrite Et, Es, app_nil_r. reflexivity. }
  assert (HM : forall P, during xs t P -> during (xs ++ [(t, AInt k)]) t P) by (intros P HP; eapply during_snoc; [exact Er'|exact HP|cbn; rewrite fupd_same; discriminate]).
  assert (HN : forall P : wqcfg -> Prop, P c -> during (xs ++ [(t, AInt k)]) t P) by (intros P HP; apply HM; eapply during_now; [exact Er|congruence|exact HP]).
  destruct (step_gone _ _ _ _ _ _ Es) as (_ & Hj & _).
  assert (Hjm : forall u, inb u (joined (sh c)) = true -> inb u (joined s') = true) by (apply inb_mono; destruct Hj as [|(j & ? & _)]; eauto).
  destruct o; cbn [tells] in Hk |- *; auto.
  - (* isEmpty *) destruct pc; try destruct Hk.
    2: { destruct k; cbn in Es; discriminate. }
    destruct k0; try destruct Hk. destruct e; [|destruct Hk]. destruct Hk as [K1 K2]. destruct k; cbn [wq_step wq_step0] in Es; try discriminate.
    destruct (sq_fin p) as [r|] eqn:Ef.
    + assert (Ep : p = SqModel.Ret r) by (destruct p; try discriminate; injection Ef as ->; reflexivity). subst p. wq_resume Es. destruct bb; [|intros; discriminate]. specialize (K2 eq_refl).
      destruct i; cbn; (split || intros _ j); auto; try discriminate; try (split; [auto|discriminate]). destruct K1. destruct j; auto.
    + destruct (sq_step (qof i (sh c)) t p tt) as [[q' p']|] eqn:Eq; [|discriminate]. inj Es. split; [destruct i; auto; destruct K1; auto|]. intros ->.
      destruct (Hsh _ _ Et) as (o & Ho & Ha). cbn in Ho. subst o. destruct p; cbn in Ha; try discriminate; try contradiction; try (exfalso; exact (proj2 Ha)).
      cbn in Eq. injection Eq as _ Eb. apply HN. destruct (qR i c (Hq i)) as [q HR]. destruct (empty_flag _ _ HR Eb) as [E|(u & p & Eu & Hb)]; [left; exact E|right].
      cbn in Eu. unfold vq in Eu. destruct (th c u) as [pu|] eqn:Eu'; [|discriminate]. destruct pu as [j p0 k0| | | | | | | | | | | | | | | | | | | | | | | | | | | | | | | | |]; try discriminate.
      destruct (lvl_eqb_spec i j) as [<-|]; [|discriminate]. injection Eu as ->. eauto.
  - (* numBlock *) destruct pc; try contradiction.
    2: { destruct k; cbn in Es; discriminate. }
    destruct k0; try contradiction. destruct Hk as [K1 K2]. destruct k; cbn [wq_step wq_step0] in Es; try discriminate.
    destruct (sq_fin p) as [r|] eqn:Ef.
    + assert (Ep : p = SqModel.Ret r) by (destruct p; try discriminate; injection Ef as ->; reflexivity). subst p. wq_resume Es.
      destruct i; cbn; try (split; [|exact I]).
      * subst n. apply HM. exact K2.
      * do 2 eexists; eauto.
      * destruct K1 as (a & b & -> & K1 & K3). do 3 eexists; split; [reflexivity|]; auto.
    + destruct (sq_step (qof i (sh c)) t p tt) as [[q' p']|] eqn:Eq; [|discriminate]. inj Es. split; [destruct i; auto; destruct K1 as (a & b & ? & ? & ?); exists a, b; auto|].
      destruct (Hsh _ _ Et) as (o & Ho & Ha). cbn in Ho. subst o.
      destruct p; cbn in Ha; try discriminate; try contradiction; try (exfalso; exact (proj2 Ha)); cbn [sq_step] in Eq; unfold lock_pull, lock_push in Eq;
        repeat match type of Eq with context [match ?x with Some _ => _ | None => _ end] => destruct x; try discriminate end; apply some_pair in Eq as [-> ->]; auto.
      apply HN. unfold counts, content, sq_content, zlen. rewrite app_length, rev_length. lia.
  - (* closeWorkerQueue *)
    destruct pc; try discriminate Hk.
    1: { destruct k; cbn [wq_step wq_step0] in Es; try discriminate. destruct (sq_fin p) as [r|] eqn:Ef.
      - destruct k0; try discriminate Hk; wq_resume Es.
        + destruct a as [|left]; [discriminate|]. reflexivity.
        + destruct a as [|left]; [discriminate|]. destruct few; [reflexivity|]. destruct left; reflexivity.
        + destruct (nextq i); reflexivity.
      - destruct (sq_step (qof i (sh c)) t p tt) as [[q' p']|]; [|discriminate]. inj Es. exact Hk. }
    all: destruct k; cbn [wq_step wq_step0] in Es; try discriminate; wq_cases Es; inj Es; try reflexivity; try exact Hk.
    + destruct a as [|left]; [discriminate|]. apply (tells_dummies xs t _ left).
    + destruct a as [|left]; [discriminate|]. apply (tells_dummies xs t _ left).
    + destruct (halt (sh c)); [|reflexivity]. intros j Hj0. lia.
    + apply (tells_dummies xs t _ nw).
    + intros j Hj0. lia.
    + intros j Hj0. assert (Hc : j < k0 \/ j = k0) by lia. destruct Hc as [Hc| ->]; auto.
    + match goal with E : (k0 <? nw) = false |- _ => apply Nat.ltb_ge in E end. destruct h; intros j Hj0; apply Hk; lia.
    + intros j Hj0. assert (Hc : j < k0 \/ j = k0) by lia. destruct Hc as [Hc| ->]; auto. cbn. rewrite Nat.eqb_refl. reflexivity.
    + match goal with E : (k0 <? nw) = false |- _ => apply Nat.ltb_ge in E end. destruct h; intros j Hj0; apply Hk; lia.
    + match goal with E : (k0 <? nw) = false |- _ => apply Nat.ltb_ge in E end. destruct h; intros j Hj0; apply Hk; lia.
Qed.

(** ** Runs *)
Record miscI xs H c : Prop := {
  mi_tells : forall t pc i o, th c t = Some pc -> last_ev H t i (HInv t o) -> tells xs t (sh c) o pc;
  mi_user : forall t pc, nw <= t -> th c t = Some pc -> workpc pc = false;
  mi_gone : forall t, inb t (gone (sh c)) = true -> th c t = Some WE;
  mi_joined : forall t, inb t (joined (sh c)) = true -> inb t (gone (sh c)) = true;
  mi_ret : forall i j t r, ret_of H i j t OClose r -> all_joined (sh c);
}.

Lemma miscI_run xs c H : wq_run nw (wq_init nw f) xs = Some (c, H) -> miscI xs H c.
Proof.
  revert c H. induction xs as [|x xs IH] using rev_ind; intros c H Er.
  - injection Er as <- <-. constructor.
    + intros t pc i o _ (E & _). rewrite lookup_nil in E. discriminate.
    + intros t pc Ht. cbn [wq_init th]. destruct (Nat.ltb_spec t nw); [lia|intros [=]].
    + discriminate.
    + discriminate.
    + intros i j t r (_ & E & _). rewrite lookup_nil in E. discriminate.
  - assert (E0 : exists c0 H0, wq_run nw (wq_init nw f) xs = Some (c0, H0)).
    { unfold wq_run in *. rewrite run_app in Er. destruct (run _ _ _ _ xs) as [[c0 H0]|]; [eauto|discriminate]. }
    destruct E0 as (c0 & H0 & E0). pose proof Er as Er1. rewrite (run_snoc nw _ _ _ _ _ E0) in Er. destruct (wq_exec nw c0 x) as [[c1 e]|] eqn:Ex; [|discriminate]. injection Er as <- <-.
    destruct (IH _ _ E0) as [I1 I2 I3 I4 I5]. clear IH.
    assert (Hsh : shaped c0) by exact (shaped_run nw _ _ _ _ (shaped_init nw f) E0).
    assert (Hq : forall i, qproj sq0 i c0) by (intros i; eapply qproj_run; [|exact E0]; intros j; apply qproj_init).
    pose proof Ex as Ex1. destruct x as [t [o|k|]]; unfold wq_exec in Ex; cbn in Ex; (destruct (th c0 t) as [pc|] eqn:Et; [|]); try discriminate.
    + injection Ex as <- <-. constructor; cbn [sh th].
      * intros u pu i o' Eu El. destruct (Nat.eqb_spec u t) as [->|Hne].
        -- rewrite fupd_same in Eu. injection Eu as <-. pose proof (last_new H0 (HInv t o) t eq_refl) as Hl. destruct (last_uniq _ _ _ _ _ _ El Hl) as [_ [= ->]]. apply tells_start.
        -- rewrite fupd_other in Eu by assumption. apply last_old in El; [|cbn; congruence]. pose proof (tells_snoc xs _ _ _ u (sh c0) o' pu Er1) as HT. cbn [sh th] in HT. apply HT; [rewrite fupd_other by assumption; congruence|auto|]. eapply I1; eassumption.
      * intros u pu Hu. unfold fupd. destruct (Nat.eqb_spec u t) as [->|Hne]; [intros [= <-]; apply (proj2 (start_open nw o))|apply I2, Hu].
      * intros u Hu. specialize (I3 u Hu). rewrite fupd_other; [exact I3|congruence].
      * exact I4.
      * intros i j u r E. apply (ret_snoc (Q := unit) (fun _ _ _ _ => True)) in E as [E|(_ & [=] & _)]. exact (I5 _ _ _ _ E).
    + destruct (wq_step nw (sh c0) t pc k) as [[s' pc']|] eqn:Es; [|discriminate]. injection Ex as <- <-. rewrite app_nil_r in *.
      destruct (step_gone _ _ _ _ _ _ Es) as (Hg & Hj & Hwe).
      assert (Hjm : forall u, inb u (joined (sh c0)) = true -> inb u (joined s') = true) by (apply inb_mono; destruct Hj as [|(j & ? & _)]; eauto).
      assert (Hgm : forall u, inb u (gone (sh c0)) = true -> inb u (gone s') = true) by (apply inb_mono; destruct Hg as [|[? _]]; eauto).
      constructor; cbn [sh th].
      * intros u pu i o' Eu El. destruct (Nat.eqb_spec u t) as [->|Hne].
        -- rewrite fupd_same in Eu. injection Eu as <-. eapply tells_step; eauto.
        -- rewrite fupd_other in Eu by assumption. pose proof (tells_snoc xs _ _ _ u (sh c0) o' pu Er1) as HT. cbn [sh th] in HT. apply HT; [rewrite fupd_other by assumption; congruence|exact Hjm|]. eapply I1; eassumption.
      * intros u pu Hu. unfold fupd. destruct (Nat.eqb_spec u t) as [->|Hne]; [intros [= <-]; eapply step_user; eauto|apply I2, Hu].
      * intros u Hu. destruct Hg as [Hg|[Hg ->]]; rewrite Hg in Hu.
        -- specialize (I3 u Hu). rewrite fupd_other; [exact I3|]. intros ->. congruence.
        -- unfold fupd. destruct (Nat.eqb_spec u t) as [->|Hne]; [reflexivity|]. apply I3. apply inb_spec. apply inb_spec in Hu as [Hu|Hu]; [congruence|exact Hu].
      * intros u Hu. destruct Hj as [Hj|(j & Hj & Hj')]; rewrite Hj in Hu; [auto|]. apply inb_spec in Hu as [<-|Hu]; [auto|]. apply Hgm, I4, inb_spec, Hu.
      * intros i j u r E v Hv. apply Hjm. exact (I5 _ _ _ _ E v Hv).
    + destruct (wq_fin pc) as [r|] eqn:Ef; [|discriminate]. injection Ex as <- <-. destruct pc; try discriminate. injection Ef as ->. constructor; cbn [sh th].
      * intros u pu i o' Eu El. destruct (Nat.eqb_spec u t) as [->|Hne]; [rewrite fupd_same in Eu; discriminate|]. rewrite fupd_other in Eu by assumption.
        apply last_old in El; [|cbn; congruence]. pose proof (tells_snoc xs _ _ _ u (sh c0) o' pu Er1) as HT. cbn [sh th] in HT. apply HT; [rewrite fupd_other by assumption; congruence|auto|]. eapply I1; eassumption.
      * intros u pu Hu. unfold fupd. destruct (Nat.eqb_spec u t) as [->|Hne]; [discriminate|apply I2, Hu].
      * intros u Hu. specialize (I3 u Hu). rewrite fupd_other; [exact I3|congruence].
      * exact I4.
      * intros i j u r' E. apply (ret_snoc (Q := unit) (fun _ _ _ _ => True)) in E as [E|(_ & [= -> ->] & E)]; [exact (I5 _ _ _ _ E)|]. exact (I1 _ _ _ _ Et E).
Qed.

(** All workers have ended: nothing is executed any more. *)
Lemma step_ran s t pc k s' pc' : wq_step nw s t pc k = Some (s', pc') -> ran s' = ran s \/ exists b e, pc = X1 b e.
Proof.
  intros Es. destruct pc; try (right; eauto; fail); left.
  1: { destruct k; cbn [wq_step wq_step0] in Es; try discriminate. destruct (sq_fin p) as [r|] eqn:Ef.
    - destruct k0; wq_resume Es; auto.
    - destruct (sq_step (qof i s) t p tt) as [[q' p']|]; [|discriminate]. inj Es. destruct i; reflexivity. }
  all: destruct k; cbn [wq_step wq_step0] in Es; try discriminate; wq_cases Es; inj Es; auto.
Qed.
Lemma ended_run xs c H ys c' H' : 0 < nw -> wq_run nw (wq_init nw f) xs = Some (c, H) -> all_joined (sh c) -> wq_run nw c ys = Some (c', H') ->
  ran (sh c') = ran (sh c) /\ (forall t, t < nw -> th c' t = Some WE) /\ forall t x, t < nw -> In (t, x) (got (sh c')) -> In (t, x) (got (sh c)).
Proof.
  intros Hn Er Ha. revert c' H'. induction ys as [|y ys IH] using rev_ind; intros c' H' Er'.
  - injection Er' as <- <-. splits; auto. intros t Ht. pose proof (miscI_run _ _ _ Er) as [_ _ I3 I4 _]. apply I3, I4, Ha, Ht.
  - assert (E0 : exists c0 H0, wq_run nw c ys = Some (c0, H0)).
    { unfold wq_run in *. rewrite run_app in Er'. destruct (run _ _ _ _ ys) as [[c0 H0]|]; [eauto|discriminate]. }
    destruct E0 as (c0 & H0 & E0). destruct (IH _ _ E0) as (J1 & J2 & J3). rewrite (run_snoc nw _ _ _ _ _ E0) in Er'. destruct (wq_exec nw c0 y) as [[c1 e]|] eqn:Ex; [|discriminate]. injection Er' as <- <-.
    assert (E1 : wq_run nw (wq_init nw f) (xs ++ ys) = Some (c0, H ++ H0)) by (unfold wq_run in *; rewrite run_app, Er, E0; reflexivity).
    assert (J2' : forall t, t < nw -> th c1 t = Some WE).
    { intros t Ht. specialize (J2 t Ht). destruct y as [u [o|k|]]; unfold wq_exec in Ex; cbn in Ex; (destruct (th c0 u) as [pc|] eqn:Et; [|]); try discriminate.
      - injection Ex as <- <-. cbn. rewrite fupd_other; [exact J2|congruence].
      - destruct (wq_step nw (sh c0) u pc k) as [[s' pc']|] eqn:Es; [|discriminate]. injection Ex as <- <-. cbn. rewrite fupd_other; [exact J2|]. intros ->. destruct (step_gone _ _ _ _ _ _ Es) as (_ & _ & Hne). congruence.
      - destruct (wq_fin pc) as [r|] eqn:Ef; [|discriminate]. injection Ex as <- <-. cbn. rewrite fupd_other; [exact J2|]. intros ->. rewrite Et in J2. injection J2 as ->. discriminate. }
    destruct y as [u [o|k|]]; unfold wq_exec in Ex; cbn in Ex; (destruct (th c0 u) as [pc|] eqn:Et; [|]); try discriminate.
    + injection Ex as <- <-. auto.
    + destruct (wq_step nw (sh c0) u pc k) as [[s' pc']|] eqn:Es; [|discriminate]. injection Ex as <- <-. cbn [sh].
      assert (Hu : nw <= u). { destruct (le_lt_dec nw u) as [|Hlt]; [assumption|]. specialize (J2 u Hlt). destruct (step_gone _ _ _ _ _ _ Es) as (_ & _ & Hne). congruence. }
      splits; [|exact J2'|].
      * rewrite <- J1. destruct (step_ran _ _ _ _ _ _ Es) as [|(b & e & ->)]; [assumption|exfalso].
        pose proof (mi_user _ _ _ (miscI_run _ _ _ E1) _ _ Hu Et) as Hw. pose proof (direct_run nw f _ _ _ Hn E1 _ _ Et) as Hd. destruct e; discriminate.
      * intros t x Ht. destruct (step_handed nw _ _ _ _ _ _ Es) as [-> |(v & -> & _)]; [auto|]. intros Hx. apply in_app_or in Hx as [Hx|[[= <- <-]|[]]]; [auto|lia].
    + destruct (wq_fin pc) as [r|] eqn:Ef; [|discriminate]. injection Ex as <- <-. auto.
Qed.
End wq.
