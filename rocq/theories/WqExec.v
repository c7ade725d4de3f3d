(** Work blocks whose execute() throws, in a WorkQueue without workers.

    WorkBlock::execute [85-93] calls a packaged_task, which keeps the exceptions of the function; but a packaged_task that was
    already invoked throws future_error, and execute() of other classes derived from BasicWorkBlock [25-36] may throw what it likes.
    Without workers addWorkBlock calls execute itself [374, 400-402] and the exception leaves addWorkBlock.  No lock is held
    there and nothing is undone.  (With workers execute is called by workerLoop [487] and the exception would leave the thread's
    function: the program is terminated, there is no state to speak of.)

    As in WqThrow.v a call that has thrown is over, its name is not used any more, and in [th] it stays where it threw: between
    [X1], which starts the work, and [X2], which sets [finished]. *)
From stdpp Require Import list.
From Verif Require Import Base Conc CondVar Herlihy SqModel SqSpec SqProofs WqModel WqProofs WqCount WqMore WqBound WqLive WqSeq WqPrio WqOpen WqDrain WqMisc WqDtor WqNest WqThrow.
Local Open Scope nat_scope.

Notation wqcfg := (cfg wqsh wqpc).
Record ecfg := ECfg { ec : wqcfg; over : list nat }.
Inductive eact := EDo (a : act cvc wqop) | EThrow.
Implicit Types (s : wqsh) (pc : wqpc) (c : wqcfg) (H : list (hev wqop wqret)) (E : ecfg) (zs : list (nat * eact)).

(** execute() is being called by addWorkBlock *)
Definition may_throw pc : bool := match pc with X2 _ (XAdd _) => true | _ => false end.
Definition eexec E (x : nat * eact) : option (ecfg * list (hev wqop wqret)) :=
  let '(t, a) := x in
  if inb t (over E) then None else
  match a with
  | EDo a => match wq_exec 0 (ec E) (t, a) with Some (c', e) => Some (ECfg c' (over E), e) | None => None end
  | EThrow => match th (ec E) t with
              | Some pc => if may_throw pc then Some (ECfg (ec E) (t :: over E), []) else None
              | None => None
              end
  end.
Fixpoint erun E zs : option (ecfg * list (hev wqop wqret)) :=
  match zs with
  | [] => Some (E, [])
  | x :: zs' => match eexec E x with
                | Some (E1, e) => match erun E1 zs' with Some (E2, H) => Some (E2, e ++ H) | None => None end
                | None => None
                end
  end.
Definition einit (f : nat -> bool) : ecfg := ECfg (wq_init 0 f) [].
Fixpoint edoes zs : list (nat * act cvc wqop) :=
  match zs with [] => [] | (t, EDo a) :: zs' => (t, a) :: edoes zs' | _ :: zs' => edoes zs' end.

(** ** Specification *)
(** What thread [t] was given to execute *)
Definition got_by (t : nat) s : list ptr := map snd (List.filter (fun x => Nat.eqb (fst x) t) (got s)).
(** The blocks of [l] that are run when [fin] says which are finished *)
Fixpoint todo (fin : nat -> bool) (l : list ptr) : list nat :=
  match l with
  | [] => []
  | Some (BWork b) :: l' => if fin b then todo fin l' else b :: todo (fupd b true fin) l'
  | _ :: l' => todo fin l'
  end.
Definition asked (o : wqop) : list ptr := match o with OAdd x _ => [x] | OAddV l _ => l | _ => [] end.

(** ** The run without the exceptions *)
Lemma erun_app zs1 : forall E zs2, erun E (zs1 ++ zs2) =
  match erun E zs1 with Some (E1, H1) => match erun E1 zs2 with Some (E2, H2) => Some (E2, H1 ++ H2) | None => None end | None => None end.
Proof.
  induction zs1 as [|x zs1 IH]; intros E zs2; cbn [app erun].
  - destruct (erun E zs2) as [[? ?]|]; reflexivity.
  - destruct (eexec E x) as [[E1 e]|]; [|reflexivity]. rewrite IH. destruct (erun E1 zs1) as [[E2 H2]|]; [|reflexivity].
    destruct (erun E2 zs2) as [[E3 H3]|]; [|reflexivity]. rewrite app_assoc. reflexivity.
Qed.
Lemma eexec_inv E t a E' e : eexec E (t, a) = Some (E', e) -> inb t (over E) = false /\
  ((exists a', a = EDo a' /\ wq_exec 0 (ec E) (t, a') = Some (ec E', e) /\ over E' = over E) \/
   (exists b xs, a = EThrow /\ th (ec E) t = Some (X2 b (XAdd xs)) /\ ec E' = ec E /\ over E' = t :: over E /\ e = [])).
Proof.
  unfold eexec. destruct (inb t (over E)); [discriminate|]. intros Ex. split; [reflexivity|]. destruct a as [a|].
  - left. exists a. destruct (wq_exec 0 (ec E) (t, a)) as [[c' e']|]; [|discriminate]. injection Ex as <- <-. auto.
  - right. destruct (th (ec E) t) as [pc|]; [|discriminate]. destruct pc; try discriminate. destruct e0; [discriminate|]. injection Ex as <- <-. eexists _, _. auto.
Qed.
Lemma erun_same zs : forall E E' H, erun E zs = Some (E', H) -> wq_run 0 (ec E) (edoes zs) = Some (ec E', H).
Proof.
  induction zs as [|[t a] zs IH]; intros E E' H; cbn [erun]; [intros [= <- <-]; reflexivity|].
  destruct (eexec E (t, a)) as [[E1 e]|] eqn:Ex; [|discriminate]. destruct (erun E1 zs) as [[E2 H2]|] eqn:Er; [|discriminate]. intros [= <- <-].
  specialize (IH _ _ _ Er). apply eexec_inv in Ex as (_ & [(a' & -> & Ex & _)|(b & xs & -> & _ & Ee & _ & ->)]); cbn [edoes].
  - unfold wq_run, wq_exec in *. cbn [run]. rewrite Ex, IH. reflexivity.
  - rewrite Ee in IH. exact IH.
Qed.

(** ** Where the calls of addWorkBlock are *)
Definition at_ex s t (o : wqop) pc : Prop :=
  match pc with
  | XV xs => exists pre early, asked o = pre ++ xs /\ all_fin s pre /\ got_by t s = early ++ pre
  | X1 b (XAdd xs) | X2 b (XAdd xs) => exists pre early, asked o = pre ++ Some (BWork b) :: xs /\ all_fin s pre /\ got_by t s = early ++ pre ++ [Some (BWork b)]
  | A0 x _ => asked o = [x]
  | _ => True
  end.
Lemma all_fin_app s xs ys : all_fin s xs -> all_fin s ys -> all_fin s (xs ++ ys).
Proof. intros H1 H2 b Hb. apply in_app_or in Hb as [Hb|Hb]; [apply H1, Hb|apply H2, Hb]. Qed.
Lemma got_by_same t s s' : got s' = got s -> got_by t s' = got_by t s.
Proof. unfold got_by. intros ->. reflexivity. Qed.
Lemma got_by_log t x s : got_by t (log_got t x s) = got_by t s ++ [x].
Proof. unfold got_by. cbn. rewrite List.filter_app, map_app. cbn. rewrite Nat.eqb_refl. reflexivity. Qed.
Lemma got_by_log_other t u x s : u <> t -> got_by t (log_got u x s) = got_by t s.
Proof. intros Hn. unfold got_by. cbn. rewrite List.filter_app, map_app. cbn. destruct (Nat.eqb_spec u t); [contradiction|]. apply app_nil_r. Qed.

Definition calm pc : Prop := match pc with XV _ | X1 _ (XAdd _) | X2 _ (XAdd _) | A0 _ _ => False | _ => True end.
Lemma calm_ex s t o pc : calm pc -> at_ex s t o pc.
Proof. destruct pc; cbn; try contradiction; auto; destruct e; auto; contradiction. Qed.
Lemma resume_got s u i r k s' pc' : resume 0 s u i r k = Some (s', pc') -> (got s' = got s \/ exists x, got s' = got s ++ [(u, x)]) /\ calm pc'.
Proof.
  intros Er. destruct k; wq_resume Er; (split; [cbn; eauto|]); try exact I; try (destruct g; exact I).
  - destruct few; [exact I|]. destruct a as [|[|]]; exact I.
  - destruct bb; [destruct (nextq i); [|destruct e]|destruct e]; exact I.
  - destruct (nextq i); exact I.
  - destruct bb; exact I.
  - destruct (nextq i); exact I.
Qed.

(** A step of thread [u] *)
Lemma step_got s u pc k s' pc' : wq_step 0 s u pc k = Some (s', pc') -> got s' = got s \/ exists x, got s' = got s ++ [(u, x)].
Proof.
  intros Es. destruct pc; destruct k; cbn [wq_step wq_step0] in Es; try discriminate.
  1: { destruct (sq_fin p) as [r|]; [apply resume_got in Es as [? _]; assumption|]. destruct (sq_step _ _ _ _) as [[q' p']|]; [|discriminate]. inj Es. left. destruct i; reflexivity. }
  all: wq_cases Es; try discriminate; inj Es; cbn; eauto.
Qed.
Lemma step_ex s t pc k s' pc' o : wq_step 0 s t pc k = Some (s', pc') -> at_ex s t o pc -> at_ex s' t o pc'.
Proof.
  intros Es Ha. destruct pc.
  1: { apply calm_ex. destruct k; cbn [wq_step wq_step0] in Es; try discriminate. destruct (sq_fin p) as [r|]; [apply resume_got in Es as [_ ?]; assumption|].
       destruct (sq_step _ _ _ _) as [[q' p']|]; [|discriminate]. inj Es. exact I. }
  7-33: apply calm_ex; destruct k; cbn [wq_step wq_step0] in Es; try discriminate; wq_cases Es; try discriminate; inj Es; try destruct g; repeat match goal with |- calm (match ?x with _ => _ end) => destruct x end; exact I.
  - destruct k; cbn [wq_step wq_step0] in Es; try discriminate. cbn in Ha.
    assert (Hgo : at_ex s t o (XV [x])) by (exists [], (got_by t s); rewrite app_nil_r; split; [exact Ha|split; [intros b []|reflexivity]]).
    destruct x as [y|]; [|inj Es; exact I]. cbn in Es. destruct p; try (destruct (is_fin s y)); inj Es; try exact I; exact Hgo.
  - apply calm_ex. destruct k; cbn [wq_step wq_step0] in Es; destruct (notify1 _ _); try discriminate; inj Es; (destruct a as [|[|]]; exact I).
  - apply calm_ex. destruct k; cbn [wq_step wq_step0] in Es; try discriminate. inj Es. exact I.
  - destruct k; cbn [wq_step wq_step0] in Es; try discriminate. destruct Ha as (pre & early & E1 & E2 & E3). destruct xs as [|[[|b]|] xs]; inj Es.
    + exact I.
    + exists (pre ++ [Some BNull]), early. rewrite <- app_assoc. split; [exact E1|]. split; [apply all_fin_app; [exact E2|intros b [[=]|[]]]|]. rewrite got_by_log, E3, app_assoc. reflexivity.
    + exists pre, early. split; [exact E1|]. split; [exact E2|]. rewrite got_by_log, E3, app_assoc. reflexivity.
    + exact I.
  - destruct k; cbn [wq_step wq_step0] in Es; try discriminate. destruct e as [|xs].
    + destruct (bfin s b); inj Es; exact I.
    + destruct Ha as (pre & early & E1 & E2 & E3). destruct (bfin s b) eqn:Eb; inj Es.
      * exists (pre ++ [Some (BWork b)]), early. rewrite <- app_assoc. split; [exact E1|]. split; [apply all_fin_app; [exact E2|intros b' [[= ->]|[]]; exact Eb]|exact E3].
      * exists pre, early. auto.
  - destruct k; cbn [wq_step wq_step0] in Es; try discriminate. destruct e as [|xs].
    + inj Es; exact I.
    + destruct Ha as (pre & early & E1 & E2 & E3). inj Es. cbn [after_exec].
      exists (pre ++ [Some (BWork b)]), early. rewrite <- app_assoc. split; [exact E1|]. split; [|exact E3]. intros b' Hb. cbn. unfold fupd. destruct (Nat.eqb_spec b' b) as [|Hne]; [reflexivity|].
      apply in_app_or in Hb as [Hb|[[= ->]|[]]]; [apply E2, Hb|congruence].
Qed.

Definition exI H c : Prop := forall t pc, th c t = Some pc -> exists i o, last_ev H t i (HInv t o) /\ at_ex (sh c) t o pc.
Lemma ex_mono s s' t o pc : (forall b, bfin s b = true -> bfin s' b = true) -> got_by t s' = got_by t s -> at_ex s t o pc -> at_ex s' t o pc.
Proof.
  intros Hm Hg. assert (Ha : forall l, all_fin s l -> all_fin s' l) by (intros l Hl b Hb; apply Hm, Hl, Hb).
  destruct pc; cbn; auto; [|destruct e; auto..]; intros (pre & early & E1 & E2 & E3); exists pre, early; rewrite Hg; auto.
Qed.
Lemma got_by_step s u pc k s' pc' t : wq_step 0 s u pc k = Some (s', pc') -> t <> u -> got_by t s' = got_by t s.
Proof.
  intros Es Hn. unfold got_by. destruct (step_got _ _ _ _ _ _ Es) as [->|[x ->]]; [reflexivity|]. rewrite List.filter_app, map_app. cbn. destruct (Nat.eqb_spec u t); [congruence|]. apply app_nil_r.
Qed.
Lemma start_ex s t o : at_ex s t o (wq_start 0 o).
Proof. destruct o; cbn; auto. exists [], (got_by t s). split; [reflexivity|]. split; [intros b []|rewrite app_nil_r; reflexivity]. Qed.

Lemma exI_exec H c x c' e : exI H c -> wq_exec 0 c x = Some (c', e) -> exI (H ++ e) c'.
Proof.
  intros Hp. destruct x as [t [o|k|]]; unfold wq_exec; cbn.
  - destruct (th c t) eqn:Et; [discriminate|]. intros [= <- <-] u pc Eu. cbn in Eu. unfold fupd in Eu. destruct (Nat.eqb_spec u t) as [->|Hne].
    + injection Eu as <-. exists (length H), o. split; [apply last_new; reflexivity|apply start_ex].
    + destruct (Hp _ _ Eu) as (i & o' & Hl & Hk). exists i, o'. split; [|exact Hk]. apply last_old; [cbn; congruence|exact Hl].
  - destruct (th c t) as [pc|] eqn:Et; [|discriminate]. destruct (wq_step 0 (sh c) t pc k) as [[s' pc']|] eqn:Es; [|discriminate]. intros [= <- <-]. rewrite app_nil_r.
    pose proof (proj1 (proj2 (step_data _ _ _ _ _ _ _ Es))) as Hm.
    intros u pu Eu. cbn in Eu. unfold fupd in Eu. destruct (Nat.eqb_spec u t) as [->|Hne].
    + injection Eu as <-. destruct (Hp _ _ Et) as (i & o' & Hl & Hk). exists i, o'. split; [exact Hl|]. eapply step_ex; eassumption.
    + destruct (Hp _ _ Eu) as (i & o' & Hl & Hk). exists i, o'. split; [exact Hl|]. eapply ex_mono; [exact Hm|eapply got_by_step; eassumption|exact Hk].
  - destruct (th c t) as [pc|] eqn:Et; [|discriminate]. destruct (wq_fin pc) as [r|] eqn:Ef; [|discriminate]. intros [= <- <-] u pu Eu. cbn in Eu. unfold fupd in Eu.
    destruct (Nat.eqb_spec u t) as [->|Hne]; [discriminate|]. destruct (Hp _ _ Eu) as (i & o' & Hl & Hk). exists i, o'. split; [|exact Hk]. apply last_old; [cbn; congruence|exact Hl].
Qed.
Lemma exI_run xs : forall H c c' H', exI H c -> wq_run 0 c xs = Some (c', H') -> exI (H ++ H') c'.
Proof.
  induction xs as [|x xs IH]; intros H c c' H' Hp; unfold wq_run; cbn [run].
  - intros [= <- <-]. rewrite app_nil_r. exact Hp.
  - destruct (exec _ _ _ c x) as [[c1 e]|] eqn:Ex; [|discriminate]. destruct (run _ _ _ c1 xs) as [[c2 H2]|] eqn:Er; [|discriminate]. intros [= <- <-].
    rewrite app_assoc. eapply IH; [|exact Er]. eapply exI_exec; eassumption.
Qed.
Lemma exI_init f : exI [] (wq_init 0 f).
Proof. intros t pc. cbn. discriminate. Qed.
Lemma exI_erun f zs E H : erun (einit f) zs = Some (E, H) -> exI H (ec E).
Proof. intros Er. exact (exI_run _ _ _ _ _ (exI_init f) (erun_same _ _ _ _ Er)). Qed.

(** ** Calls that are over *)
(** A step of another thread *)
Lemma exec_other c u a c' e t : wq_exec 0 c (u, a) = Some (c', e) -> t <> u -> th c' t = th c t /\ got_by t (sh c') = got_by t (sh c) /\ forall x, In x e -> tid x <> t.
Proof.
  intros Ex Hn. unfold wq_exec in Ex. destruct a as [o|k|]; cbn in Ex; destruct (th c u) as [pc|] eqn:Eu; try discriminate.
  - injection Ex as <- <-. cbn. rewrite fupd_other by exact Hn. split; [reflexivity|]. split; [reflexivity|]. intros x [<-|[]]. cbn. congruence.
  - destruct (wq_step 0 (sh c) u pc k) as [[s' pc']|] eqn:Es; [|discriminate]. injection Ex as <- <-. cbn. rewrite fupd_other by exact Hn. split; [reflexivity|]. split; [eapply got_by_step; eassumption|intros x []].
  - destruct (wq_fin pc); [|discriminate]. injection Ex as <- <-. cbn. rewrite fupd_other by exact Hn. split; [reflexivity|]. split; [reflexivity|]. intros x [<-|[]]. cbn. congruence.
Qed.
Lemma over_stays zs : forall E E' H t, erun E zs = Some (E', H) -> inb t (over E) = true ->
  inb t (over E') = true /\ th (ec E') t = th (ec E) t /\ got_by t (sh (ec E')) = got_by t (sh (ec E)) /\ forall x, In x H -> tid x <> t.
Proof.
  induction zs as [|[u a] zs IH]; intros E E' H t; cbn [erun].
  - intros [= <- <-] Ht. split; [exact Ht|]. split; [reflexivity|]. split; [reflexivity|intros x []].
  - destruct (eexec E (u, a)) as [[E1 e]|] eqn:Ex; [|discriminate]. destruct (erun E1 zs) as [[E2 H2]|] eqn:Er; [|discriminate]. intros [= <- <-] Ht.
    apply eexec_inv in Ex as (Hu & Ex). assert (Hne : t <> u) by congruence.
    assert (H1 : inb t (over E1) = true /\ th (ec E1) t = th (ec E) t /\ got_by t (sh (ec E1)) = got_by t (sh (ec E)) /\ forall x, In x e -> tid x <> t).
    { destruct Ex as [(a' & -> & Ex & ->)|(b & xs & -> & _ & -> & -> & ->)].
      - destruct (exec_other _ _ _ _ _ _ Ex Hne) as (A1 & A2 & A3). auto.
      - split; [apply inb_spec; right; apply inb_spec, Ht|]. split; [reflexivity|]. split; [reflexivity|intros x []]. }
    destruct H1 as (A0 & A1 & A2 & A3). destruct (IH _ _ _ _ Er A0) as (B0 & B1 & B2 & B3). split; [exact B0|]. split; [congruence|]. split; [congruence|].
    intros x Hx. apply in_app_or in Hx as [Hx|Hx]; auto.
Qed.
Lemma over_at f zs : forall E H t, erun (einit f) zs = Some (E, H) -> inb t (over E) = true -> exists b xs, th (ec E) t = Some (X2 b (XAdd xs)).
Proof.
  induction zs as [|[u a] zs IH] using rev_ind; intros E H t.
  - cbn. intros [= <- <-] Ht. discriminate.
  - rewrite erun_app. destruct (erun (einit f) zs) as [[E1 H1]|] eqn:E1r; [|discriminate]. cbn [erun]. destruct (eexec E1 (u, a)) as [[E2 e]|] eqn:Ex; [|discriminate]. intros [= <- <-] Ht.
    apply eexec_inv in Ex as (Hu & [(a' & -> & Ex & Eo)|(b & xs & -> & Eb & Ee & Eo & ->)]); rewrite Eo in Ht.
    + destruct (IH _ _ _ eq_refl Ht) as (b & xs & E0). exists b, xs. assert (Hne : t <> u) by congruence. rewrite (proj1 (exec_other _ _ _ _ _ _ Ex Hne)). exact E0.
    + rewrite Ee. apply inb_spec in Ht as [->|Ht]; [eauto|]. apply (IH _ _ _ eq_refl). apply inb_spec, Ht.
Qed.

(** ** Progress *)
Definition ego E : Prop := exists t a E' e, (forall k, a = AInt k -> k <> CSpur /\ k <> CTime) /\ (forall o, a <> ACall o) /\ eexec E (t, EDo a) = Some (E', e).
Lemma ego_any f zs E H t pc : erun (einit f) zs = Some (E, H) -> th (ec E) t = Some pc -> inb t (over E) = false -> (forall xs, pc <> Crash xs) -> ego E.
Proof.
  intros Er Et Ht Hc. pose proof (erun_same _ _ _ _ Er) as Ed. cbn [einit ec] in Ed. pose proof (openI_run 0 _ _ _ _ (openI_init 0 f) Ed) as Ho.
  pose proof (mi_user _ _ _ _ _ (miscI_run 0 f _ _ _ Ed) _ _ (Nat.le_0_l t) Et) as Hw.
  assert (Hb : byl 0 (ec E) t).
  { assert (Hk : (exists k h, pc = CJ k h) \/ forall k h, pc <> CJ k h) by (destruct pc; try (right; congruence); left; eauto).
    destruct Hk as [(k & h & ->)|Hk]. { exists t, (CJ k h). split; [exact Et|]. split; [auto|]. eapply (goes_int 0 _ _ _ CStep); [exact Et|cbn; reflexivity|discriminate|discriminate]. }
    eapply byl_base; [apply Ho|exact (qproj_all 0 f _ _ _ Ed)|apply Ho| |exact Et| | |].
    - intros u pu Eu Hu. destruct pu; try discriminate; (eapply (goes_int 0 _ _ _ CStep); [exact Eu|cbn [wq_step wq_step0]; reflexivity|discriminate|discriminate]).
    - destruct pc; cbn; auto; [discriminate|intros _; destruct (Hc _ eq_refl)].
    - intros [-> _]. discriminate.
    - intros k. apply Hk. }
  destruct Hb as (u & pu & Eu & Hu & a & c' & e & Ha & Hca & Ex). exists u, a. unfold eexec. rewrite Ex.
  assert (Hut : inb u (over E) = false). { destruct Hu as [->|Hu]; [exact Ht|]. destruct (inb u (over E)) eqn:Eo; [|reflexivity]. destruct (over_at f zs _ _ _ Er Eo) as (b & xs & E1). rewrite E1 in Eu. injection Eu as <-. discriminate. }
  rewrite Hut. eauto 8.
Qed.

(** ** A call that nobody disturbs *)
Lemma eint E t pc s' pc' : inb t (over E) = false -> th (ec E) t = Some pc -> wq_step 0 (sh (ec E)) t pc CStep = Some (s', pc') ->
  eexec E (t, EDo (AInt CStep)) = Some (ECfg (Cfg s' (fupd t (Some pc') (th (ec E)))) (over E), []).
Proof. intros Ht Et Es. unfold eexec, wq_exec. rewrite Ht. cbn. rewrite Et, Es. reflexivity. Qed.
Lemma todo_ext l : forall f g, (forall b, f b = g b) -> todo f l = todo g l.
Proof.
  induction l as [|[[|b]|] l IH]; intros f g E; cbn; auto. rewrite <- (E b). destruct (f b); [auto|]. f_equal. apply IH. intros b'. unfold fupd. destruct (Nat.eqb b' b); auto.
Qed.
Lemma exec_all l : forall E t, inb t (over E) = false -> th (ec E) t = Some (XV l) -> ~ In None l ->
  exists n E', erun E (repeat (t, EDo (AInt CStep)) n) = Some (E', []) /\ over E' = over E /\ th (ec E') t = Some (Ret RUnit) /\ (forall u, u <> t -> th (ec E') u = th (ec E) u) /\
    ran (sh (ec E')) = ran (sh (ec E)) ++ todo (bfin (sh (ec E))) l /\
    (forall b, bfin (sh (ec E')) b = true <-> bfin (sh (ec E)) b = true \/ In (Some (BWork b)) l).
Proof.
  induction l as [|x l IH]; intros E t Ht Et Hn.
  - exists 1, (ECfg (Cfg (sh (ec E)) (fupd t (Some (Ret RUnit)) (th (ec E)))) (over E)). cbn [repeat erun]. rewrite (eint _ _ _ _ _ Ht Et eq_refl).
    split; [reflexivity|]. split; [reflexivity|]. cbn. rewrite fupd_same, app_nil_r. split; [reflexivity|]. split; [intros u Hu; apply fupd_other, Hu|]. split; [reflexivity|]. intros b. tauto.
  - assert (Hl : ~ In None l) by (intros Hi; apply Hn; right; exact Hi). destruct x as [[|b]|]; [| |destruct Hn; left; reflexivity].
    + set (E1 := ECfg (Cfg (log_got t (Some BNull) (sh (ec E))) (fupd t (Some (XV l)) (th (ec E)))) (over E)).
      destruct (IH E1 t Ht (fupd_same _ _ _) Hl) as (n & E' & Er & J1 & J2 & J3 & J4 & J5). exists (S n), E'. cbn [repeat erun]. rewrite (eint _ _ _ _ _ Ht Et eq_refl). fold E1. rewrite Er.
      split; [reflexivity|]. split; [exact J1|]. split; [exact J2|]. split; [intros u Hu; rewrite J3 by exact Hu; apply fupd_other, Hu|]. split; [exact J4|]. intros b. rewrite J5. cbn. intuition congruence.
    + set (E1 := ECfg (Cfg (log_got t (Some (BWork b)) (sh (ec E))) (fupd t (Some (X1 b (XAdd l))) (th (ec E)))) (over E)).
      destruct (bfin (sh (ec E)) b) eqn:Eb.
      * set (E2 := ECfg (Cfg (sh (ec E1)) (fupd t (Some (XV l)) (th (ec E1)))) (over E1)).
        destruct (IH E2 t Ht (fupd_same _ _ _) Hl) as (n & E' & Er & J1 & J2 & J3 & J4 & J5). exists (S (S n)), E'. cbn [repeat erun]. rewrite (eint _ _ _ _ _ Ht Et eq_refl). fold E1.
        rewrite (eint E1 t (X1 b (XAdd l)) (sh (ec E1)) (XV l) Ht (fupd_same _ _ _)) by (cbn; rewrite Eb; reflexivity). fold E2. rewrite Er.
        split; [reflexivity|]. split; [exact J1|]. split; [exact J2|]. split; [intros u Hu; rewrite J3 by exact Hu; cbn; rewrite !fupd_other by exact Hu; reflexivity|].
        split; [rewrite J4; cbn; rewrite Eb; reflexivity|]. intros b'. rewrite J5. cbn. intuition congruence.
      * set (E2 := ECfg (Cfg (log_ran b (sh (ec E1))) (fupd t (Some (X2 b (XAdd l))) (th (ec E1)))) (over E1)).
        set (E3 := ECfg (Cfg (set_bfin (fupd b true (bfin (sh (ec E2)))) (sh (ec E2))) (fupd t (Some (XV l)) (th (ec E2)))) (over E2)).
        destruct (IH E3 t Ht (fupd_same _ _ _) Hl) as (n & E' & Er & J1 & J2 & J3 & J4 & J5). exists (S (S (S n))), E'. cbn [repeat erun]. rewrite (eint _ _ _ _ _ Ht Et eq_refl). fold E1.
        rewrite (eint E1 t (X1 b (XAdd l)) (log_ran b (sh (ec E1))) (X2 b (XAdd l)) Ht (fupd_same _ _ _)) by (cbn; rewrite Eb; reflexivity). fold E2.
        rewrite (eint E2 t (X2 b (XAdd l)) _ (XV l) Ht (fupd_same _ _ _) eq_refl). fold E3. rewrite Er.
        split; [reflexivity|]. split; [exact J1|]. split; [exact J2|]. split; [intros u Hu; rewrite J3 by exact Hu; cbn; rewrite !fupd_other by exact Hu; reflexivity|].
        split; [rewrite J4; cbn; rewrite Eb, <- app_assoc; reflexivity|]. intros b'. rewrite J5. cbn. unfold fupd. destruct (Nat.eqb_spec b' b) as [->|Hne]; [tauto|]. intuition congruence.
Qed.
Lemma call_all E t l p : inb t (over E) = false -> th (ec E) t = None -> ~ In None l ->
  exists n E', erun E ((t, EDo (ACall (OAddV l p))) :: repeat (t, EDo (AInt CStep)) n ++ [(t, EDo ARet)]) = Some (E', [HInv t (OAddV l p); HRet t RUnit]) /\
    over E' = over E /\ (forall u, th (ec E') u = th (ec E) u) /\
    ran (sh (ec E')) = ran (sh (ec E)) ++ todo (bfin (sh (ec E))) l /\ (forall b, bfin (sh (ec E')) b = true <-> bfin (sh (ec E)) b = true \/ In (Some (BWork b)) l).
Proof.
  intros Ht Et Hn. set (E1 := ECfg (Cfg (sh (ec E)) (fupd t (Some (XV l)) (th (ec E)))) (over E)).
  destruct (exec_all l E1 t Ht (fupd_same _ _ _) Hn) as (n & E2 & Er & J1 & J2 & J3 & J4 & J5).
  exists n, (ECfg (Cfg (sh (ec E2)) (fupd t None (th (ec E2)))) (over E2)).
  assert (X1 : eexec E (t, EDo (ACall (OAddV l p))) = Some (E1, [HInv t (OAddV l p)])) by (unfold eexec, wq_exec; rewrite Ht; cbn; rewrite Et; reflexivity).
  assert (X2 : eexec E2 (t, EDo ARet) = Some (ECfg (Cfg (sh (ec E2)) (fupd t None (th (ec E2)))) (over E2), [HRet t RUnit])).
  { unfold eexec, wq_exec. rewrite J1. cbn [over E1]. rewrite Ht. cbn. rewrite J2. reflexivity. }
  cbn [erun]. rewrite X1, erun_app, Er. cbn [erun]. rewrite X2. split; [reflexivity|]. split; [exact J1|]. split; [|split; [exact J4|exact J5]].
  intros u. cbn. unfold fupd at 1. destruct (Nat.eqb_spec u t) as [->|Hu]; [symmetry; exact Et|]. rewrite J3 by exact Hu. cbn. apply fupd_other, Hu.
Qed.
