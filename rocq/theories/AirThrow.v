(** AirLock when something throws: the assignment to [data] in try_load and load, the move out of [data] and the move of the
    returned object in try_unload.  The destructors of the locks then run.  Locking and waiting do not throw. *)
From stdpp Require Import list.
From Verif Require Import Base Conc Herlihy CondVar AirModel AirSpec AirProofs.

Section model.
Context {V : Type}.

(** [XU pc]: an exception is on its way; [pc] is what the thread is about to do *)
Inductive xapc := XP (pc : airpc V) | XU (pc : airpc V).
Inductive xch := XGo (k : cvc) | XThrow (w : option V) | XLose.

(** [late]: may load throw after it has waited?  [lossy]: may a move that throws change its source, and may [return val]
    throw (it moves [val] if the compiler does not build it in place)? *)
Variables late lossy : bool.

(** Where an exception may start, what is then in [data] ([w], chosen freely), and the destructor that then runs *)
Definition a_unwind (s : airsh V) (pc : airpc V) (w : option V) : option (airsh V * airpc V) :=
  match pc with
  | AT3 v => Some (set_data s w, AT5 v false)                                  (* [48] *)
  | AL5 b v => if b && negb late then None else Some (set_data s w, AL7)       (* [64, 70] *)
  | AU3 => if lossy then match w with Some _ => Some (set_data s w, AU6 None) | None => None end else Some (s, AU6 None)   (* [85] *)
  | _ => None
  end.

Definition xa_start (o : airop V) : xapc := XP (air_start o).
Definition xa_step (s : airsh V) (t : nat) (x : xapc) (k : xch) : option (airsh V * xapc) :=
  match k, x with
  | XGo k, XP pc => match air_step s t pc k with Some (s', pc') => Some (s', XP pc') | None => None end
  | XGo k, XU pc => match air_step s t pc k with Some (s', pc') => Some (s', XU pc') | None => None end
  | XThrow w, XP pc => match a_unwind s pc w with Some (s', pc') => Some (s', XU pc') | None => None end
  | XLose, XP (AU4 r) => if lossy then Some (set_loaded s false, XU (AU5 r)) else None     (* [86]; the move of [88] will throw *)
  | _, _ => None
  end.
(** [None]: the operation threw *)
Definition xa_fin (x : xapc) : option (option (airret V)) :=
  match x with
  | XP pc => match air_fin pc with Some r => Some (Some r) | None => None end
  | XU pc => match air_fin pc with Some _ => Some None | None => None end
  end.
Definition xa_run : cfg (airsh V) xapc -> list (nat * act xch (airop V)) -> option (cfg (airsh V) xapc * list (hev (airop V) (option (airret V)))) := run xa_start xa_step xa_fin.
Definition xa_exec : cfg (airsh V) xapc -> nat * act xch (airop V) -> option (cfg (airsh V) xapc * list (hev (airop V) (option (airret V)))) := exec xa_start xa_step xa_fin.

Definition xpt (x : xapc) : airpc V := match x with XP pc | XU pc => pc end.
(** Blocked in condition.wait, not yet woken *)
Definition xa_waits (c : cfg (airsh V) xapc) (t : nat) : Prop := exists v, th c t = Some (XP (AL4 v)) /\ In t (await (sh c)).
End model.
Arguments xapc : clear implicits. Arguments xch : clear implicits.

(** ** What it should do: a call that throws has no effect; only loads that find the slot free and unloads that find it full throw.
    With [lossy] the element of an unload that throws may be lost or replaced. *)
Section spec.
Context {V : Type}.
Definition xair_spec (lossy : bool) (q : option V) (o : airop V) (r : option (airret V)) (q' : option V) : Prop :=
  match r with
  | Some r => air_spec q o r q'
  | None => match o with
            | ATryLoad _ | ALoad _ => q = None /\ q' = None
            | AUnload => q <> None /\ (lossy = true \/ q' = q)
            | AIsLoaded => False
            end
  end.
End spec.

Section proofs.
Context {V : Type}.
Variables late lossy : bool.
Notation aircfg := (cfg (airsh V) (airpc V)).
Notation xcfg := (cfg (airsh V) (xapc V)).
Implicit Types (s : airsh V) (pc : airpc V) (q : option V) (c : xcfg) (x : xapc V).

(** The airlock without exceptions *)
Definition xer c : aircfg := Cfg (sh c) (fun t => option_map xpt (th c t)).
Definition xup pc : Prop := match pc with AT5 _ _ | AL7 | AU5 _ | AU6 _ | AEnd _ => True | _ => False end.
Record xaR c q : Prop := { xa_r : airR (late = true) (xer c) q; xa_u : forall t pc, th c t = Some (XU pc) -> xup pc }.

Definition xalpha x : ast (airop V) (option (airret V)) :=
  match x with
  | XP pc => match aalpha pc with AIdle => AIdle | APend o => APend o | ADone r => ADone (Some r) end
  | XU _ => ADone None
  end.

Lemma xer_fupd s' t x c : forall u, th (xer (Cfg s' (fupd t (Some x) (th c)))) u = fupd t (Some (xpt x)) (th (xer c)) u.
Proof. intros u. cbn. unfold fupd. destruct (Nat.eqb u t); reflexivity. Qed.
Lemma xer_none t c : forall u, th (xer (Cfg (sh c) (fupd t None (th c)))) u = fupd t None (th (xer c)) u.
Proof. intros u. cbn. unfold fupd. destruct (Nat.eqb u t); reflexivity. Qed.
Lemma airR_ext lost s f g q : (forall t, f t = g t) -> airR lost (Cfg s f) q -> airR lost (Cfg s g) q.
Proof.
  intros E [R1 R2 R3 R4]. cbn [sh th] in *. split; cbn [sh th].
  - intros t. rewrite (R1 t), E. reflexivity.
  - assert (Hh : forall L, holder L g = holder L f) by (intros [t|]; cbn; rewrite ?E; reflexivity). rewrite Hh. exact R2.
  - intros t Ht. rewrite <- E. auto.
  - intros E1 E2. destruct (R4 E1 E2) as [Hx|(t & pc & E3 & E4)]; [left; exact Hx|right]. exists t, pc. rewrite <- E. auto.
Qed.

Lemma xup_step s t pc k s' pc' : air_step s t pc k = Some (s', pc') -> xup pc -> xup pc' /\ aalpha pc' = aalpha pc.
Proof.
  intros Es Hu. destruct pc; cbn in Hu; try contradiction; destruct k; cbn in Es; try discriminate; try (injection Es as <- <-; auto; fail).
  - destruct (await s); [|discriminate]. injection Es as <- <-. auto.
  - destruct (inb _ _); [|discriminate]. injection Es as <- <-. auto.
Qed.

(** An exception starts. *)
Lemma xaR_throw (c : aircfg) q t pc w s' pc' : airR (late = true) c q -> th c t = Some pc -> a_unwind late lossy (sh c) pc w = Some (s', pc') ->
  exists q', airR (late = true) (Cfg s' (fupd t (Some pc') (th c))) q' /\ xup pc' /\ exists o, aalpha pc = APend o /\ xair_spec lossy q o None q'.
Proof.
  intros HR Et Eu.
  assert (Hself : hdoor pc = true -> ahinv (Some pc) (sh c) q).
  { intros E. pose proof (a_q _ _ _ HR) as Rq. rewrite (lk_owner _ _ _ _ _ (a_door _ _ _ HR) Et E) in Rq. cbn [holder] in Rq. rewrite Et in Rq. exact Rq. }
  destruct pc as [| | |v| | | | | | | |b v| | | | | |  | | | | |]; cbn [a_unwind] in Eu; try discriminate.
  - injection Eu as <- <-. specialize (Hself eq_refl). destruct Hself as [H1 ->]. exists None. split; [|split; [exact I|eexists; split; [reflexivity|split; reflexivity]]].
    eapply (A_self _ _ None None); [exact HR|exact Et|reflexivity|reflexivity|reflexivity|auto| |].
    + intros _. split; [exact H1|congruence].
    + intros El Ew Hh. eapply help_other; [exact Et|auto|cbn; tauto|auto].
  - destruct (b && negb late) eqn:Eb; [discriminate|]. injection Eu as <- <-. specialize (Hself eq_refl). destruct Hself as [H1 ->]. exists None. split; [|split; [exact I|eexists; split; [reflexivity|split; reflexivity]]].
    eapply (A_self _ _ None None); [exact HR|exact Et|reflexivity|reflexivity|reflexivity|auto| |].
    + intros _. split; [exact H1|congruence].
    + intros El Ew Hh. destruct late; [left; reflexivity|]. rewrite andb_true_r in Eb. subst b. eapply help_other; [exact Et|auto|cbn; tauto|auto].
  - specialize (Hself eq_refl). destruct Hself as (H1 & H2 & H3). destruct lossy.
    + destruct w as [v|]; [|discriminate]. injection Eu as <- <-. exists (Some v). split; [|split; [exact I|eexists; split; [reflexivity|split; [exact H2|left; reflexivity]]]].
      eapply (A_self _ _ q (Some v)); [exact HR|exact Et|reflexivity|reflexivity|reflexivity|auto| |].
      * intros _. split; [destruct q; [exact H1|congruence]|reflexivity].
      * cbn [set_data loaded]. intros El. rewrite H1 in El. destruct q; [discriminate|congruence].
    + injection Eu as <- <-. exists q. split; [|split; [exact I|eexists; split; [reflexivity|split; [exact H2|right; reflexivity]]]].
      eapply (A_self _ _ q q); [exact HR|exact Et|reflexivity|reflexivity|reflexivity|auto| |].
      * intros _. split; [exact H1|auto].
      * intros El. rewrite H1 in El. destruct q; [discriminate|congruence].
Qed.

Lemma xaR_int c q t k x s' x' : xaR c q -> th c t = Some x -> xa_step late lossy (sh c) t x k = Some (s', x') ->
  exists q', xaR (Cfg s' (fupd t (Some x') (th c))) q' /\
    ((q' = q /\ xalpha x' = xalpha x) \/ exists o r, xalpha x = APend o /\ xalpha x' = ADone r /\ xair_spec lossy q o r q').
Proof.
  intros [HR Hu] Et Es. assert (Et' : th (xer c) t = Some (xpt x)) by (cbn; rewrite Et; reflexivity).
  destruct k as [k|w|].
  - assert (Hs : exists pc', air_step (sh c) t (xpt x) k = Some (s', pc') /\ ((exists pc, x = XP pc /\ x' = XP pc') \/ (exists pc, x = XU pc /\ x' = XU pc'))).
    { destruct x as [pc|pc]; cbn [xa_step xpt] in *; destruct (air_step (sh c) t pc k) as [[s1 pc1]|] eqn:E; try discriminate; injection Es as <- <-; eauto 6. }
    destruct Hs as (pc' & Eb & Hy). destruct (airR_int _ (xer c) q t k (xpt x) s' pc' HR Et' Eb) as (q' & HR' & Hcase).
    exists q'. split.
    + split.
      * eapply airR_ext; [intros u; symmetry; apply xer_fupd|]. destruct Hy as [(pc & -> & ->)|(pc & -> & ->)]; exact HR'.
      * intros u p E. cbn in E. unfold fupd in E. destruct (Nat.eqb u t); [|eapply Hu; exact E]. destruct Hy as [(pc & -> & ->)|(pc & -> & ->)]; [discriminate|].
        injection E as <-. eapply xup_step; [exact Eb|]. eapply Hu; exact Et.
    + destruct Hy as [(pc & -> & ->)|(pc & -> & ->)]; cbn [xalpha xpt] in *.
      * destruct Hcase as [[-> E]|(o & r & E1 & E2 & Hs)]; [left; rewrite E; auto|right]. exists o, (Some r). rewrite E1, E2. auto.
      * left. split; [|reflexivity]. destruct Hcase as [[-> E]|(o & r & E1 & E2 & Hs)]; [reflexivity|]. destruct (xup_step _ _ _ _ _ _ Eb (Hu _ _ Et)) as [_ E]. congruence.
  - destruct x as [pc|pc]; cbn [xa_step] in Es; [|discriminate]. destruct (a_unwind late lossy (sh c) pc w) as [[s1 pc']|] eqn:E; [|discriminate]. injection Es as <- <-.
    destruct (xaR_throw (xer c) q t pc w s1 pc' HR Et' E) as (q' & HR' & Hy & o & Ea & Hm). exists q'. split.
    + split; [eapply airR_ext; [intros u; symmetry; apply xer_fupd|]; exact HR'|]. intros u p Eu. cbn in Eu. unfold fupd in Eu. destruct (Nat.eqb u t); [|eapply Hu; exact Eu]. injection Eu as <-. exact Hy.
    + right. exists o, None. cbn [xalpha]. rewrite Ea. auto.
  - destruct x as [pc|pc]; cbn [xa_step] in Es; [|discriminate]. destruct pc; try discriminate. destruct lossy eqn:El; [|discriminate]. injection Es as <- <-.
    destruct (airR_int _ (xer c) q t CStep (AU4 r) (set_loaded (sh c) false) (AU5 r) HR Et' eq_refl) as (q' & HR' & Hcase). exists q'. split.
    + split; [eapply airR_ext; [intros u; symmetry; apply xer_fupd|]; exact HR'|]. intros u p Eu. cbn in Eu. unfold fupd in Eu. destruct (Nat.eqb u t); [|eapply Hu; exact Eu]. injection Eu as <-. exact I.
    + right. exists AUnload, None. cbn. split; [reflexivity|]. split; [reflexivity|]. split; [|auto].
      destruct Hcase as [[_ E]|(o & r0 & E1 & E2 & Hs)]; [discriminate|]. injection E1 as <-.
      intros ->. inversion Hs; subst. cbn in E2. injection E2 as ->.
      pose proof (a_q _ _ _ HR) as Rq. rewrite (lk_owner _ _ _ _ _ (a_door _ _ _ HR) Et' eq_refl) in Rq. cbn [holder] in Rq. cbn [xpt th xer option_map] in Rq. rewrite Et in Rq. cbn in Rq. destruct Rq as (_ & E & F). congruence.
Qed.
Lemma xaR_call c q t o : xaR c q -> True -> th c t = None -> xaR (Cfg (sh c) (fupd t (Some (xa_start o)) (th c))) q /\ xalpha (xa_start o) = APend o.
Proof.
  intros [HR Hu] Ho Et. assert (Et' : th (xer c) t = None) by (cbn; rewrite Et; reflexivity). destruct (airR_call _ (xer c) q t o HR Ho Et') as [H1 H2]. split; [split|].
  - eapply airR_ext; [intros u; symmetry; apply xer_fupd|]. exact H1.
  - intros u p E. cbn in E. unfold fupd in E. destruct (Nat.eqb u t); [discriminate|eapply Hu; exact E].
  - unfold xa_start. cbn [xalpha]. rewrite H2. reflexivity.
Qed.
Lemma xaR_ret c q t x r : xaR c q -> th c t = Some x -> xa_fin x = Some r -> xaR (Cfg (sh c) (fupd t None (th c))) q /\ xalpha x = ADone r.
Proof.
  intros [HR Hu] Et Ef. assert (Et' : th (xer c) t = Some (xpt x)) by (cbn; rewrite Et; reflexivity).
  assert (Hf : exists r0, air_fin (xpt x) = Some r0 /\ match x with XP _ => r = Some r0 | XU _ => r = None end).
  { destruct x as [pc|pc]; cbn in *; destruct (air_fin pc) as [r0|]; try discriminate; injection Ef as <-; eauto. }
  destruct Hf as (r0 & Ef0 & Hy). destruct (airR_ret _ (xer c) q t (xpt x) r0 HR Et' Ef0) as [H1 H2]. split; [split|].
  - eapply airR_ext; [intros u; symmetry; apply xer_none|]. exact H1.
  - intros u p E. cbn in E. unfold fupd in E. destruct (Nat.eqb u t); [discriminate|eapply Hu; exact E].
  - destruct x as [pc|pc]; cbn [xalpha xpt] in *; subst r; [rewrite H2|]; reflexivity.
Qed.

Lemma xa_sim xs c H : xa_run late lossy (init air0) xs = Some (c, H) ->
  exists q' f', atomic (xair_spec lossy) None (fun _ => AIdle) H q' f' /\ xaR c q'.
Proof.
  intros Er. edestruct (sim_run xa_start (xa_step late lossy) xa_fin (xair_spec (V := V) lossy) (fun _ => True) xaR xalpha) as (q' & f' & Ha & Hr' & _);
    [| | | | | |exact Er|exists q', f'; split; [exact Ha|exact Hr']].
  - intros c0 q t o. apply xaR_call.
  - intros c0 q t k pc s' pc'. apply xaR_int.
  - intros c0 q t pc r. apply xaR_ret.
  - split; [apply airR_init|discriminate].
  - reflexivity.
  - apply Forall_forall. auto.
Qed.

(** ** Progress *)
Definition xa_moves c t : Prop := exists a c' e, a <> AInt (XGo CSpur) /\ (forall w, a <> AInt (XThrow w)) /\ a <> AInt XLose /\ th c t <> None /\ xa_exec late lossy c (t, a) = Some (c', e).
Lemma xa_live c q t : xaR c q -> th c t <> None -> ~ xa_waits c t -> exists u, xa_moves c u.
Proof.
  intros [HR Hu] Ht Hw. destruct (air_live _ (xer c) q t HR) as (u & a & c' & e & Ha & Hn & Ex).
  - cbn. destruct (th c t); [discriminate|congruence].
  - intros (v & E & Hi). apply Hw. exists v. cbn in E, Hi. destruct (th c t) as [[pc|pc]|] eqn:Et; cbn in E; try discriminate; injection E as ->; [auto|]. destruct (Hu _ _ Et).
  - exists u. cbn in Hn. unfold air_exec, exec in Ex. cbn [th xer sh] in Ex. destruct (th c u) as [x|] eqn:Eu; cbn [option_map] in *; [|congruence].
    destruct a as [o|k|]; [discriminate| |].
    + destruct (air_step (sh c) u (xpt x) k) as [[s1 p1]|] eqn:E; [|discriminate]. exists (AInt (XGo k)). unfold xa_exec, exec. rewrite Eu.
      destruct x as [pc|pc]; cbn [xa_step xpt] in *; rewrite E; do 2 eexists; (split; [congruence|]); (split; [congruence|]); (split; [congruence|]); (split; [congruence|reflexivity]).
    + destruct (air_fin (xpt x)) as [r|] eqn:E; [|discriminate]. exists ARet. unfold xa_exec, exec. rewrite Eu.
      destruct x as [pc|pc]; cbn [xa_fin xpt] in *; rewrite E; do 2 eexists; (split; [congruence|]); (split; [congruence|]); (split; [congruence|]); (split; [congruence|reflexivity]).
Qed.
End proofs.
