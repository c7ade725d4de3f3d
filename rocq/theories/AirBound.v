(** AirLock: how many steps the operations take, and that each unloading lets one waiting loader in *)
From stdpp Require Import list.
From Verif Require Import Base Conc CondVar Herlihy AirModel AirSpec AirProofs AirThrow.
Local Open Scope nat_scope.

Section air.
Context {V : Type}.
Variables late lossy : bool.
Notation xcfg := (cfg (airsh V) (xapc V)).
Implicit Types (s : airsh V) (pc : airpc V) (c : xcfg) (x : xapc V) (o : airop V) (k : xch V) (xs ys zs : list (nat * act (xch V) (airop V))).

(** Own steps left until the operation has answered or waits (again) *)
Definition own s (t : nat) pc : nat :=
  match pc with
  | AT0 _ => 6 | AT1 _ => 5 | AT2 _ => 4 | AT3 _ => 3 | AT4 _ => 2 | AT5 _ _ => 1
  | AL0 _ => 6 | AL1 _ => 5 | AL2 _ => 4 | AL3 _ => 1 | AL4 _ => if inb t (await s) then 0 else 5 | AL5 _ _ => 3 | AL6 _ _ => 2 | AL7 => 1
  | AU0 => 7 | AU1 => 6 | AU2 => 5 | AU3 => 4 | AU4 _ => 3 | AU5 _ => 2 | AU6 _ => 1
  | AI0 => 1 | AEnd _ => 0
  end.
(** May still call notify_one *)
Definition loud pc : bool := match pc with AU0 | AU1 | AU2 | AU3 | AU4 _ | AU5 _ => true | _ => false end.
Definition wt s (t : nat) pc : nat := S (own s t pc + if loud pc then 5 else 0).

Definition spur k : nat := match k with XGo CSpur => 1 | _ => 0 end.
Definition wakes k (u : nat) : bool := match k with XGo (CWake v) => Nat.eqb v u | _ => false end.
Definition waking k : bool := match k with XGo (CWake _) => true | _ => false end.

Lemma air_step_own s t pc (k : cvc) s' pc' : air_step s t pc k = Some (s', pc') ->
  S (own s' t pc') <= own s t pc + 6 * spur (XGo (V := V) k) /\ (loud pc' = true -> loud pc = true) /\ (waking (XGo (V := V) k) = true -> loud pc = true /\ loud pc' = false) /\
  (forall u, u <> t -> inb u (await s) = true -> inb u (await s') = true \/ wakes (XGo (V := V) k) u = true) /\
  (forall u, u <> t -> inb u (await s') = true -> inb u (await s) = true).
Proof.
  intros Es. destruct k as [|u| |]; cbn [air_step] in Es; try discriminate.
  - destruct pc; cbn [air_step0] in Es; unfold lock in Es; repeat lazymatch type of Es with context [match ?x with _ => _ end] => destruct x eqn:? end; try discriminate Es; injection Es as <- <-;
      cbn [own loud unlock set_await set_loaded set_data await spur waking wakes]; repeat match goal with H : inb _ _ = _ |- _ => rewrite H end;
      (split; [try lia|split; [auto|split; [discriminate|split; intros z Hz; cbn; auto]]]).
    + unfold inb. cbn. rewrite Nat.eqb_refl. cbn. lia.
    + intros Hb. unfold inb in *. cbn. rewrite Hb. rewrite Bool.orb_true_r. auto.
    + intros Hb. unfold inb in *. cbn in Hb. rewrite (proj2 (Nat.eqb_neq z t) Hz) in Hb. exact Hb.
    + match goal with E : await _ = [] |- _ => rewrite E end. discriminate.
  - destruct pc; try discriminate. cbn in Es. destruct (inb u (await s)) eqn:Eu; [|discriminate]. injection Es as <- <-. cbn. split; [lia|]. split; [discriminate|]. split; [auto|]. split.
    + intros z Hz Hb. destruct (Nat.eqb_spec u z) as [->|Hne]; [auto|left]. apply inb_spec, rm_spec. split; [apply inb_spec, Hb|congruence].
    + intros z Hz Hb. apply inb_spec in Hb. apply inb_spec. apply rm_spec in Hb. tauto.
  - destruct pc; try discriminate. destruct (inb t (await s)) eqn:Eu; [|discriminate]. injection Es as <- <-. cbn [own loud set_await await spur waking wakes]. rewrite Eu.
    split; [destruct (inb t (rm t (await s))); lia|]. split; [auto|]. split; [discriminate|]. split.
    + intros z Hz Hb. left. apply inb_spec, rm_spec. split; [apply inb_spec, Hb|exact Hz].
    + intros z Hz Hb. apply inb_spec in Hb. apply inb_spec. apply rm_spec in Hb. tauto.
Qed.

Lemma xa_step_own s t x k s' x' : xa_step late lossy s t x k = Some (s', x') ->
  S (own s' t (xpt x')) <= own s t (xpt x) + 6 * spur k /\ (loud (xpt x') = true -> loud (xpt x) = true) /\ (waking k = true -> loud (xpt x) = true /\ loud (xpt x') = false) /\
  (forall u, u <> t -> inb u (await s) = true -> inb u (await s') = true \/ wakes k u = true) /\
  (forall u, u <> t -> inb u (await s') = true -> inb u (await s) = true).
Proof.
  intros Es. destruct k as [k|w|].
  - destruct x as [pc|pc]; cbn [xa_step xpt] in *; (destruct (air_step s t pc k) as [[s1 p1]|] eqn:E; [|discriminate]); injection Es as <- <-; apply air_step_own; exact E.
  - destruct x as [pc|pc]; cbn [xa_step xpt] in *; [|discriminate]. destruct (a_unwind late lossy s pc w) as [[s1 p1]|] eqn:E; [|discriminate]. injection Es as <- <-.
    destruct pc; cbn [a_unwind] in E; try discriminate; repeat lazymatch type of E with context [match ?x with _ => _ end] => destruct x eqn:? end; try discriminate E; injection E as <- <-; cbn;
      (split; [lia|split; [auto|split; [discriminate|auto]]]).
  - destruct x as [pc|pc]; cbn [xa_step xpt] in *; [|discriminate]. destruct pc; try discriminate. destruct lossy; [|discriminate]. injection Es as <- <-. cbn. split; [lia|]. split; [auto|]. split; [discriminate|auto].
Qed.

(** ** One call *)
Definition inside (t : nat) xs : Prop := forall a, In (t, a) xs -> exists k, a = AInt k.
Fixpoint woken (t : nat) xs : nat := match xs with [] => 0 | (_, AInt k) :: xs' => (if wakes k t then 1 else 0) + woken t xs' | _ :: xs' => woken t xs' end.
Fixpoint spurs (t : nat) xs : nat := match xs with [] => 0 | (u, AInt k) :: xs' => (if Nat.eqb u t then spur k else 0) + spurs t xs' | _ :: xs' => spurs t xs' end.

Lemma own_other s s' t pc b : (inb t (await s) = true -> inb t (await s') = true \/ b = true) -> own s' t pc <= own s t pc + (if b : bool then 5 else 0).
Proof. intros Hi. destruct pc; cbn [own]; try lia. destruct (inb t (await s)); [|destruct (inb t (await s')); lia]. destruct (Hi eq_refl) as [-> | ->]; [lia|]. destruct (inb t (await s')); lia. Qed.

Lemma own_run t xs : forall c c' H x, xa_run late lossy c xs = Some (c', H) -> inside t xs -> th c t = Some x ->
  exists x', th c' t = Some x' /\ n_int t xs + own (sh c') t (xpt x') <= own (sh c) t (xpt x) + 5 * woken t xs + 6 * spurs t xs.
Proof.
  induction xs as [|[u a] xs IH]; intros c c' H x Er Hin Et.
  - injection Er as <- _. exists x. cbn. auto with lia.
  - unfold xa_run in Er. cbn [run] in Er. destruct (exec _ _ _ c (u, a)) as [[c1 e]|] eqn:Ex; [|discriminate]. destruct (run _ _ _ c1 xs) as [[c2 H2]|] eqn:Er2; [|discriminate]. injection Er as <- _.
    assert (Hin2 : inside t xs) by (intros b Hb; apply Hin; right; exact Hb).
    destruct (Nat.eq_dec u t) as [->|Hne].
    + destruct (Hin a (or_introl eq_refl)) as (k & ->). cbn in Ex. rewrite Et in Ex. destruct (xa_step late lossy (sh c) t x k) as [[s' x']|] eqn:Es; [|discriminate]. injection Ex as <- _.
      destruct (xa_step_own _ _ _ _ _ _ Es) as (L & _). destruct (IH _ _ _ x' Er2 Hin2) as (x2 & E2 & L2); [cbn; apply fupd_same|]. exists x2. split; [exact E2|].
      cbn [n_int woken spurs sh] in *. rewrite Nat.eqb_refl in *. lia.
    + assert (Hn : th c1 t = Some x /\ own (sh c1) t (xpt x) <= own (sh c) t (xpt x) + match a with AInt k => if wakes k t then 5 else 0 | _ => 0 end).
      { destruct a as [o|k|]; cbn in Ex; (destruct (th c u) as [pu|] eqn:Eu; try discriminate).
        - injection Ex as <- _. cbn. rewrite fupd_other by congruence. auto with lia.
        - destruct (xa_step late lossy (sh c) u pu k) as [[s' pu']|] eqn:Es; [|discriminate]. injection Ex as <- _. cbn. rewrite fupd_other by congruence. split; [exact Et|].
          destruct (xa_step_own _ _ _ _ _ _ Es) as (_ & _ & _ & Hw & _). apply own_other. apply Hw. congruence.
        - destruct (xa_fin pu); [|discriminate]. injection Ex as <- _. cbn. rewrite fupd_other by congruence. auto with lia. }
      destruct Hn as [E1 L1]. destruct (IH _ _ _ x Er2 Hin2 E1) as (x2 & E2 & L2). exists x2. split; [exact E2|].
      destruct a as [o|k|]; cbn [n_int woken spurs]; [lia| |lia]. rewrite (proj2 (Nat.eqb_neq u t) Hne). destruct (wakes k t); lia.
Qed.

(** A call that is not waiting *)
Lemma quick_run t xs : forall c c' H x, xa_run late lossy c xs = Some (c', H) -> inside t xs -> th c t = Some x -> (match aalpha (xpt x) with APend (ALoad _) => False | _ => True end) ->
  n_int t xs <= own (sh c) t (xpt x).
Proof.
  induction xs as [|[u a] xs IH]; intros c c' H x Er Hin Et Hq; [cbn; lia|].
  unfold xa_run in Er. cbn [run] in Er. destruct (exec _ _ _ c (u, a)) as [[c1 e]|] eqn:Ex; [|discriminate]. destruct (run _ _ _ c1 xs) as [[c2 H2]|] eqn:Er2; [|discriminate]. injection Er as <- _.
  assert (Hin2 : inside t xs) by (intros b Hb; apply Hin; right; exact Hb).
  destruct (Nat.eq_dec u t) as [->|Hne].
  - destruct (Hin a (or_introl eq_refl)) as (k & ->). cbn in Ex. rewrite Et in Ex. destruct (xa_step late lossy (sh c) t x k) as [[s' x']|] eqn:Es; [|discriminate]. injection Ex as <- _.
    destruct (xa_step_own _ _ _ _ _ _ Es) as (L & _).
    assert (Hn : match aalpha (xpt x') with APend (ALoad _) => False | _ => True end /\ spur k = 0).
    { clear - Es Hq. destruct k as [k|w|].
      - assert (E : exists p', air_step (sh c) t (xpt x) k = Some (s', p') /\ xpt x' = p').
        { destruct x as [pc|pc]; cbn [xa_step xpt] in *; (destruct (air_step (sh c) t pc k) as [[s1 p1]|]; [|discriminate]); injection Es as <- <-; eauto. }
        destruct E as (p' & E & ->). destruct (xpt x) as [| | | | | | | | | | | | | | | | | | | | | |]; cbn in Hq; try contradiction; destruct k; cbn in E; unfold lock in E;
          repeat lazymatch type of E with context [match ?z with _ => _ end] => destruct z eqn:? end; try discriminate E; injection E as <- <-; cbn; auto.
      - destruct x as [pc|pc]; cbn [xa_step xpt] in *; [|discriminate]. destruct (a_unwind late lossy (sh c) pc w) as [[s1 p1]|] eqn:E; [|discriminate]. injection Es as <- <-.
        destruct pc; cbn [a_unwind] in E; try discriminate; repeat lazymatch type of E with context [match ?x with _ => _ end] => destruct x eqn:? end; try discriminate E; injection E as <- <-; cbn; auto.
      - destruct x as [pc|pc]; cbn [xa_step xpt] in *; [|discriminate]. destruct pc; try discriminate. destruct lossy; [|discriminate]. injection Es as <- <-. cbn. auto. }
    destruct Hn as [Hn E0]. specialize (IH _ _ _ x' Er2 Hin2 ltac:(cbn; apply fupd_same) Hn). cbn [n_int sh] in *. rewrite Nat.eqb_refl. lia.
  - assert (Hn : th c1 t = Some x /\ own (sh c1) t (xpt x) <= own (sh c) t (xpt x)).
    { destruct a as [o|k|]; cbn in Ex; (destruct (th c u) as [pu|] eqn:Eu; try discriminate).
      - injection Ex as <- _. cbn. rewrite fupd_other by congruence. auto.
      - destruct (xa_step late lossy (sh c) u pu k) as [[s' pu']|] eqn:Es; [|discriminate]. injection Ex as <- _. cbn. rewrite fupd_other by congruence. split; [exact Et|].
        destruct (xpt x); cbn in Hq; try contradiction; cbn; lia.
      - destruct (xa_fin pu); [|discriminate]. injection Ex as <- _. cbn. rewrite fupd_other by congruence. auto. }
    destruct Hn as [E1 L1]. specialize (IH _ _ _ x Er2 Hin2 E1 Hq). destruct a as [o|k|]; cbn [n_int]; try lia. rewrite (proj2 (Nat.eqb_neq u t) Hne). lia.
Qed.

(** ** All threads together *)
Definition on (n : nat) xs : Prop := forall u a, In (u, a) xs -> u < n.
Fixpoint total (n : nat) (f : nat -> nat) : nat := match n with 0 => 0 | S m => total m f + f m end.
Definition work_of c (t : nat) : nat := match th c t with Some x => wt (sh c) t (xpt x) | None => 0 end.
Definition act_spur (a : act (xch V) (airop V)) : nat := match a with AInt k => spur k | _ => 0 end.
Definition act_cost (a : act (xch V) (airop V)) : nat := match a with ACall o => match o with ATryLoad _ | ALoad _ => 7 | AUnload => 13 | AIsLoaded => 2 end | _ => 0 end.
Fixpoint costs xs : nat := match xs with [] => 0 | (_, a) :: xs' => act_cost a + costs xs' end.
Fixpoint all_spurs xs : nat := match xs with [] => 0 | (_, a) :: xs' => act_spur a + all_spurs xs' end.
Fixpoint moves xs : nat := match xs with [] => 0 | (_, ACall _) :: xs' => moves xs' | _ :: xs' => S (moves xs') end.

Lemma total_le n f g : (forall t, t < n -> f t <= g t) -> total n f <= total n g.
Proof. induction n as [|n IH]; intros Hf; cbn; [lia|]. specialize (IH ltac:(intros; apply Hf; lia)). specialize (Hf n ltac:(lia)). lia. Qed.
Lemma total_one n f g t d e : t < n -> (forall u, u <> t -> f u <= g u) -> f t + d <= g t + e -> total n f + d <= total n g + e.
Proof.
  induction n as [|n IH]; intros Ht Hf Hlt; [lia|]. cbn. destruct (Nat.eq_dec t n) as [->|Hne].
  - enough (total n f <= total n g) by lia. apply total_le. intros u Hu. apply Hf. lia.
  - specialize (IH ltac:(lia) Hf Hlt). specialize (Hf n ltac:(lia)). lia.
Qed.
Lemma total_two n f g t v d e : t < n -> v <> t -> (forall u, u <> t -> u <> v -> f u <= g u) -> f v <= g v + 5 -> f t + d + 5 <= g t + e -> total n f + d <= total n g + e.
Proof.
  intros Ht Hv Hf Ev Et. set (h := fun u => if Nat.eqb u t then g t + e - d else if Nat.eqb u v then g v + 5 else g u).
  assert (Hh : total n h + d <= total n g + e + 5).
  { destruct (Nat.lt_ge_cases v n) as [Hvn|Hvn].
    - set (h2 := fun u => if Nat.eqb u v then g v + 5 else g u).
      assert (total n h + d <= total n h2 + e). { apply total_one with t; [exact Ht| |]; subst h h2; cbn beta. - intros u Hu. rewrite (proj2 (Nat.eqb_neq u t) Hu). lia. - rewrite Nat.eqb_refl. rewrite (proj2 (Nat.eqb_neq t v)) by congruence. lia. }
      assert (total n h2 + 0 <= total n g + 5). { apply total_one with v; [exact Hvn| |]; subst h2; cbn beta. - intros u Hu. rewrite (proj2 (Nat.eqb_neq u v) Hu). lia. - rewrite Nat.eqb_refl. lia. }
      lia.
    - enough (total n h + d <= total n g + e) by lia.
      assert (Hx : total n h <= total n (fun u => if Nat.eqb u t then g t + e - d else g u)).
      { apply total_le. intros u Hu. subst h. cbn beta. destruct (Nat.eqb u t); [lia|]. rewrite (proj2 (Nat.eqb_neq u v)) by lia. lia. }
      assert (total n (fun u => if Nat.eqb u t then g t + e - d else g u) + d <= total n g + e); [|lia].
      apply total_one with t; [exact Ht| |]; cbn beta. + intros u Hu. rewrite (proj2 (Nat.eqb_neq u t) Hu). lia. + rewrite Nat.eqb_refl. lia. }
  assert (total n f + 5 <= total n h); [|lia].
  assert (Hy : total n f + 5 <= total n h + 0).
  { apply total_one with t; [exact Ht| |]; subst h; cbn beta.
    - intros u Hu. rewrite (proj2 (Nat.eqb_neq u t) Hu). destruct (Nat.eqb_spec u v) as [->|Hw]; [lia|auto].
    - rewrite Nat.eqb_refl. lia. }
  lia.
Qed.

Lemma work_exec n c u a c' e : u < n -> xa_exec late lossy c (u, a) = Some (c', e) ->
  total n (work_of c') + moves [(u, a)] <= total n (work_of c) + (act_cost a + 6 * act_spur a).
Proof.
  intros Hu Ex. unfold xa_exec, exec in Ex. destruct a as [o|k|]; (destruct (th c u) as [x|] eqn:Eu; try discriminate).
  - injection Ex as <- _. apply total_one with u; [exact Hu| |]; unfold work_of; cbn [sh th].
    + intros v Hv. rewrite fupd_other by exact Hv. lia.
    + rewrite fupd_same, Eu. destruct o; cbn; lia.
  - destruct (xa_step late lossy (sh c) u x k) as [[s' x']|] eqn:Es; [|discriminate]. injection Ex as <- _.
    destruct (xa_step_own _ _ _ _ _ _ Es) as (L & Hl & Hw & Ha & _). cbn [moves act_cost act_spur].
    assert (Hoth : forall v, v <> u -> work_of (Cfg s' (fupd u (Some x') (th c))) v <= work_of c v + if wakes k v then 5 else 0).
    { intros v Hv. unfold work_of. cbn [sh th]. rewrite fupd_other by exact Hv. destruct (th c v) as [y|]; [|lia]. unfold wt. pose proof (own_other (sh c) s' v (xpt y) (wakes k v) (Ha v Hv)). lia. }
    destruct (waking k) eqn:Ek.
    + destruct k as [[|v| |]| |]; try discriminate. destruct (Hw eq_refl) as [E1 E2]. cbn [wakes] in Hoth.
      assert (Eme : work_of (Cfg s' (fupd u (Some x') (th c))) u + 1 + 5 <= work_of c u + 0).
      { unfold work_of. cbn [sh th]. rewrite fupd_same, Eu. unfold wt. rewrite E1, E2. cbn [spur] in L. lia. }
      cbn [spur]. destruct (Nat.eq_dec v u) as [->|Hne].
      * apply total_one with u; [exact Hu| |lia]. intros z Hz. specialize (Hoth z Hz). rewrite (proj2 (Nat.eqb_neq u z)) in Hoth by congruence. lia.
      * apply (total_two n _ _ u v); [exact Hu|exact Hne| | |lia].
        -- intros z Hz Hzv. specialize (Hoth z Hz). rewrite (proj2 (Nat.eqb_neq v z)) in Hoth by congruence. lia.
        -- specialize (Hoth v Hne). rewrite Nat.eqb_refl in Hoth. exact Hoth.
    + assert (Hnk : forall v, wakes k v = false) by (intros v; destruct k as [[]| |]; try discriminate; reflexivity).
      apply total_one with u; [exact Hu| |].
      * intros v Hv. specialize (Hoth v Hv). rewrite Hnk in Hoth. lia.
      * unfold work_of. cbn [sh th]. rewrite fupd_same, Eu. unfold wt. destruct (loud (xpt x')) eqn:E1; [rewrite (Hl eq_refl); lia|destruct (loud (xpt x)); lia].
  - destruct (xa_fin x) eqn:Ef; [|discriminate]. injection Ex as <- _. apply total_one with u; [exact Hu| |]; unfold work_of; cbn [sh th moves act_cost act_spur].
    + intros v Hv. rewrite fupd_other by exact Hv. lia.
    + rewrite fupd_same, Eu. unfold wt. lia.
Qed.
Lemma work_run n xs : forall c c' H, on n xs -> xa_run late lossy c xs = Some (c', H) -> total n (work_of c') + moves xs <= total n (work_of c) + (costs xs + 6 * all_spurs xs).
Proof.
  induction xs as [|[u a] xs IH]; intros c c' H Hn; unfold xa_run; cbn [run].
  - intros [= <- _]. cbn. lia.
  - destruct (exec _ _ _ c (u, a)) as [[c1 e]|] eqn:Ex; [|discriminate]. destruct (run _ _ _ c1 xs) as [[c2 H2]|] eqn:Er; [|discriminate]. intros [= <- _].
    pose proof (work_exec n c u a c1 e (Hn _ _ (or_introl eq_refl)) Ex) as L1. specialize (IH _ _ _ (fun v b Hb => Hn v b (or_intror Hb)) Er).
    cbn [costs all_spurs]. assert (moves ((u, a) :: xs) = moves [(u, a)] + moves xs) as -> by (destruct a; cbn; lia). lia.
Qed.
Lemma on_some xs : exists n, on n xs.
Proof.
  induction xs as [|[u a] xs [n Hn]]; [exists 0; intros u a []|]. exists (S (Nat.max u n)). intros v b [[= <- <-]|Hb]; [lia|]. specialize (Hn _ _ Hb). lia.
Qed.
Lemma moves_length xs : length xs = moves xs + length (calls xs).
Proof. induction xs as [|[u [o|k|]] xs IH]; unfold calls in *; cbn; [reflexivity|lia|lia|lia]. Qed.
Lemma costs_calls xs : costs xs <= 13 * length (calls xs).
Proof. induction xs as [|[u [o|k|]] xs IH]; unfold calls in *; cbn; [lia| |lia|lia]. destruct o; cbn; lia. Qed.
Lemma total_init n s : total n (work_of (init s)) = 0.
Proof. induction n as [|n IH]; cbn; [reflexivity|]. rewrite IH. reflexivity. Qed.
(** Only threads inside an operation move when nothing is called. *)
Lemma active xs : forall c c' H u a, xa_run late lossy c xs = Some (c', H) -> calls xs = [] -> In (u, a) xs -> th c u <> None.
Proof.
  induction xs as [|[v b] xs IH]; intros c c' H u a Er Hc Hi; [destruct Hi|].
  unfold xa_run in Er. cbn [run] in Er. destruct (exec _ _ _ c (v, b)) as [[c1 e]|] eqn:Ex; [|discriminate]. destruct (run _ _ _ c1 xs) as [[c2 H2]|] eqn:Er2; [|discriminate]. injection Er as <- _.
  unfold calls in Hc. cbn in Hc. destruct b as [o|k|]; cbn in Hc; [discriminate| |]; (destruct (th c v) as [x|] eqn:Ev; [|cbn in Ex; rewrite Ev in Ex; discriminate]).
  - destruct (Nat.eq_dec u v) as [->|Hne]; [congruence|]. destruct Hi as [Hi|Hi]; [congruence|]. specialize (IH _ _ _ _ _ Er2 Hc Hi).
    cbn in Ex. rewrite Ev in Ex. destruct (xa_step late lossy (sh c) v x k) as [[s' x']|]; [|discriminate]. injection Ex as <- _. cbn in IH. rewrite fupd_other in IH by exact Hne. exact IH.
  - destruct (Nat.eq_dec u v) as [->|Hne]; [congruence|]. destruct Hi as [Hi|Hi]; [congruence|]. specialize (IH _ _ _ _ _ Er2 Hc Hi).
    cbn in Ex. rewrite Ev in Ex. destruct (xa_fin x) as [r|]; [|discriminate]. injection Ex as <- _. cbn in IH. rewrite fupd_other in IH by exact Hne. exact IH.
Qed.
Lemma was_called xs : forall c c' H u, xa_run late lossy c xs = Some (c', H) -> th c' u <> None -> th c u <> None \/ exists a, In (u, a) xs.
Proof.
  induction xs as [|[v b] xs IH]; intros c c' H u Er Hu.
  - injection Er as <- _. auto.
  - unfold xa_run in Er. cbn [run] in Er. destruct (exec _ _ _ c (v, b)) as [[c1 e]|] eqn:Ex; [|discriminate]. destruct (run _ _ _ c1 xs) as [[c2 H2]|] eqn:Er2; [|discriminate]. injection Er as <- _.
    destruct (Nat.eq_dec u v) as [->|Hne]; [right; exists b; left; reflexivity|].
    destruct (IH _ _ _ _ Er2 Hu) as [E|(a & Ha)]; [left|right; exists a; right; exact Ha].
    destruct b as [o|k|]; cbn in Ex; (destruct (th c v) as [x|]; try discriminate).
    + injection Ex as <- _. cbn in E. rewrite fupd_other in E by exact Hne. exact E.
    + destruct (xa_step late lossy (sh c) v x k) as [[s' x']|]; [|discriminate]. injection Ex as <- _. cbn in E. rewrite fupd_other in E by exact Hne. exact E.
    + destruct (xa_fin x); [|discriminate]. injection Ex as <- _. cbn in E. rewrite fupd_other in E by exact Hne. exact E.
Qed.

(** ** Each unloading lets one waiting loader in: in terms of the atomic slot *)
Section drain.
Variable t : nat.
Variable q0 : option V.
Variable f0 : nat -> ast (airop V) (option (airret V)).
Hypothesis q0_ok : q0 <> None.
Hypothesis f0_ok : forall u, f0 u = AIdle \/ exists v, f0 u = APend (ALoad v).
Notation ast_t := (nat -> ast (airop V) (option (airret V))).
Definition over (r : airret V) (a : ast (airop V) (option (airret V))) : Prop := a = AIdle \/ a = ADone (Some r).
Definition phA (q : option V) (f : ast_t) : Prop := q = q0 /\ f t = APend AUnload /\ forall u, u <> t -> f u = f0 u.
Definition phB (q : option V) (f : ast_t) : Prop := q = None /\ over (AVal q0) (f t) /\ forall u, u <> t -> f u = f0 u.
Definition phC (q : option V) (f : ast_t) : Prop := exists u v, u <> t /\ f0 u = APend (ALoad v) /\ q = Some v /\ over (AVal q0) (f t) /\ over AUnit (f u) /\ forall z, z <> t -> z <> u -> f z = f0 z.
Definition phX (f : ast_t) : Prop := exists u, f u = ADone None.
Definition ph q f : Prop := phA q f \/ phB q f \/ phC q f.

Lemma over_not_pend r a o : over r a -> a <> APend o.
Proof. intros [-> | ->]; discriminate. Qed.
Lemma ph_ret q f r : ph q f -> f t = ADone r -> r = Some (AVal q0).
Proof. intros [(_ & E & _)|[(_ & E & _)|(u & v & _ & _ & _ & E & _)]] Et; rewrite Et in E; [discriminate| |]; destruct E; congruence. Qed.
Lemma phX_end q f H q' f' : atomic (xair_spec lossy) q f H q' f' -> (forall u, ~ In (HRet u None) H) -> phX f -> phX f'.
Proof.
  induction 1 as [q f|q f u o H q' f' E _ IH|q f u o r q1 H q' f' E Hs _ IH|q f u r H q' f' E _ IH]; intros Hr [z Ez]; [exists z; exact Ez| | |];
    (apply IH; [intros v Hv; apply (Hr v); try (right; exact Hv); exact Hv|]); exists z; (rewrite fupd_other; [exact Ez|]); try congruence.
  intros ->. apply (Hr u). left. congruence.
Qed.
Lemma drain_atomic q f H q' f' : atomic (xair_spec lossy) q f H q' f' -> (forall u o, ~ In (HInv u o) H) -> (forall u, ~ In (HRet u None) H) ->
  ph q f -> phX f' \/ ph q' f' /\ forall r, In (HRet t r) H -> r = Some (AVal q0).
Proof.
  induction 1 as [q f|q f u o H q' f' E _ IH|q f u o r q1 H q' f' E Hs Ha IH|q f u r H q' f' E _ IH]; intros Hi Hr Hp; [right; split; [exact Hp|intros r []]|destruct (Hi u o (or_introl eq_refl))| |].
  - destruct r as [r|]; [|left; eapply phX_end; [exact Ha|exact Hr|]; exists u; apply fupd_same].
    apply IH; [exact Hi|exact Hr|]. clear IH Ha.
    cbn in Hs. destruct Hp as [(-> & Et & Ho)|[(-> & Et & Ho)|(z & v & Hz & Ez & -> & Et & Eo & Ho)]].
    + destruct (Nat.eq_dec u t) as [->|Hne].
      * right; left. assert (o = AUnload) as -> by congruence. destruct q0 as [w|] eqn:Eq; [|congruence]. inversion Hs; subst. unfold phB. rewrite Eq. split; [reflexivity|]. split; [rewrite fupd_same; right; reflexivity|].
        intros x Hx. rewrite fupd_other by exact Hx. auto.
      * rewrite Ho in E by exact Hne. destruct (f0_ok u) as [E'|(v & E')]; [congruence|]. assert (o = ALoad v) as -> by congruence. inversion Hs; subst. congruence.
    + right; right. destruct (Nat.eq_dec u t) as [->|Hne]; [exfalso; eapply over_not_pend; eassumption|].
      pose proof E as E2. rewrite Ho in E2 by exact Hne. destruct (f0_ok u) as [E'|(v & E')]; [congruence|]. assert (o = ALoad v) as -> by congruence. inversion Hs; subst.
      exists u, v. split; [exact Hne|]. split; [exact E'|]. split; [reflexivity|]. split; [rewrite fupd_other by congruence; exact Et|]. split; [rewrite fupd_same; right; reflexivity|].
      intros z Hz Hzu. rewrite fupd_other by exact Hzu. auto.
    + exfalso. destruct (Nat.eq_dec u t) as [->|Hne]; [exact (over_not_pend _ _ _ Et E)|]. destruct (Nat.eq_dec u z) as [->|Hne2]; [exact (over_not_pend _ _ _ Eo E)|].
      rewrite Ho in E by assumption. destruct (f0_ok u) as [E'|(w & E')]; [congruence|]. assert (o = ALoad w) as -> by congruence. inversion Hs.
  - assert (Hret : u = t -> r = Some (AVal q0)) by (intros ->; eapply ph_ret; eassumption).
    destruct IH as [Hx|[Hx Hy]]; [intros v o Hv; apply (Hi v o); right; exact Hv|intros v Hv; apply (Hr v); right; exact Hv| |left; exact Hx|right; split; [exact Hx|intros r0 [[= -> ->]|Hr0]; auto]].
    destruct Hp as [(-> & Et & Ho)|[(-> & Et & Ho)|(z & v & Hz & Ez & -> & Et & Eo & Ho)]].
    + exfalso. destruct (Nat.eq_dec u t) as [->|Hne]; [congruence|]. rewrite Ho in E by exact Hne. destruct (f0_ok u) as [E'|(v & E')]; congruence.
    + right; left. split; [reflexivity|]. destruct (Nat.eq_dec u t) as [->|Hne].
      * split; [rewrite fupd_same; left; reflexivity|]. intros x Hx. rewrite fupd_other by exact Hx. auto.
      * rewrite Ho in E by exact Hne. destruct (f0_ok u) as [E'|(v & E')]; congruence.
    + right; right. exists z, v. split; [exact Hz|]. split; [exact Ez|]. split; [reflexivity|].
      assert (Hov : forall r y, over r (f y) -> over r (fupd u AIdle f y)) by (intros r0 y Hy; unfold fupd; destruct (Nat.eqb y u); [left; reflexivity|exact Hy]).
      split; [auto|]. split; [auto|]. intros x Hx1 Hx2. destruct (Nat.eq_dec x u) as [->|Hne]; [|rewrite fupd_other by exact Hne; auto].
      rewrite Ho in E by assumption. destruct (f0_ok u) as [E'|(w & E')]; congruence.
Qed.
End drain.
End air.
