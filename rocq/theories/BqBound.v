(** Blocking queues: how many steps an operation takes *)
From stdpp Require Import list.
From Verif Require Import Base Conc CondVar Herlihy BqModel BqSpec BqInv BqLin BqMore.
Local Open Scope nat_scope.

Section bq.
Context {V : Type}.
Notation bqcfg := (cfg (bqsh V) (bqpc V)).
Implicit Types (s : bqsh V) (pc : bqpc V) (c : bqcfg) (o : bqop V) (xs : list (nat * act cvc (bqop V))).

Ltac step_cases Es :=
  repeat lazymatch type of Es with
  | context [match ?x with _ => _ end] => destruct x eqn:?
  end; try discriminate Es; try (injection Es as <- <-).

(** In a schedule: spurious wakeups and timeouts of thread [t]; pushes called *)
Definition chance_of (t : nat) (x : nat * act cvc (bqop V)) : nat := match snd x with AInt CSpur | AInt CTime => if Nat.eqb (fst x) t then 1 else 0 | _ => 0 end.
Fixpoint chances (t : nat) xs : nat := match xs with [] => 0 | x :: xs' => chance_of t x + chances t xs' end.
Definition pushes_of (x : nat * act cvc (bqop V)) : nat := match snd x with ACall o => length (bvals o) | _ => 0 end.
Fixpoint pushes xs : nat := match xs with [] => 0 | x :: xs' => pushes_of x + pushes xs' end.

(** Steps left until the operation has answered or waits (again) *)
Definition tail (m : mode) : nat := match m with MTry | MFor true => 0 | MPop | MFor false => 5 | MCall => 6 end.
Definition steps pc : nat :=
  match pc with
  | P0 _ => 12 | P1 _ => 11 | P2 _ => 10 | P3 _ => 9 | P4 _ => 8 | P5 _ => 7 | P6 _ => 6 | P7 _ => 4 | P8 _ => 5 | PA _ => 4 | P9 _ => 3 | PB _ => 2 | PC => 1
  | PD _ => 4 | PE => 3 | PF => 2 | PH _ => 2 | PG => 1
  | R0 _ => 6 | R1 _ => 5 | R2 _ => 4 | R3 _ => 3 | R4 => 2 | R5 _ => 5 | R6 _ => 4 | R7 => 3 | R8 => 1
  | O0 m => 17 + tail m | OP m => 16 + tail m | OQ m => 2 + tail m
  | C0 m None => 15 + tail m | C1 m None => 14 + tail m | C2 m None => 13 + tail m | C3 m None => 12 + tail m | C4 m None => 11 + tail m | C5 m None => 10 + tail m
  | C6 m None => 11 + tail m | C7 m None => 10 + tail m
  | O1 m _ => 9 + tail m | O2 m => 8 + tail m
  | C0 m (Some _) => 7 + tail m | C1 m (Some _) => 6 + tail m | C2 m (Some _) => 5 + tail m | C3 m (Some _) => 4 + tail m | C4 m (Some _) => 3 + tail m | C5 m (Some _) => 2 + tail m
  | C6 m (Some _) => 3 + tail m | C7 m (Some _) => 2 + tail m
  | O3 m _ => 1 + tail m
  | CB => 6 | W0 _ => 5
  | WP m false => 4 | W1 m false => 3 | WQ _ => 2 | W2 _ => 2 | W3 _ => 1 | W4 _ => 1
  | WP m true => 20 + tail m | W1 m true => 19 + tail m | W5 m => 21 + tail m | W7 m => 18 + tail m
  | K0 => 3 | K1 => 2 | K2 _ => 1
  | S0 => 5 | S1 => 4 | S2 => 3 | S3 _ => 2 | S4 _ => 1
  | L0 => 8 | L1 => 7 | L2 => 6 | L3 => 5 | LP => 4 | L4 => 3 | L5 => 2 | L6 => 1
  | V0 _ => 5 | V1 _ => 4 | V2 _ => 3 | V3 _ => 2 | V4 _ => 1
  | E0 => 1
  | Ret _ | Crash => 0
  end.
Definition asleep s t pc : bool := match pc with W5 _ => inb t (bwait s) | _ => false end.
Definition left_at s t (x : option (bqpc V)) : nat := match x with Some pc => if asleep s t pc then 0 else steps pc | None => 0 end.

(** What a call of [o] takes if it does not wait *)
Definition cost o : nat :=
  match o with
  | BPush _ | BEmplace _ => 12 | BPushPri _ | BEmplacePri _ => 6
  | BTryPop => 17 | BPop | BPopFor => 22 | BPopCall => 23
  | BPeek => 3 | BSize | BReserve _ => 5 | BClear => 8 | BEmpty => 1
  end.
Definition lap : nat := 27.

Lemma cost_start o : steps (bq_start o) = cost o.
Proof. destruct o; reflexivity. Qed.
Lemma cost_le o : cost o <= 23.
Proof. destruct o; cbn; lia. Qed.

(** May still call notify_all *)
Definition loud pc : bool :=
  match pc with
  | P0 _ | P1 _ | P2 _ | P3 _ | P4 _ | P5 _ | P6 _ | P7 _ | P8 _ | PA _ | P9 _ | PD _ | PE | PF
  | R0 _ | R1 _ | R2 _ | R3 _ | R4 | R5 _ | R6 _ | R7 => true
  | _ => false
  end.

(** A step either notifies, which a thread can do once per push, or wakes up nobody but the thread itself. *)
Definition chance (k : cvc) : nat := match k with CSpur | CTime => 1 | _ => 0 end.
Lemma step_left bp s t pc k s' pc' : bq_step bp s t pc k = Some (s', pc') ->
  S (left_at s' t (Some pc')) <= left_at s t (Some pc) + 28 * chance k /\
  (loud pc' = true -> loud pc = true) /\
  ((loud pc = true /\ loud pc' = false) \/ forall u, u <> t -> inb u (bwait s) = true -> inb u (bwait s') = true).
Proof.
  intros Es. destruct k as [|u| |]; cbn [bq_step] in Es; try discriminate.
  - destruct pc; cbn [bq_step0] in Es; unfold lock_push, lock_pull, cont, after, test in Es; step_cases Es; subst;
      (split; [unfold left_at, asleep; cbn [bwait set_wait unlock_pull unlock_push inb existsb chance]; rewrite ?Nat.eqb_refl;
               repeat match goal with H : inb _ _ = _ |- _ => rewrite H end;
               repeat match goal with |- context [match ?x with _ => _ end] => is_var x; destruct x end; cbn [steps tail orb]; repeat match goal with |- context [match ?x with _ => _ end] => is_var x; destruct x end; try lia
              |split; [cbn; auto|try (left; split; reflexivity); right; intros z Hne Hv; cbn in *; try exact Hv]]).
    all: try (rewrite (proj2 (Nat.eqb_neq z t) Hne); exact Hv).
    all: try (fold (inb z (bwait s)); rewrite Hv; apply Bool.orb_true_r).
  - destruct pc; try discriminate. step_cases Es. split; [|split; [auto|right; intros z Hne Hv; apply inb_spec, rm_spec; cbn; split; [apply inb_spec; exact Hv|exact Hne]]].
    unfold left_at, asleep. rewrite Heqb. cbn [set_wait bwait chance]. destruct (inb t (rm t (bwait s))); cbn [steps]; destruct m as [| |[]|]; cbn; lia.
  - destruct pc; try discriminate. step_cases Es. split; [|split; [auto|right; intros z Hne Hv; apply inb_spec, rm_spec; cbn; split; [apply inb_spec; exact Hv|exact Hne]]].
    unfold left_at, asleep. cbn [set_wait bwait chance]. destruct (inb t (rm t (bwait s))), (inb t (bwait s)); cbn [steps tail]; lia.
Qed.

Lemma left_lap s s' u x : left_at s' u x <= left_at s u x + lap.
Proof.
  destruct x as [pc|]; cbn [left_at]; [|lia]. unfold asleep, lap. destruct pc; try lia. destruct (inb u (bwait s')), (inb u (bwait s)); try lia.
  cbn [steps]. destruct m as [| |[]|]; cbn; lia.
Qed.
Lemma left_same s s' u x : (inb u (bwait s) = true -> inb u (bwait s') = true) -> left_at s' u x <= left_at s u x.
Proof.
  intros Hi. destruct x as [pc|]; cbn [left_at]; [|lia]. unfold asleep. destruct pc; try lia. destruct (inb u (bwait s)); [rewrite Hi by reflexivity; lia|].
  destruct (inb u (bwait s')); lia.
Qed.

(** [P] lists the pushes that may still notify. *)
Definition covers (P : list nat) c : Prop := forall u pc, th c u = Some pc -> loud pc = true -> In u P.
Definition left c t : nat := left_at (sh c) t (th c t).

Lemma covers_init s : covers [] (init s).
Proof. intros u pc. discriminate. Qed.
Lemma loud_start o : loud (bq_start o) = true -> bvals o <> [].
Proof. destruct o; cbn; discriminate. Qed.

Lemma left_exec bp c x c' e P t : covers P c -> bq_exec bp c x = Some (c', e) ->
  exists P', covers P' c' /\ n_int t [x] + left c' t + lap * length P' <= left c t + lap * length P + (match x with (u, ACall o) => if Nat.eqb u t then cost o else 0 | _ => 0 end) + 28 * chance_of t x + lap * pushes_of x.
Proof.
  intros Hc Ex. destruct x as [u [o|k|]]; unfold bq_exec in Ex; cbn in Ex; unfold chance_of, pushes_of; cbn [n_int fst snd].
  - destruct (th c u) eqn:Eu; [discriminate|]. injection Ex as <- _. exists (match bvals o with [] => P | _ => u :: P end). split.
    + intros v pv. cbn. unfold fupd. destruct (Nat.eqb_spec v u) as [->|Hne].
      * intros [= <-] Hl. apply loud_start in Hl. destruct (bvals o); [congruence|]. left. reflexivity.
      * intros E1 E2. specialize (Hc _ _ E1 E2). destruct (bvals o); [exact Hc|right; exact Hc].
    + unfold left. cbn [sh th]. unfold fupd. rewrite (Nat.eqb_sym t u). destruct (Nat.eqb_spec u t) as [->|Hne].
      * rewrite Eu. cbn [left_at]. pose proof (cost_start o) as Hs. assert (asleep (sh c) t (bq_start o) = false) as -> by (destruct o; reflexivity). rewrite Hs.
        destruct o; cbn [bvals bval length]; lia.
      * destruct o; cbn [bvals bval length]; lia.
  - destruct (th c u) as [pc|] eqn:Eu; [|discriminate]. destruct (bq_step bp (sh c) u pc k) as [[s' pc']|] eqn:Es; [|discriminate]. injection Ex as <- _.
    destruct (step_left _ _ _ _ _ _ _ Es) as (H1 & H2 & H3).
    assert (Hch : chance k = match k with CSpur | CTime => 1 | _ => 0 end) by reflexivity.
    destruct H3 as [[H3 H4]|H3].
    + pose proof (Hc _ _ Eu H3) as HP. apply in_split in HP as (P1 & P2 & ->). exists (P1 ++ P2). split.
      * intros v pv. cbn. unfold fupd. destruct (Nat.eqb_spec v u) as [->|Hne]; [intros [= <-]; congruence|].
        intros E1 E2. specialize (Hc _ _ E1 E2). apply in_app_iff in Hc. apply in_app_iff. cbn in Hc. intuition congruence.
      * rewrite !app_length. cbn [length]. unfold left. cbn [sh th]. unfold fupd. rewrite (Nat.eqb_sym t u). destruct (Nat.eqb_spec u t) as [->|Hne].
        -- rewrite Eu. destruct k; cbn [chance] in *; lia.
        -- pose proof (left_lap (sh c) s' t (th c t)) as Hl. destruct k; lia.
    + exists P. split.
      * intros v pv. cbn. unfold fupd. destruct (Nat.eqb_spec v u) as [->|Hne]; [intros [= <-]; eauto|apply Hc].
      * unfold left. cbn [sh th]. unfold fupd. rewrite (Nat.eqb_sym t u). destruct (Nat.eqb_spec u t) as [->|Hne].
        -- rewrite Eu. destruct k; cbn [chance] in *; lia.
        -- pose proof (left_same (sh c) s' t (th c t) (H3 t (fun E => Hne (eq_sym E)))). destruct k; lia.
  - destruct (th c u) as [pc|] eqn:Eu; [|discriminate]. destruct (bq_fin pc) eqn:Ef; [|discriminate]. injection Ex as <- _. exists P. split.
    + intros v pv. cbn. unfold fupd. destruct (Nat.eqb_spec v u); [discriminate|apply Hc].
    + unfold left. cbn [sh th]. unfold fupd. rewrite (Nat.eqb_sym t u). destruct (Nat.eqb_spec u t) as [->|Hne]; [|lia]. rewrite Eu. cbn [left_at]. lia.
Qed.

(** The calls of [t], each with what it takes *)
Fixpoint costs (t : nat) xs : nat := match xs with [] => 0 | x :: xs' => (match x with (u, ACall o) => if Nat.eqb u t then cost o else 0 | _ => 0 end) + costs t xs' end.

Lemma left_run bp t xs : forall c c' H P, covers P c -> bq_run bp c xs = Some (c', H) ->
  exists P', covers P' c' /\ n_int t xs + left c' t + lap * length P' <= left c t + lap * length P + costs t xs + 28 * chances t xs + lap * pushes xs.
Proof.
  induction xs as [|x xs IH]; intros c c' H P Hc; unfold bq_run; cbn [run].
  - intros [= <- _]. exists P. split; [exact Hc|]. cbn. lia.
  - destruct (exec _ _ _ c x) as [[c1 e]|] eqn:Ex; [|discriminate]. destruct (run _ _ _ c1 xs) as [[c2 H2]|] eqn:Er; [|discriminate]. intros [= <- _].
    destruct (left_exec bp c x c1 e P t Hc Ex) as (P1 & Hc1 & L1). destruct (IH _ _ _ _ Hc1 Er) as (P2 & Hc2 & L2). exists P2. split; [exact Hc2|].
    cbn [costs chances pushes]. assert (n_int t (x :: xs) = n_int t [x] + n_int t xs) as -> by (destruct x as [u []]; cbn; lia).
    clear - L1 L2. set (A := match x with (u, ACall o) => if Nat.eqb u t then cost o else 0 | _ => 0 end) in *. lia.
Qed.

Lemma costs_calls t xs : costs t xs <= 23 * n_call t xs.
Proof.
  induction xs as [|[u [o|k|]] xs IH]; cbn [costs n_call]; try lia. pose proof (cost_le o). destruct (Nat.eqb u t); lia.
Qed.
Lemma inside_costs t xs : inside t xs -> costs t xs = 0.
Proof.
  induction xs as [|[u a] xs IH]; intros Hi; [reflexivity|]. cbn [costs]. rewrite IH by (intros b Hb; apply Hi; right; exact Hb).
  destruct a as [o|k|]; try reflexivity. destruct (Nat.eqb_spec u t) as [->|]; [|reflexivity]. destruct (Hi (ACall o) (or_introl eq_refl)) as (k & [=]).
Qed.

(** ** An operation that cannot wait *)
Definition calm pc : bool :=
  match pc with
  | O0 m | OP m | OQ m | C0 m _ | C1 m _ | C2 m _ | C3 m _ | C4 m _ | C5 m _ | C6 m _ | C7 m _ | O1 m _ | O2 m | O3 m _
  | W5 m | WP m true | W1 m true | WQ m | W2 m | W7 m => match m with MTry | MFor true => true | _ => false end
  | CB | W0 _ | W4 _ | WP _ false | W1 _ false => false
  | _ => true
  end.
Definition awake s t pc : Prop := calm pc = true /\ asleep s t pc = false.

Lemma calm_step bp s t pc k s' pc' : bq_step bp s t pc k = Some (s', pc') -> awake s t pc -> awake s' t pc' /\ S (steps pc') <= steps pc.
Proof.
  intros Es [Hc Ha]. unfold awake. destruct k as [|u| |]; cbn [bq_step] in Es; try discriminate.
  - destruct pc; cbn [bq_step0] in Es; unfold lock_push, lock_pull, cont, after, test in Es; step_cases Es; subst; cbn [calm asleep steps tail] in *; try discriminate;
      repeat match goal with |- context [match ?x with _ => _ end] => is_var x; destruct x end; try discriminate; cbn [calm asleep steps tail] in *;
      (split; [split; [assumption || reflexivity|reflexivity]|lia]).
  - destruct pc; try discriminate. cbn [asleep] in Ha. rewrite Ha in Es. discriminate.
  - destruct pc; try discriminate. destruct m as [| |[]|]; try discriminate.
Qed.

Lemma calm_run bp t xs : forall c c' H pc, bq_run bp c xs = Some (c', H) -> inside t xs -> th c t = Some pc -> awake (sh c) t pc ->
  exists pc', th c' t = Some pc' /\ awake (sh c') t pc' /\ n_int t xs + steps pc' <= steps pc.
Proof.
  induction xs as [|[u a] xs IH]; intros c c' H pc Er Hin Et Hw.
  - injection Er as <- _. exists pc. cbn. auto with lia.
  - unfold bq_run in Er. cbn [run] in Er. destruct (exec bq_start (bq_step bp) bq_fin c (u, a)) as [[c1 e]|] eqn:Ex; [|discriminate].
    destruct (run bq_start (bq_step bp) bq_fin c1 xs) as [[c2 H2]|] eqn:Er2; [|discriminate]. injection Er as <- _.
    assert (Hin2 : inside t xs) by (intros b Hb; apply Hin; right; exact Hb).
    assert (Hnext : exists pc1, th c1 t = Some pc1 /\ awake (sh c1) t pc1 /\ n_int t [(u, a)] + steps pc1 <= steps pc).
    { destruct (Nat.eq_dec u t) as [->|Hne].
      - destruct (Hin a (or_introl eq_refl)) as (k & ->). cbn in Ex. rewrite Et in Ex. destruct (bq_step bp (sh c) t pc k) as [[s' pc']|] eqn:Es; [|discriminate].
        injection Ex as <- _. destruct (calm_step _ _ _ _ _ _ _ Es Hw) as [Hw' Hs]. exists pc'. cbn. rewrite fupd_same, Nat.eqb_refl. split; [reflexivity|]. split; [exact Hw'|lia].
      - exists pc. destruct a as [o|k|]; cbn in Ex |- *; (destruct (th c u) as [pu|] eqn:Eu; try discriminate).
        + injection Ex as <- _. cbn. rewrite fupd_other by congruence. auto.
        + destruct (bq_step bp (sh c) u pu k) as [[s' pu']|] eqn:Es; [|discriminate]. injection Ex as <- _. cbn. rewrite fupd_other by congruence.
          rewrite (proj2 (Nat.eqb_neq u t) Hne). split; [exact Et|]. split; [|lia]. destruct Hw as [Hw1 Hw2]. split; [exact Hw1|].
          destruct pc; try reflexivity. cbn [asleep] in Hw2 |- *. apply inb_false. apply inb_false in Hw2. intros Hin'. apply Hw2.
          clear - Es Hin' Hne. destruct k as [|w| |]; cbn [bq_step] in Es; try discriminate.
          * destruct pu; cbn [bq_step0] in Es; unfold lock_push, lock_pull, cont, after, test in Es; step_cases Es; subst; cbn in Hin'; try exact Hin'; try contradiction.
            destruct Hin' as [E|E]; [congruence|exact E].
          * destruct pu; try discriminate. step_cases Es. cbn in Hin'. apply rm_spec in Hin'. tauto.
          * destruct pu; try discriminate. step_cases Es. cbn in Hin'. apply rm_spec in Hin'. tauto.
        + destruct (bq_fin pu); [|discriminate]. injection Ex as <- _. cbn. rewrite fupd_other by congruence. auto. }
    destruct Hnext as (pc1 & Et1 & Hw1 & L1). destruct (IH _ _ _ _ Er2 Hin2 Et1 Hw1) as (pc2 & Et2 & Hw2 & L2). exists pc2. split; [exact Et2|]. split; [exact Hw2|].
    assert (n_int t ((u, a) :: xs) = n_int t [(u, a)] + n_int t xs) as -> by (destruct a; cbn; lia). lia.
Qed.

(** ** All threads together *)
Definition ordinary xs : Prop := forall u a, In (u, a) xs -> a = AInt CStep \/ a = ARet.
Definition on (n : nat) xs : Prop := forall u a, In (u, a) xs -> u < n.
Fixpoint total (n : nat) (f : nat -> nat) : nat := match n with 0 => 0 | S m => total m f + f m end.
Definition acts (t : nat) xs : nat := length (List.filter (fun x => Nat.eqb (fst x) t) xs).
Definition busy c t : nat := match th c t with Some _ => 1 | None => 0 end.

Lemma total_le n f g : (forall t, t < n -> f t <= g t) -> total n f <= total n g.
Proof. induction n as [|n IH]; intros Hf; cbn; [lia|]. specialize (IH ltac:(intros; apply Hf; lia)). specialize (Hf n ltac:(lia)). lia. Qed.
Lemma total_bump n f g t : t < n -> (forall u, u <> t -> f u <= g u) -> f t < g t -> total n f < total n g.
Proof.
  induction n as [|n IH]; intros Ht Hf Hlt; [lia|]. cbn. destruct (Nat.eq_dec t n) as [->|Hne].
  - enough (total n f <= total n g) by lia. apply total_le. intros u Hu. apply Hf. lia.
  - specialize (IH ltac:(lia) Hf Hlt). specialize (Hf n ltac:(lia)). lia.
Qed.
Lemma acts_total n xs : on n xs -> length xs <= total n (fun t => acts t xs).
Proof.
  induction xs as [|[u a] xs IH]; intros Ho; cbn [length]; [lia|]. specialize (IH ltac:(intros v b Hb; eapply Ho; right; exact Hb)).
  enough (total n (fun t => acts t xs) < total n (fun t => acts t ((u, a) :: xs))) by lia.
  apply total_bump with u; [eapply Ho; left; reflexivity|..]; unfold acts; cbn [List.filter fst].
  - intros v Hv. destruct (Nat.eqb_spec u v); [congruence|lia].
  - rewrite Nat.eqb_refl. cbn. lia.
Qed.
Lemma acts_int bp t xs : forall c c' H, ordinary xs -> bq_run bp c xs = Some (c', H) -> acts t xs + busy c' t = n_int t xs + busy c t.
Proof.
  induction xs as [|[u a] xs IH]; intros c c' H Ho; unfold bq_run; cbn [run].
  - intros [= <- _]. reflexivity.
  - destruct (exec _ _ _ c (u, a)) as [[c1 e]|] eqn:Ex; [|discriminate]. destruct (run _ _ _ c1 xs) as [[c2 H2]|] eqn:Er; [|discriminate]. intros [= <- _].
    specialize (IH _ _ _ ltac:(intros v b Hb; eapply Ho; right; exact Hb) Er). unfold acts in *. cbn [List.filter fst n_int].
    destruct (Ho u a (or_introl eq_refl)) as [-> | ->]; cbn in Ex; (destruct (th c u) as [pc|] eqn:Eu; [|discriminate]).
    + destruct (bq_step0 bp (sh c) u pc) as [[s' pc']|]; [|discriminate]. injection Ex as <- _. unfold busy in IH at 2. cbn [th] in IH. unfold fupd in IH. rewrite (Nat.eqb_sym t u) in IH.
      destruct (Nat.eqb_spec u t) as [->|Hne]; cbn [length]; unfold busy at 2; [rewrite Eu|]; lia.
    + destruct (bq_fin pc); [|discriminate]. injection Ex as <- _. unfold busy in IH at 2. cbn [th] in IH. unfold fupd in IH. rewrite (Nat.eqb_sym t u) in IH.
      destruct (Nat.eqb_spec u t) as [->|Hne]; cbn [length]; unfold busy at 2; [rewrite Eu|]; lia.
Qed.
Lemma ordinary_calls xs : ordinary xs -> calls xs = [].
Proof.
  induction xs as [|[u a] xs IH]; intros Ho; [reflexivity|]. unfold calls in *. cbn. specialize (IH ltac:(intros v b Hb; eapply Ho; right; exact Hb)).
  destruct (Ho u a (or_introl eq_refl)) as [-> | ->]; exact IH.
Qed.
Lemma ordinary_quiet t xs : ordinary xs -> costs t xs = 0 /\ chances t xs = 0 /\ pushes xs = 0.
Proof.
  induction xs as [|[u a] xs IH]; intros Ho; [auto|]. destruct (IH ltac:(intros v b Hb; eapply Ho; right; exact Hb)) as (E1 & E2 & E3).
  cbn [costs chances pushes]. rewrite E1, E2, E3. destruct (Ho u a (or_introl eq_refl)) as [-> | ->]; auto.
Qed.
End bq.
