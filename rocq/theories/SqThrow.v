(** SimpleQueue when something throws: constructing, copying or moving an element or growing a vector in push, emplace, pushVector
    and reserve, moving the element out in pop, copying it in peek, and swapping elements in std::reverse.  The destructors of
    the locks then run.  push_back, emplace_back, insert at the end of a vector (as libstdc++ does it) and reserve leave the
    vector as it was; so does a move or a swap that throws with its elements.  Locking does not throw. *)
From stdpp Require Import list.
From Verif Require Import Base Conc Herlihy SqModel SqSpec SqProofs.

Section model.
Context {V : Type}.

(** [YU pc]: an exception is on its way; [pc] is what the thread is about to do *)
Inductive ypc := YP (pc : sqpc V) | YU (pc : sqpc V).
Inductive ych := YStep | YThrow | YRev (j : nat).

(** Where an exception may start, and the first destructor that then runs *)
Definition yunwind (s : sqsh V) (pc : sqpc V) : option (sqpc V) :=
  match pc with
  | P5 o => Some (P7 o)             (* [129, 153, 179]: ~pullLock; the push lock is not held *)
  | P10 o => Some (P11 o)           (* [138, 163, 188]: ~pushLock *)
  | O2 => if nonempty (pullE s) then Some (O3 None) else None   (* [206]: ~pullLock *)
  | K1 => if nonempty (pullE s) then Some (K2 None) else None   (* [228-229]: ~lock *)
  | V2 n => Some (V3 n)             (* [113-114]: ~pushLock, ~pullLock *)
  | _ => None
  end.

(** std::reverse left after [j] swaps *)
Definition rev_part (j : nat) (l : list V) : list V :=
  take j (rev l) ++ drop j (take (length l - j) l) ++ drop (length l - j) (rev l).

(** With [rv = false] swapping two elements does not throw. *)
Variable rv : bool.

Definition y_start (o : sqop V) : ypc := YP (sq_start o).
Definition y_step (s : sqsh V) (t : nat) (y : ypc) (k : ych) : option (sqsh V * ypc) :=
  match k, y with
  | YStep, YP pc => match sq_step s t pc tt with Some (s', pc') => Some (s', YP pc') | None => None end
  | YStep, YU pc => match sq_step s t pc tt with Some (s', pc') => Some (s', YU pc') | None => None end
  | YThrow, YP pc => match yunwind s pc with Some pc' => Some (s, YU pc') | None => None end
  | YRev j, YP (C5 k) =>           (* [247]: ~pullLock (and ~val); pushLock was released in line 246 *)
      if rv && (2 * j + 2 <=? length (pullE s))%nat then Some (set_pull s (rev_part j (pullE s)), YU (O3 None)) else None
  | _, _ => None
  end.
(** [None]: the operation threw *)
Definition y_fin (y : ypc) : option (option (sqret V)) :=
  match y with
  | YP pc => match sq_fin pc with Some r => Some (Some r) | None => None end
  | YU pc => match sq_fin pc with Some _ => Some None | None => None end
  end.

Definition y_run : cfg (sqsh V) ypc -> list (nat * act ych (sqop V)) -> option (cfg (sqsh V) ypc * list (hev (sqop V) (option (sqret V)))) := run y_start y_step y_fin.

(** States of a queue when no thread is using it, as [sq_reach] *)
Inductive y_reach (strict : bool) : sqsh V -> Prop :=
| yr_new : y_reach strict sq0
| yr_use s xs c H : y_reach strict s -> (strict = true -> Forall no_empty_batch (calls xs)) ->
    y_run (init s) xs = Some (c, H) -> (forall t, th c t = None) -> y_reach strict (sh c)
| yr_moved_to s : y_reach strict s -> y_reach strict (fst (sq_move s))
| yr_moved_from s : strict = false -> y_reach strict s -> y_reach strict (snd (sq_move s)).

Definition ypt (y : ypc) : sqpc V := match y with YP pc | YU pc => pc end.
End model.
Arguments ypc : clear implicits.

(** ** What it should do: an operation that throws does nothing else; pop and peek of an empty queue do not throw *)
Section spec.
Context {V : Type}.
Definition y_may (q : list V) (o : sqop V) : Prop :=
  match o with QPush _ | QEmplace _ | QPushVec _ | QReserve _ => True | QPop | QPeek => q <> [] | _ => False end.
Definition y_spec (strict : bool) (q : list V) (o : sqop V) (r : option (sqret V)) (q' : list V) : Prop :=
  match r with Some r => sq_spec strict q o r q' | None => y_may q o /\ q' = q end.
End spec.

Section proofs.
Context {V : Type}.
Variable strict : bool.
Notation sqcfg := (cfg (sqsh V) (sqpc V)).
Notation ycfg := (cfg (sqsh V) (ypc V)).
Implicit Types (s : sqsh V) (pc : sqpc V) (q : list V) (c : ycfg).

(** The queue without exceptions *)
Definition yer c : sqcfg := Cfg (sh c) (fun t => option_map ypt (th c t)).
Definition yup pc : Prop := match pc with P7 _ | P11 _ | O3 _ | K2 _ | V3 _ | V4 _ | Ret _ => True | _ => False end.
Record yR c q : Prop := { y_r : sqR strict (yer c) q; y_u : forall t pc, th c t = Some (YU pc) -> yup pc }.

Definition yalpha (y : ypc V) : ast (sqop V) (option (sqret V)) :=
  match y with
  | YP pc => match alpha pc with AIdle => AIdle | APend o => APend o | ADone r => ADone (Some r) end
  | YU _ => ADone None
  end.

Lemma yer_fupd s' t y c : forall u, th (yer (Cfg s' (fupd t (Some y) (th c)))) u = fupd t (Some (ypt y)) (th (yer c)) u.
Proof. intros u. cbn. unfold fupd. destruct (Nat.eqb u t); reflexivity. Qed.
Lemma yer_none t c : forall u, th (yer (Cfg (sh c) (fupd t None (th c)))) u = fupd t None (th (yer c)) u.
Proof. intros u. cbn. unfold fupd. destruct (Nat.eqb u t); reflexivity. Qed.

Lemma sqR_ext s f g q : (forall t, f t = g t) -> sqR strict (Cfg s f) q -> sqR strict (Cfg s g) q.
Proof.
  intros E [R1 R2 R3 R4]. cbn [sh th] in *.
  assert (Hl : forall L (h : sqpc V -> bool), lk L h f -> lk L h g) by (intros L h Hl t; rewrite (Hl t), E; reflexivity).
  assert (Hh : forall L, holder L g = holder L f) by (intros [t|]; cbn; rewrite ?E; reflexivity).
  split; cbn [sh th]; auto.
  - intros t pc. rewrite <- E. apply R3.
  - rewrite !Hh. exact R4.
Qed.

Lemma yup_step s t pc k s' pc' : sq_step s t pc k = Some (s', pc') -> yup pc -> yup pc'.
Proof. intros Es Hu. destruct pc; cbn in Hu; try contradiction; cbn in Es; try discriminate; injection Es as <- <-; exact I. Qed.
Lemma yup_done pc : yup pc -> exists r, alpha pc = ADone r.
Proof. destruct pc; cbn; try contradiction; eauto. Qed.

(** An exception starts. *)
Lemma yR_throw (c : sqcfg) q t pc pc' : sqR strict c q -> th c t = Some pc -> yunwind (sh c) pc = Some pc' ->
  sqR strict (Cfg (sh c) (fupd t (Some pc') (th c))) q /\ yup pc' /\ exists o, alpha pc = APend o /\ y_may q o.
Proof.
  intros HR Et Eu. pose proof HR as [R1 R2 R3 R4].
  assert (Hself : hpull pc = true -> hinv strict (Some pc) (sh c) (pend (holder (pushL (sh c)) (th c))) q).
  { intros Hh. pose proof (lk_owner _ _ _ _ _ R2 Et Hh) as E. rewrite E in R4. cbn in R4. rewrite Et in R4. exact R4. }
  assert (Hp : hpush pc' = hpush pc /\ hpull pc' = hpull pc) by (destruct pc; cbn in Eu; try discriminate; try (destruct (nonempty _); [|discriminate]); injection Eu as <-; auto).
  destruct Hp as [Hp1 Hp2].
  assert (Hpd : pend (holder (pushL (sh c)) (fupd t (Some pc') (th c))) -> pend (holder (pushL (sh c)) (th c))).
  { destruct (pushL (sh c)) as [u|] eqn:E; cbn; [|auto]. unfold fupd. destruct (Nat.eqb_spec u t) as [->|]; [|auto].
    destruct pc; cbn in Eu; try discriminate; try (destruct (nonempty _); [|discriminate]); injection Eu as <-; intros []. }
  assert (Hk : okpc strict pc') by (specialize (R3 _ _ Et); destruct pc; cbn in Eu; try discriminate; try (destruct (nonempty _); [|discriminate]); injection Eu as <-; cbn in *; auto).
  assert (Hsame : same_data (sh c) (sh c)) by (repeat split).
  split.
  - destruct (hpull pc) eqn:Eh.
    + eapply R_self; [exact HR|exact Et|exact Eh|exact Hp2|reflexivity|eapply lk_keep; eassumption|exact Hk|].
      intros H. apply (hinv_mono strict _ _ _ _ _ _ Hsame Hpd). destruct pc; cbn in Eu; try discriminate; try (destruct (nonempty _); [|discriminate]); injection Eu as <-; try discriminate; cbn [hinv] in *; try tauto.
    + eapply R_other; [exact HR|exact Et|exact Eh|exact Hp2|reflexivity|eapply lk_keep; eassumption|exact Hk|].
      intros x _ H. exact (hinv_mono strict _ _ _ _ _ _ Hsame Hpd H).
  - assert (Hq : nonempty (pullE (sh c)) = true -> gen strict (sh c) (pend (holder (pushL (sh c)) (th c))) q -> q <> []).
    { intros Hne (-> & _) E. apply app_eq_nil in E as [E _]. apply rev_nil_inv in E. rewrite E in Hne. discriminate. }
    specialize (R3 _ _ Et). destruct pc; cbn [yunwind] in Eu; try discriminate; try (destruct (nonempty _) eqn:En; [|discriminate]); injection Eu as <-; (split; [exact I|]);
      eexists; (split; [reflexivity|]); cbn in R3 |- *; try exact I; try (destruct o; cbn in R3 |- *; tauto).
    + apply Hq; [reflexivity|]. apply (Hself eq_refl).
    + apply Hq; [reflexivity|]. apply (Hself eq_refl).
Qed.

Lemma yR_int c q t k y s' y' : yR c q -> th c t = Some y -> y_step false (sh c) t y k = Some (s', y') ->
  exists q', yR (Cfg s' (fupd t (Some y') (th c))) q' /\
    ((q' = q /\ yalpha y' = yalpha y) \/ exists o r, yalpha y = APend o /\ yalpha y' = ADone r /\ y_spec strict q o r q').
Proof.
  intros [HR Hu] Et Es. assert (Et' : th (yer c) t = Some (ypt y)) by (cbn; rewrite Et; reflexivity).
  destruct k as [| |j].
  - assert (Hs : exists pc', sq_step (sh c) t (ypt y) tt = Some (s', pc') /\ ((exists pc, y = YP pc /\ y' = YP pc') \/ (exists pc, y = YU pc /\ y' = YU pc'))).
    { destruct y as [pc|pc]; cbn [y_step ypt] in *; destruct (sq_step (sh c) t pc tt) as [[s1 pc1]|] eqn:E; try discriminate; injection Es as <- <-; eauto 6. }
    destruct Hs as (pc' & Eb & Hy). destruct (sqR_int strict (yer c) q t tt (ypt y) s' pc' HR Et' Eb) as (q' & HR' & Hcase).
    exists q'. split.
    + split.
      * eapply sqR_ext; [intros u; symmetry; apply yer_fupd|]. destruct Hy as [(pc & -> & ->)|(pc & -> & ->)]; exact HR'.
      * intros u p E. cbn in E. unfold fupd in E. destruct (Nat.eqb u t); [|eapply Hu; exact E]. destruct Hy as [(pc & -> & ->)|(pc & -> & ->)]; [discriminate|].
        injection E as <-. eapply yup_step; [exact Eb|]. eapply Hu; exact Et.
    + destruct Hy as [(pc & -> & ->)|(pc & -> & ->)]; cbn [yalpha ypt] in *.
      * destruct Hcase as [[-> E]|(o & r & E1 & E2 & Hs)]; [left; rewrite E; auto|right]. exists o, (Some r). rewrite E1, E2. auto.
      * left. split; [|reflexivity]. destruct Hcase as [[-> E]|(o & r & E1 & E2 & Hs)]; [reflexivity|]. destruct (yup_done _ (Hu _ _ Et)) as [r' E]. congruence.
  - destruct y as [pc|pc]; cbn [y_step] in Es; [|discriminate]. destruct (yunwind (sh c) pc) as [pc'|] eqn:E; [|discriminate]. injection Es as <- <-.
    destruct (yR_throw (yer c) q t pc pc' HR Et' E) as (HR' & Hy & o & Ea & Hm). exists q. split.
    + split; [eapply sqR_ext; [intros u; symmetry; apply yer_fupd|]; exact HR'|]. intros u p Eu. cbn in Eu. unfold fupd in Eu. destruct (Nat.eqb u t); [|eapply Hu; exact Eu]. injection Eu as <-. exact Hy.
    + right. exists o, None. cbn. rewrite Ea. auto.
  - destruct y as [pc|pc]; cbn [y_step] in Es; [|discriminate]. destruct pc; discriminate.
Qed.
Lemma yR_call c q t o : yR c q -> sq_okop strict o -> th c t = None -> yR (Cfg (sh c) (fupd t (Some (y_start o)) (th c))) q /\ yalpha (y_start o) = APend o.
Proof.
  intros [HR Hu] Ho Et. assert (Et' : th (yer c) t = None) by (cbn; rewrite Et; reflexivity). destruct (sqR_call strict (yer c) q t o HR Ho Et') as [H1 H2]. split; [split|].
  - eapply sqR_ext; [intros u; symmetry; apply yer_fupd|]. exact H1.
  - intros u p E. cbn in E. unfold fupd in E. destruct (Nat.eqb u t); [discriminate|eapply Hu; exact E].
  - cbn. rewrite H2. reflexivity.
Qed.
Lemma yR_ret c q t y r : yR c q -> th c t = Some y -> y_fin y = Some r -> yR (Cfg (sh c) (fupd t None (th c))) q /\ yalpha y = ADone r.
Proof.
  intros [HR Hu] Et Ef. assert (Et' : th (yer c) t = Some (ypt y)) by (cbn; rewrite Et; reflexivity).
  assert (Hf : exists r0, sq_fin (ypt y) = Some r0 /\ match y with YP _ => r = Some r0 | YU _ => r = None end).
  { destruct y as [pc|pc]; cbn in *; destruct (sq_fin pc) as [r0|]; try discriminate; injection Ef as <-; eauto. }
  destruct Hf as (r0 & Ef0 & Hy). destruct (sqR_ret strict (yer c) q t (ypt y) r0 HR Et' Ef0) as [H1 H2]. split; [split|].
  - eapply sqR_ext; [intros u; symmetry; apply yer_none|]. exact H1.
  - intros u p E. cbn in E. unfold fupd in E. destruct (Nat.eqb u t); [discriminate|eapply Hu; exact E].
  - destruct y as [pc|pc]; cbn [yalpha ypt] in *; subst r; [rewrite H2|]; reflexivity.
Qed.

Lemma y_sim s xs c H : rest strict s -> (strict = true -> Forall no_empty_batch (calls xs)) -> y_run false (init s) xs = Some (c, H) ->
  exists q' f', atomic (y_spec strict) (sq_content s) (fun _ => AIdle) H q' f' /\ yR c q'.
Proof.
  intros Hr Hok Er. edestruct (sim_run y_start (y_step false) y_fin (y_spec strict) (sq_okop strict) yR yalpha) as (q' & f' & Ha & Hr' & _);
    [| | | | | |exact Er|exists q', f'; split; [exact Ha|exact Hr']].
  - intros c0 q t o. apply yR_call.
  - intros c0 q t k pc s' pc'. apply yR_int.
  - intros c0 q t pc r. apply yR_ret.
  - split; [apply (rest_R strict), Hr|discriminate].
  - reflexivity.
  - apply Forall_forall. intros o Ho Hs. specialize (Hok Hs). rewrite Forall_forall in Hok. auto.
Qed.
Lemma yR_rest c q : yR c q -> (forall t, th c t = None) -> rest strict (sh c) /\ q = sq_content (sh c).
Proof. intros [HR _] Hn. apply (R_rest strict (yer c) q HR). intros t. cbn. rewrite Hn. reflexivity. Qed.

Lemma y_reach_rest s : y_reach false strict s -> rest strict s.
Proof.
  induction 1 as [|s xs c H _ IH Hok Er Hn|s _ IH|s Hg _ IH].
  - split; [reflexivity|]. split; [reflexivity|]. unfold gen, flagok. cbn. tauto.
  - destruct (y_sim _ _ _ _ IH Hok Er) as (q' & f' & _ & Hr). apply (yR_rest _ _ Hr Hn).
  - destruct IH as (E1 & E2 & E3 & E4 & E5). unfold rest, sq_move, gen, flagok, sq_content in *. cbn in *.
    split; [reflexivity|]. split; [reflexivity|]. split; [reflexivity|]. split; [exact E4|]. destruct (pullE s) as [|v l]; cbn in *.
    + destruct (E4 eq_refl) as [-> _]. auto.
    + split; [discriminate|]. intros _ E. apply app_eq_nil in E as [E _]. apply app_eq_nil in E as [_ E]. discriminate.
  - destruct IH as (E1 & E2 & E3 & E4 & E5). unfold rest, sq_move, gen, flagok, sq_content in *. cbn in *. rewrite Hg. intuition congruence.
Qed.

(** ** Progress and races *)
Lemma y_can_step c t : can_step sq_start sq_step sq_fin (yer c) t -> can_step y_start (y_step false) y_fin c t.
Proof.
  intros (a & c' & e & Hn & Ex). cbn in Hn, Ex. destruct (th c t) as [y|] eqn:Et; cbn in *; [|congruence]. destruct a as [o|[]|]; [discriminate| |].
  - exists (AInt YStep). unfold exec. rewrite Et. destruct (sq_step (sh c) t (ypt y) tt) as [[s1 p1]|] eqn:E; [|discriminate].
    destruct y as [pc|pc]; cbn [y_step ypt] in *; rewrite E; do 2 eexists; (split; [congruence|reflexivity]).
  - exists ARet. unfold exec. rewrite Et. destruct (sq_fin (ypt y)) as [r|] eqn:E; [|discriminate].
    destruct y as [pc|pc]; cbn [y_fin ypt] in *; rewrite E; do 2 eexists; (split; [congruence|reflexivity]).
Qed.
Lemma y_live c q : yR c q -> (exists t, th c t <> None) -> exists t, can_step y_start (y_step false) y_fin c t.
Proof.
  intros [HR _] (t & Ht). destruct (sq_live strict (yer c) q HR) as [u Hu]; [exists t; cbn; destruct (th c t); [discriminate|congruence]|].
  exists u. apply y_can_step, Hu.
Qed.
Definition ytodo (y : ypc V) : nat := todo (ypt y).
Lemma ytodo_step s t y k s' y' : y_step false s t y k = Some (s', y') -> (ytodo y' < ytodo y)%nat.
Proof.
  unfold ytodo. destruct k as [| |j], y as [pc|pc]; cbn [y_step ypt]; try discriminate.
  - destruct (sq_step s t pc tt) as [[s1 p1]|] eqn:E; [|discriminate]. intros [= <- <-]. eapply todo_step; exact E.
  - destruct (sq_step s t pc tt) as [[s1 p1]|] eqn:E; [|discriminate]. intros [= <- <-]. eapply todo_step; exact E.
  - destruct (yunwind s pc) as [p1|] eqn:E; [|discriminate]. intros [= <- <-]. destruct pc; cbn in E; try discriminate; try (destruct (nonempty _); [|discriminate]); injection E as <-; cbn; lia.
  - destruct pc; discriminate.
Qed.
End proofs.
