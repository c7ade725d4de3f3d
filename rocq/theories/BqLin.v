(** Blocking queues are linearizable (up to the answers of try_peek, size and empty).

    A push that finds pushElements empty and the flag set lets go of its lock and later inserts into pullElements, in front
    of anything placed in pushElements meanwhile.  Whether its effect comes before that of a push that already returned is
    only decided later, so the proof goes backwards: [g] guesses which of these pushes will be inserted in front, and in
    which order. *)
From stdpp Require Import list.
From Verif Require Import Base Conc CondVar BqModel BqSpec BqInv.

Section bq.
Context {V : Type}.
Variable bp : bool.
Notation bqcfg := (cfg (bqsh V) (bqpc V)).
Notation bast := (ast (bqop V) (bqret V)).
Implicit Types (s : bqsh V) (pc : bqpc V) (c : bqcfg).

Definition final (m : mode) : bool := match m with MTry | MFor true => true | _ => false end.
Definition pop_none (m : mode) : bast := if final m then ADone (BVal None) else APend (mop m).

(** How far the operation is *)
Definition alpha pc : bast :=
  match pc with
  | P0 o | P1 o | P2 o | P3 o | P4 o | P5 o | P6 o | P7 o | P8 o | PA o | PD o | PH o => APend o
  | P9 _ | PB _ | PC | PE | PF | PG => ADone BUnit
  | R0 o | R1 o | R2 o | R3 o | R5 o | R6 o => APend o
  | R4 | R7 | R8 => ADone BUnit
  | O0 m | OP m | OQ m | O1 m false | O2 m => APend (mop m)
  | C0 m None | C1 m None | C2 m None | C3 m None | C4 m None | C5 m None | C6 m None => APend (mop m)
  | C7 m None | O1 m true | O3 m None => pop_none m
  | C0 _ (Some v) | C1 _ (Some v) | C2 _ (Some v) | C3 _ (Some v) | C4 _ (Some v) | C5 _ (Some v) | C6 _ (Some v) | C7 _ (Some v)
  | O3 _ (Some v) | W3 v => ADone (BVal (Some v))
  | CB => APend BPopCall
  | W0 m | WP m _ | WQ m | W1 m _ | W2 m | W4 m | W5 m | W7 m => APend (mop m)
  | K0 | K1 => APend BPeek | K2 r => ADone (BVal r)
  | S0 | S1 | S2 => APend BSize | S3 n | S4 n => ADone (BNum n)
  | L0 | L1 | L2 => APend BClear | L3 | LP | L4 | L5 | L6 => ADone BUnit
  | V0 n | V1 n | V2 n => APend (BReserve n) | V3 _ | V4 _ => ADone BUnit
  | E0 => APend BEmpty
  | Ret r => ADone r
  | Crash => AIdle
  end.

(** Pushes that may still insert into pullElements *)
Definition reg pc : option (bqop V) := match pc with P3 o | P4 o | P5 o | P6 o | P7 o => Some o | _ => None end.

(** What the holder of the pull lock is doing to the vectors: nothing; pullElements not yet reversed; clearing *)
Inductive kind := KRev | KFwd | KClr.
Definition pkind pc : kind := match pc with C4 _ _ | C5 _ _ => KFwd | L3 | LP => KClr | _ => KRev end.
Definition kindo (h : option (bqpc V)) : kind := match h with Some pc => pkind pc | None => KRev end.
Definition ckind c : kind := kindo (holder (pullL (sh c)) (th c)).

Definition absd (k : kind) s (G : list V) : list V * list V :=
  match k with
  | KRev => (prioE s, rev (pullE s) ++ G ++ pushE s)
  | KFwd => (prioE s, pullE s ++ G ++ pushE s)
  | KClr => ([], [])
  end.

Definition gv (f : nat -> option (bqpc V)) (u : nat) : list V :=
  match f u with Some pc => match reg pc with Some o => bvals o | None => [] end | None => [] end.
Definition gvals (f : nat -> option (bqpc V)) (g : list nat) : list V := flat_map (gv f) g.

Definition bview (f : nat -> option (bqpc V)) (g : list nat) (u : nat) : bast :=
  if inb u g then ADone BUnit else aview alpha (f u).

Record bB c (q : list V * list V) (f : nat -> bast) (g : list nat) : Prop := {
  b_nd : NoDup g;
  b_in : forall u, In u g -> exists pc o, th c u = Some pc /\ reg pc = Some o;
  b_ne : g <> [] -> pushE (sh c) <> [] /\ ckind c <> KClr;
  b_q : q = absd (ckind c) (sh c) (gvals (th c) g);
  b_f : forall u, f u = bview (th c) g u;
}.
Definition bqB c q f : Prop := exists g, bB c q f g.

Notation bback := (back bq_spec bqB).

Lemma gvals_fupd f t x g : ~ In t g -> gvals (fupd t x f) g = gvals f g.
Proof.
  induction g as [|u g IH]; [reflexivity|]. intros Hn. unfold gvals in *. cbn. rewrite IH by (intros Hi; apply Hn; right; exact Hi). f_equal.
  unfold gv. rewrite fupd_other; [reflexivity|]. intros ->. apply Hn. left. reflexivity.
Qed.
Lemma gvals_same f t pc pc' g : f t = Some pc -> reg pc' = reg pc -> gvals (fupd t (Some pc') f) g = gvals f g.
Proof.
  intros Et E. unfold gvals. induction g as [|u g IH]; [reflexivity|]. cbn. rewrite IH. f_equal.
  unfold gv, fupd. destruct (Nat.eqb_spec u t) as [->|]; [|reflexivity]. rewrite Et, E. reflexivity.
Qed.

(** The kinds before and after a step *)
Lemma kind_step c t k pc s' pc' : bqI bp c -> th c t = Some pc -> bq_step bp (sh c) t pc k = Some (s', pc') ->
  let c' := Cfg s' (fupd t (Some pc') (th c)) in
  (hpull pc = true -> ckind c = pkind pc) /\ (hpull pc' = true -> ckind c' = pkind pc') /\
  (hpull pc = false -> hpull pc' = true -> ckind c = KRev) /\ (hpull pc = true -> hpull pc' = false -> ckind c' = KRev) /\
  (hpull pc = false -> hpull pc' = false -> ckind c' = ckind c) /\
  (hpush pc = true -> hpull pc = false -> ckind c <> KClr).
Proof.
  intros Hi Et Es c'. pose proof (i_pull _ _ Hi) as Hl. pose proof (bqI_int _ _ _ _ _ _ _ Hi Et Es) as Hi'. pose proof (i_pull _ _ Hi') as Hl'.
  assert (Hne : forall b, hpull pc = b -> pullL (sh c) = Some t -> b = true).
  { intros b Hb Ho. apply Hl in Ho as (x & E & Hx). congruence. }
  assert (Hk : hpull pc = false -> hpull pc' = false -> pullL s' = pullL (sh c)).
  { destruct (step_locks _ _ _ _ _ _ _ Es) as [[[E1 E2]|[(E1 & E2 & E3 & E4)|(E1 & E2 & E3)]] _]; congruence. }
  assert (Ho : hpull pc = true -> pullL (sh c) = Some t) by (eapply lk_owner; eassumption).
  assert (Ho' : hpull pc' = true -> pullL s' = Some t) by (eapply (lk_owner _ _ _ _ _ Hl'); apply fupd_same).
  assert (Ha : hpull pc = false -> hpull pc' = true -> pullL (sh c) = None).
  { destruct (step_locks _ _ _ _ _ _ _ Es) as [[[E1 E2]|[(E1 & E2 & E3 & E4)|(E1 & E2 & E3)]] _]; congruence. }
  assert (Hr : hpull pc = true -> hpull pc' = false -> pullL s' = None).
  { destruct (step_locks _ _ _ _ _ _ _ Es) as [[[E1 E2]|[(E1 & E2 & E3 & E4)|(E1 & E2 & E3)]] _]; congruence. }
  unfold ckind, c'. cbn [sh th]. splits.
  - intros E. rewrite (Ho E). cbn. rewrite Et. reflexivity.
  - intros E. rewrite (Ho' E). cbn. rewrite fupd_same. reflexivity.
  - intros E1 E2. rewrite (Ha E1 E2). reflexivity.
  - intros E1 E2. rewrite (Hr E1 E2). reflexivity.
  - intros E1 E2. rewrite (Hk E1 E2), holder_other; [reflexivity|]. intros E. specialize (Hne _ E1 E). congruence.
  - intros E1 E2 E3. destruct (pullL (sh c)) as [u|] eqn:El; [|discriminate]. cbn in E3. destruct (th c u) as [x|] eqn:Eu; [|discriminate].
    assert (Hx : hpush x = true) by (destruct x; cbn in *; congruence).
    pose proof (lk_owner _ _ _ _ _ (i_push _ _ Hi) Et E1). pose proof (lk_owner _ _ _ _ _ (i_push _ _ Hi) Eu Hx).
    assert (u = t) by congruence. subst u. specialize (Hne _ E2 eq_refl). congruence.
Qed.

(** A step that takes no effect *)
Lemma back_same c t k pc s' pc' q' f' : bqI bp c -> th c t = Some pc -> bq_step bp (sh c) t pc k = Some (s', pc') ->
  bqB (Cfg s' (fupd t (Some pc') (th c))) q' f' ->
  alpha pc' = alpha pc -> reg pc' = None \/ reg pc' = reg pc \/ pushE s' = [] -> 
  (ckind (Cfg s' (fupd t (Some pc') (th c))) <> KClr -> pushE s' <> [] -> pushE (sh c) <> [] /\ ckind c <> KClr) ->
  (forall G, (G <> [] -> pushE s' <> []) -> absd (ckind (Cfg s' (fupd t (Some pc') (th c)))) s' G = absd (ckind c) (sh c) G) ->
  bback c [] q' f'.
Proof.
  intros Hi Et Es [g [Hnd Hin Hne Hq Hf]] Ea Hr Hn Hd. cbn [sh th] in *.
  assert (Hg : (In t g -> reg pc' = reg pc)).
  { intros Hg. destruct Hr as [Hr|[Hr|Hr]]; [|exact Hr|].
    - destruct (Hin t Hg) as (x & o & E & Ho). rewrite fupd_same in E. congruence.
    - destruct g as [|a g]; [destruct Hg|]. destruct (Hne ltac:(discriminate)); contradiction. }
  assert (Hgv : gvals (fupd t (Some pc') (th c)) g = gvals (th c) g).
  { destruct (in_dec Nat.eq_dec t g); [eapply gvals_same; eauto|apply gvals_fupd; assumption]. }
  exists q', f', f'. split; [|split; [constructor|reflexivity]]. exists g. split.
  - exact Hnd.
  - intros u Hu. destruct (Hin u Hu) as (x & o & E & Ho). unfold fupd in E. destruct (Nat.eqb_spec u t) as [->|]; [|eauto].
    injection E as <-. exists pc, o. rewrite <- Hg by exact Hu. auto.
  - intros Hg0. destruct (Hne Hg0). auto.
  - rewrite Hq, Hgv. apply Hd. intros HG. apply Hne. intros ->. apply HG. reflexivity.
  - intros u. rewrite Hf. unfold bview. destruct (inb u g); [reflexivity|]. unfold fupd. destruct (Nat.eqb_spec u t) as [->|]; [|reflexivity].
    rewrite Et. cbn. congruence.
Qed.

(** A step that is the effect of the operation *)
Lemma back_eff c t k pc s' pc' q' f' o r : bqI bp c -> th c t = Some pc -> bq_step bp (sh c) t pc k = Some (s', pc') ->
  bqB (Cfg s' (fupd t (Some pc') (th c))) q' f' ->
  alpha pc = APend o -> alpha pc' = ADone r -> reg pc' = None ->
  (ckind (Cfg s' (fupd t (Some pc') (th c))) <> KClr -> pushE s' <> [] -> pushE (sh c) <> [] /\ ckind c <> KClr) ->
  (forall G, (G <> [] -> pushE s' <> [] /\ ckind (Cfg s' (fupd t (Some pc') (th c))) <> KClr) ->
     bq_spec (absd (ckind c) (sh c) G) o r (absd (ckind (Cfg s' (fupd t (Some pc') (th c)))) s' G)) ->
  bback c [] q' f'.
Proof.
  intros Hi Et Es [g [Hnd Hin Hne Hq Hf]] Ea Ea' Hr Hn Hd. cbn [sh th] in *.
  assert (Hg : ~ In t g). { intros Hg. destruct (Hin t Hg) as (x & o' & E & Ho). rewrite fupd_same in E. congruence. }
  assert (Ei : inb t g = false) by (apply inb_false; exact Hg).
  assert (Hgv : gvals (fupd t (Some pc') (th c)) g = gvals (th c) g) by (apply gvals_fupd; assumption).
  exists (absd (ckind c) (sh c) (gvals (th c) g)), (bview (th c) g), (fupd t (ADone r) (bview (th c) g)). split; [|split].
  - exists g. split; auto.
    + intros u Hu. destruct (Hin u Hu) as (x & o' & E & Ho). rewrite fupd_other in E by congruence. eauto.
    + intros Hg0. destruct (Hne Hg0). auto.
  - eapply at_eff; [unfold bview; rewrite Ei, Et; exact Ea| |constructor]. rewrite Hq, Hgv. apply Hd. intros HG. apply Hne. intros ->. apply HG. reflexivity.
  - intros u. rewrite Hf. unfold bview, fupd. destruct (Nat.eqb_spec u t) as [->|]; [|reflexivity]. rewrite Ei. cbn. congruence.
Qed.

Lemma spec_push (P N : list V) o : is_push o -> bq_spec (P, N) o BUnit (P, N ++ bvals o).
Proof. destruct o; cbn; try contradiction; intros _; constructor. Qed.
Lemma spec_prio (P N : list V) o : is_prio bp o -> bq_spec (P, N) o BUnit (P ++ bvals o, N).
Proof. destruct o; cbn; try contradiction; intros _; constructor. Qed.

(** The guessed pushes take effect *)
Lemma atomic_pushes (h : nat -> option (bqpc V)) P : forall g N (f : nat -> bast), NoDup g ->
  (forall u, In u g -> exists pc o, h u = Some pc /\ reg pc = Some o /\ is_push o /\ f u = APend o) ->
  exists f', atomic bq_spec (P, N) f [] (P, N ++ gvals h g) f' /\ forall u, f' u = if inb u g then ADone BUnit else f u.
Proof.
  induction g as [|a g IH]; intros N f Hnd Hg; cbn.
  - exists f. rewrite app_nil_r. split; [constructor|reflexivity].
  - apply NoDup_cons in Hnd as [Ha Hnd]. rewrite elem_of_list_In in Ha. destruct (Hg a (or_introl eq_refl)) as (pc & o & E1 & E2 & E3 & E4).
    assert (Ev : gv h a = bvals o) by (unfold gv; rewrite E1, E2; reflexivity).
    destruct (IH (N ++ bvals o) (fupd a (ADone BUnit) f) Hnd) as (f' & Hat & Hf').
    { intros u Hu. destruct (Hg u (or_intror Hu)) as (pc1 & o1 & F1 & F2 & F3 & F4). exists pc1, o1. rewrite fupd_other by congruence. auto. }
    exists f'. split.
    + eapply at_eff; [exact E4|apply spec_push, E3|]. unfold gvals in *. cbn. rewrite Ev, app_assoc. exact Hat.
    + intros u. rewrite Hf'. unfold fupd. destruct (Nat.eqb_spec u a) as [->|]; cbn; [destruct (inb a g)|]; reflexivity.
Qed.

(** Appending to pushElements *)
Lemma back_append c t k pc s' pc' q' f' o : bqI bp c -> th c t = Some pc -> bq_step bp (sh c) t pc k = Some (s', pc') ->
  bqB (Cfg s' (fupd t (Some pc') (th c))) q' f' ->
  alpha pc = APend o -> alpha pc' = ADone BUnit -> reg pc = None -> reg pc' = None -> is_push o ->
  ckind c <> KClr -> ckind (Cfg s' (fupd t (Some pc') (th c))) = ckind c ->
  s' = set_push (sh c) (pushE (sh c) ++ bvals o) ->
  bback c [] q' f'.
Proof.
  intros Hi Et Es HB Ea Ea' Hr0 Hr Ho Hk Hk' Es'. destruct (list_eq_nil_dec (pushE (sh c))) as [E0|E0].
  2:{ eapply back_eff; eauto. rewrite Hk'. subst s'. cbn. intros G HG. destruct (ckind c); cbn; [| |congruence]; rewrite !app_assoc; apply spec_push, Ho. }
  destruct HB as [g [Hnd Hin Hne Hq Hf]]. cbn [sh th] in *.
  assert (Hg : ~ In t g). { intros Hg. destruct (Hin t Hg) as (x & o' & E & Ho'). rewrite fupd_same in E. congruence. }
  assert (Ei : inb t g = false) by (apply inb_false; exact Hg).
  assert (Hgv : gvals (fupd t (Some pc') (th c)) g = gvals (th c) g) by (apply gvals_fupd; assumption).
  set (q0 := absd (ckind c) (sh c) []). set (f0 := bview (th c) []).
  assert (Hb0 : bqB c q0 f0). { exists []. split; [constructor|intros u []|congruence|reflexivity|reflexivity]. }
  destruct (atomic_pushes (th c) (fst q0) g (snd q0) f0 Hnd) as (f1 & Hat & Hf1).
  { intros u Hu. destruct (Hin u Hu) as (x & o' & E & Ho'). rewrite fupd_other in E by congruence. exists x, o'. split; [exact E|]. split; [exact Ho'|].
    unfold f0, bview. cbn. rewrite E. cbn. destruct (i_pc _ _ Hi _ _ E) as [_ Hok]. destruct x; try discriminate; injection Ho' as ->; auto. }
  exists q0, f0, (fupd t (ADone BUnit) f1). split; [exact Hb0|split].
  - change (@nil (hev (bqop V) (bqret V))) with (@nil (hev (bqop V) (bqret V)) ++ []). rewrite (surjective_pairing q0). eapply atomic_app; [exact Hat|].
    eapply at_eff; [rewrite Hf1, Ei; unfold f0, bview; cbn; rewrite Et; exact Ea| |rewrite Hq; constructor].
    rewrite Hk', Hgv, Es'. unfold q0, absd. destruct (ckind c); cbn; [| |congruence]; rewrite E0; cbn; rewrite !app_nil_r, !app_assoc; apply spec_push, Ho.
  - intros u. rewrite Hf. unfold fupd, bview. destruct (Nat.eqb_spec u t) as [->|]; [rewrite Ei; cbn; congruence|]. rewrite Hf1. unfold f0, bview. cbn. reflexivity.
Qed.

(** Inserting into pullElements: the guess was right, or nobody could tell *)
Lemma back_insert c t pc s' pc' q' f' o k : bqI bp c -> th c t = Some pc -> bq_step bp (sh c) t pc k = Some (s', pc') ->
  bqB (Cfg s' (fupd t (Some pc') (th c))) q' f' ->
  alpha pc = APend o -> alpha pc' = ADone BUnit -> reg pc = Some o -> reg pc' = None -> is_push o -> pullE (sh c) = [] ->
  ckind c = KRev -> ckind (Cfg s' (fupd t (Some pc') (th c))) = KRev ->
  s' = set_pull (sh c) (pullE (sh c) ++ bvals o) ->
  bback c [] q' f'.
Proof.
  intros Hi Et Es HB Ea Ea' Hr0 Hr Ho Hp Hk Hk' Es'. destruct (list_eq_nil_dec (pushE (sh c))) as [E0|E0].
  - eapply back_eff; eauto.
    + rewrite Es'. cbn. congruence.
    + rewrite Hk, Hk', Es'. cbn. rewrite E0, Hp. intros G HG. destruct G as [|x G]; [|destruct (proj1 (HG ltac:(discriminate)) eq_refl)]. cbn. rewrite app_nil_r.
      destruct o; try contradiction; constructor.
  - destruct HB as [g [Hnd Hin Hne Hq Hf]]. cbn [sh th] in *.
    assert (Hg : ~ In t g). { intros Hg. destruct (Hin t Hg) as (x & o' & E & Ho'). rewrite fupd_same in E. congruence. }
    assert (Ei : inb t g = false) by (apply inb_false; exact Hg).
    assert (Hgv : gvals (fupd t (Some pc') (th c)) g = gvals (th c) g) by (apply gvals_fupd; assumption).
    exists q', f', f'. split; [|split; [constructor|reflexivity]]. exists (t :: g). split.
    + apply NoDup_cons. rewrite elem_of_list_In. auto.
    + intros u [<-|Hu]; [eauto|]. destruct (Hin u Hu) as (x & o' & E & Ho'). rewrite fupd_other in E by congruence. eauto.
    + intros _. split; [exact E0|congruence].
    + rewrite Hq, Hk, Hk', Hgv, Es'. cbn. rewrite Hp. cbn. unfold gv at 1. rewrite Et, Hr0. destruct o; try contradiction; reflexivity.
    + intros u. rewrite Hf. unfold bview. cbn. unfold fupd. destruct (Nat.eqb_spec u t) as [->|]; cbn; [rewrite Ei; cbn; congruence|reflexivity].
Qed.

Lemma absd_fields k s s' G : pushE s' = pushE s -> pullE s' = pullE s -> prioE s' = prioE s -> absd k s' G = absd k s G.
Proof. intros E1 E2 E3. unfold absd. rewrite E1, E2, E3. reflexivity. Qed.

(** A step that neither takes effect nor changes the content *)
Lemma back_quiet c t k pc s' pc' q' f' : bqI bp c -> th c t = Some pc -> bq_step bp (sh c) t pc k = Some (s', pc') ->
  bqB (Cfg s' (fupd t (Some pc') (th c))) q' f' ->
  alpha pc' = alpha pc -> reg pc' = None \/ reg pc' = reg pc \/ pushE s' = [] -> pkind pc = KRev -> pkind pc' = KRev ->
  pushE s' = pushE (sh c) -> pullE s' = pullE (sh c) -> prioE s' = prioE (sh c) -> bback c [] q' f'.
Proof.
  intros Hi Et Es HB Ea Hr K1 K2 E1 E2 E3. destruct (kind_step _ _ _ _ _ _ Hi Et Es) as (A1 & A2 & A3 & A4 & A5 & A6).
  assert (Ek : ckind (Cfg s' (fupd t (Some pc') (th c))) = ckind c).
  { destruct (hpull pc) eqn:H1, (hpull pc') eqn:H2; rewrite ?K1, ?K2 in *.
    - rewrite A1, A2; auto.
    - rewrite A1, A4; auto.
    - rewrite A2, A3; auto.
    - auto. }
  eapply back_same; eauto.
  - rewrite Ek, E1. auto.
  - intros G _. rewrite Ek. apply absd_fields; assumption.
Qed.

(** The effect of an operation that leaves the content alone *)
Lemma back_look c t k pc s' pc' q' f' o r : bqI bp c -> th c t = Some pc -> bq_step bp (sh c) t pc k = Some (s', pc') ->
  bqB (Cfg s' (fupd t (Some pc') (th c))) q' f' ->
  alpha pc = APend o -> alpha pc' = ADone r -> reg pc' = None -> pkind pc = KRev -> pkind pc' = KRev ->
  pushE s' = pushE (sh c) -> pullE s' = pullE (sh c) -> prioE s' = prioE (sh c) -> (forall q, bq_spec q o r q) -> bback c [] q' f'.
Proof.
  intros Hi Et Es HB Ea Ea' Hr K1 K2 E1 E2 E3 Hsp. destruct (kind_step _ _ _ _ _ _ Hi Et Es) as (A1 & A2 & A3 & A4 & A5 & A6).
  assert (Ek : ckind (Cfg s' (fupd t (Some pc') (th c))) = ckind c).
  { destruct (hpull pc) eqn:H1, (hpull pc') eqn:H2; rewrite ?K1, ?K2 in *.
    - rewrite A1, A2; auto.
    - rewrite A1, A4; auto.
    - rewrite A2, A3; auto.
    - auto. }
  eapply back_eff; eauto.
  - rewrite Ek, E1. auto.
  - intros G _. rewrite Ek, (absd_fields _ (sh c) s') by assumption. apply Hsp.
Qed.

End bq.

Section bq.
Context {V : Type}.
Notation bqcfg := (cfg (bqsh V) (bqpc V)).
Notation bast := (ast (bqop V) (bqret V)).
Implicit Types (s : bqsh V) (pc : bqpc V) (c : bqcfg).
Notation bback := (back bq_spec bqB).

Ltac step_cases Es :=
  repeat lazymatch type of Es with
  | context [match ?x with _ => _ end] => destruct x eqn:?
  end; try discriminate Es; try (injection Es as <- <-).

Lemma bqB_int bp c t k pc s' pc' q' f' : bqI bp c -> th c t = Some pc -> bq_step bp (sh c) t pc k = Some (s', pc') ->
  bqB (Cfg s' (fupd t (Some pc') (th c))) q' f' -> bback c [] q' f'.
Proof.
  intros Hi Et Es HB. pose proof Es as Es0. destruct (i_pc _ _ Hi _ _ Et) as [Hs Hok].
  destruct k as [|u| |]; cbn [bq_step] in Es; try discriminate.
  - destruct pc; cbn [bq_step0] in Es; unfold lock_push, lock_pull, cont, after, test in Es; step_cases Es; subst;
      try (eapply back_quiet; [exact Hi|exact Et|exact Es0|exact HB|reflexivity|(left; reflexivity) || (right; left; reflexivity)|reflexivity..]).
    all: try (eapply back_look; [exact Hi|exact Et|exact Es0|exact HB|reflexivity..|intros; constructor]).
    all: pose proof (kind_step _ _ _ _ _ _ _ Hi Et Es0) as (A1 & A2 & A3 & A4 & A5 & A6); cbn [hpull hpush pkind] in A1, A2, A3, A4, A5, A6.
    all: repeat match goal with H : true = true -> _ |- _ => specialize (H eq_refl) | H : false = false -> _ |- _ => specialize (H eq_refl) end.
    all: try (destruct Hs; fail).
    + (* P2 *) eapply back_quiet; [exact Hi|exact Et|exact Es0|exact HB|reflexivity|right; right; exact Hs|reflexivity..].
    + (* P7 *) eapply back_insert; [exact Hi|exact Et|exact Es0|exact HB|reflexivity|reflexivity|reflexivity|reflexivity|exact Hok|exact Hs|exact A1|exact A2|reflexivity].
    + (* PA *) eapply back_append; [exact Hi|exact Et|exact Es0|exact HB|reflexivity|reflexivity|reflexivity|reflexivity|exact Hok|congruence|congruence|reflexivity].
    + (* PD *) eapply back_append; [exact Hi|exact Et|exact Es0|exact HB|reflexivity|reflexivity|reflexivity|reflexivity|exact Hok|exact A6|exact A5|reflexivity].
    + (* PH *) eapply back_append; [exact Hi|exact Et|exact Es0|exact HB|reflexivity|reflexivity|reflexivity|reflexivity|exact Hok|exact A6|exact A5|reflexivity].
    + (* R3 *) eapply back_eff; [exact Hi|exact Et|exact Es0|exact HB|reflexivity|reflexivity|reflexivity|rewrite A1; cbn; auto|].
      intros G _. rewrite A1, A2. cbn. eapply spec_prio, Hok.
    + (* R6 *) eapply back_eff; [exact Hi|exact Et|exact Es0|exact HB|reflexivity|reflexivity|reflexivity|rewrite A1; cbn; auto|].
      intros G _. rewrite A1, A2. cbn. eapply spec_prio, Hok.
    + (* OQ *) cbn in Hs. contradiction.
    + eapply back_eff; [exact Hi|exact Et|exact Es0|exact HB|reflexivity|reflexivity|reflexivity|rewrite A1; cbn; auto|].
      intros G _. rewrite A1, A2. unfold absd. rewrite Heql. cbn. constructor. destruct m; constructor.
    + (* C3 *) destruct Hs as (_ & Hl & _). eapply back_same; [exact Hi|exact Et|exact Es0|exact HB|reflexivity|left; reflexivity|cbn; rewrite Hl; congruence|].
      rewrite A1, A2. intros G HG. cbn in HG. rewrite Hl in HG. destruct G as [|x G]; [|destruct (HG ltac:(discriminate) eq_refl)]. cbn. rewrite Hl, app_nil_r. reflexivity.
    + (* C4 *) eapply back_same; [exact Hi|exact Et|exact Es0|exact HB|reflexivity|left; reflexivity|rewrite A1; cbn; split; congruence|].
      intros G _. rewrite A1, A2. reflexivity.
    + (* C5 *) eapply back_same; [exact Hi|exact Et|exact Es0|exact HB|reflexivity|left; reflexivity|rewrite A1; cbn; split; congruence|].
      intros G _. rewrite A1, A2. cbn. rewrite rev_involutive. reflexivity.
    + eapply back_same; [exact Hi|exact Et|exact Es0|exact HB|reflexivity|left; reflexivity|rewrite A1; cbn; split; congruence|].
      intros G _. rewrite A1, A2. cbn. rewrite rev_involutive. reflexivity.
    + (* C6 *) destruct k as [v|]; [eapply back_quiet; [exact Hi|exact Et|exact Es0|exact HB|reflexivity|left; reflexivity|reflexivity..]|].
      destruct (final m) eqn:Ef; [|eapply back_quiet; [exact Hi|exact Et|exact Es0|exact HB|cbn; unfold pop_none; rewrite Ef; reflexivity|left; reflexivity|reflexivity..]].
      destruct Hs as (Hs1 & Hs2 & Hs3). cbn in Hs1.
      eapply back_eff; [exact Hi|exact Et|exact Es0|exact HB|reflexivity|cbn; unfold pop_none; rewrite Ef; reflexivity|reflexivity|rewrite A1; cbn; split; congruence|].
      intros G HG. rewrite A1, A2. unfold absd. cbn in *. rewrite Hs1, Hs2, Hs3 in *. destruct G as [|x G]; [|destruct (HG ltac:(discriminate)) as [HG' _]; destruct (HG' eq_refl)].
      destruct m as [| |[]|]; try discriminate; constructor.
    + (* O1 *) destruct e; [|eapply back_quiet; [exact Hi|exact Et|exact Es0|exact HB|reflexivity|left; reflexivity|reflexivity..]].
      apply nonempty_true in Heqb. cbn in Hs. tauto.
    + destruct e; [eapply back_quiet; [exact Hi|exact Et|exact Es0|exact HB|reflexivity|left; reflexivity|reflexivity..]|].
      apply nonempty_false in Heqb. cbn in Hs. tauto.
    + (* O2 *) apply rev_nil_inv in Heql. cbn in Hs. tauto.
    + destruct Hs as [Hs1 Hs2]. eapply back_eff; [exact Hi|exact Et|exact Es0|exact HB|reflexivity|reflexivity|reflexivity|rewrite A1; cbn; split; congruence|].
      intros G _. rewrite A1, A2. unfold absd. cbn. rewrite Hs1, rev_involutive, Heql. cbn. constructor. destruct m; constructor.
    + (* WQ *) cbn in Hs. contradiction.
    + eapply back_eff; [exact Hi|exact Et|exact Es0|exact HB|reflexivity|reflexivity|reflexivity|rewrite A1; cbn; auto|].
      intros G _. rewrite A1, A2. unfold absd. rewrite Heql. cbn. constructor. destruct m; constructor.
    + (* W2 *) apply rev_nil_inv in Heql. cbn in Hs. tauto.
    + destruct Hs as [Hs1 Hs2]. eapply back_eff; [exact Hi|exact Et|exact Es0|exact HB|reflexivity|reflexivity|reflexivity|rewrite A1; cbn; split; congruence|].
      intros G _. rewrite A1, A2. unfold absd. cbn. rewrite Hs1, rev_involutive, Heql. cbn. constructor. destruct m; constructor.
    + (* L2 *) eapply back_eff; [exact Hi|exact Et|exact Es0|exact HB|reflexivity|reflexivity|reflexivity|rewrite A1; cbn; split; congruence|].
      intros G _. rewrite A2. apply bqs_clear.
    + (* L3 *) eapply back_same; [exact Hi|exact Et|exact Es0|exact HB|reflexivity|left; reflexivity|cbn; congruence|].
      intros G _. rewrite A1, A2. reflexivity.
    + eapply back_same; [exact Hi|exact Et|exact Es0|exact HB|reflexivity|left; reflexivity|cbn; congruence|].
      intros G HG. cbn in HG, Hs. destruct G as [|x G]; [|destruct (HG ltac:(discriminate) eq_refl)]. rewrite A1, A2. unfold absd. cbn.
      rewrite Hs, (i_prio _ _ Hi) by reflexivity. reflexivity.
    + (* LP *) destruct Hs as [Hs1 Hs2]. eapply back_same; [exact Hi|exact Et|exact Es0|exact HB|reflexivity|left; reflexivity|cbn; congruence|].
      intros G HG. cbn in HG. rewrite Hs2 in HG. destruct G as [|x G]; [|destruct (HG ltac:(discriminate) eq_refl)]. rewrite A1, A2. unfold absd. cbn.
      rewrite Hs1, Hs2. reflexivity.
  - destruct pc; try discriminate. step_cases Es. eapply back_quiet; [exact Hi|exact Et|exact Es0|exact HB|reflexivity|left; reflexivity|reflexivity..].
  - destruct pc; try discriminate. step_cases Es. eapply back_quiet; [exact Hi|exact Et|exact Es0|exact HB|reflexivity|left; reflexivity|reflexivity..].
Qed.

Lemma reg_start (o : bqop V) : reg (bq_start o) = None /\ alpha (bq_start o) = APend o /\ hpull (bq_start o) = false.
Proof. destruct o; auto. Qed.

Lemma bqB_call bp c t o q' f' : bqI bp c -> has_op bp o -> th c t = None ->
  bqB (Cfg (sh c) (fupd t (Some (bq_start o)) (th c))) q' f' -> bback c [HInv t o] q' f'.
Proof.
  intros Hi Hop Et [g [Hnd Hin Hne Hq Hf]]. cbn [sh th] in *. destruct (reg_start o) as (Hr & Ha & Hh).
  assert (Hg : ~ In t g). { intros Hg. destruct (Hin t Hg) as (x & o' & E & Ho'). rewrite fupd_same in E. congruence. }
  assert (Ei : inb t g = false) by (apply inb_false; exact Hg).
  assert (Hgv : gvals (fupd t (Some (bq_start o)) (th c)) g = gvals (th c) g) by (apply gvals_fupd; assumption).
  assert (Hk : ckind (Cfg (sh c) (fupd t (Some (bq_start o)) (th c))) = ckind c).
  { unfold ckind. cbn [sh th]. rewrite holder_other; [reflexivity|]. intros E. apply (i_pull _ _ Hi) in E as (x & E & _). congruence. }
  rewrite Hk, Hgv in *. exists q', (bview (th c) g), (fupd t (APend o) (bview (th c) g)). split; [|split].
  - exists g. split; auto. intros u Hu. destruct (Hin u Hu) as (x & o' & E & Ho'). rewrite fupd_other in E by congruence. eauto.
  - apply at_inv; [unfold bview; rewrite Ei, Et; reflexivity|constructor].
  - intros u. rewrite Hf. unfold bview, fupd. destruct (Nat.eqb_spec u t) as [->|]; [rewrite Ei; cbn; congruence|reflexivity].
Qed.

Lemma bqB_ret bp c t pc r q' f' : bqI bp c -> th c t = Some pc -> bq_fin pc = Some r ->
  bqB (Cfg (sh c) (fupd t None (th c))) q' f' -> bback c [HRet t r] q' f'.
Proof.
  intros Hi Et Ef [g [Hnd Hin Hne Hq Hf]]. cbn [sh th] in *. destruct pc; try discriminate. injection Ef as ->.
  assert (Hg : ~ In t g). { intros Hg. destruct (Hin t Hg) as (x & o' & E & Ho'). rewrite fupd_same in E. congruence. }
  assert (Ei : inb t g = false) by (apply inb_false; exact Hg).
  assert (Hgv : gvals (fupd t None (th c)) g = gvals (th c) g) by (apply gvals_fupd; assumption).
  assert (Hk : ckind (Cfg (sh c) (fupd t None (th c))) = ckind c).
  { unfold ckind. cbn [sh th]. rewrite holder_other; [reflexivity|]. intros E. apply (i_pull _ _ Hi) in E as (x & E & Hx).
    rewrite Et in E. injection E as <-. discriminate. }
  rewrite Hk, Hgv in *. exists q', (bview (th c) g), (fupd t AIdle (bview (th c) g)). split; [|split].
  - exists g. split; auto. intros u Hu. destruct (Hin u Hu) as (x & o' & E & Ho'). rewrite fupd_other in E by congruence. eauto.
  - apply at_ret; [unfold bview; rewrite Ei, Et; reflexivity|constructor].
  - intros u. rewrite Hf. unfold bview, fupd. destruct (Nat.eqb_spec u t) as [->|]; [rewrite Ei; reflexivity|reflexivity].
Qed.

(** What the queue holds: priority elements and normal ones, oldest first.  While clear() is under way it counts as done. *)
Definition held c : list V * list V := absd (ckind c) (sh c) [].

Lemma bq_atomic bp s xs c H : rest bp s -> Forall (has_op bp) (calls xs) -> bq_run bp (init s) xs = Some (c, H) ->
  bqI bp c /\ exists f, atomic bq_spec (prioE s, rev (pullE s) ++ pushE s) (fun _ => AIdle) H (held c) f /\ forall t, f t = aview alpha (th c t).
Proof.
  intros Hs Hok Hr.
  destruct (bsim_run (@bq_start V) (bq_step bp) bq_fin bq_spec (has_op bp) (bqI bp) bqB) with (xs := xs) (c := @init (bqsh V) (bqpc V) s) (c' := c) (H := H) as [Hi Hb]; auto.
  - intros c0 x c1 e. apply bqI_exec.
  - apply bqB_call.
  - apply bqB_int.
  - apply bqB_ret.
  - apply bqI_init, Hs.
  - split; [exact Hi|]. destruct (Hb (held c) (aview alpha ∘ th c)) as (q & f & f1 & HB & Ha & Hf).
    { exists []. split; [constructor|intros u []|congruence|reflexivity|reflexivity]. }
    destruct HB as [g [Hnd Hin Hne Hq Hfv]]. assert (g = []). { destruct g as [|u g]; [reflexivity|]. destruct (Hin u (or_introl eq_refl)) as (x & o & E & _). discriminate. }
    subst g q. destruct (atomic_ext bq_spec _ _ _ _ _ Ha (fun _ => AIdle)) as (f' & Ha' & Hf').
    { intros u. rewrite Hfv. reflexivity. }
    exists f'. split; [|intros u; rewrite <- Hf', Hf; reflexivity].
    replace (prioE s, rev (pullE s) ++ pushE s) with (absd (ckind (@init (bqsh V) (bqpc V) s)) (sh (@init (bqsh V) (bqpc V) s)) (gvals (th (@init (bqsh V) (bqpc V) s)) [])); [exact Ha'|].
    unfold ckind. cbn. destruct Hs as (_ & E & _). rewrite E. reflexivity.
Qed.
End bq.
