(** Blocking queues: lemmas for C46, C47, C50, C51, C59 *)
From stdpp Require Import list.
From Verif Require Import Base Conc CondVar Herlihy Serial BqModel BqSpec BqInv BqMore BqWake BqFlag BqSerial.

Section bq.
Context {V : Type}.
Variable bp : bool.
Notation bqcfg := (cfg (bqsh V) (bqpc V)).
Notation bqhist := (list (hev (bqop V) (bqret V))).
Implicit Types (s : bqsh V) (pc : bqpc V) (c : bqcfg) (H : bqhist).

(** ** Inserting operations *)
Definition inserts (o : bqop V) : bool := match bval o with Some _ => true | None => false end.
Definition ins_pc pc : bool :=
  match pc with
  | P0 _ | P1 _ | P2 _ | P3 _ | P4 _ | P5 _ | P6 _ | P7 _ | P8 _ | PA _ | P9 _ | PB _ | PC | PD _ | PE | PF | PH _ | PG
  | R0 _ | R1 _ | R2 _ | R3 _ | R4 | R5 _ | R6 _ | R7 | R8 => true
  | _ => false
  end.
Definition at_op (o : bqop V) pc : Prop := match pc with Ret _ => True | _ => ins_pc pc = inserts o end.

Lemma at_op_start o : at_op o (bq_start o).
Proof. destruct o; reflexivity. Qed.
Lemma at_op_step s t pc k s' pc' o : bq_step bp s t pc k = Some (s', pc') -> at_op o pc -> at_op o pc'.
Proof.
  intros Es Hk. destruct k as [|u| |]; cbn [bq_step] in Es; try discriminate.
  - destruct pc; cbn [bq_step0] in Es; unfold lock_push, lock_pull, cont, after, test in Es;
      repeat lazymatch type of Es with context [match ?x with _ => _ end] => destruct x eqn:? end; try discriminate Es; injection Es as <- <-; cbn in *; auto.
  - destruct pc; try discriminate. destruct (inb t (bwait s)); [|discriminate]. injection Es as <- <-. exact Hk.
  - destruct pc; try discriminate. destruct m as [| |[]|]; try discriminate. injection Es as <- <-. exact Hk.
Qed.

Lemma notif_ins s pc : notif s pc -> ins_pc pc = true /\ forall r, pc <> Ret r.
Proof. destruct pc; cbn; try tauto; split; auto; discriminate. Qed.

Lemma inserting s xs c H u pu : bq_run bp (init s) xs = Some (c, H) -> th c u = Some pu -> notif (sh c) pu -> exists i o, last_ev H u i (HInv u o) /\ bval o <> None.
Proof.
  intros Er Eu Hn. destruct (pending bq_start (bq_step bp) bq_fin at_op at_op_start at_op_step _ _ _ _ _ _ Er Eu) as (i & o & Hl & Hk).
  apply notif_ins in Hn as [Hi Hr]. exists i, o. split; [exact Hl|]. destruct pu; cbn in Hk, Hi; try discriminate; unfold inserts in Hk; destruct (bval o); congruence.
Qed.

(** ** Calls that insert, alone *)
Lemma solo_insert s t o ks s' r v : bval o = Some v -> solo (bq_step bp) bq_fin s t (bq_start o) ks = Some (s', r) ->
  Permutation (prioE s' ++ pullE s' ++ pushE s') (v :: prioE s ++ pullE s ++ pushE s).
Proof.
  assert (P1 : forall A B C : list V, Permutation (A ++ B ++ C ++ [v]) (v :: A ++ B ++ C)). { intros A B C. rewrite !app_assoc, <- Permutation_cons_append. reflexivity. }
  assert (P2 : forall A B C : list V, Permutation (A ++ (B ++ [v]) ++ C) (v :: A ++ B ++ C)).
  { intros A B C. rewrite (Permutation_app_comm B [v]). cbn. symmetry. apply Permutation_middle. }
  assert (P3 : forall A B C : list V, Permutation ((A ++ [v]) ++ B ++ C) (v :: A ++ B ++ C)). { intros A B C. rewrite (Permutation_app_comm A [v]). reflexivity. }
  intros Hv Es. destruct s as [[pl|] [ql|] pu pq pr fl w]; destruct o; try discriminate Hv; injection Hv as ->.
  all: repeat (match type of Es with Serial.solo _ _ _ _ _ ?ks = _ => destruct ks as [|[|?| |] ?] end;
    cbn [Serial.solo bq_step bq_step0 bq_fin bq_start lock_push lock_pull unlock_push unlock_pull set_push set_pull set_prio set_flag set_wait
       pushL pullL pushE pullE prioE eflag bwait nonempty bvals bval] in Es; try discriminate Es;
    repeat match type of Es with context [match ?x with _ => _ end] => is_var x; destruct x; cbn [nonempty] in Es; try discriminate Es
      | context [if nonempty ?x then _ else _] => destruct x; cbn [nonempty] in Es; try discriminate Es end).
  all: try (injection Es as <- <-); cbn; auto.
  all: first [exact (P1 pr pq [])|exact (P1 pr [] [])|match goal with x : V |- _ => first [exact (P1 pr pq (x :: pu))|exact (P1 pr (x :: pq) [])] end].
Qed.

Lemma serial_insert bs : forall c c' H, Forall (fun b => bval b.1.2 <> None) bs -> bq_run bp c (serial bs) = Some (c', H) ->
  (forall u, th c' u = th c u) /\
  Permutation (prioE (sh c') ++ pullE (sh c') ++ pushE (sh c')) (flat_map (fun b => bvals b.1.2) bs ++ prioE (sh c) ++ pullE (sh c) ++ pushE (sh c)).
Proof.
  unfold bq_run. induction bs as [|[[t o] ks] bs IH]; intros c c' H Hok.
  - intros [= <- _]. auto.
  - apply Forall_cons in Hok as [Ho Hok]. change (serial ((t, o, ks) :: bs)) with (block (t, o, ks) ++ serial bs). rewrite run_app.
    destruct (run bq_start (bq_step bp) bq_fin c (block (t, o, ks))) as [[c1 H1]|] eqn:E1; [|discriminate].
    destruct (run bq_start (bq_step bp) bq_fin c1 (serial bs)) as [[c2 H2]|] eqn:E2; [|discriminate]. intros [= <- _].
    destruct (run_block _ _ _ _ _ _ _ _ _ E1) as (r & _ & Es & Et & _). destruct (IH _ _ _ Hok E2) as [F1 F2]. split; [intros u; rewrite F1; apply Et|].
    cbn in *. destruct (bval o) as [v|] eqn:Ev; [|contradiction]. assert (bvals o = [v]) as -> by (unfold bvals; rewrite Ev; reflexivity).
    rewrite F2, (solo_insert _ _ _ _ _ _ _ Ev Es). cbn. symmetry. apply Permutation_middle.
Qed.

Lemma serial_calls (bs : list (nat * bqop V * list cvc)) : calls (serial bs) = map (fun b => b.1.2) bs.
Proof.
  induction bs as [|[[t o] ks] bs IH]; [reflexivity|]. change (serial ((t, o, ks) :: bs)) with (block (t, o, ks) ++ serial bs). unfold calls in *. rewrite omap_app, IH. cbn.
  rewrite omap_app. cbn. f_equal. replace (omap _ _) with (@nil (bqop V)); [reflexivity|]. induction ks; [reflexivity|exact IHks].
Qed.
Lemma serial_in (bs : list (nat * bqop V * list cvc)) t o : In (t, ACall o) (serial bs) -> exists ks, In (t, o, ks) bs.
Proof.
  unfold serial. rewrite in_concat. intros (l & Hl & Hi). apply in_map_iff in Hl as ([[t' o'] ks] & <- & Hb). unfold block in Hi. destruct Hi as [[= -> ->]|Hi]; [eauto|].
  apply in_app_iff in Hi as [Hi|[Hi|[]]]; [|discriminate]. apply in_map_iff in Hi as (k & Hk & _). discriminate.
Qed.

(** After the callback, with something in reach, popOrCall returns it without waiting. *)
Lemma after_callback c t : (forall u, u <> t -> th c u = None) -> bqI bp c -> th c t = Some CB -> avail (sh c) ->
  exists n v c', (n <= 6)%nat /\ run bq_start (bq_step bp) bq_fin c (repeat (t, AInt CStep) n ++ [(t, ARet)]) = Some (c', [HRet t (BVal (Some v))]) /\ In v (prioE (sh c) ++ pullE (sh c)).
Proof.
  intros Ho Hi Et Ha.
  assert (Hl : pullL (sh c) = None). { destruct (pullL (sh c)) as [u|] eqn:E; [|reflexivity]. apply (i_pull _ _ Hi) in E as (pc & E & Hh). destruct (Nat.eq_dec u t) as [->|Hne]; [|rewrite Ho in E by exact Hne; discriminate].
    rewrite Et in E. injection E as <-. discriminate. }
  pose proof (i_prio _ _ Hi) as Hb. destruct c as [s f]. cbn in *.
  assert (Hgo : forall n v ks s', ks = repeat CStep n -> solo (bq_step bp) bq_fin s t CB ks = Some (s', BVal (Some v)) -> (n <= 6)%nat -> In v (prioE s ++ pullE s) ->
    exists n v c', (n <= 6)%nat /\ run bq_start (bq_step bp) bq_fin (Cfg s f) (repeat (t, AInt CStep) n ++ [(t, ARet)]) = Some (c', [HRet t (BVal (Some v))]) /\ In v (prioE s ++ pullE s)).
  { intros n v ks s' -> Es Hn Hv. exists n, v.
    assert (Hg : forall n s f pc, f t = Some pc -> solo (bq_step bp) bq_fin s t pc (repeat CStep n) = Some (s', BVal (Some v)) ->
      exists c', run bq_start (bq_step bp) bq_fin (Cfg s f) (repeat (t, AInt CStep) n ++ [(t, ARet)]) = Some (c', [HRet t (BVal (Some v))])).
    { clear. induction n as [|n IH]; intros s f pc Et Es; cbn -[bq_step] in *; rewrite Et.
      - destruct (bq_fin pc) as [r|]; [|discriminate]. injection Es as _ ->. eexists. reflexivity.
      - destruct (bq_step bp s t pc CStep) as [[s1 pc1]|] eqn:E; [|discriminate]. destruct (IH s1 (fupd t (Some pc1) f) pc1 (fupd_same _ _ _) Es) as [c' Ec]. rewrite Ec. eauto. }
    destruct (Hg n s f CB Et Es) as [c' Ec]. exists c'. auto. }
  destruct s as [pl ql pu pq pr fl w]. cbn in *. subst ql. unfold avail in Ha. cbn in Ha. destruct bp.
  - destruct pr as [|v pr].
    + destruct Ha as [Ha|Ha]; [|congruence]. destruct (rev pq) as [|v l] eqn:E; [apply rev_nil_inv in E; congruence|].
      eapply (Hgo 6%nat v _ _ eq_refl); [cbn -[rev]; destruct pq as [|x pq]; [congruence|]; cbn -[rev]; rewrite E; reflexivity|lia|]. cbn. apply in_rev. rewrite E. left. reflexivity.
    + eapply (Hgo 5%nat v _ _ eq_refl); [reflexivity|lia|left; reflexivity].
  - rewrite Hb in * by reflexivity. destruct Ha as [Ha|Ha]; [|congruence]. destruct (rev pq) as [|v l] eqn:E; [apply rev_nil_inv in E; congruence|].
    eapply (Hgo 5%nat v _ _ eq_refl); [cbn -[rev]; destruct pq as [|x pq]; [congruence|]; cbn -[rev]; rewrite E; reflexivity|lia|]. cbn. apply in_rev. rewrite E. left. reflexivity.
Qed.

(** A consumer that missed its wakeup stays blocked, whatever is pushed. *)
Definition missed c t : Prop :=
  bq_waits c t /\ eflag (sh c) = false /\ pushE (sh c) <> [] /\
  forall u pc, u <> t -> th c u = Some pc -> match pc with P0 _ | P1 _ | PH _ | PG | R0 _ | R5 _ | R6 _ | R7 | R8 | Ret _ => True | _ => False end.

Lemma missed_exec c t x c' e : missed c t -> x.1 <> t -> (forall o, x.2 = ACall o -> bval o <> None) -> bq_exec bp c x = Some (c', e) -> missed c' t.
Proof.
  intros ((m & Em & Hw) & Hf & Hp & Ho) Hne Hok. destruct x as [u [o|k|]]; cbn in *.
  - destruct (th c u) eqn:Eu; [discriminate|]. intros [= <- _]. split; [exists m; cbn; rewrite fupd_other by congruence; auto|]. split; [exact Hf|]. split; [exact Hp|].
    intros w pc Hwt Ew. cbn in Ew. unfold fupd in Ew. destruct (Nat.eqb_spec w u) as [->|]; [|exact (Ho _ _ Hwt Ew)]. injection Ew as <-. specialize (Hok o eq_refl). destruct o; cbn in *; auto; congruence.
  - destruct (th c u) as [pc|] eqn:Eu; [|discriminate]. destruct (bq_step bp (sh c) u pc k) as [[s' pc']|] eqn:Es; [|discriminate]. intros [= <- _].
    pose proof (Ho _ _ Hne Eu) as Hpc. assert (Hx : bwait s' = bwait (sh c) /\ eflag s' = false /\ pushE s' <> [] /\ match pc' with P0 _ | P1 _ | PH _ | PG | R0 _ | R5 _ | R6 _ | R7 | R8 | Ret _ => True | _ => False end).
    { destruct k; cbn [bq_step] in Es; try discriminate; [|destruct pc; try discriminate; contradiction..].
      destruct pc; try contradiction; cbn [bq_step0] in Es; unfold lock_push, lock_pull in Es; rewrite ?Hf in Es;
        repeat lazymatch type of Es with context [match ?x with _ => _ end] => destruct x eqn:? end; try discriminate Es; injection Es as <- <-; cbn; auto.
      - splits; auto. apply nonempty_false in Heqb. contradiction.
      - splits; auto. intros E. apply app_eq_nil in E. tauto. }
    destruct Hx as (X1 & X2 & X3 & X4). split; [exists m; cbn; rewrite fupd_other by congruence; rewrite X1; auto|]. split; [exact X2|]. split; [exact X3|].
    intros w pw Hwt Ew. cbn in Ew. unfold fupd in Ew. destruct (Nat.eqb_spec w u) as [->|]; [|exact (Ho _ _ Hwt Ew)]. injection Ew as <-. exact X4.
  - destruct (th c u) as [pc|] eqn:Eu; [|discriminate]. destruct (bq_fin pc) eqn:Ef; [|discriminate]. intros [= <- _].
    split; [exists m; cbn; rewrite fupd_other by congruence; auto|]. split; [exact Hf|]. split; [exact Hp|].
    intros w pw Hwt Ew. cbn in Ew. unfold fupd in Ew. destruct (Nat.eqb_spec w u) as [->|]; [discriminate|exact (Ho _ _ Hwt Ew)].
Qed.
Lemma missed_run xs : forall c t c' H, missed c t -> (forall u a, In (u, a) xs -> u <> t /\ forall o, a = ACall o -> bval o <> None) -> bq_run bp c xs = Some (c', H) -> missed c' t.
Proof.
  unfold bq_run. induction xs as [|[u a] xs IH]; intros c t c' H Hm Hx; cbn [run].
  - intros [= <- _]. exact Hm.
  - destruct (exec bq_start (bq_step bp) bq_fin c (u, a)) as [[c1 e]|] eqn:Ex; [|discriminate]. destruct (run bq_start (bq_step bp) bq_fin c1 xs) as [[c2 H2]|] eqn:Er; [|discriminate]. intros [= <- _].
    destruct (Hx u a (or_introl eq_refl)) as [Hu Ha]. eapply IH; [|intros w b Hb; apply Hx; right; exact Hb|exact Er]. apply (missed_exec _ _ (u, a) _ _ Hm Hu Ha Ex).
Qed.

(** ** Histories that are not those of an exact queue *)
Definition n_ins (L : list (nat * bqop V * bqret V)) : nat := length (List.filter (fun x => inserts x.1.2) L).
Definition is_pop (o : bqop V) : bool := match o with BTryPop | BPop | BPopFor | BPopCall => true | _ => false end.
Definition n_pop (L : list (nat * bqop V * bqret V)) : nat := length (List.filter (fun x => is_pop x.1.2) L).

Lemma fifo_count q L q' : legal fifo_spec q L q' -> (forall x, In x L -> x.1.2 <> BClear) -> (length q + n_ins L <= length q' + n_pop L)%nat.
Proof.
  induction 1 as [q|q i o r q1 L q' Hs Hl IH]; intros Hc; [cbn; lia|]. assert (length q1 + n_ins L <= length q' + n_pop L)%nat by (apply IH; intros x Hx; apply Hc; right; exact Hx).
  unfold n_ins, n_pop in *. cbn in *. specialize (Hc _ (or_introl eq_refl)). cbn in Hc.
  destruct o; cbn in *; try contradiction; try (destruct Hs as [_ ->]; rewrite ?app_length in *; cbn in *; lia); try congruence.
  all: destruct q; try contradiction; destruct Hs as [_ ->]; cbn in *; lia.
Qed.

(** try_peek answers "nothing" although more values were inserted before it was called than anybody tries to pop. *)
Lemma blind_peek H i j t (ins pops : list nat) : ret_of H i j t BPeek (BVal None) ->
  (forall k u, H !! k <> Some (HInv u BClear)) -> NoDup ins -> Forall (fun k => exists j' u o r, ret_of H k j' u o r /\ inserts o = true /\ (j' < i)%nat) ins ->
  (forall k u o, H !! k = Some (HInv u o) -> is_pop o = true -> In k pops) -> (length pops < length ins)%nat ->
  ~ exists L q, linearization fifo_spec H [] L q.
Proof.
  intros Hr Hc Hnd Hins Hpops Hlen (L & q & HL). pose proof (hw_ret _ _ _ _ _ HL _ _ _ _ _ Hr) as Hi.
  apply in_split in Hi as (L1 & L2 & E). pose proof (hw_legal _ _ _ _ _ HL) as Hl. rewrite E in Hl. apply legal_app_inv in Hl as (q1 & Hl1 & Hl2).
  inversion Hl2 as [|? ? ? ? q2 ? ? Hs _]; subst. cbn in Hs. destruct Hs as [Hs _]. destruct q1; [|discriminate].
  assert (Hcl : forall x, In x L1 -> x.1.2 <> BClear). { intros [[k o] r] Hx Eo. cbn in Eo. subst o. destruct (hw_ops _ _ _ _ _ HL k BClear r) as [u Hu]; [apply in_app_iff; auto|]. eapply Hc, Hu. }
  pose proof (fifo_count _ _ _ Hl1 Hcl) as Hcnt. cbn in Hcnt.
  pose proof (hw_once _ _ _ _ _ HL) as Hon. rewrite map_app in Hon. cbn in Hon. apply NoDup_app in Hon as (Hon1 & Hon2 & Hon3).
  assert (Hsub : forall (f : nat * bqop V * bqret V -> bool) l, NoDup (map (fun x => x.1.1) l) -> NoDup (map (fun x : nat * bqop V * bqret V => x.1.1) (List.filter f l))).
  { intros f l. induction l as [|x l IH]; cbn; [auto|]. intros Hx. apply NoDup_cons in Hx as [Hx1 Hx2]. destruct (f x); [|auto]. cbn. constructor; [|auto].
    intros Hy. apply Hx1. apply elem_of_list_In in Hy. apply in_map_iff in Hy as (y & Ey & Hy). apply filter_In in Hy as [Hy _]. apply elem_of_list_In, in_map_iff. eauto. }
  assert (H1 : (length ins <= n_ins L1)%nat).
  { unfold n_ins. rewrite <- (map_length (fun x : nat * bqop V * bqret V => x.1.1)). apply NoDup_incl_length; [apply NoDup_ListNoDup, Hnd|].
    intros k Hk. rewrite Forall_forall in Hins. destruct (Hins k) as (j' & u & o & r & Hro & Hin & Hlt); [apply elem_of_list_In, Hk|].
    pose proof (hw_ret _ _ _ _ _ HL _ _ _ _ _ Hro) as Hko. apply in_map_iff. exists (k, o, r). split; [reflexivity|]. apply filter_In. split; [|exact Hin].
    apply in_app_iff in Hko as [Hko|Hko]; [exact Hko|exfalso].
    assert (Hb : before (L1 ++ (i, BPeek, BVal None) :: L2) k i). { apply (hw_order _ _ _ _ _ HL _ _ _ _ _ (i, BPeek, BVal None) Hro); [apply in_app_iff; right; left; reflexivity|exact Hlt]. }
    destruct Hko as [Ek|Hko]; [injection Ek as -> <- _; discriminate|].
    eapply before_antisym; [apply (hw_once _ _ _ _ _ HL)|exact Hb|]. exists L1, (i, BPeek, BVal None), L2, (k, o, r). auto. }
  assert (H2 : (n_pop L1 <= length pops)%nat).
  { unfold n_pop. rewrite <- (map_length (fun x : nat * bqop V * bqret V => x.1.1)). apply NoDup_incl_length; [apply NoDup_ListNoDup, Hsub, Hon1|].
    intros k Hk. apply in_map_iff in Hk as ([[k' o] r] & Ek & Hk). cbn in Ek. subst k'. apply filter_In in Hk as [Hk Ho]. cbn in Ho.
    destruct (hw_ops _ _ _ _ _ HL k o r) as [u Hu]; [apply in_app_iff; auto|]. eapply Hpops; eassumption. }
  lia.
Qed.
End bq.
