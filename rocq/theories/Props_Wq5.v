(** WorkQueue: isEmpty and numBlock (C66), one thread per block (C67), after closeWorkerQueue (C68) *)
From stdpp Require Import list.
From Verif Require Import Base Conc CondVar Herlihy Serial SqModel SqSpec SqProofs WqModel WqProofs WqCount WqMore WqBound WqLive WqSeq WqTurn WqPrio WqOpen WqDrain WqMisc Props_Wq Props_Wq2 Props_Wq3.
Local Open Scope nat_scope.

Section props.
Variable nw : nat.
Notation wqcfg := (cfg wqsh wqpc).
Implicit Types (s : wqsh) (c : wqcfg) (f : nat -> bool) (xs ys : list (nat * act cvc wqop)).

(** ** C66 *)
(** isEmpty answers true: each queue was empty at some moment of the call, or an addWorkBlock or closeWorkerQueue was at work in it. *)
Theorem C66_is_empty_partial f xs c H t i c' : wq_run nw (wq_init nw f) xs = Some (c, H) -> last_ev H t i (HInv t OEmpty) ->
  wq_exec nw c (t, ARet) = Some (c', [HRet t (RBool true)]) -> forall q, during nw f xs t (qempty_or_busy q).
Proof.
  intros Er El Ex. unfold wq_exec in Ex. cbn in Ex. destruct (th c t) as [pc|] eqn:Et; [|discriminate]. destruct (wq_fin pc) as [r|] eqn:Ef; [|discriminate]. injection Ex as _ ->.
  pose proof (mi_tells _ _ _ _ _ (miscI_run nw f _ _ _ Er) _ _ _ _ Et El) as Ht. destruct pc; try discriminate. injection Ef as ->. exact (Ht eq_refl).
Qed.
(** numBlock adds up the sizes the three queues had at three moments of the call. *)
Theorem C66_num_block_partial f xs c H t i n c' : wq_run nw (wq_init nw f) xs = Some (c, H) -> last_ev H t i (HInv t ONum) ->
  wq_exec nw c (t, ARet) = Some (c', [HRet t (RNum n)]) ->
  exists a b d, n = (a + b + d)%Z /\ during nw f xs t (fun c => zlen (content Hi (sh c)) = a) /\ during nw f xs t (fun c => zlen (content Med (sh c)) = b) /\
    during nw f xs t (fun c => zlen (content Lo (sh c)) = d).
Proof.
  intros Er El Ex. unfold wq_exec in Ex. cbn in Ex. destruct (th c t) as [pc|] eqn:Et; [|discriminate]. destruct (wq_fin pc) as [r|] eqn:Ef; [|discriminate]. injection Ex as _ ->.
  pose proof (mi_tells _ _ _ _ _ (miscI_run nw f _ _ _ Er) _ _ _ _ Et El) as Ht. destruct pc; try discriminate. injection Ef as ->. exact Ht.
Qed.

(** ** C67 *)
Definition executing (b : nat) pc : Prop := exists e, pc = X1 b e \/ pc = X2 b e.
Definition at2 (b : nat) (pc : wqpc) : nat := match pc with X2 b' _ => if Nat.eqb b' b then 1 else 0 | _ => 0 end.

Lemma step_at2 b s t pc k s' pc' : wq_step nw s t pc k = Some (s', pc') -> at2 b pc' + rcount b s <= at2 b pc + rcount b s'.
Proof.
  intros Es. unfold rcount. destruct pc.
  1: { destruct k; cbn [wq_step wq_step0] in Es; try discriminate. destruct (sq_fin p) as [r|] eqn:Ef.
    - assert (Ea : at2 b pc' = 0).
      { destruct k0; wq_resume Es; try reflexivity; repeat match goal with
        | |- context [match ?g with GUser => _ | GWork _ => _ end] => is_var g; destruct g
        | |- context [if ?z then _ else _] => destruct z
        | |- context [nextq ?i] => destruct (nextq i)
        | |- context [match ?e with EUser => _ | EWork => _ end] => is_var e; destruct e
        | |- context [after_add ?a] => is_var a; destruct a
        | |- context [after_add (AClose ?r)] => is_var r; destruct r
        end; reflexivity. }
      destruct (step_ran nw s t (Sub i p k0) CStep s' pc') as [E|(? & ? & [=])]; [cbn [wq_step wq_step0]; rewrite Ef; exact Es|]. rewrite E, Ea. lia.
    - destruct (sq_step (qof i s) t p tt) as [[q' p']|]; [|discriminate]. inj Es. destruct i; cbn; lia. }
  all: destruct k; cbn [wq_step wq_step0] in Es; try discriminate; wq_cases Es; inj Es; cbn [at2];
    repeat match goal with
    | |- context [match ?g with GUser => _ | GWork _ => _ end] => is_var g; destruct g
    | |- context [at2 _ (if ?z then _ else _)] => destruct z
    | |- context [after_add ?a] => is_var a; destruct a
    | |- context [after_exec ?a] => is_var a; destruct a
    | |- context [after_add (AClose ?r)] => is_var r; destruct r
    | |- context [dummies ?r] => is_var r; destruct r
    | |- context [match ?x with Some _ => _ | None => _ end] => is_var x; destruct x
    | |- context [match ?x with BNull => _ | BWork _ => _ end] => is_var x; destruct x
    end; cbn; try lia.
  all: rewrite ?count_occ_app; cbn; repeat match goal with |- context [Nat.eq_dec ?x ?y] => destruct (Nat.eq_dec x y) | |- context [Nat.eqb ?x ?y] => destruct (Nat.eqb_spec x y) end; try lia; congruence.
Qed.
Lemma at2_run b n f xs c H : onn n xs -> wq_run nw (wq_init nw f) xs = Some (c, H) -> tsum n (fun t => opt (at2 b) (th c t)) <= rcount b (sh c).
Proof.
  revert c H. induction xs as [|x xs IH] using rev_ind; intros c H Hx Er.
  - injection Er as <- <-. rewrite tsum_zero; [lia|]. intros t _. cbn [wq_init th]. destruct (Nat.ltb t nw); reflexivity.
  - assert (E0 : exists c0 H0, wq_run nw (wq_init nw f) xs = Some (c0, H0)).
    { unfold wq_run in *. rewrite run_app in Er. destruct (run _ _ _ _ xs) as [[c0 H0]|]; [eauto|discriminate]. }
    destruct E0 as (c0 & H0 & E0). rewrite (run_snoc nw _ _ _ _ _ E0) in Er. destruct (wq_exec nw c0 x) as [[c1 e]|] eqn:Ex; [|discriminate]. injection Er as <- <-.
    apply Forall_app in Hx as [Hx1 Hx2]. inversion Hx2 as [|? ? Hx3 _]; subst. specialize (IH _ _ Hx1 E0). destruct x as [t [o|k|]]; unfold wq_exec in Ex; cbn in Ex, Hx3; (destruct (th c0 t) as [pc|] eqn:Et; [|]); try discriminate.
    + injection Ex as <- <-. cbn [sh th]. pose proof (tsum_upd n (opt (at2 b)) (th c0) t (Some (wq_start nw o)) Hx3) as E. rewrite Et in E. cbn [opt] in E.
      assert (at2 b (wq_start nw o) = 0) by (destruct o; try reflexivity; cbn; destruct (Nat.eqb nw 0); reflexivity). lia.
    + destruct (wq_step nw (sh c0) t pc k) as [[s' pc']|] eqn:Es; [|discriminate]. injection Ex as <- <-. cbn [sh th]. pose proof (tsum_upd n (opt (at2 b)) (th c0) t (Some pc') Hx3) as E.
      rewrite Et in E. cbn [opt] in E. pose proof (step_at2 b _ _ _ _ _ _ Es). lia.
    + destruct (wq_fin pc) as [r|] eqn:Ef; [|discriminate]. injection Ex as <- <-. cbn [sh th]. pose proof (tsum_upd n (opt (at2 b)) (th c0) t None Hx3) as E. rewrite Et in E. cbn [opt] in E. lia.
Qed.
Lemma tsum_two n g t u : t <> u -> t < n -> u < n -> g t + g u <= tsum n g.
Proof.
  intros Hne. revert t u Hne. induction n as [|n IH]; intros t u Hne Ht Hu; [lia|]. cbn [tsum].
  assert (Ct : t < n \/ t = n) by lia. assert (Cu : u < n \/ u = n) by lia. destruct Ct as [Ct| ->], Cu as [Cu| ->]; [|pose proof (tsum_ge n g t Ct)|pose proof (tsum_ge n g u Cu)|]; try lia. specialize (IH t u Hne Ct Cu). lia.
Qed.

(** A block submitted once is never executed by two threads at the same time. *)
Theorem C67_one_thread_partial f n xs c H b t u pt pu : onn n xs -> wq_run nw (wq_init nw f) xs = Some (c, H) -> submitted b H <= 1 -> t < n -> u < n ->
  th c t = Some pt -> th c u = Some pu -> executing b pt -> executing b pu -> t = u.
Proof.
  intros Hn Er Hb Htn Hun Et Eu (e & Ht) (e' & Hu). destruct (Nat.eq_dec t u) as [|Hne]; [assumption|exfalso].
  pose proof (C56_accounting nw f n _ _ _ b Hn Er) as Ea. pose proof (runs_run b nw n _ _ _ _ Hn Er (proj2 (everything_init b nw n f))) as Hr. unfold runs_bound in Hr.
  pose proof (at2_run b n f _ _ _ Hn Er) as H2.
  pose proof (tsum_two n (fun t => opt (about b) (th c t)) t u Hne Htn Hun) as F1. pose proof (tsum_two n (fun t => opt (at2 b) (th c t)) t u Hne Htn Hun) as F2. cbn beta in F1, F2.
  assert (G : forall v pv e, th c v = Some pv -> pv = X1 b e \/ pv = X2 b e -> opt (about b) (th c v) + opt (at2 b) (th c v) = 1).
  { intros v pv e0 -> [-> | ->]; cbn; rewrite Nat.eqb_refl; reflexivity. }
  pose proof (G _ _ _ Et Ht). pose proof (G _ _ _ Eu Hu). lia.
Qed.

(** ** C68 *)
(** closeWorkerQueue has returned.  All workers have ended, and whatever is called afterwards, no block is executed or taken by a worker. *)
Theorem C68_after_close f xs c H i j t r ys c' H' : 0 < nw -> wq_run nw (wq_init nw f) xs = Some (c, H) -> ret_of H i j t OClose r -> wq_run nw c ys = Some (c', H') ->
  (forall w, w < nw -> th c' w = Some WE) /\ ran (sh c') = ran (sh c) /\ forall w x, w < nw -> In (w, x) (got (sh c')) -> In (w, x) (got (sh c)).
Proof.
  intros Hn Er Hr Er'. pose proof (mi_ret _ _ _ _ _ (miscI_run nw f _ _ _ Er) _ _ _ _ Hr) as Ha. destruct (ended_run nw f _ _ _ _ _ _ Hn Er Ha Er') as (E1 & E2 & E3). auto.
Qed.
End props.

(** ** Examples *)
Definition adds (t b : nat) (p : wprio) (n : nat) : list (nat * act cvc wqop) := block (t, OAdd (Some (BWork b)) p, repeat CStep n).
(** User 1 adds low block 1.  User 2 asks isEmpty() or numBlock(), which looks at the high queue first.  User 3 calls getWorkBlock and
    has found no high block when user 1 adds high block 2.  User 3 gets block 1.  User 2 now looks at the other two queues.  The answer
    is "empty", although there was a block in one of the queues all the time. *)
Definition never_empty (o : wqop) (a k : nat) : list (nat * act cvc wqop) :=
  adds 1 1 PLow 17 ++ [(2, ACall o)] ++ ints 2 a ++ ((3, ACall OGet) :: ints 3 9) ++ adds 1 2 PHigh 17 ++ ints 3 22 ++ [(3, ARet)] ++ ints 2 k.
Definition calling (c : cfg wqsh wqpc) (t : nat) : bool := match th c t with Some _ => true | None => false end.
Definition has_block (c : cfg wqsh wqpc) : bool := negb (Nat.eqb (length (content Hi (sh c)) + length (content Med (sh c)) + length (content Lo (sh c))) 0).
Definition at_prefix (xs : list (nat * act cvc wqop)) (n : nat) : bool :=
  match wq_run 1 (wq_init 1 no_fin) (take n xs) with Some (c, _) => negb (calling c 2) || has_block c | None => false end.
Lemma all_prefixes xs : forallb (at_prefix xs) (seq 0 (S (length xs))) = true ->
  forall ys zs c1 H1, xs = ys ++ zs -> wq_run 1 (wq_init 1 no_fin) ys = Some (c1, H1) -> th c1 2 <> None -> exists q, content q (sh c1) <> [].
Proof.
  intros Hf ys zs c1 H1 -> E Hc. rewrite forallb_forall in Hf. specialize (Hf (length ys)). unfold at_prefix in Hf. rewrite take_app, E in Hf.
  specialize (Hf ltac:(apply in_seq; rewrite app_length; lia)). unfold calling in Hf. destruct (th c1 2); [|congruence]. cbn in Hf. unfold has_block in Hf.
  destruct (content Hi (sh c1)) eqn:E1; [|exists Hi; congruence]. destruct (content Med (sh c1)) eqn:E2; [|exists Med; congruence]. destruct (content Lo (sh c1)) eqn:E3; [discriminate|exists Lo; congruence].
Qed.
Theorem C66_refuted : exists xs c H c', wq_run 1 (wq_init 1 no_fin) xs = Some (c, H) /\ (exists i, last_ev H 2 i (HInv 2 OEmpty)) /\
  wq_exec 1 c (2, ARet) = Some (c', [HRet 2 (RBool true)]) /\
  forall ys zs c1 H1, xs = ys ++ zs -> wq_run 1 (wq_init 1 no_fin) ys = Some (c1, H1) -> th c1 2 <> None -> exists q, content q (sh c1) <> [].
Proof.
  assert (E : option_map (fun '(c, H) => (H !! 2, length H, map tid (drop 3 H), option_map snd (wq_exec 1 c (2, ARet)))) (wq_run 1 (wq_init 1 no_fin) (never_empty OEmpty 2 4)) =
    Some (Some (HInv 2 OEmpty), 7, [3; 1; 1; 3], Some [HRet 2 (RBool true)])) by (vm_compute; reflexivity).
  apply map_some in E as ([c H] & Er & E). apply pair_equal_spec in E as [E E4]. injection E as E1 E2 E3. apply map_some in E4 as ([c' e] & Ex & E4). cbn in E4. subst e. exists (never_empty OEmpty 2 4), c, H, c'. splits; try assumption.
  - exists 2. split; [exact E1|]. split; [reflexivity|]. intros k e Hk Ek. assert (In (tid e) [3; 1; 1; 3]).
    { rewrite <- E3. apply in_map. apply elem_of_list_In. apply elem_of_list_lookup. exists (k - 3). rewrite lookup_drop. replace (3 + (k - 3)) with k by lia. exact Ek. }
    intros E. rewrite E in H0. repeat (destruct H0 as [H0|H0]; [discriminate|]). destruct H0.
  - apply all_prefixes. vm_compute. reflexivity.
Qed.
Theorem C66_num_block_refuted : exists xs c H c', wq_run 1 (wq_init 1 no_fin) xs = Some (c, H) /\ (exists i, last_ev H 2 i (HInv 2 ONum)) /\
  wq_exec 1 c (2, ARet) = Some (c', [HRet 2 (RNum 0)]) /\
  forall ys zs c1 H1, xs = ys ++ zs -> wq_run 1 (wq_init 1 no_fin) ys = Some (c1, H1) -> th c1 2 <> None -> exists q, content q (sh c1) <> [].
Proof.
  assert (E : option_map (fun '(c, H) => (H !! 2, length H, map tid (drop 3 H), option_map snd (wq_exec 1 c (2, ARet)))) (wq_run 1 (wq_init 1 no_fin) (never_empty ONum 6 12)) =
    Some (Some (HInv 2 ONum), 7, [3; 1; 1; 3], Some [HRet 2 (RNum 0)])) by (vm_compute; reflexivity).
  apply map_some in E as ([c H] & Er & E). apply pair_equal_spec in E as [E E4]. injection E as E1 E2 E3. apply map_some in E4 as ([c' e] & Ex & E4). cbn in E4. subst e. exists (never_empty ONum 6 12), c, H, c'. splits; try assumption.
  - exists 2. split; [exact E1|]. split; [reflexivity|]. intros k e Hk Ek. assert (In (tid e) [3; 1; 1; 3]).
    { rewrite <- E3. apply in_map. apply elem_of_list_In. apply elem_of_list_lookup. exists (k - 3). rewrite lookup_drop. replace (3 + (k - 3)) with k by lia. exact Ek. }
    intros E. rewrite E in H0. repeat (destruct H0 as [H0|H0]; [discriminate|]). destruct H0.
  - apply all_prefixes. vm_compute. reflexivity.
Qed.

(** Block 7 is submitted twice: both workers execute it at the same time. *)
Theorem C67_refuted : exists c H, wq_run 2 (wq_init 2 no_fin) (adds 2 7 PHigh 17 ++ adds 2 7 PHigh 18 ++ ints 0 15 ++ ints 1 15 ++ ints 0 1) = Some (c, H) /\
  submitted 7 H = 2 /\ th c 0 = Some (X2 7 XWork) /\ th c 1 = Some (X2 7 XWork) /\ ran (sh c) = [7; 7].
Proof. eexists _, _. split; [vm_compute; reflexivity|]. splits; reflexivity. Qed.
(** Block 7 is submitted once and executed by worker 0. *)
Example C67_ex : exists c H, wq_run 2 (wq_init 2 no_fin) (adds 2 7 PHigh 17 ++ adds 2 8 PHigh 18 ++ ints 0 15 ++ ints 1 15) = Some (c, H) /\
  submitted 7 H = 1 /\ th c 0 = Some (X1 7 XWork) /\ th c 1 = Some (X2 8 XWork).
Proof. eexists _, _. split; [vm_compute; reflexivity|]. splits; reflexivity. Qed.

(** After closeWorkerQueue block 9 is accepted, and stays in the queue for ever. *)
Example C68_ex : exists c H c' H', wq_run 1 (wq_init 1 no_fin) one_closer = Some (c, H) /\ ret_of H 0 1 1 OClose RUnit /\ wq_run 1 c (adds 1 9 PHigh 18) = Some (c', H') /\
  In (Some (BWork 9)) (content Hi (sh c')) /\ ran (sh c') = [].
Proof.
  eexists _, _, _, _. split; [vm_compute; reflexivity|]. split; [split; [lia|]; split; [reflexivity|]; split; [reflexivity|]; intros k e Hk; lia|]. split; [vm_compute; reflexivity|]. split; [right; left; reflexivity|reflexivity].
Qed.

Print Assumptions C66_is_empty_partial.
Print Assumptions C66_num_block_partial.
Print Assumptions C66_refuted.
Print Assumptions C66_num_block_refuted.
Print Assumptions C67_one_thread_partial.
Print Assumptions C67_refuted.
Print Assumptions C68_after_close.
