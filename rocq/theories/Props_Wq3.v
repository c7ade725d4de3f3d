(** WorkQueue used by many threads: C63 *)
From stdpp Require Import list.
From Verif Require Import Base Conc CondVar SqModel SqSpec SqProofs WqModel WqProofs WqPrio.

Section props.
Variable nw : nat.
Notation wqcfg := (cfg wqsh wqpc).
Implicit Types (s : wqsh) (c : wqcfg) (f : nat -> bool) (xs : list (nat * act cvc wqop)).

(** ** Order *)
(** [logs (puts i)]: everything put into queue [i] so far, in this order; [logs (takes i)]: everything taken out of it by
    getWorkBlock or thrown away by closeWorkerQueue.  What was taken out are the first ones that came in. *)
Theorem C63_fifo f i xs c H : wq_run nw (wq_init nw f) xs = Some (c, H) ->
  logs nw (puts i) (wq_init nw f) xs = logs nw (takes i) (wq_init nw f) xs ++ order i c /\ order i c ≡ₚ sq_content (qof i (sh c)) /\
  (pullL (qof i (sh c)) = None -> order i c = sq_content (qof i (sh c))).
Proof.
  intros Er. pose proof (order_run nw i xs _ _ _ (fun j => qproj_init nw f j) Er) as E. splits; [|apply (ord_perm (qcfg i c))|apply (ord_free (qcfg i c))].
  rewrite <- E. replace (order i (wq_init nw f)) with (@nil ptr); [reflexivity|]. destruct i; reflexivity.
Qed.

(** [a] is in queue [i], [b] is not yet.  If [b] is taken out later, [a] was taken out before. *)
Theorem C63_before f i xs c H ys c' H' a b : wq_run nw (wq_init nw f) xs = Some (c, H) -> wq_run nw c ys = Some (c', H') ->
  In a (order i c) -> ~ In b (order i c) -> In b (logs nw (takes i) c ys) ->
  exists l1 l2, logs nw (takes i) c ys = l1 ++ b :: l2 /\ In a l1.
Proof.
  intros Er Er' Ha Hb Ht. pose proof (order_run nw i ys _ _ _ (qproj_run nw sq0 _ _ _ _ (fun j => qproj_init nw f j) Er) Er') as E.
  apply in_split in Ht as (l1 & l2 & Ht). exists l1, l2. split; [exact Ht|]. rewrite Ht in E. clear -E Ha Hb. rewrite <- app_assoc in E. cbn in E.
  revert l1 E. induction (order i c) as [|o l IH]; intros l1 E; [destruct Ha|]. destruct l1 as [|d l1]; cbn in E; injection E as -> E.
  - destruct Hb. left. reflexivity.
  - destruct Ha as [->|Ha]; [left; reflexivity|right]. apply IH; auto. intros Hx. apply Hb. right. exact Hx.
Qed.

(** ** Priority *)
(** getWorkBlock returns [x] to [t] (whatever the other threads do meanwhile).  During this call [t] took [x] out of the high
    queue; or this queue was empty at some moment of the call, and [x] was taken
    - from the low queue, MedCounter having been read not below priorityRatio,
    - or from the medium queue, MedCounter having been read below priorityRatio or the low queue having been seen empty,
    - or from the low queue, the medium queue having been empty at some moment;
    or there is no block, each of the three queues having been empty at some moment. *)
Theorem C63_served f xs c H x t c' e : wq_run nw (wq_init nw f) xs = Some (c, H) -> wq_exec nw c x = Some (c', e) ->
  inside c t = true -> inside c' t = false ->
  exists v, x = (t, AInt CStep) /\ got (sh c') = got (sh c) ++ [(t, v)] /\ served nw f xs t v.
Proof. apply served_run. Qed.

(** "This call": a stretch inside getWorkBlock starts with its first instruction, which is never reached again within it. *)
Theorem C63_one_call f xs c H t a c' e : wq_run nw (wq_init nw f) xs = Some (c, H) -> wq_exec nw c (t, a) = Some (c', e) -> inside c' t = true ->
  inside c t = false <-> exists g, th c' t = Some (gstart g).
Proof. intros Er. apply enter_get. exact (shaped_run nw _ _ _ _ (shaped_init nw f) Er). Qed.

(** While there is high priority work all the time, only such work is handed out. *)
Theorem C63_high_first f xs c H x t c' e : wq_run nw (wq_init nw f) xs = Some (c, H) -> wq_exec nw c x = Some (c', e) ->
  inside c t = true -> inside c' t = false ->
  (forall ys zs c1 H1, xs = ys ++ zs -> wq_run nw (wq_init nw f) ys = Some (c1, H1) -> stays nw c1 zs t -> sq_content (qH (sh c1)) <> []) ->
  exists v, got (sh c') = got (sh c) ++ [(t, v)] /\ took nw f xs t Hi v.
Proof.
  intros Er Ex Hn1 Hn2 Hne. destruct (served_run nw f _ _ _ _ _ _ _ Er Ex Hn1 Hn2) as (v & _ & Eg & Hs). exists v. split; [exact Eg|].
  destruct Hs as [Hs|Hs]; [exact Hs|exfalso]. assert (HM : moment nw f xs t (qempty Hi)) by tauto.
  destruct HM as (ys & zs & c1 & H1 & E & E1 & HP & HS). exact (Hne _ _ _ _ E E1 HS HP).
Qed.

(** No block is returned although nobody ever put a null pointer into a queue: each queue was empty at some moment. *)
Theorem C63_nothing f xs c H x t c' e : wq_run nw (wq_init nw f) xs = Some (c, H) -> wq_exec nw c x = Some (c', e) ->
  inside c t = true -> inside c' t = false -> got (sh c') = got (sh c) ++ [(t, None)] ->
  (forall i, ~ In None (logs nw (puts i) (wq_init nw f) xs)) -> forall i, moment nw f xs t (qempty i).
Proof.
  intros Er Ex Hn1 Hn2 Eg Hn. destruct (served_run nw f _ _ _ _ _ _ _ Er Ex Hn1 Hn2) as (v & _ & Eg' & Hs). rewrite Eg in Eg'. apply app_inv_head in Eg'. injection Eg' as <-.
  assert (Ht : forall i, ~ took nw f xs t i None).
  { intros i (ys & k & zs & c1 & H1 & E & E1 & HT & _). apply (Hn i).
    assert (Hin : In None (logs nw (takes i) (wq_init nw f) xs)).
    { clear -E E1 HT. subst xs. revert E1. generalize (wq_init nw f). intros c0 E1. revert c0 H1 E1. induction ys as [|y ys IH]; intros c0 H1 E1; cbn [app logs].
      - injection E1 as -> _. cbn [fst]. rewrite HT. left. reflexivity.
      - unfold wq_run in E1. cbn [run] in E1. apply in_or_app. right. unfold wq_exec. destruct (exec _ _ _ c0 y) as [[c2 e]|]; [|discriminate].
        destruct (run _ _ _ c2 ys) as [[c3 H3]|] eqn:E3; [|discriminate]. injection E1 as <- _. eapply IH. exact E3. }
    rewrite (proj1 (C63_fifo f i _ _ _ Er)). apply in_or_app. left. exact Hin. }
  unfold served in Hs. intros i. destruct i; [| |]; destruct Hs as [Hs|[Hs|[Hs|[Hs|Hs]]]]; try (destruct (Ht _ Hs)); try (destruct (Ht _ (proj2 (proj2 Hs)))); tauto.
Qed.
End props.

(** ** Examples *)
(** User 1 adds medium block 1.  User 2 calls getWorkBlock and finds no high priority work.  Now user 1 adds high block 2.
    User 2 goes on and gets block 1: the high queue has been empty during the call, but is not any more. *)
Lemma map_some {A B} (g : A -> B) o b : option_map g o = Some b -> exists a, o = Some a /\ g a = b.
Proof. destruct o as [a|]; [|discriminate]. cbn. intros [= <-]. eauto. Qed.
Definition steps (t n : nat) : list (nat * act cvc wqop) := repeat (t, AInt CStep) n.
Definition late : list (nat * act cvc wqop) :=
  (1%nat, ACall (OAdd (Some (BWork 1)) PMed)) :: steps 1 17 ++ [(1%nat, ARet); (2%nat, ACall OGet)] ++ steps 2 9 ++
  (1%nat, ACall (OAdd (Some (BWork 2)) PHigh)) :: steps 1 17 ++ [(1%nat, ARet)] ++ steps 2 13.
Example C63_ex : exists c H c' e, wq_run 1 (wq_init 1 (fun _ => false)) late = Some (c, H) /\ wq_exec 1 c (2%nat, AInt CStep) = Some (c', e) /\
  inside c 2 = true /\ inside c' 2 = false /\ got (sh c') = [(2%nat, Some (BWork 1))] /\ sq_content (qH (sh c)) = [Some (BWork 2)].
Proof.
  assert (E : option_map (fun '(c, _) => (inside c 2, sq_content (qH (sh c)), option_map (fun '(c', _) => (inside c' 2, got (sh c'))) (wq_exec 1 c (2%nat, AInt CStep)))) (wq_run 1 (wq_init 1 (fun _ => false)) late) =
    Some (true, [Some (BWork 2)], Some (false, [(2%nat, Some (BWork 1))]))) by (vm_compute; reflexivity).
  apply map_some in E as ([c H] & Er & E). injection E as E1 E2 E3. apply map_some in E3 as ([c' e] & Ex & E3). injection E3 as E3 E4. exists c, H, c', e.
  splits; assumption.
Qed.

(** User 1 adds medium block 1, then block 2 with the same priority; user 2 takes both. *)
Definition add1 (b n : nat) : list (nat * act cvc wqop) := (1%nat, ACall (OAdd (Some (BWork b)) PMed)) :: steps 1 n ++ [(1%nat, ARet)].
Definition get2 (n : nat) : list (nat * act cvc wqop) := (2%nat, ACall OGet) :: steps 2 n ++ [(2%nat, ARet)].
Example C63_before_ex : exists c H c' H', wq_run 1 (wq_init 1 (fun _ => false)) (add1 1 17) = Some (c, H) /\ wq_run 1 c (add1 2 18 ++ get2 24 ++ get2 23) = Some (c', H') /\
  In (Some (BWork 1)) (order Med c) /\ ~ In (Some (BWork 2)) (order Med c) /\ In (Some (BWork 2)) (logs 1 (takes Med) c (add1 2 18 ++ get2 24 ++ get2 23)).
Proof.
  assert (E : option_map (fun '(c, _) => (order Med c, logs 1 (takes Med) c (add1 2 18 ++ get2 24 ++ get2 23), option_map (fun _ => tt) (wq_run 1 c (add1 2 18 ++ get2 24 ++ get2 23))))
    (wq_run 1 (wq_init 1 (fun _ => false)) (add1 1 17)) = Some ([Some (BWork 1)], [Some (BWork 1); Some (BWork 2)], Some tt)) by (vm_compute; reflexivity).
  apply map_some in E as ([c H] & Er & E). apply pair_equal_spec in E as [E E3]. apply pair_equal_spec in E as [E1 E2]. apply map_some in E3 as ([c' H'] & Ex & _). exists c, H, c', H'.
  rewrite E1, E2. splits; [assumption|assumption|left; reflexivity|intros [[=]|[]]|right; left; reflexivity].
Qed.

Print Assumptions C63_fifo.
Print Assumptions C63_before.
Print Assumptions C63_served.
Print Assumptions C63_one_call.
Print Assumptions C63_high_first.
Print Assumptions C63_nothing.
