(** C94: the operations of BlockingQueue and BlockingPriorityQueue take a bounded number of steps, waiting apart *)
From stdpp Require Import list.
From Verif Require Import Base Conc CondVar Herlihy BqModel BqSpec BqInv BqLin BqMore BqMore2 BqBound Serial Props_Bq.
Local Open Scope nat_scope.

Section props.
Context {V : Type}.
Notation bqcfg := (cfg (bqsh V) (bqpc V)).
Implicit Types (s : bqsh V) (c : bqcfg) (o : bqop V) (xs ys zs : list (nat * act cvc (bqop V))).

(** In the longest execution from a state nobody is inside: [n_int t xs] own steps of thread [t], [n_call t xs] its calls,
    [chances t xs] its spurious wakeups and timeouts, [pushes xs] the pushes called by anybody. *)
Theorem C94_bounded bp s xs c H t : bq_run bp (init s) xs = Some (c, H) -> n_int t xs <= 23 * n_call t xs + 28 * chances t xs + 27 * pushes xs.
Proof.
  intros Er. destruct (left_run bp t xs _ _ _ [] (covers_init s) Er) as (P & _ & L). pose proof (costs_calls t xs).
  unfold left in L at 2. cbn [init th left_at length] in L. unfold lap in L. lia.
Qed.

(** Operations that do not wait: the number of steps, locking included, whatever the others do *)
Definition most o : option nat :=
  match o with
  | BPush _ | BEmplace _ => Some 12 | BPushPri _ | BEmplacePri _ => Some 6 | BTryPop => Some 17
  | BPeek => Some 3 | BSize | BReserve _ => Some 5 | BClear => Some 8 | BEmpty => Some 1
  | BPop | BPopFor | BPopCall => None
  end.
Theorem C94_call bp c0 t o zs c H n : bq_run bp c0 ((t, ACall o) :: zs) = Some (c, H) -> inside t zs -> most o = Some n -> n_int t zs <= n.
Proof.
  unfold bq_run. cbn [run]. destruct (exec bq_start (bq_step bp) bq_fin c0 (t, ACall o)) as [[c1 e]|] eqn:Ex; [|discriminate].
  destruct (run bq_start (bq_step bp) bq_fin c1 zs) as [[c2 H2]|] eqn:Er; [|discriminate]. intros [= <- _] Hin Hm.
  cbn in Ex. destruct (th c0 t) eqn:Et; [discriminate|]. injection Ex as <- _.
  destruct (calm_run bp t zs _ _ _ (bq_start o) Er Hin) as (pc' & _ & _ & L); [cbn; apply fupd_same|destruct o; try discriminate Hm; split; reflexivity|].
  rewrite cost_start in L. destruct o; try discriminate Hm; injection Hm as <-; cbn [cost] in L; lia.
Qed.

(** One call of any operation.  [P]: the threads that are inside a push when it is called *)
Theorem C94_pop bp s ys c1 H1 P t o zs c H : bq_run bp (init s) ys = Some (c1, H1) ->
  (forall u i o', th c1 u <> None -> last_ev H1 u i (HInv u o') -> bval o' <> None -> In u P) ->
  bq_run bp c1 ((t, ACall o) :: zs) = Some (c, H) -> inside t zs ->
  n_int t zs <= 23 + 28 * chances t zs + 27 * (length P + pushes zs + length (bvals o)).
Proof.
  intros E1 HP Er Hin. assert (HP' : covers P c1).
  { intros u pc Eu Hl. destruct (pending bq_start (bq_step bp) bq_fin at_op at_op_start (at_op_step bp) _ _ _ _ _ _ E1 Eu) as (i & o' & Hi & Ha).
    apply (HP u i o'); [congruence|exact Hi|]. destruct pc; try discriminate Hl; cbn in Ha; unfold inserts in Ha; destruct (bval o'); congruence. }
  destruct (left_run bp t _ _ _ _ P HP' Er) as (P' & _ & L). cbn [n_int costs chances pushes] in L. rewrite (inside_costs t zs Hin), Nat.eqb_refl in L. unfold chance_of, pushes_of in L. cbn [snd] in L.
    assert (left c1 t = 0) as E0. { unfold bq_run in Er. cbn [run exec] in Er. unfold left. destruct (th c1 t); [discriminate|reflexivity]. }
    pose proof (cost_le o). unfold lap in L. lia.
Qed.

(** pop(timeout) whose wait has timed out: at most 21 more steps, and it does not wait again. *)
Theorem C94_timeout bp c0 t zs c H : bq_run bp c0 ((t, AInt CTime) :: zs) = Some (c, H) -> inside t zs -> n_int t zs <= 21 /\ ~ bq_waits c t.
Proof.
  unfold bq_run. cbn [run]. destruct (exec bq_start (bq_step bp) bq_fin c0 (t, AInt CTime)) as [[c1 e]|] eqn:Ex; [|discriminate].
  destruct (run bq_start (bq_step bp) bq_fin c1 zs) as [[c2 H2]|] eqn:Er; [|discriminate]. intros [= <- _] Hin.
  cbn in Ex. destruct (th c0 t) as [pc|] eqn:Et; [|discriminate]. destruct pc; try discriminate. destruct m as [| |[]|]; try discriminate. injection Ex as <- _.
  destruct (calm_run bp t zs _ _ _ (W5 (MFor true)) Er Hin) as (pc' & Et' & [_ Ha] & L); [cbn; apply fupd_same| |].
  - split; [reflexivity|]. cbn. apply inb_false. intros Hi. apply rm_spec in Hi. tauto.
  - cbn [steps tail] in L. split; [lia|]. intros (m & E & Hw). rewrite Et' in E. injection E as ->. cbn in Ha. apply inb_false in Ha. contradiction.
Qed.

(** Without new calls, spurious wakeups and timeouts, everything comes to rest: at most [B] steps, and when no thread can
    make a step any more, every thread has returned or waits. *)
Theorem C94_settles bp s xs c H n : rest bp s -> Forall (has_op bp) (calls xs) -> bq_run bp (init s) xs = Some (c, H) ->
  exists B, forall ys c' H', ordinary ys -> on n ys -> bq_run bp c ys = Some (c', H') ->
    length ys <= B /\ (~ progress bp c' -> forall t, th c' t = None \/ bq_waits c' t).
Proof.
  intros Hr Hok Er. destruct (left_run bp 0 xs _ _ _ [] (covers_init s) Er) as (P & HP & _).
  exists (total n (fun t => left c t + lap * length P + 1)). intros ys c' H' Ho Hn Ey. split.
  - etransitivity; [apply acts_total; exact Hn|]. apply total_le. intros t _. pose proof (acts_int bp t ys _ _ _ Ho Ey) as Ha.
    destruct (left_run bp t ys _ _ _ P HP Ey) as (P' & _ & L). destruct (ordinary_quiet t ys Ho) as (E1 & E2 & E3). rewrite E1, E2, E3 in L.
    assert (busy c t <= 1) by (unfold busy; destruct (th c t); lia). lia.
  - intros Hp t. destruct (th c' t) as [pc|] eqn:Et; [right|left; reflexivity].
    assert (Hi : bqI bp c'). { eapply bqI_run; [eapply bqI_run; [apply bqI_init, Hr|exact Hok|exact Er]|rewrite (ordinary_calls ys Ho); constructor|exact Ey]. }
    destruct (in_dec Nat.eq_dec t (bwait (sh c'))) as [Hw|Hw].
    + destruct (i_wait _ _ Hi _ Hw) as (m & E). exists m. rewrite Et. split; [congruence|exact Hw].
    + exfalso. apply Hp. eapply bq_live; [exact Hi|rewrite Et; discriminate|]. intros (m & _ & Hw'). contradiction.
Qed.
End props.

(** Thread 0 has set the flag and released the push lock when threads 1 and 2 fill pullElements; its push takes all 12 steps. *)
Definition go (t n : nat) : list (nat * act cvc (bqop Z)) := repeat (t, AInt CStep) n.
Definition slow_push : list (nat * act cvc (bqop Z)) :=
  go 0 4 ++ [(1, ACall (BPush 11%Z))] ++ go 1 6 ++ [(1, ARet); (1, ACall (BPush 12%Z))] ++ go 1 4 ++ [(1, ARet); (2, ACall BTryPop)] ++ go 2 11 ++ [(2, ARet)] ++ go 0 8.
Definition shown (c : cfg (bqsh Z) (bqpc Z)) := (pullE (sh c), pushE (sh c), th c 0, th c 1).
Definition final bp xs := match bq_run bp (init (bq0 (V := Z))) xs with Some (c, _) => Some (shown c) | None => None end.
Lemma go_inside t u n : inside t (go u n).
Proof. intros a Ha. apply repeat_spec in Ha. injection Ha as _ ->. eauto. Qed.
Example C94_push_case : final false ((0, ACall (BPush 10%Z)) :: slow_push) = Some ([12%Z], [10%Z], Some (Ret BUnit), None) /\ inside 0 slow_push /\ n_int 0 slow_push = 12.
Proof.
  split; [vm_compute; reflexivity|]. split; [|reflexivity]. intros a Ha. unfold slow_push in Ha. cbn in Ha.
  repeat (destruct Ha as [E|Ha]; [first [discriminate E|injection E as <-; eauto]|]). destruct Ha.
Qed.

(** A consumer of a BlockingQueue that waits, wakes up spuriously, waits again, and is woken by a push; then it takes the
    element.  30 steps, of at most 23 + 28 + 27. *)
Definition patient : list (nat * act cvc (bqop Z)) :=
  go 1 11 ++ [(1, AInt CSpur)] ++ go 1 14 ++ [(0, ACall (BPush 10%Z))] ++ go 0 10 ++ [(0, ARet)] ++ go 1 4.
Example C94_pop_case : final false ((1, ACall BPop) :: patient) = Some ([], [], None, Some (Ret (BVal (Some 10%Z)))) /\ n_int 1 patient = 30 /\ chances 1 patient = 1 /\ pushes patient = 1.
Proof. split; [vm_compute; reflexivity|]. split; [reflexivity|]. split; reflexivity. Qed.

(** pop(timeout) on an empty BlockingPriorityQueue: 13 steps after the time is up *)
Example C94_timeout_case : final true ((1, ACall BPopFor) :: go 1 13 ++ (1, AInt CTime) :: go 1 13) = Some ([], [], None, Some (Ret (BVal None))).
Proof. vm_compute. reflexivity. Qed.

Print Assumptions C94_bounded.
Print Assumptions C94_call.
Print Assumptions C94_pop.
Print Assumptions C94_timeout.
Print Assumptions C94_settles.
