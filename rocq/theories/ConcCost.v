(** Amortised cost over a concurrent run: what the steps cost in total is paid for by the calls. *)
From stdpp Require Import list.
From Verif Require Import Base Conc WqCount.
Local Open Scope nat_scope.

Section cost.
Context {Sh Pc Op Rt Ch : Type}.
Variable start : Op -> Pc.
Variable istep : Sh -> nat -> Pc -> Ch -> option (Sh * Pc).
Variable fin : Pc -> option Rt.
(** What the next internal step of a thread at [pc] costs *)
Variable cost : Sh -> Pc -> nat.
Implicit Types (c : cfg Sh Pc) (xs : list (nat * act Ch Op)).

(** ** The total along a schedule *)
Definition act_cost c (x : nat * act Ch Op) : nat :=
  match snd x, th c (fst x) with AInt _, Some pc => cost (sh c) pc | _, _ => 0 end.
Fixpoint run_cost c xs : nat :=
  match xs with
  | [] => 0
  | x :: xs' => match exec start istep fin c x with Some (c1, _) => act_cost c x + run_cost c1 xs' | None => 0 end
  end.

(** ** A bound by a potential: [U] of the configuration and [w] of every thread *)
Variable okop : Op -> Prop.
Variable I : cfg Sh Pc -> Prop.
Variable U : cfg Sh Pc -> nat.
Variable w : Pc -> nat.
Variable gain : Op -> nat.
Hypothesis Hcall : forall c t o, I c -> okop o -> th c t = None ->
  I (Cfg (sh c) (fupd t (Some (start o)) (th c))) /\ U (Cfg (sh c) (fupd t (Some (start o)) (th c))) + w (start o) <= U c + gain o.
Hypothesis Hint : forall c t k pc s' pc', I c -> th c t = Some pc -> istep (sh c) t pc k = Some (s', pc') ->
  I (Cfg s' (fupd t (Some pc') (th c))) /\ cost (sh c) pc + U (Cfg s' (fupd t (Some pc') (th c))) + w pc' <= U c + w pc.
Hypothesis Hret : forall c t pc r, I c -> th c t = Some pc -> fin pc = Some r ->
  I (Cfg (sh c) (fupd t None (th c))) /\ U (Cfg (sh c) (fupd t None (th c))) <= U c + w pc.

Definition ow (x : option Pc) : nat := match x with Some pc => w pc | None => 0 end.
Definition gains (os : list Op) : nat := list_sum (map gain os).

Lemma run_cost_tsum n xs : Forall (fun x => fst x < n) xs -> forall c c' H, I c -> Forall okop (calls xs) -> run start istep fin c xs = Some (c', H) ->
  run_cost c xs + U c' + tsum n (fun t => ow (th c' t)) <= U c + gains (calls xs) + tsum n (fun t => ow (th c t)).
Proof.
  induction 1 as [|[t a] xs Ht _ IH]; intros c c' H Hi Ho; [intros [= <- <-]; cbn; lia|]. cbn [run run_cost fst] in *.
  destruct (exec start istep fin c (t, a)) as [[c1 e]|] eqn:Ee; [|discriminate]. destruct (run start istep fin c1 xs) as [[c2 H2]|] eqn:Er; [|discriminate].
  intros [= <- <-]. cbn [exec] in Ee. unfold act_cost. cbn [fst snd]. destruct a as [o|k|]; destruct (th c t) as [pc|] eqn:Et; try discriminate.
  - injection Ee as <- _. change (calls ((t, ACall o) :: xs)) with (o :: calls (Ch := Ch) xs) in *. apply Forall_cons_1 in Ho as [Ho1 Ho2].
    destruct (Hcall c t o Hi Ho1 Et) as [Hi1 Hu]. specialize (IH _ _ _ Hi1 Ho2 Er). cbn [th] in IH.
    pose proof (tsum_upd n ow (th c) t (Some (start o)) Ht) as Hs. rewrite Et in Hs. cbn [ow] in Hs. change (gains (o :: calls xs)) with (gain o + gains (calls xs)). lia.
  - destruct (istep (sh c) t pc k) as [[s' pc']|] eqn:Es; [|discriminate]. injection Ee as <- _. change (calls ((t, AInt k) :: xs)) with (calls (Ch := Ch) xs) in *.
    destruct (Hint c t k pc s' pc' Hi Et Es) as [Hi1 Hu]. specialize (IH _ _ _ Hi1 Ho Er). cbn [th] in IH.
    pose proof (tsum_upd n ow (th c) t (Some pc') Ht) as Hs. rewrite Et in Hs. cbn [ow] in Hs. lia.
  - destruct (fin pc) as [r|] eqn:Ef; [|discriminate]. injection Ee as <- _. change (calls ((t, ARet) :: xs)) with (calls (Ch := Ch) xs) in *.
    destruct (Hret c t pc r Hi Et Ef) as [Hi1 Hu]. specialize (IH _ _ _ Hi1 Ho Er). cbn [th] in IH.
    pose proof (tsum_upd n ow (th c) t None Ht) as Hs. rewrite Et in Hs. cbn [ow] in Hs. lia.
Qed.

Lemma thread_bound xs : exists n, Forall (fun x => fst x < n) xs.
Proof.
  induction xs as [|[t a] xs [n IH]]; [exists 0; constructor|]. exists (S (Nat.max t n)). constructor; [cbn; lia|].
  eapply Forall_impl; [exact IH|]. intros x Hx. cbn beta in *. lia.
Qed.

Lemma run_cost_le xs s c' H : I (init s) -> Forall okop (calls xs) -> run start istep fin (init s) xs = Some (c', H) ->
  run_cost (init s) xs + U c' <= U (init s) + gains (calls xs).
Proof.
  intros Hi Ho Er. destruct (thread_bound xs) as [n Hn]. pose proof (run_cost_tsum n xs Hn _ _ _ Hi Ho Er) as Hb.
  cbn [init th] in Hb. rewrite (tsum_zero n (fun _ => ow None)) in Hb by reflexivity. lia.
Qed.
End cost.
