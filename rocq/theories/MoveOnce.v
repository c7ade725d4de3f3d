(** How often a call uses (moves from) the argument it was given.  The machine of Conc.v, with the operation and a counter kept
    beside each program point. *)
From stdpp Require Import list.
From Verif Require Import Base Conc.

Section counted.
Context {Sh Pc Op Rt Ch : Type}.
Variable start : Op -> Pc.
Variable step : Sh -> nat -> Pc -> Ch -> option (Sh * Pc).
Variable fin : Pc -> option Rt.
Variable use : Pc -> bool.       (* does the step a thread is about to make use the argument? *)

Definition c_start (o : Op) : Pc * Op * nat := (start o, o, 0%nat).
Definition c_step (s : Sh) (t : nat) (x : Pc * Op * nat) (k : Ch) : option (Sh * (Pc * Op * nat)) :=
  let '(pc, o, n) := x in
  match step s t pc k with Some (s', pc') => Some (s', (pc', o, if use pc then S n else n)) | None => None end.
(** A return says which call it ends and how often the argument was used *)
Definition c_fin (x : Pc * Op * nat) : option (Rt * Op * nat) := let '(pc, o, n) := x in match fin pc with Some r => Some (r, o, n) | None => None end.

Definition forget (e : hev Op (Rt * Op * nat)) : hev Op Rt := match e with HInv t o => HInv t o | HRet t (r, _, _) => HRet t r end.
Definition pcs (c : cfg Sh (Pc * Op * nat)) : cfg Sh Pc := Cfg (sh c) (fun t => match th c t with Some (pc, _, _) => Some pc | None => None end).

Definition same (c : cfg Sh Pc) (c' : cfg Sh (Pc * Op * nat)) : Prop := sh c = sh c' /\ forall t, th c t = th (pcs c') t.

Lemma same_upd c c' s t pc o n : same c c' -> same (Cfg s (fupd t (Some pc) (th c))) (Cfg s (fupd t (Some (pc, o, n)) (th c'))).
Proof. intros [_ H]. split; [reflexivity|]. intros u. cbn in *. unfold fupd. destruct (Nat.eqb u t); [reflexivity|apply H]. Qed.
Lemma same_none c c' t : same c c' -> same (Cfg (sh c) (fupd t None (th c))) (Cfg (sh c') (fupd t None (th c'))).
Proof. intros [E H]. split; [exact E|]. intros u. cbn in *. unfold fupd. destruct (Nat.eqb u t); [reflexivity|apply H]. Qed.

Lemma exec_counted c c' x c1 e : same c c' -> exec start step fin c x = Some (c1, e) ->
  exists c1' e', exec c_start c_step c_fin c' x = Some (c1', e') /\ same c1 c1' /\ map forget e' = e.
Proof.
  intros HS. pose proof HS as [Es Ht]. destruct x as [t a]. specialize (Ht t). cbn in Ht. unfold exec. rewrite Ht, Es. destruct a as [o|k|]; destruct (th c' t) as [[[pc o'] n]|]; try discriminate.
  - intros [= <- <-]. eexists _, _. split; [reflexivity|]. split; [apply same_upd, HS|reflexivity].
  - cbn [c_step]. destruct (step (sh c') t pc k) as [[s' pc']|]; [|discriminate]. intros [= <- <-]. eexists _, _. split; [reflexivity|]. split; [apply same_upd, HS|reflexivity].
  - cbn [c_fin]. destruct (fin pc) as [r|]; [|discriminate]. intros [= <- <-]. eexists _, _. split; [reflexivity|]. split; [|reflexivity]. rewrite <- Es. rewrite Es. pose proof (same_none _ _ t HS) as H. rewrite Es in H. exact H.
Qed.

Lemma run_counted xs : forall c c' c1 H, same c c' -> run start step fin c xs = Some (c1, H) ->
  exists c1' H', run c_start c_step c_fin c' xs = Some (c1', H') /\ same c1 c1' /\ map forget H' = H.
Proof.
  induction xs as [|x xs IH]; intros c c' c1 H HS; cbn.
  - intros [= <- <-]. eexists _, _. split; [reflexivity|]. auto.
  - destruct (exec start step fin c x) as [[c2 e]|] eqn:E1; [|discriminate]. destruct (exec_counted _ _ _ _ _ HS E1) as (c2' & e' & E2 & HS2 & He). rewrite E2.
    destruct (run start step fin c2 xs) as [[c3 H3]|] eqn:E3; [|discriminate]. intros [= <- <-]. destruct (IH _ _ _ _ HS2 E3) as (c3' & H3' & E4 & HS3 & HH). rewrite E4.
    eexists _, _. split; [reflexivity|]. split; [exact HS3|]. rewrite map_app, He, HH. reflexivity.
Qed.

(** [at_ pc o n]: possible; [ret r o n]: so may the call end *)
Variable at_ : Pc -> Op -> nat -> Prop.
Variable ret : Rt -> Op -> nat -> Prop.
Hypothesis at_start : forall o, at_ (start o) o 0.
Hypothesis at_step : forall s t pc k s' pc' o n, at_ pc o n -> step s t pc k = Some (s', pc') -> at_ pc' o (if use pc then S n else n).
Hypothesis at_fin : forall pc r o n, at_ pc o n -> fin pc = Some r -> ret r o n.

Definition counts (c : cfg Sh (Pc * Op * nat)) : Prop := forall t pc o n, th c t = Some (pc, o, n) -> at_ pc o n.
Lemma counts_run xs : forall c c1 H, counts c -> run c_start c_step c_fin c xs = Some (c1, H) -> forall t r o n, In (HRet t (r, o, n)) H -> ret r o n.
Proof.
  induction xs as [|x xs IH]; intros c c1 H Hc; cbn [run].
  - intros [= _ <-] ? ? ? ? [].
  - destruct (exec c_start c_step c_fin c x) as [[c2 e]|] eqn:E1; [|discriminate]. destruct (run c_start c_step c_fin c2 xs) as [[c3 H3]|] eqn:E3; [|discriminate]. intros [= <- <-] t r o n Hin.
    destruct x as [u a]. unfold exec in E1. destruct a as [o1|k|]; destruct (th c u) as [[[pc o'] m]|] eqn:Eu; try discriminate.
    + injection E1 as <- <-. destruct Hin as [Hin|Hin]; [discriminate|]. eapply IH; [|exact E3|exact Hin]. intros v pc o2 m. cbn. unfold fupd. destruct (Nat.eqb v u); [intros [= <- <- <-]; apply at_start|apply Hc].
    + cbn [c_step] in E1. destruct (step (sh c) u pc k) as [[s' pc']|] eqn:Es; [|discriminate]. injection E1 as <- <-. eapply IH; [|exact E3|exact Hin]. intros v pc2 o2 m2. cbn. unfold fupd.
      destruct (Nat.eqb v u); [intros [= <- <- <-]; eapply at_step; [apply (Hc _ _ _ _ Eu)|exact Es]|apply Hc].
    + cbn [c_fin] in E1. destruct (fin pc) as [r1|] eqn:Ef; [|discriminate]. injection E1 as <- <-. destruct Hin as [Hin|Hin]; [injection Hin as <- <- <- <-; eapply at_fin; [apply (Hc _ _ _ _ Eu)|exact Ef]|].
      eapply IH; [|exact E3|exact Hin]. intros v pc2 o2 m2. cbn. unfold fupd. destruct (Nat.eqb v u); [discriminate|apply Hc].
Qed.

Lemma run_uses s xs c H : run start step fin (init s) xs = Some (c, H) ->
  exists c' H', run c_start c_step c_fin (init s) xs = Some (c', H') /\ map forget H' = H /\ forall t r o n, In (HRet t (r, o, n)) H' -> ret r o n.
Proof.
  intros Er. destruct (run_counted xs (init s) (init s) c H) as (c' & H' & E & _ & Hm); [split; reflexivity|exact Er|]. exists c', H'. split; [exact E|]. split; [exact Hm|].
  eapply counts_run; [|exact E]. intros t pc o n. discriminate.
Qed.
End counted.
