(** WorkQueue: where each submitted block is *)
From stdpp Require Import list.
From Verif Require Import Base Conc CondVar SqModel SqSpec SqProofs WqModel WqProofs.
Local Open Scope nat_scope.

(** Sums over the first [n] threads *)
Fixpoint tsum (n : nat) (g : nat -> nat) : nat := match n with O => 0 | S n' => tsum n' g + g n' end.
Lemma tsum_ext n g h : (forall t, t < n -> g t = h t) -> tsum n g = tsum n h.
Proof. induction n as [|n IH]; cbn; intros H; [reflexivity|]. rewrite (H n) by lia. rewrite IH; [reflexivity|]. intros t Ht. apply H. lia. Qed.
Lemma tsum_upd {A} n (g : A -> nat) (f : nat -> A) t x : t < n ->
  tsum n (fun u => g (fupd t x f u)) + g (f t) = tsum n (fun u => g (f u)) + g x.
Proof.
  induction n as [|n IH]; intros Ht; [lia|]. cbn. destruct (Nat.eq_dec t n) as [->|Hne].
  - rewrite fupd_same. rewrite (tsum_ext n _ (fun u => g (f u))); [lia|]. intros u Hu. rewrite fupd_other by lia. reflexivity.
  - rewrite (fupd_other t n) by congruence. specialize (IH ltac:(lia)). lia.
Qed.
Lemma tsum_zero n g : (forall t, t < n -> g t = 0) -> tsum n g = 0.
Proof. induction n as [|n IH]; cbn; intros H; [reflexivity|]. rewrite (H n) by lia. rewrite IH; [reflexivity|]. intros t Ht. apply H. lia. Qed.
Lemma tsum_le n g h : (forall t, t < n -> g t <= h t) -> tsum n g <= tsum n h.
Proof. induction n as [|n IH]; cbn; intros H; [lia|]. specialize (H n ltac:(lia)) as H1. specialize (IH (fun t Ht => H t ltac:(lia))). lia. Qed.
Lemma tsum_ge n g t : t < n -> g t <= tsum n g.
Proof. induction n as [|n IH]; cbn; intros H; [lia|]. destruct (Nat.eq_dec t n) as [->|]; [lia|]. specialize (IH ltac:(lia)). lia. Qed.

Section count.
Variable b : nat.     (* the block *)

Definition isb (x : ptr) : nat := match x with Some (BWork b') => if Nat.eqb b' b then 1 else 0 | _ => 0 end.
Fixpoint occ (l : list ptr) : nat := match l with [] => 0 | x :: l' => isb x + occ l' end.
Lemma occ_app l k : occ (l ++ k) = occ l + occ k.
Proof. induction l as [|x l IH]; cbn; lia. Qed.
Lemma occ_rev l : occ (rev l) = occ l.
Proof. induction l as [|x l IH]; cbn; [reflexivity|]. rewrite occ_app. cbn. lia. Qed.

(** Copies submitted by a call *)
Definition sub_op (o : wqop) : nat := match o with OAdd x _ => isb x | OAddV xs _ => occ xs | _ => 0 end.
Definition submitted (H : list (hev wqop wqret)) : nat := fold_right (fun e n => match e with HInv _ o => sub_op o | HRet _ _ => 0 end + n) 0 H.
Lemma submitted_app H K : submitted (H ++ K) = submitted H + submitted K.
Proof. unfold submitted. induction H as [|e H IH]; cbn; lia. Qed.

(** Copies a thread inside addWorkBlock has not put into a queue (or executed) yet *)
Definition sq_coming (p : sqpc ptr) : nat :=
  match p with P0 o | P1 o | P2 o | P3 o | P4 o | P5 o | P8 o | P9 o | P10 o => occ (elems o) | _ => 0 end.
Definition x_coming (e : xctx) : nat := match e with XAdd xs => occ xs | XWork => 0 end.
Definition coming (pc : wqpc) : nat :=
  match pc with
  | Sub _ p (KSize x _) => isb x
  | Sub _ p _ => sq_coming p
  | A0 x _ => isb x
  | XV xs | Crash xs => occ xs
  | X1 _ e | X2 _ e => x_coming e
  | _ => 0
  end.
(** ... a thread inside getWorkBlock has taken out of a queue *)
Definition sq_leaving (p : sqpc ptr) : nat :=
  match p with
  | C0 (Some v) | C1 (Some v) | C2 (Some v) | C3 (Some v) | C4 (Some v) | C5 (Some v) | C6 (Some v) | C7 (Some v)
  | O3 (Some v) | SqModel.Ret (QVal (Some v)) => isb v
  | _ => 0
  end.
Definition leaving (pc : wqpc) : nat :=
  match pc with Sub _ p _ => sq_leaving p | G2 x _ | G3 x _ => isb x | _ => 0 end.
(** ... are in a queue, *)
Definition in_queue (q : sqsh ptr) : nat := occ (pullE q) + occ (pushE q).
Definition queued (s : wqsh) : nat := in_queue (qH s) + in_queue (qM s) + in_queue (qL s).
(** ... have been handed out, thrown away, or turned down *)
Definition handed (s : wqsh) : nat := occ (map snd (got s)).
Definition lost (s : wqsh) : nat := occ (dropped s).
Definition refused (s : wqsh) : nat := occ (ign s).

Lemma sq_count q t p q' p' o : sq_step q t p tt = Some (q', p') -> sqat o p -> o <> QPeek ->
  sq_coming p + sq_leaving p + in_queue q = sq_coming p' + sq_leaving p' + in_queue q' + occ (dropping q p).
Proof.
  unfold in_queue. destruct p; cbn [sq_step sqat]; try discriminate; unfold lock_push, lock_pull; intros Es Ha Hp; try congruence;
    try (destruct (pushL q); [discriminate|]); try (destruct (pullL q); [discriminate|]);
    try (destruct (rev (pullE q)) as [|v l] eqn:Er); injection Es as <- <-; cbn -[occ rev];
    try (destruct (nonempty _)); try (destruct (eflag q)); try (destruct k as [?|]); try (destruct r as [?|]); cbn -[occ rev];
    rewrite ?occ_app, ?occ_rev; cbn [occ]; try lia.
  all: rewrite <- (occ_rev (pullE q)), Er; cbn [occ]; lia.
Qed.

Variable nw : nat.

Lemma coming_start o : coming (wq_start nw o) = sub_op o /\ leaving (wq_start nw o) = 0.
Proof. destruct o; cbn [wq_start]; try (split; reflexivity). destruct (Nat.eqb nw 0); split; reflexivity. Qed.

Definition bal (s : wqsh) (pc : wqpc) : nat := coming pc + leaving pc + queued s + handed s + lost s + refused s.

Lemma coming_dummies r : coming (dummies r) = 0 /\ leaving (dummies r) = 0.
Proof. destruct r; split; reflexivity. Qed.
Lemma coming_after_add a : coming (after_add a) = 0 /\ leaving (after_add a) = 0.
Proof. destruct a; [split; reflexivity|apply coming_dummies]. Qed.

Lemma handed_log t x s : occ (map snd (got s ++ [(t, x)])) = occ (map snd (got s)) + isb x.
Proof. rewrite map_app, occ_app. cbn. lia. Qed.
Lemma lost_log l s : occ (dropped s ++ l) = occ (dropped s) + occ l.
Proof. apply occ_app. Qed.

Lemma bal_resume s t i p r k s' pc' : shape (Sub i p k) -> sq_fin p = Some r -> resume nw s t i r k = Some (s', pc') -> bal s (Sub i p k) = bal s' pc'.
Proof.
  intros (o & Hk & Ho) Ef Er. destruct p; try discriminate. injection Ef as ->. cbn in Ho. unfold bal.
  destruct k; cbn [resume kat] in *; destruct r as [|v|n0|b0]; try discriminate; try (destruct v as [v|]); inj Er; unfold queued, handed, lost, refused;
    cbn [coming leaving sq_coming sq_leaving qH qM qL got dropped ign log_got hand fst snd]; rewrite ?handed_log; cbn [sq_start coming leaving sq_coming sq_leaving elems occ isb]; try lia.
  - destruct few; [cbn; lia|]. destruct (coming_after_add a) as [-> ->]. lia.
  - destruct b0; [destruct (nextq i) as [j|]; [|destruct e]|destruct e]; cbn; lia.
  - destruct (nextq i); cbn; lia.
  - destruct g; cbn; lia.
  - destruct b0; cbn; lia.
  - destruct g; cbn; lia.
  - destruct g; cbn; lia.
  - destruct (nextq i); cbn; lia.
Qed.

Lemma bal_sub s t i p k0 k s' pc' : wq_step nw s t (Sub i p k0) k = Some (s', pc') -> shape (Sub i p k0) -> bal s (Sub i p k0) = bal s' pc'.
Proof.
  intros Es Hs. destruct k; cbn [wq_step wq_step0] in Es; try discriminate.
  destruct (sq_fin p) as [r|] eqn:Ef; [eapply bal_resume; eassumption|].
  destruct (sq_step (qof i s) t p tt) as [[q' p']|] eqn:Eq; [|discriminate]. inj Es.
  destruct Hs as (o & Hk & Ho). assert (Hp : o <> QPeek) by (destruct k0; cbn in Hk; naive_solver).
  pose proof (sq_count _ _ _ _ _ _ Eq Ho Hp) as Hc. unfold bal, handed, lost, refused. cbn [coming leaving got dropped ign log_drop].
  rewrite lost_log. assert (Hg : got (set_q i q' s) = got s /\ dropped (set_q i q' s) = dropped s /\ ign (set_q i q' s) = ign s) by (destruct i; auto).
  destruct Hg as (-> & -> & ->). assert (Hq : queued (log_drop (dropping (qof i s) p) (set_q i q' s)) + in_queue (qof i s) = queued s + in_queue q') by (destruct i; unfold queued; cbn; lia).
  assert (Hx : (forall p, coming (Sub i p k0) = sq_coming p) \/ (exists x a, k0 = KSize x a)) by (destruct k0; eauto).
  destruct Hx as [E1|(x & a & ->)].
  - pose proof (E1 p). pose proof (E1 p'). cbn [coming] in *. lia.
  - cbn [coming]. cbn in Hk. destruct Hk as [-> _]. pose proof (sqat_step _ _ _ _ _ _ _ Eq Ho) as Ho'.
    assert (Hz : sq_coming p = 0 /\ sq_coming p' = 0). { split; [destruct p|destruct p']; cbn in *; try reflexivity; naive_solver. } lia.
Qed.

Lemma bal_step s t pc k s' pc' : wq_step nw s t pc k = Some (s', pc') -> shape pc -> bal s pc = bal s' pc'.
Proof.
  intros Es Hs. destruct pc; try (eapply bal_sub; eassumption); destruct k; cbn [wq_step wq_step0] in Es; try discriminate;
    unfold lock_q, hand in Es;
    repeat match type of Es with
    | context [match ?x with Some _ => _ | None => _ end] => is_var x; destruct x
    | context [match qlock s with _ => _ end] => destruct (qlock s)
    | context [notify1 ?a ?b] => destruct (notify1 a b)
    | context [inb ?a ?b] => destruct (inb a b)
    | context [Nat.ltb ?a ?b] => destruct (Nat.ltb a b)
    | context [bfin s ?b] => destruct (bfin s b)
    | context [match ?l with [] => _ | _ :: _ => _ end] => destruct l
    | context [match ?x with BNull => _ | BWork _ => _ end] => destruct x
    | context [match ?p with PMed => _ | PLow => _ | PHigh => _ | PReq => _ end] => destruct p
    | context [is_fin s ?y] => destruct (is_fin s y)
    end; try discriminate; inj Es; unfold bal, queued, handed, lost, refused;
    cbn [coming leaving qH qM qL got dropped ign log_got log_ign log_ran set_bfin set_waits set_lock set_gone set_joined set_ratio set_halt set_medc];
    rewrite ?handed_log, ?occ_app; cbn [occ]; try lia;
    try (destruct (coming_after_add a) as [-> ->]; lia); try (destruct (coming_dummies nw) as [-> ->]; lia);
    repeat match goal with
    | |- context [if ?z then _ else _] => destruct z
    | |- context [match ?g with GUser => _ | GWork _ => _ end] => destruct g
    | |- context [after_exec ?e] => is_var e; destruct e
    end; cbn [coming leaving after_exec x_coming loop gstart sq_start sq_coming sq_leaving occ isb]; try lia.
Qed.

(** ** Over a whole execution *)
Definition opt {A} (g : A -> nat) (x : option A) : nat := match x with Some a => g a | None => 0 end.
Notation wqcfg := (cfg wqsh wqpc).
Implicit Types (c : wqcfg) (H : list (hev wqop wqret)).

(** Executions of the block begun or about to begin *)
Definition rcount (s : wqsh) : nat := count_occ Nat.eq_dec (ran s) b.
Definition about (pc : wqpc) : nat := match pc with X0 x => isb x | X1 b' _ => if Nat.eqb b' b then 1 else 0 | _ => 0 end.

Lemma about_dummies r : about (dummies r) = 0.
Proof. destruct r; reflexivity. Qed.
Lemma about_after_add a : about (after_add a) = 0.
Proof. destruct a; [reflexivity|apply about_dummies]. Qed.
Lemma about_after_exec e : about (after_exec e) = 0.
Proof. destruct e; reflexivity. Qed.
Lemma about_start o : about (wq_start nw o) = 0.
Proof. destruct o; cbn [wq_start]; try reflexivity. destruct (Nat.eqb nw 0); reflexivity. Qed.

Lemma about_resume s t i p r k s' pc' : resume nw s t i r k = Some (s', pc') ->
  rcount s' + about pc' + handed s <= rcount s + about (Sub i p k) + handed s'.
Proof.
  intros Er. unfold rcount, handed.
  destruct k; cbn [resume] in *; destruct r as [|v|n0|b0]; try discriminate; try (destruct v as [v|]); inj Er; unfold hand;
    cbn [about sq_start ran got log_got fst snd]; rewrite ?handed_log; try lia.
  - destruct few; [cbn; lia|]. rewrite about_after_add. lia.
  - destruct b0; [destruct (nextq i) as [j|]; [|destruct e]|destruct e]; cbn; lia.
  - destruct (nextq i); cbn; lia.
  - destruct g; cbn; lia.
  - destruct b0; cbn; lia.
  - destruct g; cbn; lia.
  - destruct g; cbn; lia.
  - destruct (nextq i); cbn; lia.
Qed.

Lemma rcount_log b' s : count_occ Nat.eq_dec (ran s ++ [b']) b = rcount s + if Nat.eqb b' b then 1 else 0.
Proof.
  unfold rcount. rewrite count_occ_app. cbn. destruct (Nat.eq_dec b' b) as [->|Hne]; [rewrite Nat.eqb_refl; lia|].
  apply Nat.eqb_neq in Hne. rewrite Hne. lia.
Qed.

Lemma about_step s t pc k s' pc' : wq_step nw s t pc k = Some (s', pc') ->
  rcount s' + about pc' + handed s <= rcount s + about pc + handed s'.
Proof.
  intros Es. destruct pc; destruct k; cbn [wq_step wq_step0] in Es; try discriminate;
    unfold lock_q, hand in Es;
    try (destruct (sq_fin p) as [r|]; [eapply about_resume; eassumption|]);
    repeat match type of Es with
    | context [match ?x with Some _ => _ | None => _ end] => is_var x; destruct x
    | context [match qlock s with _ => _ end] => destruct (qlock s)
    | context [sq_step ?a ?b ?c ?d] => destruct (sq_step a b c d) as [[q' p']|]
    | context [notify1 ?a ?b] => destruct (notify1 a b)
    | context [inb ?a ?b] => destruct (inb a b)
    | context [Nat.ltb ?a ?b] => destruct (Nat.ltb a b)
    | context [bfin s ?b] => destruct (bfin s b)
    | context [match ?l with [] => _ | _ :: _ => _ end] => destruct l
    | context [match ?x with BNull => _ | BWork _ => _ end] => destruct x
    | context [match ?p with PMed => _ | PLow => _ | PHigh => _ | PReq => _ end] => destruct p
    | context [is_fin s ?y] => destruct (is_fin s y)
    end; try discriminate; inj Es; unfold rcount, handed;
    cbn [about ran got log_got log_ign log_ran set_bfin set_waits set_lock set_gone set_joined set_ratio set_halt set_medc log_drop];
    rewrite ?handed_log, ?rcount_log, ?about_after_add, ?about_after_exec, ?about_dummies; unfold rcount; cbn [isb]; try lia;
    try (destruct i; cbn; lia);
    repeat match goal with
    | |- context [match ?g with GUser => _ | GWork _ => _ end] => destruct g
    | |- context [about (if ?z then _ else _)] => destruct z
    end; cbn [about loop gstart sq_start isb]; try lia.
Qed.

Variable n : nat.


Definition onn (xs : list (nat * act cvc wqop)) : Prop := Forall (fun x => fst x < n) xs.
Definition everything c : nat :=
  tsum n (fun t => opt coming (th c t)) + queued (sh c) + tsum n (fun t => opt leaving (th c t)) + handed (sh c) + lost (sh c) + refused (sh c).
Definition runs_bound c : Prop := rcount (sh c) + tsum n (fun t => opt about (th c t)) <= handed (sh c).

Lemma everything_exec c x c' e : shaped c -> fst x < n -> wq_exec nw c x = Some (c', e) -> everything c' = everything c + submitted e.
Proof.
  intros Hs Hx. destruct x as [t [o|k|]]; cbn in Hx; unfold wq_exec; cbn.
  - destruct (th c t) eqn:Et; [discriminate|]. intros [= <- <-]. unfold everything. cbn [sh th].
    pose proof (tsum_upd n (opt coming) (th c) t (Some (wq_start nw o)) Hx) as E1. pose proof (tsum_upd n (opt leaving) (th c) t (Some (wq_start nw o)) Hx) as E2.
    rewrite Et in E1, E2. cbn [opt] in E1, E2. destruct (coming_start o) as [E3 E4]. rewrite E3 in E1. rewrite E4 in E2. cbn. lia.
  - destruct (th c t) as [pc|] eqn:Et; [|discriminate]. destruct (wq_step nw (sh c) t pc k) as [[s' pc']|] eqn:Es; [|discriminate]. intros [= <- <-].
    pose proof (bal_step _ _ _ _ _ _ Es (Hs _ _ Et)) as Hb. unfold everything. cbn [sh th].
    pose proof (tsum_upd n (opt coming) (th c) t (Some pc') Hx) as E1. pose proof (tsum_upd n (opt leaving) (th c) t (Some pc') Hx) as E2.
    rewrite Et in E1, E2. cbn [opt] in E1, E2. unfold bal in Hb. cbn. lia.
  - destruct (th c t) as [pc|] eqn:Et; [|discriminate]. destruct (wq_fin pc) as [r|] eqn:Ef; [|discriminate]. intros [= <- <-]. unfold everything. cbn [sh th].
    pose proof (tsum_upd n (opt coming) (th c) t None Hx) as E1. pose proof (tsum_upd n (opt leaving) (th c) t None Hx) as E2.
    rewrite Et in E1, E2. cbn [opt] in E1, E2. destruct pc; try discriminate. cbn in *. lia.
Qed.

Lemma shaped_exec c x c' e : shaped c -> wq_exec nw c x = Some (c', e) -> shaped c'.
Proof. intros Hs Ex. apply (shaped_run nw [x] c c' (e ++ [])); [exact Hs|]. unfold wq_run. cbn [run]. unfold wq_exec in Ex. rewrite Ex. reflexivity. Qed.

Lemma everything_run xs : forall c c' H, shaped c -> onn xs -> wq_run nw c xs = Some (c', H) -> everything c' = everything c + submitted H.
Proof.
  induction xs as [|x xs IH]; intros c c' H Hs Hx; unfold wq_run; cbn [run].
  - intros [= <- <-]. cbn. lia.
  - destruct (exec _ _ _ c x) as [[c1 e]|] eqn:Ex; [|discriminate]. destruct (run _ _ _ c1 xs) as [[c2 H2]|] eqn:Er; [|discriminate]. intros [= <- <-].
    inversion Hx; subst. rewrite submitted_app. rewrite (IH c1 c2 H2); [|eapply shaped_exec; eassumption|assumption|exact Er].
    rewrite (everything_exec c x c1 e); [lia|assumption|assumption|exact Ex].
Qed.

Lemma runs_run xs : forall c c' H, onn xs -> wq_run nw c xs = Some (c', H) -> runs_bound c -> runs_bound c'.
Proof.
  induction xs as [|x xs IH]; intros c c' H Hx; unfold wq_run; cbn [run].
  - intros [= <- <-]. auto.
  - destruct (exec _ _ _ c x) as [[c1 e]|] eqn:Ex; [|discriminate]. destruct (run _ _ _ c1 xs) as [[c2 H2]|] eqn:Er; [|discriminate]. intros [= <- <-] Hr.
    inversion Hx as [|? ? Hx1 Hx2]; subst. apply (IH c1 c2 H2 Hx2 Er). clear IH Er. unfold runs_bound in *.
    destruct x as [t [o|k|]]; cbn in Hx1, Ex; (destruct (th c t) as [pc|] eqn:Et; [|]); try discriminate.
    + injection Ex as <- <-. pose proof (tsum_upd n (opt about) (th c) t (Some (wq_start nw o)) Hx1) as E1. rewrite Et in E1. cbn [opt] in E1. rewrite about_start in E1. cbn [sh th]. lia.
    + destruct (wq_step nw (sh c) t pc k) as [[s' pc']|] eqn:Es; [|discriminate]. injection Ex as <- <-.
      pose proof (tsum_upd n (opt about) (th c) t (Some pc') Hx1) as E1. rewrite Et in E1. cbn [opt] in E1. pose proof (about_step _ _ _ _ _ _ Es). cbn [sh th]. lia.
    + destruct (wq_fin pc) as [r|] eqn:Ef; [|discriminate]. injection Ex as <- <-.
      pose proof (tsum_upd n (opt about) (th c) t None Hx1) as E1. rewrite Et in E1. cbn [opt] in E1. cbn [sh th]. lia.
Qed.

Lemma everything_init f : everything (wq_init nw f) = 0 /\ runs_bound (wq_init nw f).
Proof.
  unfold everything, runs_bound. cbn [wq_init sh th]. rewrite !tsum_zero; [split; reflexivity| | |]; intros t _; destruct (Nat.ltb t nw); reflexivity.
Qed.
End count.
