(** Condition variables: the list of waiting threads *)
From stdpp Require Import list.
From Verif Require Import Base.

(** What the scheduler decides: an ordinary step, which waiting thread notify_one wakes, that a waiting thread wakes up
    spuriously, or that its time is up. *)
Inductive cvc := CStep | CWake (u : nat) | CSpur | CTime.

Definition inb (t : nat) (ws : list nat) : bool := existsb (Nat.eqb t) ws.
Definition rm (t : nat) (ws : list nat) : list nat := List.filter (fun u => negb (Nat.eqb u t)) ws.

(** notify_one wakes a waiting thread if there is one. *)
Definition notify1 (ws : list nat) (k : cvc) : option (list nat) :=
  match k with
  | CStep => match ws with [] => Some [] | _ :: _ => None end
  | CWake u => if inb u ws then Some (rm u ws) else None
  | CSpur | CTime => None
  end.

Lemma inb_spec t ws : inb t ws = true <-> In t ws.
Proof.
  unfold inb. rewrite existsb_exists. split.
  - intros (x & Hx & E). apply Nat.eqb_eq in E. congruence.
  - intros Hx. exists t. rewrite Nat.eqb_refl. auto.
Qed.
Lemma inb_false t ws : inb t ws = false <-> ~ In t ws.
Proof. rewrite <- inb_spec. destruct (inb t ws); split; congruence. Qed.
Lemma rm_spec t u ws : In t (rm u ws) <-> In t ws /\ t <> u.
Proof. unfold rm. rewrite filter_In. rewrite Bool.negb_true_iff, Nat.eqb_neq. tauto. Qed.
Lemma notify1_sub ws k ws' t : notify1 ws k = Some ws' -> In t ws' -> In t ws.
Proof.
  destruct k as [|u| |]; cbn; [|destruct (inb u ws); [|discriminate]|discriminate|discriminate].
  - destruct ws; [|discriminate]. intros [= <-] [].
  - intros [= <-] H. apply rm_spec in H. tauto.
Qed.
Lemma notify1_some ws : ws <> [] -> exists u, In u ws /\ notify1 ws (CWake u) = Some (rm u ws).
Proof. destruct ws as [|u l]; [congruence|]. intros _. exists u. split; [left; reflexivity|]. cbn. rewrite Nat.eqb_refl. reflexivity. Qed.
