(** Comparing an iterator with a const_iterator (BlockIterator.hpp:58-73, 123-132) and the conversion to bool (:47). *)
From stdpp Require Import gmap.
From Verif Require Import Base BlkHeap BlkProofs BlkIter VecFinal.

Section mix.
Context {V : Type}.
Variable P : params.
Variable junk : nat -> Z -> bool.       (* does an entry of a table that was never written hold a null pointer? *)
Implicit Types (h : bheap V) (a b it : biter).

(** [*vec == nullptr]; emptyValue holds null.  [vec] itself is never null. *)
Definition it_null h it : outcome bool :=
  match i_tab it with
  | None => if i_pos it =? 0 then Ok true else UB
  | Some t => c <-! tget h (Some t) (i_pos it) ;; Ok (match c with Some _ => false | None => junk t (i_pos it) end)
  end.

(** [testv == vec]: the two functions end() and end() const have their own emptyValue each *)
Definition it_same a b : bool :=
  match i_tab a, i_tab b with Some t, Some u => Nat.eqb t u && (i_pos a =? i_pos b) | _, _ => false end.

(** [a == b] for an iterator [a] and a const_iterator [b], or the other way round: b.checkEquivalence(a.vec, a.offset) *)
Definition it_equiv h a b : outcome bool :=
  same <-! (if it_same a b then Ok true
            else na <-! it_null h a ;; if na : bool then it_null h b else Ok false) ;;
  Ok (same && (i_off a =? i_off b)).
(** [a != b] *)
Definition it_differ h a b : outcome bool := e <-! it_equiv h a b ;; Ok (negb e).

(** operator bool: [ptr != nullptr] *)
Definition it_bool it : bool :=
  match i_ptr it with PSlot _ _ => true | PNull => false | PJunk => match i_tab it with Some t => negb (junk t (i_pos it)) | None => true end end.

(** [ptr] is what the constructor would compute now *)
Definition current h it : Prop := it_new h (i_tab it) (i_pos it) (i_off it) = Ok it.

Lemma new_current h t pos off it : it_new h t pos off = Ok it -> current h it /\ i_tab it = t.
Proof. unfold current, it_new. intros E. apply obind_ok in E as (p & E & F). injection F as <-. cbn [i_tab i_pos i_off]. rewrite E. auto. Qed.

Lemma add1_current h it it1 : current h it -> it_add P h it 1 = Ok it1 -> current h it1 /\ i_tab it1 = i_tab it.
Proof.
  intros Hc E. unfold it_add in E. change (wrap32 1) with 1 in E. destruct (negb (int_ok (i_off it + 1))); [discriminate|]. destruct (bsz P <=? i_off it + 1).
  - apply obind_ok in E as (p & E & F). injection F as <-. unfold current, it_new. cbn [i_tab i_pos i_off]. rewrite E. auto.
  - injection E as <-. split; [|reflexivity]. unfold current, it_new in *. cbn [i_tab i_pos i_off i_ptr]. apply obind_ok in Hc as (p & Ep & F). injection F as F.
    unfold it_ptr in *. destruct it as [t pos p0 off]. cbn [i_tab i_pos i_off i_ptr] in *. injection F as ->. destruct t as [t|].
    + apply obind_ok in Ep as (c & Ec & F). rewrite Ec. cbn [obind]. injection F as <-. destruct c; reflexivity.
    + destruct (pos =? 0); [|discriminate]. injection Ep as <-. reflexivity.
Qed.

Lemma steps_current n : forall h it it1, current h it -> it_steps P h it n = Ok it1 -> current h it1 /\ i_tab it1 = i_tab it.
Proof.
  induction n as [|n IH]; intros h it it1 Hc E; cbn [it_steps] in E; [injection E as <-; auto|].
  apply obind_ok in E as (it2 & E2 & E). apply add1_current in E2 as [Hc2 <-]; [|exact Hc]. eapply IH; eassumption.
Qed.

Lemma current_null h it x : current h it -> it_read P h it = Ok x -> it_null h it = Ok false /\ i_tab it <> None.
Proof.
  intros Hc Hr. unfold current, it_new in Hc. apply obind_ok in Hc as (p & Ep & F). unfold it_null, it_read in *. destruct it as [t pos p0 off]. cbn [i_tab i_pos i_off i_ptr] in *.
  injection F as ->. unfold it_ptr in Ep. destruct t as [t|].
  - apply obind_ok in Ep as (c & Ec & F). rewrite Ec. cbn. injection F as <-. destruct c; [|discriminate]. split; [reflexivity|discriminate].
  - destruct (pos =? 0); [|discriminate]. injection Ep as <-. discriminate.
Qed.
Lemma current_null_ok h it : current h it -> exists n, it_null h it = Ok n.
Proof.
  intros Hc. unfold current, it_new in Hc. apply obind_ok in Hc as (p & Ep & _). unfold it_null, it_ptr in *. destruct (i_tab it).
  - apply obind_ok in Ep as (c & -> & _). cbn. eauto.
  - destruct (i_pos it =? 0); [eauto|discriminate].
Qed.

Lemma iters_mix h xs first last pos t p o :
  iters P h xs first last pos -> it_new h t p o = Ok first -> (forall n, (n <= length xs)%nat -> it_steps P h first n = Ok (pos (Z.of_nat n))) ->
  (forall i k, 0 <= i <= zlen xs -> 0 <= k <= zlen xs -> it_equiv h (pos i) (pos k) = Ok (i =? k) /\ it_differ h (pos i) (pos k) = Ok (negb (i =? k))) /\
  (forall i, 0 <= i < zlen xs -> it_bool (pos i) = true).
Proof.
  intros Hi Ef Hs. apply new_current in Ef as [Hf Et].
  assert (Hpos : forall i, 0 <= i <= zlen xs -> current h (pos i) /\ i_tab (pos i) = t).
  { intros i Hb. rewrite <- Et. replace i with (Z.of_nat (Z.to_nat i)) by lia. eapply steps_current; [exact Hf|]. apply Hs. unfold zlen in Hb. lia. }
  assert (Hrd : forall i, 0 <= i < zlen xs -> exists x, it_read P h (pos i) = Ok x).
  { intros i Hb. destruct (lookup_lt_is_Some_2 xs (Z.to_nat i)) as [x Hx]; [unfold zlen in Hb; lia|]. exists x.
    replace i with (Z.of_nat (Z.to_nat i)) by lia. eapply is_read; eassumption. }
  assert (Heq : forall i k, 0 <= i <= zlen xs -> 0 <= k <= zlen xs -> it_equiv h (pos i) (pos k) = Ok (i =? k)).
  { intros i k Hbi Hbk. destruct (Hpos i Hbi) as [Hci Hti]. destruct (Hpos k Hbk) as [Hck Htk]. pose proof (is_eq _ _ _ _ _ _ Hi i k Hbi Hbk) as He.
    unfold it_eq in He. rewrite Hti, Htk, bool_decide_eq_true_2 in He by reflexivity. cbn [andb] in He.
    unfold it_equiv, it_same. rewrite Hti, Htk. destruct t as [t|].
    - rewrite Nat.eqb_refl. cbn [andb]. destruct (i_pos (pos i) =? i_pos (pos k)); cbn [obind andb] in *; [rewrite He; reflexivity|].
      rewrite <- He. destruct (Z.eqb_spec i k) as [->|Hne]; [|].
      { exfalso. pose proof (is_eq _ _ _ _ _ _ Hi k k Hbk Hbk) as He2. rewrite Z.eqb_refl in He2. congruence. }
      destruct (current_null_ok _ _ Hci) as [ni Eni]. rewrite Eni. cbn [obind]. destruct ni; [|reflexivity].
      assert (k < zlen xs). { destruct (Z.eq_dec k (zlen xs)); [|lia]. destruct (Hrd i ltac:(lia)) as [x Hx]. destruct (current_null _ _ _ Hci Hx). congruence. }
      destruct (Hrd k ltac:(lia)) as [x Hx]. destruct (current_null _ _ _ Hck Hx) as [-> _]. reflexivity.
    - assert (zlen xs = 0). { destruct (Z.eq_dec (zlen xs) 0); [assumption|]. destruct (Hrd 0) as [x Hx]; [pose proof (zlen_nonneg xs); lia|].
        destruct (Hpos 0) as [Hc0 Ht0]; [pose proof (zlen_nonneg xs); lia|]. destruct (current_null _ _ _ Hc0 Hx). congruence. }
      assert (i = k) as -> by lia. destruct (current_null_ok _ _ Hck) as [n En]. unfold it_null in *. rewrite Htk in *. destruct (i_pos (pos k) =? 0); [|discriminate].
      cbn. rewrite !Z.eqb_refl. reflexivity. }
  split.
  - intros i k Hbi Hbk. unfold it_differ. rewrite (Heq i k Hbi Hbk). split; reflexivity.
  - intros i Hb. destruct (Hrd i Hb) as [x Hx]. unfold it_bool, it_read in *. destruct (i_ptr (pos i)); try discriminate. reflexivity.
Qed.
End mix.
