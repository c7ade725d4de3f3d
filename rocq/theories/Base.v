(** Shared vocabulary of the model: outcomes, raw memory, 32 bit integers in memory. *)
From Coq Require Export ZArith Lia List Bool.
From Coq Require Export ZifyBool ZifyNat.
From stdpp Require Export base list list_numbers.
Export ListNotations.
Open Scope Z_scope.
(* keep the stdlib reading of these notations predictable *)
Global Arguments Z.add : simpl never.
Global Arguments Z.mul : simpl never.
Global Arguments Z.sub : simpl never.
Global Arguments Z.of_nat : simpl never.
Global Arguments Z.to_nat : simpl never.

(** Result of a C++ call: a value, a thrown exception, or undefined behaviour. *)
Inductive outcome (A : Type) : Type :=
| Ok (a : A)
| Throw
| UB.
Arguments Ok {A} a.
Arguments Throw {A}.
Arguments UB {A}.

Definition obind {A B} (x : outcome A) (f : A -> outcome B) : outcome B :=
  match x with Ok a => f a | Throw => Throw | UB => UB end.
Notation "x <-! e ;; f" := (obind e (fun x => f))
  (at level 100, e at next level, f at level 200, right associativity).
Notation "' p <-! e ;; f" := (obind e (fun p => f))
  (at level 100, p pattern, e at next level, f at level 200, right associativity).

Definition is_ok {A} (x : outcome A) : bool := match x with Ok _ => true | _ => false end.

Lemma obind_ok {A B} (e : outcome A) (f : A -> outcome B) b :
  obind e f = Ok b -> exists a, e = Ok a /\ f a = Ok b.
Proof. destruct e; cbn; intros H; try discriminate; eauto. Qed.

(** A byte; the model puts no upper bound on its value, which only makes it more general. *)
Notation byte := Z (only parsing).

Definition zlen {A} (l : list A) : Z := Z.of_nat (length l).

Lemma zlen_nonneg {A} (l : list A) : 0 <= zlen l.
Proof. unfold zlen; lia. Qed.
Lemma zlen_app {A} (l k : list A) : zlen (l ++ k) = zlen l + zlen k.
Proof. unfold zlen; rewrite app_length; lia. Qed.
Lemma zlen_cons {A} (x : A) l : zlen (x :: l) = 1 + zlen l.
Proof. unfold zlen; cbn [length]; lia. Qed.
Lemma zlen_nil {A} : zlen (@nil A) = 0.
Proof. reflexivity. Qed.
Lemma zlen_0 {A} (l : list A) : zlen l = 0 -> l = [].
Proof. destruct l; [reflexivity|]. rewrite zlen_cons. pose proof (zlen_nonneg l). lia. Qed.

(** memcpy out of / into an allocation [m]: anything not inside the allocation is UB. *)
Definition mread (m : list byte) (off len : Z) : outcome (list byte) :=
  if (0 <=? off) && (0 <=? len) && (off + len <=? zlen m)
  then Ok (take (Z.to_nat len) (drop (Z.to_nat off) m)) else UB.

Definition mwrite (m : list byte) (off : Z) (bs : list byte) : outcome (list byte) :=
  if (0 <=? off) && (off + zlen bs <=? zlen m)
  then Ok (take (Z.to_nat off) m ++ bs ++ drop (Z.to_nat (off + zlen bs)) m) else UB.

(** [sizeof(int) = 4], two's complement, little endian (the byte order is immaterial: only
    round trips are used). *)
Definition enc32 (z : Z) : list byte :=
  let u := z mod 4294967296 in
  [u mod 256; (u / 256) mod 256; (u / 65536) mod 256; (u / 16777216) mod 256].

Definition dec32 (bs : list byte) : Z :=
  match bs with
  | [a; b; c; d] =>
      let u := a + 256 * b + 65536 * c + 16777216 * d in
      if u <? 2147483648 then u else u - 4294967296
  | _ => 0
  end.

Definition int_max : Z := 2147483647.

Lemma zlen_enc32 z : zlen (enc32 z) = 4.
Proof. reflexivity. Qed.

Lemma dec_enc32 z : -2147483648 <= z <= int_max -> dec32 (enc32 z) = z.
Proof.
  unfold int_max, dec32, enc32; intros Hz.
  set (u := z mod 4294967296).
  assert (Hu : 0 <= u < 4294967296) by (subst u; apply Z.mod_pos_bound; lia).
  assert (Hsum : u mod 256 + 256 * ((u / 256) mod 256) + 65536 * ((u / 65536) mod 256)
            + 16777216 * ((u / 16777216) mod 256) = u).
  { Z.div_mod_to_equations; lia. }
  rewrite Hsum.
  destruct (Z.ltb_spec u 2147483648); subst u; Z.div_mod_to_equations; lia.
Qed.

(** Pointwise characterisation of reads. *)
Lemma mread_ok m off len :
  0 <= off -> 0 <= len -> off + len <= zlen m ->
  mread m off len = Ok (take (Z.to_nat len) (drop (Z.to_nat off) m)).
Proof.
  intros. unfold mread.
  destruct (Z.leb_spec 0 off), (Z.leb_spec 0 len), (Z.leb_spec (off + len) (zlen m)); cbn; lia || reflexivity.
Qed.

Lemma mread_inv m off len l :
  mread m off len = Ok l ->
  0 <= off /\ 0 <= len /\ off + len <= zlen m /\ zlen l = len /\
  l = take (Z.to_nat len) (drop (Z.to_nat off) m).
Proof.
  unfold mread.
  destruct (Z.leb_spec 0 off), (Z.leb_spec 0 len), (Z.leb_spec (off + len) (zlen m)); cbn; try discriminate.
  intros [= <-]. repeat split; try lia.
  unfold zlen in *. rewrite take_length, drop_length. lia.
Qed.

Lemma mwrite_ok m off bs :
  0 <= off -> off + zlen bs <= zlen m ->
  mwrite m off bs = Ok (take (Z.to_nat off) m ++ bs ++ drop (Z.to_nat (off + zlen bs)) m).
Proof.
  intros. unfold mwrite.
  destruct (Z.leb_spec 0 off), (Z.leb_spec (off + zlen bs) (zlen m)); cbn; lia || reflexivity.
Qed.

Lemma mwrite_inv m off bs m' :
  mwrite m off bs = Ok m' ->
  0 <= off /\ off + zlen bs <= zlen m /\
  m' = take (Z.to_nat off) m ++ bs ++ drop (Z.to_nat (off + zlen bs)) m.
Proof.
  unfold mwrite.
  destruct (Z.leb_spec 0 off), (Z.leb_spec (off + zlen bs) (zlen m)); cbn; try discriminate.
  intros [= <-]. auto.
Qed.

Lemma mwrite_len m off bs m' : mwrite m off bs = Ok m' -> zlen m' = zlen m.
Proof.
  intros (H0 & H1 & ->)%mwrite_inv. unfold zlen in *.
  rewrite !app_length, take_length, drop_length. lia.
Qed.

Lemma mread_mwrite_same m off bs m' :
  mwrite m off bs = Ok m' -> mread m' off (zlen bs) = Ok bs.
Proof.
  intros Hw. pose proof (mwrite_len _ _ _ _ Hw) as Hl.
  apply mwrite_inv in Hw as (H0 & H1 & ->). 
  rewrite mread_ok; [|lia|unfold zlen; lia|lia].
  f_equal. unfold zlen in *.
  rewrite drop_app_alt by (rewrite take_length; lia).
  rewrite take_app_alt by lia. reflexivity.
Qed.

Lemma mread_mwrite_disj m off bs m' a n :
  mwrite m off bs = Ok m' -> a + n <= off \/ off + zlen bs <= a ->
  mread m' a n = mread m a n.
Proof.
  intros Hw Hd. pose proof (mwrite_len _ _ _ _ Hw) as Hl.
  apply mwrite_inv in Hw as (H0 & H1 & Hm').
  unfold mread. rewrite Hl.
  destruct (Z.leb_spec 0 a), (Z.leb_spec 0 n), (Z.leb_spec (a + n) (zlen m)); cbn; try reflexivity.
  f_equal. apply list_eq; intros i.
  destruct (decide (i < Z.to_nat n)%nat) as [Hi|Hi].
  2:{ rewrite !lookup_take_ge by lia. reflexivity. }
  rewrite !lookup_take by lia. rewrite !lookup_drop. subst m'. unfold zlen in *.
  destruct Hd as [Hd|Hd].
  - rewrite lookup_app_l by (rewrite take_length; lia).
    rewrite lookup_take by lia. reflexivity.
  - rewrite lookup_app_r by (rewrite take_length; lia).
    rewrite take_length. rewrite lookup_app_r by lia.
    rewrite lookup_drop. f_equal. lia.
Qed.

Lemma mread_sub m a n l b k :
  mread m a n = Ok l -> 0 <= b -> 0 <= k -> b + k <= n ->
  mread m (a + b) k = mread l b k.
Proof.
  intros (H0 & H1 & H2 & H3 & Hl)%mread_inv Hb Hk Hbk.
  rewrite !mread_ok by lia. f_equal. subst l.
  apply list_eq; intros i.
  destruct (decide (i < Z.to_nat k)%nat) as [Hi|Hi].
  2:{ rewrite !lookup_take_ge by lia. reflexivity. }
  rewrite !lookup_take by lia. rewrite !lookup_drop.
  rewrite lookup_take by lia. rewrite lookup_drop. f_equal. lia.
Qed.

(** Split syntactic conjunctions only. *)
Ltac splits := repeat match goal with |- _ /\ _ => split end; try reflexivity.
