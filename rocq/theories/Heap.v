(** A heap of byte arrays: [new unsigned char[n]] / [delete[]] / memcpy, shared by the models of
    CircularBuffer and StackBuffer. *)
From stdpp Require Export gmap.
From Verif Require Export Base.

(** [h_live]: live allocations.  [h_next]: the next allocation is named [h_next]; names are never reused, so a
    freed pointer never becomes valid again.  [h_junk id i]: the (arbitrary) initial value of byte [i] of
    allocation [id]; new[] does not initialise. *)
Record heap := Heap { h_live : gmap nat (list byte); h_next : nat; h_junk : nat -> nat -> Z }.

Definition ptr := option nat.   (* None is nullptr *)

(** new unsigned char[n]: a negative size throws std::bad_array_new_length; running out of memory is not
    modelled. *)
Definition halloc (h : heap) (n : Z) : outcome (nat * heap) :=
  if n <? 0 then Throw
  else let id := h_next h in
       Ok (id, Heap (<[id := map (h_junk h id) (seq 0 (Z.to_nat n))]> (h_live h)) (S id) (h_junk h)).

(** delete[] p: null is a no-op, a pointer that is not a live allocation is UB. *)
Definition hfree (h : heap) (p : ptr) : outcome heap :=
  match p with
  | None => Ok h
  | Some id => match h_live h !! id with
               | Some _ => Ok (Heap (delete id (h_live h)) (h_next h) (h_junk h))
               | None => UB
               end
  end.

(** The bytes behind a pointer; none if it is null or dangling, so that any access is out of bounds. *)
Definition hget (h : heap) (p : ptr) : list byte :=
  match p with None => [] | Some id => default [] (h_live h !! id) end.

Definition hput (h : heap) (p : ptr) (m : list byte) : heap :=
  match p with
  | None => h
  | Some id => match h_live h !! id with
               | Some _ => Heap (<[id := m]> (h_live h)) (h_next h) (h_junk h)
               | None => h
               end
  end.

(** memcpy(dst, src, n) from the start of [src] to the start of [dst].  Zero bytes is always fine; overlap
    (dst = src) is UB. *)
Definition hcopy (h : heap) (dst src : ptr) (n : Z) : outcome heap :=
  if n =? 0 then Ok h
  else if bool_decide (dst = src) then UB
  else bs <-! mread (hget h src) 0 n ;;
       m <-! mwrite (hget h dst) 0 bs ;;
       Ok (hput h dst m).

(** memmove inside one allocation. *)
Definition mmove (m : list byte) (dst src n : Z) : outcome (list byte) :=
  bs <-! mread m src n ;; mwrite m dst bs.

Lemma halloc_ok h n :
  0 <= n -> exists m, zlen m = n /\
    halloc h n = Ok (h_next h, Heap (<[h_next h := m]> (h_live h)) (S (h_next h)) (h_junk h)).
Proof.
  intros Hn. exists (map (h_junk h (h_next h)) (seq 0 (Z.to_nat n))).
  split; [unfold zlen; rewrite map_length, seq_length; lia|].
  unfold halloc. destruct (Z.ltb_spec n 0); [lia|reflexivity].
Qed.

Lemma hget_live h id m : h_live h !! id = Some m -> hget h (Some id) = m.
Proof. intros H. unfold hget. rewrite H. reflexivity. Qed.

Lemma hput_live h id m m0 : h_live h !! id = Some m0 -> h_live (hput h (Some id) m) = <[id := m]> (h_live h).
Proof. intros H. unfold hput. rewrite H. reflexivity. Qed.

Lemma mwrite_full m off bs m' :
  mwrite m off bs = Ok m' -> zlen m' = zlen m /\ mread m' off (zlen bs) = Ok bs /\
  (forall a n, a + n <= off \/ off + zlen bs <= a -> mread m' a n = mread m a n).
Proof.
  intros H. split; [eapply mwrite_len; eassumption|]. split; [eapply mread_mwrite_same; eassumption|].
  intros; eapply mread_mwrite_disj; eassumption.
Qed.

Lemma mread_exists m off n : 0 <= off -> 0 <= n -> off + n <= zlen m ->
  exists bs, mread m off n = Ok bs /\ zlen bs = n.
Proof.
  intros. destruct (mread m off n) as [bs| |] eqn:E.
  - exists bs. split; [reflexivity|]. apply mread_inv in E. tauto.
  - unfold mread in E. destruct (_ && _) in E; discriminate.
  - rewrite mread_ok in E by assumption. discriminate.
Qed.

Lemma mwrite_exists m off bs : 0 <= off -> off + zlen bs <= zlen m -> exists m', mwrite m off bs = Ok m'.
Proof. intros. rewrite mwrite_ok by assumption. eauto. Qed.

(** What a copied or moved region reads like afterwards. *)
Lemma mmove_spec m dst src n :
  0 <= dst -> 0 <= src -> 0 <= n -> src + n <= zlen m -> dst + n <= zlen m ->
  exists m', mmove m dst src n = Ok m' /\ zlen m' = zlen m /\
    (forall a k, 0 <= a -> 0 <= k -> a + k <= n -> mread m' (dst + a) k = mread m (src + a) k) /\
    (forall a k, a + k <= dst \/ dst + n <= a -> mread m' a k = mread m a k).
Proof.
  intros. unfold mmove.
  destruct (mread_exists m src n) as (bs & Hr & Hl); try assumption.
  rewrite Hr; cbn [obind].
  destruct (mwrite_exists m dst bs) as (m' & Hw); [assumption|lia|].
  exists m'. apply mwrite_full in Hw as Hf. destruct Hf as (Hlen & Hsame & Hdisj).
  splits; try assumption.
  - intros a k Ha Hk Hak.
    rewrite (mread_sub m' dst (zlen bs) bs a k Hsame) by lia.
    rewrite (mread_sub m src n bs a k Hr) by lia. reflexivity.
  - intros a k Hak. apply Hdisj. lia.
Qed.

Lemma hcopy_spec h dst src md ms n :
  h_live h !! dst = Some md -> h_live h !! src = Some ms -> dst <> src ->
  0 <= n -> n <= zlen md -> n <= zlen ms ->
  exists m', hcopy h (Some dst) (Some src) n = Ok (hput h (Some dst) m') /\ zlen m' = zlen md /\
    (forall a k, 0 <= a -> 0 <= k -> a + k <= n -> mread m' a k = mread ms a k) /\
    h_live (hput h (Some dst) m') = <[dst := m']> (h_live h).
Proof.
  intros Hd Hs Hne Hn Hnd Hns. unfold hcopy.
  destruct (Z.eqb_spec n 0) as [->|Hn0].
  - exists md. cbn [hput]. rewrite Hd. splits; try lia.
    + destruct h as [lv nx jk]; cbn in *. rewrite insert_id by assumption. reflexivity.
    + intros a k Ha Hk Hak. assert (a = 0 /\ k = 0) as [-> ->] by lia.
      rewrite !mread_ok by lia. reflexivity.
  - rewrite bool_decide_eq_false_2 by congruence. cbn [hget]. rewrite Hd, Hs. cbn [default from_option].
    destruct (mread_exists ms 0 n) as (bs & Hr & Hl); try lia. cbn. rewrite Hr; cbn [obind].
    destruct (mwrite_exists md 0 bs) as (m' & Hw); [lia|lia|]. rewrite Hw; cbn [obind].
    exists m'. apply mwrite_full in Hw as Hf. destruct Hf as (Hlen & Hsame & Hdisj).
    splits; try assumption.
    + intros a k Ha Hk Hak.
      rewrite <- (Z.add_0_l a).
      rewrite (mread_sub m' 0 (zlen bs) bs a k Hsame) by lia.
      rewrite (mread_sub ms 0 n bs a k Hr) by lia. reflexivity.
    + cbn [hput]. rewrite Hd. reflexivity.
Qed.
