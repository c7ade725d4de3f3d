(** apply, modify and transform of the mapped vectors with a function that may keep a state and may throw.

    [f n x] is what the call number [n] (from 0) makes of an element that is [x]: the value the element has when the call
    ends, and whether it ends by an exception.  For modify the function may have changed the element before it throws; for
    transform an exception of the function leaves [x], one of the assignment of its result leaves anything. *)
From stdpp Require Import gmap.
From Verif Require Import Base BlkHeap BlkProofs BlkMore BlkRun BlkIter BlkIterProofs VecModel VecSpec VecProofs VecWorld VecFinal
  MapStore MapStoreProofs MapModel MapSpec MapRel MapProofs MapReach MapFinal DualModel DualSpec DualProofs DualReach DualFinal.

(** ** Model *)
Section model.
Context {V : Type}.
Variable P : params.
Implicit Types f : nat -> V -> V * bool.

(** for (; it != last; ++it) f( *it ); the heap, the arguments received, and whether an exception got out *)
Fixpoint it_visit (h : bheap V) (it last : biter) (fuel : nat) f (n : nat) : outcome (bheap V * list V * bool) :=
  if it_eq it last then Ok (h, [], false)
  else match fuel with
       | O => UB
       | S k =>
           x <-! it_read P h it ;;
           h1 <-! match i_ptr it with PSlot b j => eset P h (Some b) j (f n x).1 | _ => UB end ;;
           if (f n x).2 then Ok (h1, [x], true)
           else it' <-! it_add P h1 it 1 ;;
                '(h2, l, e) <-! it_visit h1 it' last k f (S n) ;; Ok (h2, x :: l, e)
       end.
Fixpoint lst_visit (xs : list V) f (n : nat) : list V * list V * bool :=
  match xs with
  | [] => ([], [], false)
  | x :: r => if (f n x).2 then ((f n x).1 :: r, [x], true)
              else let '(r', l, e) := lst_visit r f (S n) in ((f n x).1 :: r', x :: l, e)
  end.
(** MV:178-190 modify, transform; MPV:172-178 apply; SMV:168-181; DMV:382-395; DSMV:388-400; DMPV:338-344 *)
Definition st_visit (s : store V) f : outcome (store V * list V * bool) :=
  match s with
  | SVec xs => let '(ys, l, e) := lst_visit xs f 0 in Ok (SVec ys, l, e)
  | SBlk h v =>
      first <-! vec_begin P h v ;; last <-! vec_end P h v ;;
      '(h', l, e) <-! it_visit h first last (Z.to_nat (v_size v)) f 0 ;; Ok (SBlk h' v, l, e)
  end.

(** A function that only reads: it throws or does not. *)
Fixpoint it_look (h : bheap V) (it last : biter) (fuel : nat) (t : nat -> V -> bool) (n : nat) : outcome (list V * bool) :=
  if it_eq it last then Ok ([], false)
  else match fuel with
       | O => UB
       | S k => x <-! it_read P h it ;;
                if t n x then Ok ([x], true)
                else it' <-! it_add P h it 1 ;; '(l, e) <-! it_look h it' last k t (S n) ;; Ok (x :: l, e)
       end.
Fixpoint lst_look (xs : list V) (t : nat -> V -> bool) (n : nat) : list V * bool :=
  match xs with
  | [] => ([], false)
  | x :: r => if t n x then ([x], true) else let '(l, e) := lst_look r t (S n) in (x :: l, e)
  end.
(** MV:171-175 apply, MPV:182-188, SMV:160-164; DMV:374-378, DSMV:381-385, DMPV:348-354 *)
Definition st_look (s : store V) t : outcome (list V * bool) :=
  match s with
  | SVec xs => Ok (lst_look xs t 0)
  | SBlk h v =>
      first <-! vec_begin P h v ;; last <-! vec_end P h v ;; it_look h first last (Z.to_nat (v_size v)) t 0
  end.

Definition mv_visit `{Countable K} (m : mv V K) f : outcome (mv V K * list V * bool) :=
  '(s, l, e) <-! st_visit (m_st m) f ;; Ok (Mv s (m_lk m), l, e).
Definition dv_visit `{Countable K1} `{Countable K2} (d : dv V K1 K2) f : outcome (dv V K1 K2 * list V * bool) :=
  '(s, l, e) <-! st_visit (d_st d) f ;; Ok (Dv s (d_l1 d) (d_l2 d), l, e).
End model.

(** ** Specification: [xs] before, [ys] after, the arguments [l] received, and whether an exception got out *)
Definition visited {V} (f : nat -> V -> V * bool) (n : nat) (xs ys l : list V) (e : bool) : Prop :=
  if e then exists l1 x l2, xs = l1 ++ x :: l2 /\ (forall i y, l1 !! i = Some y -> (f (n + i)%nat y).2 = false) /\ (f (n + length l1)%nat x).2 = true /\
              l = l1 ++ [x] /\ ys = imap (fun i y => (f (n + i)%nat y).1) l1 ++ (f (n + length l1)%nat x).1 :: l2
  else (forall i y, xs !! i = Some y -> (f (n + i)%nat y).2 = false) /\ l = xs /\ ys = imap (fun i y => (f (n + i)%nat y).1) xs.
(** The sequence with other values, identities and terms as they were *)
Definition as_vals_set `{Countable K} {V} (ys : list V) (a : assoc V K) : assoc V K := Assoc (zip (as_ids a) ys) (a_tm a) (a_nx a).

(** ** Proofs *)
Section spec.
Context {V : Type}.
Implicit Types f : nat -> V -> V * bool.

Lemma visited_nil f n : visited f n [] [] [] false.
Proof. cbn. splits. intros i y E. rewrite lookup_nil in E. discriminate. Qed.
Lemma visited_stop f n x xs : (f n x).2 = true -> visited f n (x :: xs) ((f n x).1 :: xs) [x] true.
Proof.
  intros E. exists [], x, xs. cbn. rewrite Nat.add_0_r. splits; [|exact E]. intros i y F. rewrite lookup_nil in F. discriminate.
Qed.
Lemma visited_cons f n x xs ys l e : (f n x).2 = false -> visited f (S n) xs ys l e -> visited f n (x :: xs) ((f n x).1 :: ys) (x :: l) e.
Proof.
  intros Ex Hv. assert (Hi : forall l0 : list V, imap (fun i y => (f (n + i)%nat y).1) (x :: l0) = (f n x).1 :: imap (fun i y => (f (S n + i)%nat y).1) l0).
  { intros l0. rewrite imap_cons, Nat.add_0_r. f_equal. apply imap_ext. intros i y _. cbn. replace (n + S i)%nat with (S n + i)%nat by lia. reflexivity. }
  assert (Hf : forall l0 : list V, (forall i y, l0 !! i = Some y -> (f (S n + i)%nat y).2 = false) -> forall i y, (x :: l0) !! i = Some y -> (f (n + i)%nat y).2 = false).
  { intros l0 H0 [|i] y E; cbn in E; [injection E as <-; rewrite Nat.add_0_r; exact Ex|]. replace (n + S i)%nat with (S n + i)%nat by lia. apply H0, E. }
  destruct e; cbn [visited] in *.
  - destruct Hv as (l1 & z & l2 & -> & H1 & H2 & -> & ->). exists (x :: l1), z, l2. rewrite Hi. cbn [length app]. replace (n + S (length l1))%nat with (S n + length l1)%nat by lia.
    splits; [apply Hf, H1|exact H2].
  - destruct Hv as (H1 & -> & ->). rewrite Hi. splits. apply Hf, H1.
Qed.
Lemma visited_length f n xs ys l e : visited f n xs ys l e -> length ys = length xs.
Proof.
  destruct e; cbn.
  - intros (l1 & x & l2 & -> & _ & _ & _ & ->). rewrite !app_length, imap_length. reflexivity.
  - intros (_ & _ & ->). apply imap_length.
Qed.

Lemma lst_visit_ok f : forall xs n, let '(ys, l, e) := lst_visit xs f n in visited f n xs ys l e.
Proof.
  induction xs as [|x xs IH]; intros n; cbn [lst_visit]; [apply visited_nil|]. destruct (f n x).2 eqn:E; [apply visited_stop, E|].
  specialize (IH (S n)). destruct (lst_visit xs f (S n)) as [[ys l] e]. apply visited_cons; assumption.
Qed.
Lemma lst_look_ok t : forall xs n, let '(l, e) := lst_look xs t n in visited (fun i (x : V) => (x, t i x)) n xs xs l e.
Proof.
  induction xs as [|x xs IH]; intros n; cbn [lst_look]; [apply visited_nil|]. destruct (t n x) eqn:E; [apply (visited_stop (fun i (x : V) => (x, t i x))), E|].
  specialize (IH (S n)). destruct (lst_look xs t (S n)) as [l e]. apply (visited_cons (fun i (x : V) => (x, t i x))); assumption.
Qed.
End spec.

Section store.
Context {V : Type}.
Variable P : params.
Hypothesis HP : 0 <= expo P <= 30.
Notation B := (bsz P).
Implicit Types (f : nat -> V -> V * bool) (s : store V).

Lemma it_visit_ok f t v ids frees last : forall k n h it xs,
  vlive P h v t xs ids frees -> entry h t (zlen xs / B) -> (n + k = length xs)%nat ->
  it_at P h t (Z.of_nat n) it -> it_at P h t (zlen xs) last ->
  exists h' ys l e, it_visit P h it last k f n = Ok (h', l, e) /\ visited f n (drop n xs) ys l e /\ vlive P h' v t (take n xs ++ ys) ids frees.
Proof.
  destruct HP as [HP1 HP2]. induction k as [|k IH]; intros n h it xs Hl He Hk Hit Hlast; cbn [it_visit]; rewrite (it_at_eq P HP1 _ _ _ _ _ _ Hit Hlast).
  - replace n with (length xs) by lia. rewrite drop_all, firstn_all. exists h, [], [], false. rewrite app_nil_r.
    destruct (Z.eqb_spec (Z.of_nat (length xs)) (zlen xs)); [|unfold zlen in *; lia]. splits; [apply visited_nil|exact Hl].
  - destruct (Z.eqb_spec (Z.of_nat n) (zlen xs)); [unfold zlen in *; lia|].
    destruct (lookup_lt_is_Some_2 xs n) as [x Hx]; [lia|]. pose proof (vlen_ids P HP1 _ _ _ _ _ _ Hl) as Hlen.
    assert (Hv : vinv P h v xs ids frees) by (right; eauto).
    rewrite (it_read_ok P HP1 h t (v_slots v) 0 ids 0 xs (v_fl v) frees (Z.of_nat n) it x); try assumption; try lia; try apply Hl.
    2:{ rewrite zl_nat. exact Hx. }
    cbn [obind]. destruct (vset_ok P HP1 h v xs ids frees n (f n x).1 Hv ltac:(lia)) as (h1 & E1 & Hv1 & _).
    unfold vec_set in E1. destruct (vat_ok P HP1 h v xs ids frees (Z.of_nat n) Hv) as (i & b & E2 & Hb & Ei & Hj & _); [unfold zlen; lia|].
    rewrite E2 in E1. cbn [obind] in E1.
    assert (Hptr : i_ptr it = PSlot b (Z.of_nat n mod B)).
    { apply it_at_inv in Hit as (c & Ec & ->). unfold vec_at in E2. assert (v_data v = Some t) as Ed by apply Hl. rewrite Ed, shiftr_bsz, land_bsz in E2 by assumption.
      rewrite Ec in E2. cbn [obind] in E2. injection E2 as ->. reflexivity. }
    rewrite Hptr, E1. cbn [obind]. pose proof (eset_tb P _ _ _ _ _ E1) as Htb.
    assert (Hl1 : vlive P h1 v t (<[n := (f n x).1]> xs) ids frees).
    { destruct Hv1 as [(-> & _)|(t' & Hl1)]; [assert (v_data (vec_default P) = Some t) as F by apply Hl; discriminate|].
      assert (v_data v = Some t) as F by apply Hl. assert (v_data v = Some t') as F' by apply Hl1. assert (t' = t) as -> by congruence. exact Hl1. }
    rewrite (drop_S _ _ _ Hx). destruct (f n x).2 eqn:Et.
    { exists h1, ((f n x).1 :: drop (S n) xs), [x], true. splits; [apply visited_stop, Et|].
      rewrite insert_take_drop in Hl1 by lia. exact Hl1. }
    assert (He1 : forall q, entry h t q -> entry h1 t q) by (intros q [c Ec]; exists c; unfold tget in *; rewrite Htb; exact Ec).
    assert (Hz1 : zlen (<[n := (f n x).1]> xs) = zlen xs) by (unfold zlen; rewrite insert_length; reflexivity).
    destruct (it_add_ok P HP1 h1 t (Z.of_nat n) it 1 (it_at_tb P _ _ _ _ _ Htb Hit)) as (it' & -> & Hit'); [pose proof (B_int P HP); lia| |].
    { apply He1. destruct (decide (S n = length xs)) as [E|Hne].
      - replace (Z.of_nat n + 1) with (zlen xs) by (unfold zlen; lia). assumption.
      - destruct (bk_locate P HP1 h t (v_slots v) 0 ids 0 xs (v_fl v) frees (Z.of_nat n + 1)) as (i' & b' & _ & _ & _ & _ & E5); try lia; [apply Hl|unfold zlen; lia|].
        rewrite !Z.add_0_l in E5. eexists. exact E5. }
    cbn [obind]. destruct (IH (S n) h1 it' (<[n := (f n x).1]> xs) Hl1) as (h2 & ys & l & e & -> & Hvi & Hl2).
    + rewrite Hz1. apply He1. exact He.
    + rewrite insert_length. lia.
    + replace (Z.of_nat (S n)) with (Z.of_nat n + 1) by lia. exact Hit'.
    + rewrite Hz1. eapply it_at_tb; eassumption.
    + cbn [obind]. rewrite drop_insert_gt in Hvi by lia. exists h2, ((f n x).1 :: ys), (x :: l), e. splits; [apply visited_cons; assumption|].
      rewrite (take_S_r _ _ (f n x).1) in Hl2 by (apply list_lookup_insert; lia).
      rewrite take_insert in Hl2 by lia. rewrite <- app_assoc in Hl2. exact Hl2.
Qed.

Lemma it_look_ok (u : nat -> V -> bool) t v ids frees last : forall k n h it (xs : list V),
  vlive P h v t xs ids frees -> entry h t (zlen xs / B) -> (n + k = length xs)%nat ->
  it_at P h t (Z.of_nat n) it -> it_at P h t (zlen xs) last ->
  exists l e, it_look P h it last k u n = Ok (l, e) /\ visited (fun i (x : V) => (x, u i x)) n (drop n xs) (drop n xs) l e.
Proof.
  destruct HP as [HP1 HP2]. induction k as [|k IH]; intros n h it xs Hl He Hk Hit Hlast; cbn [it_look]; rewrite (it_at_eq P HP1 _ _ _ _ _ _ Hit Hlast).
  - replace n with (length xs) by lia. rewrite drop_all. exists [], false.
    destruct (Z.eqb_spec (Z.of_nat (length xs)) (zlen xs)); [|unfold zlen in *; lia]. splits. apply visited_nil.
  - destruct (Z.eqb_spec (Z.of_nat n) (zlen xs)); [unfold zlen in *; lia|].
    destruct (lookup_lt_is_Some_2 xs n) as [x Hx]; [lia|]. pose proof (vlen_ids P HP1 _ _ _ _ _ _ Hl) as Hlen.
    rewrite (it_read_ok P HP1 h t (v_slots v) 0 ids 0 xs (v_fl v) frees (Z.of_nat n) it x); try assumption; try lia; try apply Hl.
    2:{ rewrite zl_nat. exact Hx. }
    cbn [obind]. rewrite (drop_S _ _ _ Hx). destruct (u n x) eqn:Et.
    { exists [x], true. splits. apply (visited_stop (fun i x => (x, u i x))), Et. }
    destruct (it_add_ok P HP1 h t (Z.of_nat n) it 1 Hit) as (it' & -> & Hit'); [pose proof (B_int P HP); lia| |].
    { destruct (decide (S n = length xs)) as [E|Hne].
      - replace (Z.of_nat n + 1) with (zlen xs) by (unfold zlen; lia). assumption.
      - destruct (bk_locate P HP1 h t (v_slots v) 0 ids 0 xs (v_fl v) frees (Z.of_nat n + 1)) as (i' & b' & _ & _ & _ & _ & E5); try lia; [apply Hl|unfold zlen; lia|].
        rewrite !Z.add_0_l in E5. eexists. exact E5. }
    cbn [obind]. destruct (IH (S n) h it' xs Hl He) as (l & e & -> & Hvi); [lia| |exact Hlast|].
    + replace (Z.of_nat (S n)) with (Z.of_nat n + 1) by lia. exact Hit'.
    + cbn [obind]. exists (x :: l), e. splits. apply (visited_cons (fun i x => (x, u i x))); assumption.
Qed.

Lemma st_visit_ok s xs f : st_ok P s xs -> st_room P s ->
  exists s' ys l e, st_visit P s f = Ok (s', l, e) /\ visited f 0 xs ys l e /\ st_ok P s' ys /\ st_kept P s s'.
Proof.
  pose proof HP as [HP1 HP2]. destruct s as [zs|h v]; cbn [st_ok st_room st_visit].
  - intros -> _. pose proof (lst_visit_ok f xs 0) as Hv. destruct (lst_visit xs f 0) as [[ys l] e]. exists (SVec ys), ys, l, e. splits. exact Hv.
  - intros (ids & frees & [Hv Hp]) Hf. destruct Hv as [(-> & -> & -> & -> & H)|(t & Hl)].
    + unfold vec_begin, vec_end; cbn. rewrite Z.eqb_refl. cbn. eexists _, [], [], false. splits; [apply (visited_nil f 0)| |].
      exists [], []. split; [left; auto|exact Hp].
      intros n _ _. reflexivity.
    + destruct (vbegin_ok P HP1 _ _ _ _ _ _ Hl Hf) as (first & -> & H1). destruct (vend_ok P HP1 _ _ _ _ _ _ Hl Hf) as (last & -> & H2). cbn [obind].
      pose proof (vend_entry P HP1 _ _ _ _ _ _ Hl Hf) as He.
      destruct (it_visit_ok f t v ids frees last (length xs) 0 h first xs Hl He eq_refl H1 H2) as (h' & ys & l & e & E & Hvi & Hl').
      assert (v_size v = zlen xs) as Hsz by apply Hl. rewrite Hsz. unfold zlen. rewrite Nat2Z.id, E. cbn [obind]. rewrite drop_0 in *. cbn [take app] in Hl'.
      pose proof (visited_length _ _ _ _ _ _ Hvi) as Hlen. exists (SBlk h' v), ys, l, e. splits; [exact Hvi| |].
      * exists ids, frees. split; [right; eauto|exact Hp].
      * intros n Hn _. fold (zlen xs) in *. rewrite Hsz in Hn. assert (zlen ys = zlen xs) as Hm by (unfold zlen; lia).
        destruct (vat_ok P HP1 h v xs ids frees n ltac:(right; eauto) Hn) as (i & b & E1 & Hi & Ei & _).
        destruct (vat_ok P HP1 h' v ys ids frees n (or_intror (ex_intro _ t Hl')) ltac:(rewrite Hm; exact Hn)) as (i' & b' & E1' & Hi' & Ei' & _).
        replace i' with i in * by lia. congruence.
Qed.

Lemma st_look_ok s xs (u : nat -> V -> bool) : st_ok P s xs -> st_room P s -> exists l e, st_look P s u = Ok (l, e) /\ visited (fun i x => (x, u i x)) 0 xs xs l e.
Proof.
  pose proof HP as [HP1 HP2]. destruct s as [zs|h v]; cbn [st_ok st_room st_look].
  - intros -> _. pose proof (lst_look_ok u xs 0) as Hv. destruct (lst_look xs u 0) as [l e]. exists l, e. splits. exact Hv.
  - intros (ids & frees & [Hv Hp]) Hf. destruct Hv as [(-> & -> & -> & -> & H)|(t & Hl)].
    + unfold vec_begin, vec_end; cbn. rewrite Z.eqb_refl. cbn. eexists [], false. splits. apply (visited_nil _ 0).
    + destruct (vbegin_ok P HP1 _ _ _ _ _ _ Hl Hf) as (first & -> & H1). destruct (vend_ok P HP1 _ _ _ _ _ _ Hl Hf) as (last & -> & H2). cbn [obind].
      pose proof (vend_entry P HP1 _ _ _ _ _ _ Hl Hf) as He.
      destruct (it_look_ok u t v ids frees last (length xs) 0 h first xs Hl He eq_refl H1 H2) as (l & e & E & Hvi).
      assert (v_size v = zlen xs) as Hsz by apply Hl. rewrite Hsz. unfold zlen. rewrite Nat2Z.id, E. rewrite drop_0 in *. eauto.
Qed.
End store.

Lemma rel_vals_set {V} `{Countable K} P (s s' : store V) lkf (a : assoc V K) ys :
  rel P s lkf a -> length ys = length (as_vals a) -> st_ok P s' ys -> rel P s' lkf (as_vals_set ys a).
Proof.
  intros R Hlen Hs. unfold as_vals in Hlen. rewrite map_length in Hlen. assert (Hl : length (as_ids a) = length ys) by (unfold as_ids; rewrite map_length; lia).
  eapply rel_same_ids; [exact R| |reflexivity|reflexivity| |reflexivity]; unfold as_vals_set.
  - unfold as_ids at 1. cbn [a_el]. rewrite fst_zip; [reflexivity|lia].
  - unfold as_vals. cbn [a_el]. rewrite snd_zip; [exact Hs|lia].
Qed.
Lemma as_vals_set_vals {V} `{Countable K} (a : assoc V K) ys : length ys = length (as_vals a) -> as_vals (as_vals_set ys a) = ys.
Proof.
  unfold as_vals, as_vals_set. rewrite map_length. intros Hlen. cbn [a_el]. apply snd_zip. unfold as_ids. rewrite map_length. lia.
Qed.

(** A function that does not throw: the machine of MapStore.v *)
Lemma it_visit_pure {V} P (f : V -> V) last : forall k n (h : bheap V) it,
  it_visit P h it last k (fun _ x => (f x, false)) n = ('(h', l) <-! it_map P h it last k f ;; Ok (h', l, false)).
Proof.
  induction k as [|k IH]; intros n h it; cbn [it_visit it_map]; destruct (it_eq it last); try reflexivity.
  destruct (it_read P h it) as [x| |]; [cbn [obind fst snd]|reflexivity|reflexivity].
  destruct (match i_ptr it with PSlot b j => eset P h (Some b) j (f x) | _ => UB end) as [h1| |]; [cbn [obind]|reflexivity|reflexivity].
  destruct (it_add P h1 it 1) as [it'| |]; [cbn [obind]|reflexivity|reflexivity]. rewrite IH.
  destruct (it_map P h1 it' last k f) as [[h2 l]| |]; reflexivity.
Qed.
Lemma lst_visit_pure {V} (f : V -> V) : forall xs n, lst_visit xs (fun _ x => (f x, false)) n = (map f xs, xs, false).
Proof. induction xs as [|x xs IH]; intros n; cbn; [reflexivity|]. rewrite IH. reflexivity. Qed.
Lemma st_visit_pure {V} P (s : store V) f : st_visit P s (fun _ x => (f x, false)) = ('(s', l) <-! st_modify P s f ;; Ok (s', l, false)).
Proof.
  destruct s as [xs|h v]; cbn [st_visit st_modify]; [rewrite lst_visit_pure; reflexivity|].
  destruct (vec_begin P h v) as [first| |]; [cbn [obind]|reflexivity|reflexivity].
  destruct (vec_end P h v) as [last| |]; [cbn [obind]|reflexivity|reflexivity]. rewrite it_visit_pure.
  destruct (it_map P h first last (Z.to_nat (v_size v)) f) as [[h2 l]| |]; reflexivity.
Qed.
