(** apply, modify and transform of the mapped vectors with a function that itself uses the container.

    The loop is the one of MapVisit.v (std::for_each, std::transform: begin() and end() are called once, before the first
    call of the function).  The function is a program [cb]: it reads or writes the element it was given, calls any member of
    the container, and ends by returning (with its new state) or by throwing.  std::transform writes the result to the element
    after the function has returned: a program that ends with [CPut].

    std::vector: a call that changes the number of elements (push_back, erase, clear) invalidates the end iterator the loop
    holds ([vector.modifiers]); using it, or the element after an invalidation, is undefined.  Whether references to earlier
    elements survive a push_back depends on the capacity, which is not modelled: they are taken as invalid. *)
From stdpp Require Import gmap.
From Verif Require Import Base BlkHeap BlkProofs BlkMore BlkRun BlkIter BlkIterProofs VecModel VecSpec VecProofs VecWorld VecFinal
  MapStore MapStoreProofs MapModel MapSpec MapRel MapProofs MapReach MapFinal DualModel DualSpec DualProofs DualReach DualFinal MapVisit.

(** ** Programs run by the function: [Op], [R]: the calls of the container and their results; [T]: the function's own state *)
Inductive cb (V Op R T : Type) :=
| CRet (s : T) | CThrow | CGet (k : V -> cb V Op R T) | CPut (x : V) (k : cb V Op R T) | CDo (o : Op) (k : R -> cb V Op R T).
Arguments CRet {V Op R T}. Arguments CThrow {V Op R T}. Arguments CGet {V Op R T}. Arguments CPut {V Op R T}. Arguments CDo {V Op R T}.
Inductive ev (V Op R : Type) := EGet (x : V) | EPut (x : V) | EDo (o : Op) (r : R).
Arguments EGet {V Op R}. Arguments EPut {V Op R}. Arguments EDo {V Op R}.

(** ** Model *)
Section model.
Context {V X Op R T : Type}.
Variable P : params.
Variable stf : X -> store V.                  (* dataStorage *)
Variable upd : X -> store V -> X.
Variable step : X -> Op -> outcome (X * R).    (* the members of the container *)
Implicit Types (m : X) (s : store V).

Definition st_begin s : outcome siter := match s with SVec _ => Ok (IVec 0) | SBlk h v => it <-! vec_begin P h v ;; Ok (IBlk it) end.
Definition st_next s (it : siter) : outcome siter :=
  match s, it with SVec _, IVec i => Ok (IVec (i + 1)) | SBlk h _, IBlk i => it' <-! it_add P h i 1 ;; Ok (IBlk it') | _, _ => UB end.
(** *it = x *)
Definition st_put s (it : siter) (x : V) : outcome (store V) :=
  match s, it with
  | SVec xs, IVec i => if (0 <=? i) && (i <? zlen xs) then Ok (SVec (<[Z.to_nat i := x]> xs)) else UB
  | SBlk h v, IBlk i => h' <-! match i_ptr i with PSlot b j => eset P h (Some b) j x | _ => UB end ;; Ok (SBlk h' v)
  | _, _ => UB
  end.
(** [fr]: no call has changed the number of elements since the loop began *)
Definition held s (fr : bool) : bool := st_stable s || fr.

Fixpoint cb_run m (fr : bool) (it : siter) (p : cb V Op R T) : outcome (X * bool * option T * list (ev V Op R)) :=
  match p with
  | CRet s => Ok (m, fr, Some s, [])
  | CThrow => Ok (m, fr, None, [])
  | CGet k =>
      if held (stf m) fr then x <-! st_deref P (stf m) it ;; '(m', fr', e, l) <-! cb_run m fr it (k x) ;; Ok (m', fr', e, EGet x :: l) else UB
  | CPut x k =>
      if held (stf m) fr then s <-! st_put (stf m) it x ;; '(m', fr', e, l) <-! cb_run (upd m s) fr it k ;; Ok (m', fr', e, EPut x :: l) else UB
  | CDo o k =>
      '(m1, r) <-! step m o ;;
      '(m', fr', e, l) <-! cb_run m1 (fr && (st_size (stf m1) =? st_size (stf m))) it (k r) ;; Ok (m', fr', e, EDo o r :: l)
  end.

(** for (; it != last; ++it) f( *it ); what each call did, and the function's state, or that an exception got out *)
Fixpoint nloop m fr (it last : siter) (fuel : nat) (f : T -> cb V Op R T) (t : T) : outcome (X * option T * list (list (ev V Op R))) :=
  if si_eq it last then Ok (m, Some t, [])
  else match fuel with
       | 0%nat => UB
       | S k =>
           '(m1, fr1, e, l) <-! cb_run m fr it (f t) ;;
           match e with
           | None => Ok (m1, None, [l])
           | Some t1 =>
               if held (stf m1) fr1 then it' <-! st_next (stf m1) it ;; '(m2, e2, ls) <-! nloop m1 fr1 it' last k f t1 ;; Ok (m2, e2, l :: ls) else UB
           end
       end.
(** MV:171-190, SMV:160-181, MPV:172-188, DMV:374-395, DSMV:381-400, DMPV:338-354 *)
Definition nvisit m (f : T -> cb V Op R T) (t : T) : outcome (X * option T * list (list (ev V Op R))) :=
  first <-! st_begin (stf m) ;; last <-! st_end P (stf m) ;; nloop m true first last (Z.to_nat (st_size (stf m))) f t.

(** *** What the function must respect.  [m0]: the container when the loop began. *)
Variable legal grd : X -> Op -> Prop.
(** Nothing is added to or taken from a std::vector; a StableBlockVector keeps the elements it had and does not outgrow its
    table of blocks. *)
Definition steady s0 s : Prop :=
  match s0, s with
  | SVec xs, SVec ys => zlen ys = zlen xs
  | SBlk _ v0, SBlk _ v => v_size v0 <= v_size v <= v_slots v0 * bsz P
  | _, _ => False
  end.
Fixpoint cb_safe m0 m (it : siter) (p : cb V Op R T) : Prop :=
  match p with
  | CRet _ | CThrow => True
  | CGet k => forall x, st_deref P (stf m) it = Ok x -> cb_safe m0 m it (k x)
  | CPut x k => forall s, st_put (stf m) it x = Ok s -> cb_safe m0 (upd m s) it k
  | CDo o k => legal m o /\ grd m o /\ forall m1 r, step m o = Ok (m1, r) -> steady (stf m0) (stf m1) /\ cb_safe m0 m1 it (k r)
  end.
Fixpoint loop_safe m0 m fr (it : siter) (k : nat) (f : T -> cb V Op R T) (t : T) : Prop :=
  match k with
  | 0%nat => True
  | S k' => cb_safe m0 m it (f t) /\
      forall m1 fr1 t1 l it', cb_run m fr it (f t) = Ok (m1, fr1, Some t1, l) -> st_next (stf m1) it = Ok it' -> loop_safe m0 m1 fr1 it' k' f t1
  end.
Definition visit_safe m f t : Prop := forall first, st_begin (stf m) = Ok first -> loop_safe m m true first (Z.to_nat (st_size (stf m))) f t.
End model.

(** ** Specification: the function is called for the elements 0, 1, ... that the container had when the loop began; its own
    calls act on the container at once *)
Section spec.
Context {V Op T : Type} `{Countable K}.
Variable exec : assoc V K -> Op -> assoc V K * mret V.
Implicit Types a : assoc V K.

Fixpoint a_cb a (n : nat) (p : cb V Op (mret V) T) : assoc V K * option T * list (ev V Op (mret V)) :=
  match p with
  | CRet s => (a, Some s, [])
  | CThrow => (a, None, [])
  | CGet k => match as_vals a !! n with Some x => let '(a', e, l) := a_cb a n (k x) in (a', e, EGet x :: l) | None => (a, None, []) end
  | CPut x k => let '(a', e, l) := a_cb (as_vals_set (<[n := x]> (as_vals a)) a) n k in (a', e, EPut x :: l)
  | CDo o k => let '(a1, r) := exec a o in let '(a', e, l) := a_cb a1 n (k r) in (a', e, EDo o r :: l)
  end.
Fixpoint a_loop a (n : nat) (k : nat) (f : T -> cb V Op (mret V) T) (t : T) : assoc V K * option T * list (list (ev V Op (mret V))) :=
  match k with
  | 0%nat => (a, Some t, [])
  | S k' =>
      let '(a1, e, l) := a_cb a n (f t) in
      match e with
      | None => (a1, None, [l])
      | Some t1 => let '(a2, e2, ls) := a_loop a1 (S n) k' f t1 in (a2, e2, l :: ls)
      end
  end.
Definition a_visit a f t := a_loop a 0 (length (as_vals a)) f t.
End spec.

(** ** Proofs *)
Section store.
Context {V : Type}.
Variable P : params.
Hypothesis HP : 0 <= expo P <= 30.
Notation B := (bsz P).
Implicit Types (s : store V).

(** What one member call does to the storage *)
Inductive sact s : store V -> Prop :=
| sa_id : sact s s
| sa_push x s' r : st_step P s (VPush x) = Ok (s', r) -> sact s s'
| sa_set i x s' r : st_step P s (VSet i x) = Ok (s', r) -> sact s s'
| sa_clear s' r : st_step P s VClear = Ok (s', r) -> sact s s'
| sa_erase i s' r : st_erase P s i = Ok (s', r) -> sact s s'
| sa_modify f s' r : st_modify P s f = Ok (s', r) -> sact s s'.

Definition tabs s s' : Prop :=
  match s, s' with
  | SBlk _ v, SBlk _ v' => (v_data v' = v_data v /\ v_slots v' = v_slots v) \/ v_slots v * B < v_size v'
  | SVec _, SVec _ => True
  | _, _ => False
  end.

Lemma vpop_tab (h : bheap V) v h' v' : vec_pop P h v = Ok (h', v') -> v_data v' = v_data v /\ v_slots v' = v_slots v.
Proof.
  unfold vec_pop. destruct (_ =? _); [intros [= <- <-]; auto|]. intros ([h1 v1] & E1 & E)%obind_ok.
  apply obind_ok in E as (c & _ & E). apply obind_ok in E as (h2 & E2 & [= <- <-]). destruct (_ <? _); [injection E1 as <- <-; auto|].
  apply obind_ok in E1 as (c1 & _ & E1). apply obind_ok in E1 as ([h3 f] & _ & [= <- <-]). auto.
Qed.
Lemma sact_tabs s s' xs : st_ok P s xs -> sact s s' -> tabs s s'.
Proof.
  destruct HP as [HP1 HP2]. destruct s as [ys|h v]; cbn [st_ok].
  - intros _ A. inversion A as [|x s1 r E|i x s1 r E|s1 r E|i s1 r E|f s1 r E]; subst; cbn in *; try exact I.
    + injection E as <- <-. exact I.
    + destruct (_ && _); [injection E as <- <-; exact I|discriminate].
    + injection E as <- <-. exact I.
    + destruct (_ && _); [injection E as <- <-; exact I|discriminate].
    + injection E as <- <-. exact I.
  - intros (ids & frees & [Hv Hp]) A. inversion A as [|x s1 r E|i x s1 r E|s1 r E|i s1 r E|f s1 r E]; subst; cbn [st_step st_erase st_modify vec_step] in *.
    + left. auto.
    + apply obind_ok in E as ([[h1 v1] r1] & E & [= <- <-]). apply obind_ok in E as ([h2 v2] & E & [= <- <- <-]). cbn [tabs].
      unfold vec_push in E. apply obind_ok in E as ([h3 v3] & E3 & E). apply obind_ok in E as (c & _ & E). apply obind_ok in E as (h4 & _ & [= <- <-]). cbn [v_data v_slots v_size].
      unfold vec_block_check in E3. destruct (Z.leb_spec B (v_bsize v)); [|injection E3 as <- <-; auto].
      apply obind_ok in E3 as ([h5 v5] & E5 & E3). apply obind_ok in E3 as ([[h6 f6] c6] & _ & E3). apply obind_ok in E3 as (h7 & _ & [= <- <-]). cbn [v_data v_slots v_size].
      pose proof (B_pos P HP1) as HB. destruct Hv as [(-> & -> & _)|(t & Hl)].
      { cbn in E5. injection E5 as <- <-. cbn. right. lia. }
      pose proof (vlive_idx P _ _ _ _ _ _ Hl) as Hx. destruct Hl as (Ed & Hbk & Hsz & Hi & Hb & Hz & Hs).
      destruct (Z.eqb_spec (v_slots v) 0); [lia|]. destruct (Z.leb_spec (v_slots v - 1) (v_idx v)); [|injection E5 as <- <-; auto].
      cbn in E5. apply obind_ok in E5 as (h8 & _ & E5). apply obind_ok in E5 as (h9 & _ & [= <- <-]). cbn [v_size]. right. nia.
    + apply obind_ok in E as ([[h1 v1] r1] & E & [= <- <-]). apply obind_ok in E as (h2 & E & [= <- <- <-]). left. auto.
    + apply obind_ok in E as ([[h1 v1] r1] & E & [= <- <-]). apply obind_ok in E as ([h2 v2] & E & [= <- <- <-]). left. unfold vec_clear in E.
      destruct (_ <=? _); [injection E as <- <-; auto|]. apply obind_ok in E as (h3 & _ & E). destruct (_ <? _); [|injection E as <- <-; auto].
      apply obind_ok in E as (c & _ & E). apply obind_ok in E as ([h4 f4] & _ & E). apply obind_ok in E as ([h5 f5] & _ & E). apply obind_ok in E as (h6 & _ & [= <- <-]). auto.
    + destruct (_ =? _); [|injection E as <- <-; left; auto]. apply obind_ok in E as ([h1 v1] & E & [= <- <-]). left. eapply vpop_tab; exact E.
    + apply obind_ok in E as (first & _ & E). apply obind_ok in E as (last & _ & E). apply obind_ok in E as ([h1 l] & _ & [= <- <-]). left. auto.
Qed.

(** *** The frame of the loop: the elements it began with are where they were *)
Definition frame s0 s : Prop :=
  match s0, s with
  | SVec xs, SVec ys => zlen ys = zlen xs
  | SBlk h0 v0, SBlk h v => v_data v = v_data v0 /\ v_slots v = v_slots v0 /\ v_size v0 <= v_size v /\
      forall n, 0 <= n < v_size v0 -> vec_at P h v n = vec_at P h0 v0 n
  | _, _ => False
  end.
Lemma frame_refl s : frame s s.
Proof. clear HP. destruct s; cbn; [reflexivity|]. splits; try lia; intros; reflexivity. Qed.
Lemma frame_step s0 s s' : frame s0 s -> st_kept P s s' -> tabs s s' -> steady P s0 s' -> frame s0 s'.
Proof. clear HP.
  destruct s0 as [xs|h0 v0], s as [ys|h v], s' as [zs|h' v']; cbn; try tauto. intros (F1 & F2 & F3 & F4) Kp Tb [S1 S2].
  destruct Tb as [[T1 T2]|T]; [|rewrite F2 in T; lia]. splits; try congruence. intros n Hn. rewrite <- F4 by exact Hn. apply Kp; lia.
Qed.
Lemma frame_size s0 s : frame s0 s -> st_size s0 <= st_size s.
Proof. clear HP. destruct s0, s; cbn; try tauto; lia. Qed.
Lemma frame_vec s0 s : frame s0 s -> st_stable s = st_stable s0.
Proof. clear HP. destruct s0, s; cbn; tauto. Qed.

(** An iterator to element [n] *)
Definition it_to s (n : nat) (it : siter) : Prop :=
  match s, it with
  | SVec _, IVec i => i = Z.of_nat n
  | SBlk h v, IBlk i => exists t, v_data v = Some t /\ it_at P h t (Z.of_nat n) i
  | _, _ => False
  end.
(** The end iterator made when the loop began *)
Definition it_end s0 (it : siter) : Prop :=
  match s0, it with
  | SVec xs, IVec i => i = zlen xs
  | SBlk _ v0, IBlk i => exists (h : bheap V) t, v_data v0 = Some t /\ it_at P h t (v_size v0) i
  | _, _ => False
  end.

Lemma it_at_eq2 (h h' : bheap V) t q q' it it' : it_at P h t q it -> it_at P h' t q' it' -> it_eq it it' = (q =? q').
Proof.
  destruct HP as [HP1 _]. intros H H'. apply it_at_inv in H as (c & _ & ->). apply it_at_inv in H' as (c' & _ & ->). unfold it_eq; cbn.
  rewrite bool_decide_eq_true_2 by reflexivity. cbn. pose proof (B_pos P HP1) as HB.
  pose proof (Z.div_mod q B ltac:(lia)). pose proof (Z.div_mod q' B ltac:(lia)).
  destruct (Z.eqb_spec q q') as [->|Hne]; [rewrite !Z.eqb_refl; reflexivity|].
  destruct (Z.eqb_spec (q / B) (q' / B)) as [E|]; [|reflexivity]. destruct (Z.eqb_spec (q mod B) (q' mod B)) as [E'|]; [|reflexivity].
  exfalso. apply Hne. rewrite H, H0, E, E'. reflexivity.
Qed.
Lemma it_to_end s0 s n it last : frame s0 s -> it_to s n it -> it_end s0 last -> si_eq it last = (Z.of_nat n =? st_size s0).
Proof.
  destruct s0 as [xs|h0 v0], s as [ys|h v], it as [i|i], last as [j|j]; cbn; try tauto.
  - intros _ -> ->. reflexivity.
  - intros (F1 & _) (t & E & H1) (h1 & t1 & E1 & H2). assert (t1 = t) as -> by congruence. eapply it_at_eq2; eassumption.
Qed.

Lemma vat_tget (h : bheap V) v n : vec_at P h v n = (c <-! tget h (v_data v) (n / B) ;; Ok (c, n mod B)).
Proof. destruct HP as [HP1 _]. unfold vec_at. rewrite shiftr_bsz, land_bsz by assumption. reflexivity. Qed.
Lemma it_to_frame s0 s s' n it xs : frame s0 s -> frame s0 s' -> Z.of_nat n < st_size s0 -> st_ok P s xs -> it_to s n it -> it_to s' n it.
Proof.
  destruct s0 as [xs0|h0 v0], s as [ys|h v], s' as [zs|h' v'], it as [i|i]; cbn; try tauto.
  intros (F1 & F2 & F3 & F4) (G1 & G2 & G3 & G4) Hn (ids & frees & [Hv _]) (t & E & Hit). exists t. split; [congruence|].
  assert (Ev : vec_at P h' v' (Z.of_nat n) = vec_at P h v (Z.of_nat n)) by (rewrite F4, G4 by lia; reflexivity).
  destruct HP as [HP1 _]. pose proof (vinv_size _ _ _ _ _ _ Hv) as Hsz.
  destruct (vat_ok P HP1 h v xs ids frees (Z.of_nat n) Hv) as (j & b & E1 & _); [lia|]. rewrite E1 in Ev. rewrite vat_tget in Ev, E1.
  apply obind_ok in Ev as (c & Ec & [= ->]). apply obind_ok in E1 as (c' & Ec' & [= ->]).
  apply it_at_inv in Hit as (c & Ec2 & ->). rewrite E in Ec'. rewrite Ec' in Ec2. injection Ec2 as <-. replace (v_data v') with (Some t) in Ec by congruence.
  unfold it_at, it_new, it_ptr. rewrite Ec. reflexivity.
Qed.
Lemma it_to_next s0 s n it xs : st_room P s0 -> frame s0 s -> Z.of_nat n < st_size s0 -> st_ok P s xs -> it_to s n it ->
  (forall h0 v0, s0 = SBlk h0 v0 -> v_size v0 < v_slots v0 * B) ->
  exists it', st_next P s it = Ok it' /\ it_to s (S n) it'.
Proof.
  pose proof HP as [HP1 HP2]. destruct s0 as [xs0|h0 v0], s as [ys|h v], it as [i|i]; cbn [frame st_room st_size st_ok it_to st_next]; try tauto.
  - intros _ _ _ _ -> _. eexists. split; [reflexivity|]. cbn. lia.
  - intros Hf (F1 & F2 & F3 & F4) Hn (ids & frees & [Hv _]) (t & E & Hit) Hroom. specialize (Hroom _ _ eq_refl). pose proof (B_pos P HP1) as HB.
    destruct Hv as [(-> & _)|(t' & Hl)]; [discriminate|]. assert (t' = t) as -> by (assert (v_data v = Some t') by apply Hl; congruence).
    destruct (it_add_ok P HP1 h t (Z.of_nat n) i 1 Hit) as (it' & -> & Hit'); [pose proof (B_int P HP); lia| |].
    + eapply row_entry; [apply Hl|]. split; [apply Z.div_pos; lia|]. apply Z.div_lt_upper_bound; lia.
    + cbn [obind]. eexists. split; [reflexivity|]. exists t. split; [exact E|]. replace (Z.of_nat (S n)) with (Z.of_nat n + 1) by lia. exact Hit'.
Qed.

Lemma it_to_slot (h : bheap V) v n i xs ids frees : vinv P h v xs ids frees -> (n < length xs)%nat -> it_to (SBlk h v) n (IBlk i) ->
  exists b j, i_ptr i = PSlot b j /\ vec_at P h v (Z.of_nat n) = Ok (Some b, j).
Proof.
  destruct HP as [HP1 _]. intros Hv Hn (t & E & Hit). destruct (vat_ok P HP1 h v xs ids frees (Z.of_nat n) Hv) as (k & b & E1 & _); [unfold zlen; lia|].
  exists b, (Z.of_nat n mod B). split; [|exact E1]. rewrite vat_tget, E in E1. apply obind_ok in E1 as (c & Ec & [= ->]).
  apply it_at_inv in Hit as (c & Ec2 & ->). rewrite Ec in Ec2. injection Ec2 as <-. reflexivity.
Qed.
Lemma it_to_get s n it xs x : st_ok P s xs -> it_to s n it -> xs !! n = Some x -> st_deref P s it = Ok x.
Proof.
  destruct s as [ys|h v], it as [i|i]; cbn [st_ok st_deref]; try (cbn; tauto).
  - cbn. intros -> -> E. rewrite Nat2Z.id, E. reflexivity.
  - intros (ids & frees & [Hv Hp]) Hit E. pose proof (lookup_lt_Some _ _ _ E) as Hn. destruct (it_to_slot _ _ _ _ _ _ _ Hv Hn Hit) as (b & j & Ep & Ea).
    destruct (st_get_ok P HP (SBlk h v) xs (Z.of_nat n) x) as (s' & Eg); [exists ids, frees; split; assumption|lia|rewrite Nat2Z.id; exact E|].
    cbn [st_step vec_step] in Eg. unfold vec_get in Eg. rewrite Ea in Eg. cbn [obind] in Eg. unfold it_read. rewrite Ep.
    destruct (eget P h (Some b) j); cbn in Eg; congruence.
Qed.
Lemma it_to_put s n it xs x : st_ok P s xs -> it_to s n it -> (n < length xs)%nat ->
  exists s', st_put P s it x = Ok s' /\ st_ok P s' (<[n := x]> xs) /\ st_kept P s s' /\ tabs s s' /\ st_size s' = st_size s.
Proof.
  intros Hs Hit Hn. destruct (st_set_ok P HP s xs (Z.of_nat n) x Hs) as (s' & Es & Hs' & Kp); [unfold zlen; lia|]. rewrite Nat2Z.id in Hs'.
  assert (Tb : tabs s s') by (eapply sact_tabs; [exact Hs|eapply sa_set; exact Es]).
  assert (Hz : st_size s' = st_size s) by (rewrite (st_ok_size P _ _ Hs), (st_ok_size P _ _ Hs'); unfold zlen; rewrite insert_length; reflexivity).
  exists s'. split; [|splits; assumption]. destruct s as [ys|h v], it as [i|i]; try (cbn in Hit; tauto); cbn [st_put].
  - cbn in Hs, Hit. subst. cbn [st_step lst_step] in Es. destruct (_ && _); cbn in Es; congruence.
  - cbn [st_ok] in Hs. destruct Hs as (ids & frees & [Hv Hp]). destruct (it_to_slot _ _ _ _ _ _ _ Hv Hn Hit) as (b & j & Ep & Ea). rewrite Ep.
    cbn [st_step vec_step] in Es. unfold vec_set in Es. rewrite Ea in Es. cbn [obind] in Es. destruct (eset P h (Some b) j x); cbn in *; congruence.
Qed.
End store.

Section gen.
Context {V X Op T : Type} `{Countable K}.
Variable P : params.
Hypothesis HP : 0 <= expo P <= 30.
Variable stf : X -> store V.
Variable upd : X -> store V -> X.
Variable lkf : X -> K -> option Z.
Variable step : X -> Op -> outcome (X * mret V).
Variable legal grd : X -> Op -> Prop.
Variable exec : bool -> assoc V K -> Op -> assoc V K * mret V.
Hypothesis upd_st : forall m s, stf (upd m s) = s.
Hypothesis upd_lk : forall m s, lkf (upd m s) = lkf m.
Hypothesis step_ok : forall m a o, rel P (stf m) (lkf m) a -> legal m o -> grd m o ->
  exists m', step m o = Ok (m', (exec (st_stable (stf m)) a o).2) /\ rel P (stf m') (lkf m') (exec (st_stable (stf m)) a o).1 /\ st_kept P (stf m) (stf m').
Hypothesis step_act : forall m o m' r, step m o = Ok (m', r) -> sact P (stf m) (stf m').
Implicit Types (m : X) (a : assoc V K).

Lemma cb_run_ok m0 n it : Z.of_nat n < st_size (stf m0) -> forall (p : cb V Op (mret V) T) m fr a,
  rel P (stf m) (lkf m) a -> frame P (stf m0) (stf m) -> it_to P (stf m) n it -> held (stf m) fr = true -> cb_safe P stf upd step legal grd m0 m it p ->
  exists m' fr' a' e l, cb_run P stf upd step m fr it p = Ok (m', fr', e, l) /\ a_cb (exec (st_stable (stf m0))) a n p = (a', e, l) /\
    rel P (stf m') (lkf m') a' /\ frame P (stf m0) (stf m') /\ it_to P (stf m') n it /\ held (stf m') fr' = true.
Proof.
  intros Hn. induction p as [t| |k IH|x k IH|o k IH]; intros m fr a R F Hit Hh Hs; cbn [cb_run a_cb cb_safe] in *.
  - exists m, fr, a, (Some t), []. splits; assumption.
  - exists m, fr, a, None, []. splits; assumption.
  - pose proof (frame_size P _ _ F) as Hsz. rewrite (st_ok_size P _ _ (r_st _ _ _ _ R)) in Hsz. unfold zlen in Hsz.
    destruct (lookup_lt_is_Some_2 (as_vals a) n) as [x Ex]; [lia|]. rewrite Hh, Ex.
    pose proof (it_to_get P HP _ _ _ _ _ (r_st _ _ _ _ R) Hit Ex) as E. rewrite E. cbn [obind].
    destruct (IH x m fr a R F Hit Hh (Hs _ E)) as (m' & fr' & a' & e & l & E1 & E2 & H3). rewrite E1, E2. cbn [obind]. exists m', fr', a', e, (EGet x :: l). splits; try apply H3.
  - pose proof (frame_size P _ _ F) as Hsz. rewrite (st_ok_size P _ _ (r_st _ _ _ _ R)) in Hsz. unfold zlen in Hsz.
    destruct (it_to_put P HP _ n it _ x (r_st _ _ _ _ R) Hit) as (s & E & Hs' & Kp & Tb & Hz); [lia|]. rewrite Hh, E. cbn [obind].
    assert (F' : frame P (stf m0) (stf (upd m s))).
    { rewrite upd_st. eapply frame_step; [exact F|exact Kp|exact Tb|]. pose proof (r_st _ _ _ _ R) as Rs. clear - F Hz Kp Hs' HP Rs Tb. destruct (stf m0) as [xs0|h0 v0], (stf m) as [ys|h v], s as [zs|h' v']; cbn in *; try tauto; [lia|].
      destruct F as (F1 & F2 & F3 & _). destruct Hs' as (ids & frees & [Hv _]). pose proof (vinv_size _ _ _ _ _ _ Hv). destruct HP as [HP1 _].
      assert (Hsl : v_size v' <= v_slots v' * bsz P).
      { pose proof (B_pos P HP1) as HB. destruct Hv as [(-> & _)|(t & Hl)]; [cbn; lia|]. pose proof (vlive_idx P _ _ _ _ _ _ Hl). destruct Hl as (_ & _ & -> & _ & Hb & -> & _). nia. }
      destruct Tb as [[_ T]|T]; [rewrite T, F2 in Hsl; lia|]. destruct Rs as (ids1 & frees1 & [Hv1 _]). pose proof (B_pos P HP1) as HB.
      assert (v_size v <= v_slots v * bsz P); [|lia]. pose proof (vinv_size _ _ _ _ _ _ Hv1) as Hz1.
      destruct Hv1 as [(-> & _)|(t & Hl)]; [cbn; lia|]. pose proof (vlive_idx P _ _ _ _ _ _ Hl). destruct Hl as (_ & _ & -> & _ & Hb & -> & _). nia. }
    destruct (IH (upd m s) fr (as_vals_set (<[n := x]> (as_vals a)) a)) as (m' & fr' & a' & e & l & E1 & E2 & H3).
    + rewrite upd_st, upd_lk. eapply rel_vals_set; [exact R|apply insert_length|exact Hs'].
    + exact F'.
    + eapply it_to_frame with (s := stf m); [exact HP|exact F|exact F'|exact Hn|apply R|exact Hit].
    + rewrite upd_st. unfold held in *. rewrite (st_kept_stable P _ _ Kp). exact Hh.
    + apply Hs, E.
    + rewrite E1, E2. cbn [obind]. exists m', fr', a', e, (EPut x :: l). splits; try apply H3.
  - destruct Hs as (Hl & Hg & Hs). destruct (step_ok m a o R Hl Hg) as (m1 & E & R1 & Kp). rewrite (frame_vec P _ _ F) in *.
    destruct (Hs _ _ E) as [St Hs1]. rewrite E. cbn [obind].
    assert (F1 : frame P (stf m0) (stf m1)).
    { eapply frame_step; [exact F|exact Kp| |exact St]. eapply sact_tabs; [exact HP|apply R|eapply step_act; exact E]. }
    destruct (exec (st_stable (stf m0)) a o) as [a1 r1] eqn:Ea. cbn [fst snd] in *.
    destruct (IH r1 m1 (fr && (st_size (stf m1) =? st_size (stf m))) a1 R1 F1) as (m' & fr' & a' & e & l & E1 & E2 & H3).
    + eapply it_to_frame with (s := stf m); [exact HP|exact F|exact F1|exact Hn|apply R|exact Hit].
    + unfold held in *. rewrite (frame_vec P _ _ F) in Hh. rewrite (frame_vec P _ _ F1). destruct (st_stable (stf m0)) eqn:Eb; [reflexivity|]. cbn in *. subst fr.
      clear - F F1 Eb. destruct (stf m0), (stf m), (stf m1); cbn in *; try tauto; try discriminate. apply Z.eqb_eq. lia.
    + exact Hs1.
    + rewrite E1, E2. cbn [obind]. exists m', fr', a', e, (EDo o r1 :: l). splits; try apply H3.
Qed.

Lemma nloop_ok m0 last f : st_room P (stf m0) -> (forall h0 v0, stf m0 = SBlk h0 v0 -> v_size v0 < v_slots v0 * bsz P) -> it_end P (stf m0) last ->
  forall k n m fr it a t, Z.of_nat n + Z.of_nat k = st_size (stf m0) ->
  rel P (stf m) (lkf m) a -> frame P (stf m0) (stf m) -> it_to P (stf m) n it -> held (stf m) fr = true ->
  loop_safe P stf upd step legal grd m0 m fr it k f t ->
  exists m' a' e (ls : list (list (ev V Op (mret V)))), nloop P stf upd step m fr it last k f t = Ok (m', e, ls) /\ a_loop (T := T) (exec (st_stable (stf m0))) a n k f t = (a', e, ls) /\
    rel P (stf m') (lkf m') a' /\ frame P (stf m0) (stf m').
Proof.
  intros Hr Hroom He. induction k as [|k IH]; intros n m fr it a t Hk R F Hit Hh Hs; cbn [nloop a_loop loop_safe] in *; rewrite (it_to_end P HP _ _ _ _ _ F Hit He).
  - destruct (Z.eqb_spec (Z.of_nat n) (st_size (stf m0))); [|lia]. exists m, a, (Some t), []. splits; assumption.
  - destruct (Z.eqb_spec (Z.of_nat n) (st_size (stf m0))); [lia|]. destruct Hs as [Hs Hs'].
    destruct (cb_run_ok m0 n it ltac:(lia) (f t) m fr a R F Hit Hh Hs) as (m1 & fr1 & a1 & e & l & E1 & E2 & R1 & F1 & Hit1 & Hh1). rewrite E1, E2. cbn [obind].
    destruct e as [t1|]; [|exists m1, a1, None, [l]; splits; assumption]. rewrite Hh1.
    destruct (it_to_next P HP _ _ n it _ Hr F1 ltac:(lia) (r_st _ _ _ _ R1) Hit1 Hroom) as (it' & En & Hit'). rewrite En. cbn [obind].
    destruct (IH (S n) m1 fr1 it' a1 t1 ltac:(lia) R1 F1 Hit' Hh1 (Hs' _ _ _ _ _ E1 En)) as (m2 & a2 & e2 & ls & E3 & E4 & R2 & F2). rewrite E3, E4. cbn [obind].
    exists m2, a2, e2, (l :: ls). splits; assumption.
Qed.

Lemma nvisit_ok m a f (t : T) : rel P (stf m) (lkf m) a -> st_room P (stf m) -> visit_safe P stf upd step legal grd m f t ->
  exists m' a' e ls, nvisit P stf upd step m f t = Ok (m', e, ls) /\ a_visit (exec (st_stable (stf m))) a f t = (a', e, ls) /\
    rel P (stf m') (lkf m') a' /\ frame P (stf m) (stf m').
Proof.
  pose proof HP as [HP1 HP2]. intros R Hr Hs. pose proof (r_st _ _ _ _ R) as Hst. pose proof (st_ok_size P _ _ Hst) as Hz. unfold nvisit, visit_safe, a_visit in *.
  rewrite Hz in *. unfold zlen in Hs |- *. rewrite Nat2Z.id in *.
  destruct (decide (as_vals a = [])) as [En|Hne].
  { rewrite En in *. cbn [length nloop a_loop].
    assert (Hbe : exists it, st_begin P (stf m) = Ok it /\ st_end P (stf m) = Ok it).
    { destruct (stf m) as [ys|h v]; cbn [st_begin st_end] in *; [cbn in Hst; subst ys; exists (IVec 0); auto|].
      destruct Hst as (ids & frees & [[(-> & _)|(t' & Hl)] Hp]); [unfold vec_begin, vec_end; cbn; rewrite Z.eqb_refl; cbn; eexists; split; reflexivity|].
      destruct (vend_ok P HP1 _ _ _ _ _ _ Hl Hr) as (last & E2 & _). exists (IBlk last). rewrite E2. cbn [obind]. split; [|reflexivity].
      unfold vec_begin. assert (v_size v = 0) as -> by (rewrite (proj1 (proj2 (proj2 Hl))); reflexivity). cbn [Z.eqb]. rewrite E2. reflexivity. }
    destruct Hbe as (it & -> & ->). cbn [obind]. assert (si_eq it it = true) as ->.
    { destruct it as [i|i]; cbn; [apply Z.eqb_refl|]. unfold it_eq. rewrite bool_decide_eq_true_2, !Z.eqb_refl; reflexivity. }
    exists m, a, (Some t), []. splits; [exact R|apply frame_refl]. }
  assert (Hlen : (0 < length (as_vals a))%nat) by (destruct (as_vals a); [congruence|cbn; lia]).
  assert (Hbe : exists first last, st_begin P (stf m) = Ok first /\ st_end P (stf m) = Ok last /\ it_to P (stf m) 0 first /\ it_end P (stf m) last /\
    (forall h0 v0, stf m = SBlk h0 v0 -> v_size v0 < v_slots v0 * bsz P)).
  { destruct (stf m) as [ys|h v]; cbn [st_begin st_end] in *.
    - cbn in Hst; subst ys. exists (IVec 0), (IVec (zlen (as_vals a))). splits. intros; discriminate.
    - destruct Hst as (ids & frees & [[(_ & E & _)|(t' & Hl)] Hp]); [congruence|]. cbn [st_room st_size] in *.
      destruct (vbegin_ok P HP1 _ _ _ _ _ _ Hl Hr) as (first & -> & H1). destruct (vend_ok P HP1 _ _ _ _ _ _ Hl Hr) as (last & -> & H2). cbn [obind].
      exists (IBlk first), (IBlk last). splits; [exists t'; split; [apply Hl|exact H1]|exists h, t'; split; [apply Hl|rewrite Hz; exact H2]|].
      intros h0 v0 [= <- <-]. pose proof (vlive_idx P _ _ _ _ _ _ Hl) as Hx. pose proof (B_pos P HP1) as HB. destruct Hl as (Ed & _ & E1 & _ & Hb & E2 & Hs0).
      rewrite E1, E2. destruct (Z.eq_dec (v_bsize v) (bsz P)); [|nia]. destruct (Z.eq_dec (v_idx v + 1) (v_slots v)); [|nia].
      exfalso. apply Hr. unfold vfull. splits; [congruence|assumption|assumption]. }
  destruct Hbe as (first & last & E1 & E2 & Hf & He & Hroom). rewrite E1, E2. cbn [obind]. specialize (Hs _ E1).
  destruct (nloop_ok m last f Hr Hroom He (length (as_vals a)) 0 m true first a t) as (m' & a' & e & ls & E3 & E4 & R' & F'); try assumption.
  - rewrite Hz. unfold zlen. lia.
  - apply frame_refl.
  - unfold held. rewrite orb_true_r. reflexivity.
  - rewrite E3, E4. exists m', a', e, ls. splits; assumption.
Qed.
End gen.

(** ** The classes *)
Section single.
Context {V : Type} `{Countable K} {T : Type}.
Variable P : params.
Variable kdef : option K.
Implicit Types m : mv V K.

(** MV:171-190, SMV:160-181, MPV:172-188 *)
Definition mv_upd m (s : store V) : mv V K := Mv s (m_lk m).
Definition mv_nvisit m (f : T -> cb V (mop V K) (mret V) T) (t : T) := nvisit P m_st mv_upd (mv_step P kdef) m f t.
Definition mv_vsafe m (f : T -> cb V (mop V K) (mret V) T) (t : T) : Prop := visit_safe P m_st mv_upd (mv_step P kdef) mv_legal (mv_guard P kdef) m f t.

Lemma mv_act m o m' r : mv_step P kdef m o = Ok (m', r) -> sact P (m_st m) (m_st m').
Proof.
  destruct o as [k x|x|k x|k|k|i|i|i| |k i|i ord|k ord|f| | |]; cbn [mv_step]; intros E.
  - unfold mv_insert in E. destruct (m_lk m !! k); [injection E as <- _; constructor|]. apply obind_ok in E as ([s r'] & E1 & [= <- _]). eapply sa_push; exact E1.
  - unfold mv_insert_no in E. apply obind_ok in E as ([s r'] & E1 & [= <- _]). eapply sa_push; exact E1.
  - unfold mv_assign in E. destruct (m_lk m !! k); apply obind_ok in E as ([s r'] & E1 & [= <- _]); [eapply sa_set|eapply sa_push]; exact E1.
  - unfold mv_find_use in E. apply obind_ok in E as (it & _ & E). apply obind_ok in E as (last & _ & E). destruct (si_eq it last); [injection E as <- _; constructor|].
    apply obind_ok in E as (x & _ & [= <- _]). constructor.
  - unfold mv_findp in E. destruct (m_lk m !! k); [|injection E as <- _; constructor]. apply obind_ok in E as ([s []] & _ & E); try discriminate. injection E as <- _. constructor.
  - unfold mv_get in E. apply obind_ok in E as ([s []] & _ & E); try discriminate. injection E as <- _. constructor.
  - unfold mv_getp, mv_get in E. destruct (_ <? _); [|injection E as <- _; constructor]. apply obind_ok in E as ([s []] & _ & E); try discriminate. injection E as <- _. constructor.
  - unfold mv_at in E. apply obind_ok in E as ([s []] & _ & E); try discriminate; injection E as <- _; constructor.
  - unfold mv_back in E. apply obind_ok in E as ([s []] & _ & E); try discriminate. injection E as <- _. constructor.
  - unfold mv_alias in E. destruct (_ <? _); injection E as <- _; constructor.
  - unfold mv_remove_idx in E. destruct (_ <=? _); [injection E as <- _; constructor|]. apply obind_ok in E as ([s er] & E1 & E).
    destruct (mp_shift er i ord (m_lk m) kdef) as [lk [k|]]; [|discriminate]. injection E as <- _. eapply sa_erase; exact E1.
  - unfold mv_remove in E. destruct (m_lk m !! k); [|injection E as <- _; constructor]. apply obind_ok in E as ([s er] & E1 & [= <- _]). eapply sa_erase; exact E1.
  - unfold mv_modify in E. apply obind_ok in E as ([s l] & E1 & [= <- _]). eapply sa_modify; exact E1.
  - unfold mv_apply in E. apply obind_ok in E as ([s []] & _ & E); try discriminate. injection E as <- _. constructor.
  - injection E as <- _. constructor.
  - unfold mv_clear in E. apply obind_ok in E as ([s r'] & E1 & [= <- _]). eapply sa_clear; exact E1.
Qed.

Hypothesis HP : 0 <= expo P <= 30.
Lemma mv_nvisit_ok m a f t : mrel P m a -> st_room P (m_st m) -> mv_vsafe m f t ->
  exists m' a' e ls, mv_nvisit m f t = Ok (m', e, ls) /\ a_visit (as_exec (st_stable (m_st m))) a f t = (a', e, ls) /\ mrel P m' a' /\
    frame P (m_st m) (m_st m').
Proof.
  intros R Hr Hs. apply (nvisit_ok (T := T) P HP m_st mv_upd (fun m k => m_lk m !! k) (mv_step P kdef) mv_legal (mv_guard P kdef) as_exec); try assumption; try reflexivity.
  - intros m1 a1 o R1 Hl Hg. apply mv_step_ok; assumption.
  - apply mv_act.
Qed.
End single.

Section dual.
Context {V : Type} `{Countable K1} `{Countable K2} {T : Type}.
Variable P : params.
Variable cl : dcls.
Variable kd1 : option K1.
Variable kd2 : option K2.
Implicit Types d : dv V K1 K2.

(** DMV:374-395, DSMV:381-400, DMPV:338-354 *)
Definition dv_upd d (s : store V) : dv V K1 K2 := Dv s (d_l1 d) (d_l2 d).
Definition dv_nvisit d (f : T -> cb V (dop V K1 K2) (mret V) T) (t : T) := nvisit P d_st dv_upd (dv_step P cl kd1 kd2) d f t.
Definition dv_vsafe d (f : T -> cb V (dop V K1 K2) (mret V) T) (t : T) : Prop := visit_safe P d_st dv_upd (dv_step P cl kd1 kd2) (dv_legal cl) (dv_guard P cl kd1 kd2) d f t.

Lemma emplace_st (k : K1 + K2) i d : d_st (d_emplace k i d) = d_st d.
Proof. destruct k; reflexivity. Qed.
Lemma d_push_act d x d' i : d_push P d x = Ok (d', i) -> sact P (d_st d) (d_st d').
Proof. unfold d_push. intros ([s r] & E & [= <- _])%obind_ok. eapply sa_push; exact E. Qed.
Lemma remove_idx_act d i o1 o2 d' r : dv_remove_idx P cl kd1 kd2 d i o1 o2 = Ok (d', r) -> sact P (d_st d) (d_st d').
Proof.
  unfold dv_remove_idx. destruct (_ <=? _); [intros [= <- _]; constructor|]. intros ([s er] & E1 & E)%obind_ok. apply sa_erase in E1.
  assert (d_st d' = s) as ->; [|exact E1]. destruct cl.
  - destruct (dm_shift er i o1 (d_l1 d)) as [l1 ks1], (dm_shift er i o2 (d_l2 d)) as [l2 ks2]. apply obind_ok in E as (k1 & _ & E). apply obind_ok in E as (k2 & _ & [= <- _]). reflexivity.
  - destruct (dm_shift er i o1 (d_l1 d)) as [l1 ks1], (dm_shift er i o2 (d_l2 d)) as [l2 ks2]. apply obind_ok in E as (k1 & _ & E). apply obind_ok in E as (k2 & _ & [= <- _]). reflexivity.
  - destruct (mp_shift er i o1 (d_l1 d) kd1) as [l1 [i1|]], (mp_shift er i o2 (d_l2 d) kd2) as [l2 [i2|]]; try discriminate. injection E as <- _. reflexivity.
Qed.
Lemma dv_act d o d' r : dv_step P cl kd1 kd2 d o = Ok (d', r) -> sact P (d_st d) (d_st d').
Proof.
  assert (Hone : forall k x, dv_insert_one P d k x = Ok (d', r) -> sact P (d_st d) (d_st d')).
  { intros k x E. unfold dv_insert_one in E. destruct (negb _); [injection E as <- _; constructor|]. apply obind_ok in E as ([d1 i] & E1 & [= <- _]). rewrite emplace_st. eapply d_push_act; exact E1. }
  assert (Has : forall k x, dv_assign_one P d k x = Ok (d', r) -> sact P (d_st d) (d_st d')).
  { intros k x E. unfold dv_assign_one in E. destruct (d_lk d k); [apply obind_ok in E as ([s r'] & E1 & [= <- _]); eapply sa_set; exact E1|].
    apply obind_ok in E as ([d1 i] & E1 & [= <- _]). rewrite emplace_st. eapply d_push_act; exact E1. }
  destruct o; cbn [dv_step]; intros E; try (eapply Hone; exact E); try (eapply Has; exact E).
  - unfold dv_insert in E. destruct (_ && _); [injection E as <- _; constructor|]. apply obind_ok in E as ([d1 i] & E1 & [= <- _]). apply d_push_act in E1. destruct cl; exact E1.
  - unfold dv_insert0 in E. apply obind_ok in E as ([d1 i] & E1 & [= <- _]). eapply d_push_act; exact E1.
  - assert (Hset : forall i x0 l1 l2 rr, ('(s, _) <-! st_step P (d_st d) (VSet i x0) ;; Ok (Dv s l1 l2, rr)) = Ok (d', r) -> sact P (d_st d) (d_st d')).
    { clear. intros i x0 l1 l2 rr E. apply obind_ok in E as ([s r'] & E1 & [= <- _]). eapply sa_set; exact E1. }
    assert (Hpush : forall x0 (g : dv V K1 K2 -> Z -> dv V K1 K2), (forall d1 i, d_st (g d1 i) = d_st d1) -> ('(d1, i) <-! d_push P d x0 ;; Ok (g d1 i, MIdx (V := V) (Some i))) = Ok (d', r) -> sact P (d_st d) (d_st d')).
    { intros x0 g Hg E0. apply obind_ok in E0 as ([d1 i] & E1 & [= <- _]). rewrite Hg. eapply d_push_act; exact E1. }
    unfold dv_assign in E. destruct cl.
    + destruct (d_l1 d !! k1); [eapply Hset; exact E|]. eapply (Hpush _ (fun d1 i => Dv (d_st d1) _ _)); [|exact E]. reflexivity.
    + destruct (d_l1 d !! k1); [eapply Hset; exact E|]. eapply (Hpush _ (fun d1 i => Dv (d_st d1) _ _)); [|exact E]. reflexivity.
    + assert (Hp : ('(d1, index) <-! d_push P d x ;; Ok (Dv (d_st d1) (<[k1 := index]> (d_l1 d1)) (<[k2 := index]> (d_l2 d1)), MIdx (V := V) (Some index))) = Ok (d', r) -> sact P (d_st d) (d_st d')).
      { intros E0. eapply (Hpush _ (fun d1 i => Dv (d_st d1) _ _)); [|exact E0]. reflexivity. }
      destruct (d_l1 d !! k1), (d_l2 d !! k2); try (exact (Hp E)). destruct (_ =? _); [eapply Hset; exact E|exact (Hp E)].
  - unfold dv_term_idx in E. destruct (_ <? _); injection E as <- _; rewrite ?emplace_st; constructor.
  - unfold dv_term in E. destruct (d_lk d _); injection E as <- _; rewrite ?emplace_st; constructor.
  - assert (d' = d) as ->; [|constructor]. unfold dv_find in E. destruct cl; [| |destruct (d_lk d _); [apply obind_ok in E as ([s []] & _ & E); congruence|congruence]].
    + apply obind_ok in E as (it & _ & E). apply obind_ok in E as (last & _ & E). destruct (si_eq it last); [congruence|]. apply obind_ok in E as (y & _ & E); congruence.
    + apply obind_ok in E as (it & _ & E). apply obind_ok in E as (last & _ & E). destruct (si_eq it last); [congruence|]. apply obind_ok in E as (y & _ & E); congruence.
  - assert (d' = d) as ->; [|constructor]. unfold dv_get in E. destruct (match cl with CPtr => _ | _ => _ end); [congruence|]. apply obind_ok in E as ([s []] & _ & E); congruence.
  - assert (d' = d) as ->; [|constructor]. unfold dv_at in E. apply obind_ok in E as ([s []] & _ & E); congruence.
  - assert (d' = d) as ->; [|constructor]. unfold dv_back in E. apply obind_ok in E as ([s []] & _ & E); congruence.
  - eapply remove_idx_act; exact E.
  - unfold dv_remove in E. destruct (d_lk d k) as [i|]; [|injection E as <- _; constructor]. destruct cl eqn:Ec; [eapply remove_idx_act; rewrite Ec; exact E|eapply remove_idx_act; rewrite Ec; exact E|].
    apply obind_ok in E as ([s er] & E1 & E). apply sa_erase in E1. assert (d_st d' = s) as ->; [|exact E1]. destruct k as [k|k].
    + destruct (mp_shift true i _ (d_l2 d) kd2) as [l2 [i2|]]; [|discriminate]. injection E as <- _. reflexivity.
    + destruct (mp_shift true i _ (d_l1 d) kd1) as [l1 [i1|]]; [|discriminate]. injection E as <- _. reflexivity.
  - unfold dv_modify in E. apply obind_ok in E as ([s l] & E1 & [= <- _]). eapply sa_modify; exact E1.
  - assert (d' = d) as ->; [|constructor]. unfold dv_apply in E. apply obind_ok in E as ([s []] & _ & E); congruence.
  - injection E as <- _. constructor.
  - unfold dv_clear in E. apply obind_ok in E as ([s r'] & E1 & [= <- _]). eapply sa_clear; exact E1.
Qed.

Hypothesis HP : 0 <= expo P <= 30.
Lemma dv_nvisit_ok d a f t : drel P d a -> st_room P (d_st d) -> dv_vsafe d f t ->
  exists d' a' e ls, dv_nvisit d f t = Ok (d', e, ls) /\ a_visit (as_dexec cl (st_stable (d_st d))) a f t = (a', e, ls) /\ drel P d' a' /\
    frame P (d_st d) (d_st d').
Proof.
  intros R Hr Hs. apply (nvisit_ok (T := T) P HP d_st dv_upd d_lk (dv_step P cl kd1 kd2) (dv_legal cl) (dv_guard P cl kd1 kd2) (as_dexec cl)); try assumption; try reflexivity.
  - intros m1 a1 o R1 Hl Hg. apply dv_step_ok; assumption.
  - apply dv_act.
Qed.
End dual.

(** ** A std::vector whose number of elements changed: the loop cannot go on *)
Section vector.
Context {V X Op R T : Type}.
Variable P : params.
Variable stf : X -> store V.
Variable upd : X -> store V -> X.
Variable step : X -> Op -> outcome (X * R).
Hypothesis upd_st : forall m s, stf (upd m s) = s.
Implicit Types m : X.

Lemma put_size (s : store V) it x s' : st_put P s it x = Ok s' -> st_size s' = st_size s /\ st_stable s' = st_stable s.
Proof.
  destruct s as [ys|h v], it as [i|i]; cbn; try discriminate.
  - destruct (_ && _); [|discriminate]. intros [= <-]. cbn. unfold zlen. rewrite insert_length. auto.
  - intros (h' & _ & [= <-])%obind_ok. auto.
Qed.
Lemma cb_run_fresh it : forall (p : cb V Op R T) m fr m' fr' e l, cb_run P stf upd step m fr it p = Ok (m', fr', e, l) -> fr' = true ->
  fr = true /\ st_size (stf m') = st_size (stf m).
Proof.
  induction p as [t| |k IH|x k IH|o k IH]; intros m fr m' fr' e l E Hf; cbn [cb_run] in E.
  - injection E as <- <- _ _. auto.
  - injection E as <- <- _ _. auto.
  - destruct (held (stf m) fr); [|discriminate]. apply obind_ok in E as (x & _ & E). apply obind_ok in E as ([[[m1 f1] e1] l1] & E & [= <- <- <- _]). eapply IH; eassumption.
  - destruct (held (stf m) fr); [|discriminate]. apply obind_ok in E as (s & E1 & E). apply obind_ok in E as ([[[m1 f1] e1] l1] & E & [= <- <- <- _]).
    destruct (IH _ _ _ _ _ _ E Hf) as [-> ->]. rewrite upd_st. split; [reflexivity|]. eapply put_size; exact E1.
  - apply obind_ok in E as ([m1 r] & E1 & E). apply obind_ok in E as ([[[m2 f2] e2] l2] & E & [= <- <- <- _]).
    destruct (IH _ _ _ _ _ _ _ E Hf) as [Ha ->]. apply andb_true_iff in Ha as [-> Hz]. apply Z.eqb_eq in Hz. auto.
Qed.
Lemma nloop_fresh last f : (forall m o m' r, step m o = Ok (m', r) -> st_stable (stf m') = st_stable (stf m)) ->
  forall k m fr it t m' t' ls, nloop (T := T) P stf upd step m fr it last k f t = Ok (m', Some t', ls) -> st_stable (stf m) = false -> st_size (stf m') = st_size (stf m).
Proof.
  intros Hst.
  assert (Hcb : forall it (p : cb V Op R T) m fr m' fr' e l, cb_run P stf upd step m fr it p = Ok (m', fr', e, l) -> st_stable (stf m') = st_stable (stf m)).
  { intros it. induction p as [t| |k IH|x k IH|o k IH]; intros m fr m' fr' e l E; cbn [cb_run] in E.
    - injection E as <- _ _ _. reflexivity.
    - injection E as <- _ _ _. reflexivity.
    - destruct (held (stf m) fr); [|discriminate]. apply obind_ok in E as (x & _ & E). apply obind_ok in E as ([[[m1 f1] e1] l1] & E & [= <- <- <- _]). eapply IH; eassumption.
    - destruct (held (stf m) fr); [|discriminate]. apply obind_ok in E as (s & E1 & E). apply obind_ok in E as ([[[m1 f1] e1] l1] & E & [= <- <- <- _]).
      rewrite (IH _ _ _ _ _ _ E), upd_st. eapply put_size; exact E1.
    - apply obind_ok in E as ([m1 r] & E1 & E). apply obind_ok in E as ([[[m2 f2] e2] l2] & E & [= <- <- <- _]). rewrite (IH _ _ _ _ _ _ _ E). eapply Hst; exact E1. }
  induction k as [|k IH]; intros m fr it t m' t' ls E Hb; cbn [nloop] in E; destruct (si_eq it last); try discriminate; try (injection E as <- _ _; reflexivity).
  apply obind_ok in E as ([[[m1 fr1] e] l] & E1 & E). destruct e as [t1|]; [|discriminate]. unfold held in E. rewrite (Hcb _ _ _ _ _ _ _ _ E1), Hb in E. cbn [orb] in E.
  destruct fr1; [|discriminate]. apply obind_ok in E as (it' & _ & E). apply obind_ok in E as ([[m2 e2] ls2] & E & [= <- -> _]).
  rewrite (IH _ _ _ _ _ _ _ E); [eapply cb_run_fresh; [exact E1|reflexivity]|]. rewrite (Hcb _ _ _ _ _ _ _ _ E1). exact Hb.
Qed.
End vector.

Lemma sact_stable {V} P (s s' : store V) : sact P s s' -> st_stable s' = st_stable s.
Proof.
  destruct s as [ys|h v]; intros A; inversion A as [|x s1 r E|i x s1 r E|s1 r E|i s1 r E|f s1 r E]; subst; cbn [st_step st_erase st_modify] in *; try reflexivity.
  - apply obind_ok in E as ([z r1] & _ & [= <- _]). reflexivity.
  - apply obind_ok in E as ([z r1] & _ & [= <- _]). reflexivity.
  - apply obind_ok in E as ([z r1] & _ & [= <- _]). reflexivity.
  - destruct (_ && _); [injection E as <- _; reflexivity|discriminate].
  - injection E as <- _. reflexivity.
  - apply obind_ok in E as ([[h1 v1] r1] & _ & [= <- _]). reflexivity.
  - apply obind_ok in E as ([[h1 v1] r1] & _ & [= <- _]). reflexivity.
  - apply obind_ok in E as ([[h1 v1] r1] & _ & [= <- _]). reflexivity.
  - destruct (_ =? _); [|injection E as <- _; reflexivity]. apply obind_ok in E as ([h1 v1] & _ & [= <- _]). reflexivity.
  - apply obind_ok in E as (first & _ & E). apply obind_ok in E as (last & _ & E). apply obind_ok in E as ([h1 l] & _ & [= <- _]). reflexivity.
Qed.

(** ** Checking [visit_safe] by evaluation *)
Section check.
Context {V X Op R T : Type}.
Variable P : params.
Variable stf : X -> store V.
Variable upd : X -> store V -> X.
Variable step : X -> Op -> outcome (X * R).
Variable legal grd : X -> Op -> Prop.
Variable simple : X -> Op -> bool.
Hypothesis simple_ok : forall m o, simple m o = true -> legal m o /\ grd m o.
Definition steady_b (s0 s : store V) : bool :=
  match s0, s with
  | SVec xs, SVec ys => zlen ys =? zlen xs
  | SBlk _ v0, SBlk _ v => (v_size v0 <=? v_size v) && (v_size v <=? v_slots v0 * bsz P)
  | _, _ => false
  end.
Fixpoint cb_chk m0 m (it : siter) (p : cb V Op R T) : bool :=
  match p with
  | CRet _ | CThrow => true
  | CGet k => match st_deref P (stf m) it with Ok x => cb_chk m0 m it (k x) | _ => true end
  | CPut x k => match st_put P (stf m) it x with Ok s => cb_chk m0 (upd m s) it k | _ => true end
  | CDo o k => simple m o && match step m o with Ok (m1, r) => steady_b (stf m0) (stf m1) && cb_chk m0 m1 it (k r) | _ => true end
  end.
Fixpoint loop_chk m0 m fr (it : siter) (k : nat) (f : T -> cb V Op R T) (t : T) : bool :=
  match k with
  | 0%nat => true
  | S k' => cb_chk m0 m it (f t) &&
      match cb_run P stf upd step m fr it (f t) with
      | Ok (m1, fr1, Some t1, _) => match st_next P (stf m1) it with Ok it' => loop_chk m0 m1 fr1 it' k' f t1 | _ => true end
      | _ => true
      end
  end.
Definition visit_chk m f t : bool :=
  match st_begin P (stf m) with Ok first => loop_chk m m true first (Z.to_nat (st_size (stf m))) f t | _ => true end.

Lemma steady_b_ok s0 s : steady_b s0 s = true -> steady P s0 s.
Proof.
  destruct s0, s; cbn; try discriminate; [apply Z.eqb_eq|]. intros [H1 H2]%andb_true_iff. apply Z.leb_le in H1, H2. lia.
Qed.
Lemma cb_chk_ok m0 it : forall p m, cb_chk m0 m it p = true -> cb_safe P stf upd step legal grd m0 m it p.
Proof.
  induction p as [t| |k IH|x k IH|o k IH]; intros m E; cbn [cb_chk cb_safe] in *; try exact I.
  - intros x Ex. rewrite Ex in E. apply IH, E.
  - intros s Es. rewrite Es in E. apply IH, E.
  - apply andb_true_iff in E as [E1 E2]. destruct (simple_ok m o E1) as [Hl Hg]. splits; try assumption. intros m1 r Em. rewrite Em in E2.
    apply andb_true_iff in E2 as [E2 E3]. split; [apply steady_b_ok, E2|apply IH, E3].
Qed.
Lemma loop_chk_ok m0 f : forall k m fr it t, loop_chk m0 m fr it k f t = true -> loop_safe P stf upd step legal grd m0 m fr it k f t.
Proof.
  induction k as [|k IH]; intros m fr it t E; cbn [loop_chk loop_safe] in *; [exact I|]. apply andb_true_iff in E as [E1 E2]. split; [apply cb_chk_ok, E1|].
  intros m1 fr1 t1 l it' Er En. rewrite Er, En in E2. apply IH, E2.
Qed.
Lemma visit_chk_ok m f t : visit_chk m f t = true -> visit_safe P stf upd step legal grd m f t.
Proof. unfold visit_chk, visit_safe. intros E first Ef. rewrite Ef in E. apply loop_chk_ok, E. Qed.
End check.

(** ** A function that makes no calls: the loop of MapVisit.v *)
Section plain.
Context {V X Op R : Type}.
Variable P : params.
Variable stf : X -> store V.
Variable upd : X -> store V -> X.
Variable step : X -> Op -> outcome (X * R).
Hypothesis upd_st : forall m s, stf (upd m s) = s.
Hypothesis upd_upd : forall m s s', upd (upd m s) s' = upd m s'.
Variable f : nat -> V -> V * bool.

Definition plain (n : nat) : cb V Op R nat := CGet (fun x => CPut (f n x).1 (if (f n x).2 then CThrow else CRet (S n))).
Definition plain_tr (n : nat) (l : list V) : list (list (ev V Op R)) := imap (fun i x => [EGet x; EPut (f (n + i)%nat x).1]) l.
Definition plain_end (n : nat) (l : list V) (e : bool) : option nat := if e then None else Some (n + length l)%nat.

Lemma plain_tr_cons n x l : plain_tr n (x :: l) = [EGet x; EPut (f n x).1] :: plain_tr (S n) l.
Proof.
  unfold plain_tr. rewrite imap_cons, Nat.add_0_r. f_equal. apply imap_ext. intros i y _. cbn. replace (n + S i)%nat with (S n + i)%nat by lia. reflexivity.
Qed.
Lemma plain_end_cons n x l e : plain_end n (x :: l) e = plain_end (S n) l e.
Proof. unfold plain_end. destruct e; [reflexivity|]. cbn [length]. f_equal. lia. Qed.

Lemma nloop_plain_blk m v last : forall k n h it,
  nloop P stf upd step (upd m (SBlk h v)) true (IBlk it) (IBlk last) k plain n =
  ('(h', l, e) <-! it_visit P h it last k f n ;; Ok (upd m (SBlk h' v), plain_end n l e, plain_tr n l)).
Proof.
  induction k as [|k IH]; intros n h it; cbn [nloop it_visit si_eq]; (destruct (it_eq it last);
    [cbn [obind]; unfold plain_end, plain_tr; cbn; rewrite Nat.add_0_r; reflexivity|]); [reflexivity|].
  unfold plain at 1. cbn [cb_run]. unfold held. rewrite !upd_st. cbn [st_stable orb st_deref st_put].
  destruct (it_read P h it) as [x| |]; cbn [obind]; [|reflexivity|reflexivity].
  destruct (match i_ptr it with PSlot b j => eset P h (Some b) j (f n x).1 | _ => UB end) as [h1| |]; cbn [obind]; [|reflexivity|reflexivity].
  rewrite upd_upd. destruct (f n x).2; cbn [cb_run obind].
  - rewrite plain_tr_cons. reflexivity.
  - rewrite upd_st. cbn [st_stable orb st_next]. destruct (it_add P h1 it 1) as [it'| |]; cbn [obind]; [|reflexivity|reflexivity].
    rewrite IH. destruct (it_visit P h1 it' last k f (S n)) as [[[h2 l] e]| |]; cbn [obind]; [|reflexivity|reflexivity].
    rewrite plain_tr_cons, plain_end_cons. reflexivity.
Qed.
Lemma nloop_plain_vec m : forall k n (xs : list V), (n + k = length xs)%nat ->
  nloop P stf upd step (upd m (SVec xs)) true (IVec (Z.of_nat n)) (IVec (zlen xs)) k plain n =
  let '(ys, l, e) := lst_visit (drop n xs) f n in Ok (upd m (SVec (take n xs ++ ys)), plain_end n l e, plain_tr n l).
Proof.
  induction k as [|k IH]; intros n xs Hk; cbn [nloop si_eq].
  - destruct (Z.eqb_spec (Z.of_nat n) (zlen xs)); [|unfold zlen in *; lia]. rewrite drop_ge by lia. cbn [lst_visit]. rewrite take_ge, app_nil_r by lia.
    unfold plain_end, plain_tr. cbn. rewrite Nat.add_0_r. reflexivity.
  - destruct (Z.eqb_spec (Z.of_nat n) (zlen xs)); [unfold zlen in *; lia|]. destruct (lookup_lt_is_Some_2 xs n) as [x Ex]; [lia|].
    rewrite (drop_S _ _ _ Ex). cbn [lst_visit]. unfold plain at 1. cbn [cb_run]. unfold held. rewrite !upd_st. cbn [st_stable orb st_deref st_put].
    rewrite Nat2Z.id, Ex. cbn [obind]. destruct (Z.leb_spec 0 (Z.of_nat n)); [|lia]. destruct (Z.ltb_spec (Z.of_nat n) (zlen xs)); [|unfold zlen in *; lia]. cbn [andb obind].
    rewrite upd_upd. destruct (f n x).2; cbn [cb_run obind].
    + rewrite plain_tr_cons. rewrite insert_take_drop by lia. reflexivity.
    + rewrite upd_st. cbn [st_stable orb st_next obind]. replace (Z.of_nat n + 1) with (Z.of_nat (S n)) by lia.
      assert (Hz : zlen (<[n := (f n x).1]> xs) = zlen xs) by (unfold zlen; rewrite insert_length; reflexivity).
      specialize (IH (S n) (<[n := (f n x).1]> xs)). rewrite insert_length, Hz in IH. rewrite IH by lia. rewrite drop_insert_gt by lia.
      destruct (lst_visit (drop (S n) xs) f (S n)) as [[ys l] e]. cbn [obind]. rewrite plain_tr_cons, plain_end_cons.
      rewrite (take_S_r _ _ (f n x).1) by (apply list_lookup_insert; lia). rewrite take_insert, <- app_assoc by lia. reflexivity.
Qed.
Lemma nvisit_plain m s : nvisit P stf upd step (upd m s) plain 0%nat =
  ('(s', l, e) <-! st_visit P s f ;; Ok (upd m s', plain_end 0 l e, plain_tr 0 l)).
Proof.
  unfold nvisit. rewrite upd_st. destruct s as [xs|h v]; cbn [st_begin st_end st_visit st_size].
  - cbn [obind]. pose proof (nloop_plain_vec m (length xs) 0 xs eq_refl) as E. unfold zlen in E |- *. rewrite Nat2Z.id. change (Z.of_nat 0) with 0 in E. rewrite E, drop_0. cbn [take app].
    destruct (lst_visit xs f 0) as [[ys l] e]. reflexivity.
  - destruct (vec_begin P h v) as [first| |]; cbn [obind]; [|reflexivity|reflexivity]. destruct (vec_end P h v) as [last| |]; cbn [obind]; [|reflexivity|reflexivity].
    rewrite nloop_plain_blk. destruct (it_visit P h first last _ f 0) as [[[h' l] e]| |]; reflexivity.
Qed.
End plain.
