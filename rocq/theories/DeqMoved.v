(** A StableBlockDeque that was moved from.  It keeps dataSlotBack, dataSlotFront, bsize and freeIndex ([deq_husk]). *)
From stdpp Require Import gmap.
From Verif Require Import Base BlkHeap BlkIter BlkProofs BlkMore BlkRun VecModel VecSpec DeqModel DeqSpec DeqProofs DeqMore DeqWorld DeqFinal.

Section moved.
Context {V : Type}.
Variable P : params.
Hypothesis HP : 0 <= expo P <= 30.
Notation B := (bsz P).
Implicit Types (h : bheap V) (d : deq) (x : V).

(** ** Single calls on the deque [d] after it was moved from *)
Lemma husk_idle h d : forall o r, match o with
    | DV VSize => r = VInt 0 | DV VEmpty => r = VBool true | DV VPop | DPopF | DV VClear | DV (VAssign []) => r = VUnit
    | DV (VAt n) => 0 <= n /\ r = VOutOfRange | _ => False end ->
  deq_step P h (deq_husk d) o = Ok (h, deq_husk d, r).
Proof.
  intros o r. destruct o as [[]|y|]; try (intros []; fail); try (intros ->; reflexivity).
  - destruct xs; [intros ->; reflexivity|intros []].
  - intros [Hn ->]. cbn. destruct (Z.leb_spec 0 n); [reflexivity|lia].
Qed.

Lemma husk_first h d : f_idx (d_fl d) = 0 -> deq_first_block P h (deq_husk d) = deq_first_block P h (deq_default P).
Proof.
  intros E. unfold deq_first_block, deq_husk, deq_default. cbn [d_fl d_size]. rewrite E. reflexivity.
Qed.

Lemma husk_first_bad h d : f_idx (d_fl d) <> 0 -> deq_first_block P h (deq_husk d) = UB.
Proof.
  intros E. unfold deq_first_block, fl_get. cbn [talloc deq_husk d_fl f_idx f_tab]. destruct (Z.eqb_spec (f_idx (d_fl d)) 0); [contradiction|]. reflexivity.
Qed.

Lemma husk_push_front h d x : deq_push_front P h (deq_husk d) x = if f_idx (d_fl d) =? 0 then deq_push_front P h (deq_default P) x else UB.
Proof.
  unfold deq_push_front, deq_check_front. cbn [deq_husk deq_default d_fsize d_slots]. change (-1 <? 0) with true. change (0 =? 0) with true. cbn iota.
  destruct (Z.eqb_spec (f_idx (d_fl d)) 0) as [E|E].
  - fold (deq_husk d) (deq_default P). rewrite (husk_first _ _ E). reflexivity.
  - fold (deq_husk d). rewrite (husk_first_bad _ _ E). reflexivity.
Qed.

Lemma husk_push h d x : deq_push P h (deq_husk d) x =
  if (B <=? d_bsize d) && (f_idx (d_fl d) =? 0) then deq_push P h (deq_default P) x else UB.
Proof.
  unfold deq_push, deq_check. cbn [deq_husk deq_default d_bsize d_slots]. rewrite Z.leb_refl. change (0 =? 0) with true. cbn iota.
  destruct (B <=? d_bsize d); cbn [andb]; [|reflexivity].
  destruct (Z.eqb_spec (f_idx (d_fl d)) 0) as [E|E].
  - fold (deq_husk d) (deq_default P). rewrite (husk_first _ _ E). reflexivity.
  - fold (deq_husk d). rewrite (husk_first_bad _ _ E). reflexivity.
Qed.

Lemma husk_walk h d : deq_walk P h (deq_husk d) = if d_bsize d =? B then Ok [] else UB.
Proof.
  unfold deq_walk, deq_begin, deq_end. cbn [deq_husk d_size d_bsize d_data]. change (0 =? 0) with true. cbn iota. destruct (d_bsize d =? B); reflexivity.
Qed.

Lemma husk_shrink h d : 0 <= f_idx (d_fl d) ->
  deq_step P h (deq_husk d) (DV VShrink) = if f_idx (d_fl d) =? 0 then Ok (h, deq_husk d, VUnit) else UB.
Proof.
  intros Hf. cbn [deq_step]. unfold fl_shrink. cbn [deq_husk d_fl f_idx f_slots f_tab]. destruct (Z.eqb_spec (f_idx (d_fl d)) 0) as [E|E].
  - rewrite E. unfold deq_husk. rewrite E. reflexivity.
  - replace (Z.to_nat (f_idx (d_fl d))) with (S (Z.to_nat (f_idx (d_fl d) - 1))) by lia. reflexivity.
Qed.

(** Reading an element: there is none. *)
Lemma husk_reads h d n : deq_step P h (deq_husk d) (DV (VGet n)) = UB /\ (forall y, deq_step P h (deq_husk d) (DV (VSet n y)) = UB) /\
  deq_step P h (deq_husk d) (DV VBack) = UB /\ deq_step P h (deq_husk d) (DV VFront) = UB.
Proof.
  splits. - cbn [deq_step]. unfold deq_back. cbn. destruct (_ =? 0); reflexivity.
  - cbn [deq_step]. unfold deq_front. cbn [deq_husk d_fsize d_data tget obind]. destruct (-1 =? B - 1); reflexivity.
Qed.

(** ** Whole histories: like a new deque, if bsize is the block size and there are no spare blocks *)
Definition as_new d : Prop := d_bsize d = B /\ f_idx (d_fl d) = 0.

Lemma husk_pushes h d xs : as_new d -> xs <> [] -> deq_pushes P h (deq_husk d) xs = deq_pushes P h (deq_default P) xs.
Proof.
  intros [H1 H2] Hne. destruct xs as [|x xs]; [contradiction|]. cbn [deq_pushes]. rewrite husk_push, H1, H2, Z.leb_refl. reflexivity.
Qed.

Lemma husk_step h d o : as_new d ->
  deq_step P h (deq_husk d) o = deq_step P h (deq_default P) o \/
  exists r, deq_step P h (deq_husk d) o = Ok (h, deq_husk d, r) /\ deq_step P h (deq_default P) o = Ok (h, deq_default P, r).
Proof.
  intros Hn. pose proof Hn as [H1 H2].
  assert (Hi : 0 <= f_idx (d_fl d)) by lia. pose proof (husk_shrink h d Hi) as Hsh. rewrite H2 in Hsh. change (0 =? 0) with true in Hsh. cbn iota in Hsh.
  pose proof (husk_push_front h d) as Hpf. rewrite H2 in Hpf. change (0 =? 0) with true in Hpf. cbn iota in Hpf.
  pose proof (husk_walk h d) as Hw. rewrite H1, Z.eqb_refl in Hw.
  destruct o as [[x| | | |xs|n x|n|n| | | | |]|x|].
  - left. cbn [deq_step]. rewrite husk_push, H1, H2, Z.leb_refl. reflexivity.
  - right. eexists. split; reflexivity.
  - right. eexists. split; reflexivity.
  - right. eexists. split; [exact Hsh|reflexivity].
  - destruct xs as [|x xs].
    + right. eexists. split; reflexivity.
    + left. cbn [deq_step]. unfold deq_assign. cbn [deq_husk deq_default d_size]. change (0 =? 0) with true. cbn iota. cbn [obind].
      fold (deq_husk d) (deq_default P). rewrite (husk_pushes h d (x :: xs) Hn) by discriminate. reflexivity.
  - left. reflexivity.
  - left. reflexivity.
  - destruct (Z.leb_spec 0 n) as [E|E]; [|left; cbn [deq_step deq_husk deq_default d_size]; destruct (Z.leb_spec 0 n); [lia|reflexivity]].
    right. exists VOutOfRange. cbn [deq_step]. cbn [deq_husk deq_default d_size]. destruct (Z.leb_spec 0 n); [split; reflexivity|lia].
  - left. destruct (husk_reads h d 0) as (_ & _ & E & _). rewrite E. cbn [deq_step]. unfold deq_back. cbn [deq_default d_bsize d_data tget obind]. destruct (B =? 0); reflexivity.
  - left. destruct (husk_reads h d 0) as (_ & _ & _ & E). rewrite E. cbn [deq_step]. unfold deq_front. cbn [deq_default d_fsize d_data tget obind]. destruct (-1 =? B - 1); reflexivity.
  - right. eexists. split; reflexivity.
  - right. eexists. split; reflexivity.
  - right. exists (VList []). split; cbn [deq_step]; [rewrite Hw; reflexivity|]. unfold deq_walk, deq_begin, deq_end. cbn [deq_default d_size d_bsize d_data].
    destruct (Z.eqb_spec B B); [reflexivity|contradiction].
  - left. cbn [deq_step]. rewrite Hpf. reflexivity.
  - right. eexists. split; reflexivity.
Qed.

Lemma husk_run ops : forall h d, as_new d ->
  match deq_run P h (deq_default P) ops with
  | Ok (h', d', tr) => exists d'', deq_run P h (deq_husk d) ops = Ok (h', d'', tr) /\ (d'' = d' \/ (d' = deq_default P /\ d'' = deq_husk d))
  | Throw => deq_run P h (deq_husk d) ops = Throw
  | UB => deq_run P h (deq_husk d) ops = UB
  end.
Proof.
  induction ops as [|o ops IH]; intros h d Hn; cbn [deq_run]; [eexists; split; [reflexivity|right; auto]|].
  destruct (husk_step h d o Hn) as [E|(r & E1 & E2)].
  - rewrite E. destruct (deq_step P h (deq_default P) o) as [[[h1 d1] r]| |]; cbn [obind]; [|reflexivity|reflexivity].
    destruct (deq_run P h1 d1 ops) as [[[h2 d2] tr]| |]; cbn [obind]; eauto.
  - rewrite E1, E2. cbn [obind]. specialize (IH h d Hn). destruct (deq_run P h (deq_default P) ops) as [[[h2 d2] tr]| |]; cbn [obind].
    + destruct IH as (d'' & -> & Hd). cbn [obind]. eauto.
    + rewrite IH. reflexivity.
    + rewrite IH. reflexivity.
Qed.

(** ** After any history *)
Lemma husk_facts h0 d0 xs0 ops h d tr : dstart P h0 d0 xs0 -> dq_ok xs0 ops -> deq_run P h0 d0 ops = Ok (h, d, tr) ->
  hok [] [] h /\ 0 <= f_idx (d_fl d) /\ 0 <= d_bsize d <= B.
Proof.
  intros H0 Hok E. pose proof HP as [HP1 HP2]. pose proof (B_pos P HP1). destruct (dstart_inv P HP _ _ _ H0) as (ids0 & frees0 & Hd0).
  destruct (drun_ok P HP _ _ _ _ _ _ Hd0 (start_dok P HP _ _ _ _ _ _ _ H0 Hok E)) as (h' & d' & tr' & ids & frees & E' & _ & _ & Hd).
  rewrite E in E'. injection E' as <- <- <-. split.
  - destruct (dinv_hok P _ _ _ _ _ Hd) as [Hh _]. split; [exact Hh|]. split; intros b Hb; apply elem_of_nil in Hb; destruct Hb.
  - destruct Hd as [(-> & _)|(t & _ & Hbk & _ & _ & _ & _ & Hb & _)]; [cbn; lia|]. destruct (bk_free _ _ _ _ _ _ _ _ _ _ Hbk) as (-> & _).
    pose proof (zlen_nonneg frees). lia.
Qed.

(** Pushing at the back, pushing at the front, and shrink_to_fit work exactly in the states given. *)
Lemma new_pushes h x : hok [] [] h -> (exists r, deq_step P h (deq_default P) (DV (VPush x)) = Ok r) /\
  (if expo P =? 0 then deq_step P h (deq_default P) (DPushF x) = UB else exists r, deq_step P h (deq_default P) (DPushF x) = Ok r).
Proof.
  intros Hh. pose proof HP as [HP1 HP2]. assert (Hd : dinv P h (deq_default P) [] [] []) by (left; auto). split.
  - destruct (dstep_ok P HP1 h _ [] [] [] (DV (VPush x)) HP2 Hd I I) as (h1 & d1 & r & ? & ? & ? & E & _). eauto.
  - destruct (Z.eqb_spec (expo P) 0) as [E0|E0].
    + apply (guard_exact P HP _ _ _ _ _ _ Hd). cbn. unfold front_guard. cbn. lia.
    + destruct (dstep_ok P HP1 h _ [] [] [] (DPushF x) HP2 Hd I) as (h1 & d1 & r & ? & ? & ? & E & _); [|eauto].
      cbn. unfold front_guard. cbn. split; [lia|right; lia].
Qed.

Lemma husk_exact h d : hok [] [] h -> 0 <= f_idx (d_fl d) -> 0 <= d_bsize d <= B ->
  (forall x, deq_step P h (deq_husk d) (DV (VPush x)) = UB <-> ~ as_new d) /\
  (forall x, deq_step P h (deq_husk d) (DPushF x) = UB <-> f_idx (d_fl d) <> 0 \/ expo P = 0) /\
  (deq_step P h (deq_husk d) (DV VShrink) = UB <-> f_idx (d_fl d) <> 0) /\
  (deq_step P h (deq_husk d) (DV VWalk) = UB <-> d_bsize d <> B).
Proof.
  intros Hh Hf Hb. unfold as_new. split; [|split; [|split]].
  - intros x. destruct (new_pushes h x Hh) as [[r Er] _]. cbn [deq_step] in *. rewrite husk_push.
    destruct (Z.leb_spec B (d_bsize d)); cbn [andb]; [destruct (Z.eqb_spec (f_idx (d_fl d)) 0)|]; cbn [obind]; [rewrite Er| |].
    + split; [discriminate|]. intros F. exfalso. apply F. lia.
    + split; [intros _ [? ?]; contradiction|reflexivity].
    + split; [intros _ [? ?]; lia|reflexivity].
  - intros x. destruct (new_pushes h x Hh) as [_ Er]. cbn [deq_step] in *. rewrite husk_push_front.
    destruct (Z.eqb_spec (f_idx (d_fl d)) 0); cbn [obind]; [|tauto]. destruct (Z.eqb_spec (expo P) 0) as [E0|E0]; [tauto|]. destruct Er as [r Er]. rewrite Er.
    split; [discriminate|tauto].
  - rewrite husk_shrink by exact Hf. destruct (Z.eqb_spec (f_idx (d_fl d)) 0); split; try discriminate; tauto.
  - cbn [deq_step]. rewrite husk_walk. destruct (Z.eqb_spec (d_bsize d) B); cbn [obind]; split; try discriminate; tauto.
Qed.

(** Whole histories on the deque that was moved from *)
Lemma husk_sequence h d ops : hok [] [] h -> f_idx (d_fl d) = 0 -> (d_bsize d = B \/ exists x ops', ops = DPushF x :: ops') -> dok P h (deq_default P) [] ops ->
  exists h' d' tr, deq_run P h (deq_husk d) ops = Ok (h', d', tr) /\ map fst tr = ops /\ dq_trace [] tr (dq_after [] ops).
Proof.
  intros Hh Hf Hc Hok. assert (Hd : dinv P h (deq_default P) [] [] []) by (left; auto).
  destruct (drun_ok P HP ops _ _ _ _ _ Hd Hok) as (h' & d' & tr & ids & frees & E & E1 & E2 & _). destruct Hc as [Hb|(x & ops' & ->)].
  - pose proof (husk_run ops h d (conj Hb Hf)) as Hr. rewrite E in Hr. destruct Hr as (d'' & Er & _). eauto 6.
  - exists h', d', tr. split; [|auto]. rewrite <- E. cbn [deq_run deq_step]. rewrite husk_push_front, Hf. reflexivity.
Qed.
End moved.
