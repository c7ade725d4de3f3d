(** Computable versions of the hypotheses, used only for the non-vacuity examples. *)
From stdpp Require Import gmap.
From Verif Require Import Base Heap CircModel CircSpec CircProofs CircMore CircBufModel CircBufSpec CircBufProofs CircBufWorld.

Definition push_safeb (s : circ) (n : Z) : bool :=
  if c_r s <=? c_w s then
    if n + 4 <=? c_cap s - c_w s then negb (c_r s =? 0) || (c_w s + n + 12 <=? c_cap s)
    else if n + 4 <=? c_r s then negb (n + 4 =? c_r s) else true
  else negb (n + 4 =? c_r s - c_w s).

Lemma push_safeb_ok s n : push_safeb s n = true -> push_safe s n.
Proof.
  unfold push_safeb, push_safe.
  destruct (Z.leb_spec (c_r s) (c_w s)).
  - destruct (Z.leb_spec (n + 4) (c_cap s - c_w s)).
    + destruct (Z.eqb_spec (c_r s) 0); cbn; lia.
    + destruct (Z.leb_spec (n + 4) (c_r s)); lia.
  - lia.
Qed.

Definition cop_safeb (s : circ) (o : cop) : bool :=
  match o with CPush (Some _) n => (n <=? 0) || push_safeb s n | _ => true end.

Lemma cop_safeb_ok s o : cop_safeb s o = true -> cop_safe s o.
Proof.
  destruct o as [[d|] n| | | | | |]; cbn; try (intros; exact I).
  intros H Hn. apply push_safeb_ok. destruct (Z.leb_spec n 0); [lia|]. exact H.
Qed.

Fixpoint safe_runb (s : circ) (ops : list cop) : bool :=
  match ops with
  | [] => true
  | o :: os => cop_safeb s o && match circ_step s o with Ok (s', _) => safe_runb s' os | _ => true end
  end.

Lemma safe_runb_ok ops : forall s, safe_runb s ops = true -> safe_run s ops.
Proof.
  induction ops as [|o ops IH]; intros s; cbn [safe_runb safe_run]; [auto|].
  intros [H1 H2]%andb_true_iff. split; [apply cop_safeb_ok; assumption|].
  intros s' x E. rewrite E in H2. auto.
Qed.

Definition cop_legalb (M : Z) (o : cop) : bool :=
  match o with CPush (Some d) n => (n <=? zlen d) && (n <=? M) && (n <=? int_max) | _ => true end.

Lemma cop_legalb_ok M o : cop_legalb M o = true -> cop_legal M o.
Proof. destruct o as [[d|] n| | | | | |]; cbn; try (intros; exact I). lia. Qed.

Lemma legalb_ok M ops : forallb (cop_legalb M) ops = true -> Forall (cop_legal M) ops.
Proof.
  induction ops as [|o ops IH]; cbn; [constructor|]. intros [H1 H2]%andb_true_iff.
  constructor; [apply cop_legalb_ok; assumption|auto].
Qed.

Definition resize_safeb (b : cbuf) (n : Z) : bool :=
  (n <=? int_max) && (negb (b_w b =? b_r b) || (0 <=? n)) &&
  (negb ((b_r b <? b_w b) && (n <? b_cap b)) ||
   ((negb (b_w b <=? n) || (b_w b + 8 <=? n)) &&
    (negb ((n <? b_w b) && (b_w b - b_r b <? n)) || (b_w b - b_r b + 8 <=? n)))).

Lemma resize_safeb_ok b n : resize_safeb b n = true -> resize_safe b n.
Proof. unfold resize_safeb, resize_safe. intros H. splits; lia. Qed.

Definition has {V} (A : gmap nat V) (o : nat) : bool := bool_decide (is_Some (A !! o)).

Definition wop_legalb {V} (M : Z) (A : gmap nat V) (p : wop) : bool :=
  match p with
  | WDefault o => negb (has A o)
  | WNew o n => negb (has A o) && (n <=? int_max)
  | WCopy o src | WMove o src => negb (has A o) && has A src
  | WCopyAssign o src => bool_decide (o <> src) && has A o && has A src
  | WMoveAssign o src => has A o && has A src
  | WResize o _ | WDestroy o => has A o
  | WCall o c => has A o && cop_legalb M c
  end.

Lemma has_ok {V} (A : gmap nat V) o : has A o = true -> is_Some (A !! o).
Proof. unfold has. apply bool_decide_eq_true_1. Qed.
Lemma hasn_ok {V} (A : gmap nat V) o : negb (has A o) = true -> A !! o = None.
Proof. unfold has. rewrite negb_true_iff. intros H%bool_decide_eq_false_1. apply eq_None_not_Some. assumption. Qed.

Lemma wop_legalb_ok {V} M (A : gmap nat V) p : wop_legalb M A p = true -> wop_legal M A p.
Proof.
  destruct p; cbn [wop_legalb wop_legal]; rewrite ?andb_true_iff, ?bool_decide_eq_true;
    intuition auto using has_ok, hasn_ok, cop_legalb_ok; try lia.
Qed.

Definition wop_safeb (w : world) (p : wop) : bool :=
  match p with
  | WMoveAssign o _ => match w_objs w !! o with
      | Some b => match b_data b with Some id => has (h_live (w_heap w)) id | None => true end | None => true end
  | WResize o n => match w_objs w !! o with Some b => resize_safeb b n | None => true end
  | WCall o c => match w_objs w !! o with Some b => cop_safeb (raw_of (w_heap w) b) c | None => true end
  | _ => true
  end.

Lemma wop_safeb_ok w p : wop_safeb w p = true -> wop_safe True w p.
Proof.
  destruct p as [o|o n|o src|o src|o src|o src|o n|o c|o]; cbn [wop_safeb wop_safe]; try (intros; exact I).
  - intros _. left. exact I.
  - intros H _ b id Hb Hd. rewrite Hb, Hd in H. apply has_ok; assumption.
  - intros H b Hb. rewrite Hb in H. apply resize_safeb_ok; assumption.
  - intros H b Hb. rewrite Hb in H. apply cop_safeb_ok; assumption.
Qed.

Fixpoint wprog_okb (M : Z) (w : world) (ps : list wop) : bool :=
  match ps with
  | [] => true
  | p :: ps' => wop_legalb M (w_objs w) p && wop_safeb w p &&
      match wstep w p with Ok (w', _) => wprog_okb M w' ps' | _ => true end
  end.

Lemma wprog_okb_ok M ps : forall w, wprog_okb M w ps = true -> wprog_ok True M w ps.
Proof.
  induction ps as [|p ps IH]; intros w; cbn [wprog_okb wprog_ok]; [auto|].
  intros [[H1 H2]%andb_true_iff H3]%andb_true_iff.
  split; [apply wop_legalb_ok; assumption|]. split; [apply wop_safeb_ok; assumption|].
  intros w' x E. rewrite E in H3. auto.
Qed.
