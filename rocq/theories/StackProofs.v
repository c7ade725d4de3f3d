(** StackBufferRaw refines the stack specification. *)
From stdpp Require Import gmap.
From Verif Require Import Base Heap StackModel StackSpec.

(** ** Reads of adjacent regions *)
Lemma mread_whole l n : zlen l = n -> mread l 0 n = Ok l.
Proof.
  intros <-. pose proof (zlen_nonneg l). rewrite mread_ok by lia.
  rewrite drop_0. rewrite take_ge by (unfold zlen; lia). reflexivity.
Qed.

Lemma mread_app m a n1 n2 l1 l2 :
  mread m a n1 = Ok l1 -> mread m (a + n1) n2 = Ok l2 -> mread m a (n1 + n2) = Ok (l1 ++ l2).
Proof.
  intros (A1 & A2 & A3 & A4 & A5)%mread_inv (B1 & B2 & B3 & B4 & B5)%mread_inv.
  rewrite mread_ok by lia. f_equal. subst l1 l2.
  rewrite Z2Nat.inj_add by lia. rewrite <- take_take_drop. f_equal.
  f_equal. rewrite drop_drop. f_equal. lia.
Qed.

Lemma mread_split m a n l1 l2 :
  mread m a n = Ok (l1 ++ l2) ->
  mread m a (zlen l1) = Ok l1 /\ mread m (a + zlen l1) (zlen l2) = Ok l2.
Proof.
  intros H. pose proof (zlen_nonneg l1) as P1. pose proof (zlen_nonneg l2) as P2.
  pose proof (mread_inv _ _ _ _ H) as (A1 & A2 & A3 & A4 & _). rewrite zlen_app in A4.
  split.
  - rewrite <- (Z.add_0_r a) at 1. rewrite (mread_sub _ _ _ _ 0 (zlen l1) H) by lia.
    rewrite mread_ok by (rewrite ?zlen_app; lia). f_equal.
    rewrite drop_0. unfold zlen. rewrite Nat2Z.id, take_app. reflexivity.
  - rewrite (mread_sub _ _ _ _ (zlen l1) (zlen l2) H) by lia.
    rewrite mread_ok by (rewrite ?zlen_app; lia). f_equal.
    unfold zlen. rewrite !Nat2Z.id, drop_app. rewrite take_ge by lia. reflexivity.
Qed.

(** ** The index *)
Definition ent : Type := Z * Z.    (* offset, size *)
Definition ebytes (e : ent) : list byte := enc32 e.1 ++ enc32 e.2.
Definition ibytes (es : list ent) : list byte := concat (map ebytes es).

Lemma zlen_ebytes e : zlen (ebytes e) = 8.
Proof. reflexivity. Qed.
Lemma zlen_ibytes es : zlen (ibytes es) = 8 * zlen es.
Proof.
  induction es as [|e es IH]; [reflexivity|]. unfold ibytes in *. cbn [map concat].
  rewrite zlen_app, zlen_ebytes, IH, zlen_cons. lia.
Qed.
Lemma chunk8_ibytes es : chunk8 (ibytes es) = map ebytes es.
Proof. induction es as [|e es IH]; [reflexivity|]. unfold ibytes in *. cbn. f_equal. exact IH. Qed.
Lemma concat_rev_ibytes es : concat (rev (map ebytes es)) = ibytes (rev es).
Proof. unfold ibytes. rewrite map_rev. reflexivity. Qed.

Lemma ibytes_cons e es : ibytes (e :: es) = enc32 e.1 ++ enc32 e.2 ++ ibytes es.
Proof. unfold ibytes. cbn [map concat]. unfold ebytes. rewrite <- app_assoc. reflexivity. Qed.
Global Arguments enc32 : simpl never.
Global Arguments ibytes : simpl never.
Lemma read_entry m a n e es :
  mread m a n = Ok (ibytes (e :: es)) ->
  mread m a 4 = Ok (enc32 e.1) /\ mread m (a + 4) 4 = Ok (enc32 e.2) /\
  mread m (a + 8) (8 * zlen es) = Ok (ibytes es).
Proof.
  rewrite ibytes_cons. intros [H1 H2]%mread_split. apply mread_split in H2 as [H2 H3].
  rewrite !zlen_enc32, zlen_ibytes in *. splits; try assumption. rewrite <- H3. f_equal. lia.
Qed.

(** ** Blocks *)
Definition blk (m : list byte) (lim : Z) (e : ent) (b : list byte) : Prop :=
  0 <= e.1 /\ 0 < e.2 /\ e.1 + e.2 <= lim /\ mread m e.1 e.2 = Ok b.

Definition sep (e f : ent) : Prop := e.1 + e.2 <= f.1 \/ f.1 + f.2 <= e.1.
Fixpoint disj (es : list ent) : Prop :=
  match es with [] => True | e :: es' => Forall (sep e) es' /\ disj es' end.

(** Blocks lie on each other without gaps, ending at [top]. *)
Fixpoint tight (es : list ent) (top : Z) : Prop :=
  match es with [] => top = 0 | e :: es' => e.1 + e.2 = top /\ tight es' e.1 end.

Lemma sep_sym e f : sep e f -> sep f e.
Proof. unfold sep. lia. Qed.

Lemma disj_app es fs : disj (es ++ fs) <-> disj es /\ disj fs /\ Forall (fun e => Forall (sep e) fs) es.
Proof.
  induction es as [|e es IH]; cbn.
  - split; [intros; splits; auto; constructor|intros (_ & ? & _); assumption].
  - rewrite Forall_app, IH. split.
    + intros ([H1 H2] & H3 & H4 & H5). splits; auto.
    + intros ([H1 H2] & H3 & H4). inversion H4; subst. splits; auto.
Qed.

Lemma disj_rev es : disj es -> disj (rev es).
Proof.
  induction es as [|e es IH]; cbn; [auto|]. intros [H1 H2]. apply disj_app. splits.
  - auto.
  - split; [constructor|exact I].
  - apply Forall_rev. eapply Forall_impl; [exact H1|]. intros f Hf. constructor; [apply sep_sym; assumption|constructor].
Qed.

Lemma blk_len m lim e b : blk m lim e b -> zlen b = e.2.
Proof. intros (_ & _ & _ & H). apply mread_inv in H. tauto. Qed.

Lemma blk_frame m m' lim lim' e b :
  blk m lim e b -> (mread m' e.1 e.2 = mread m e.1 e.2) -> e.1 + e.2 <= lim' -> blk m' lim' e b.
Proof. intros (H1 & H2 & H3 & H4) E L. unfold blk. splits; try assumption. congruence. Qed.

Lemma tight_held m lim es q top : Forall2 (blk m lim) es q -> tight es top -> held q = top.
Proof.
  intros H. revert top. induction H as [|e b es q Hb H IH]; intros top; cbn [tight held]; [auto|].
  intros [H1 H2]. rewrite (IH _ H2), (blk_len _ _ _ _ Hb). lia.
Qed.

Lemma zlen_forall2 {A B} (R : A -> B -> Prop) l k : Forall2 R l k -> zlen l = zlen k.
Proof. intros H. unfold zlen. apply Forall2_length in H. lia. Qed.

Record stk_ok (s : stk) (q : list (list byte)) (e : bool) (es : list ent) : Prop := {
  ok_size : 0 <= k_size s <= zlen (k_mem s);
  ok_int : k_size s <= int_max;
  ok_count : k_count s = zlen es;
  ok_idx : k_idx s = k_size s - 8 - 8 * k_count s;
  ok_next : 0 <= k_next s <= k_size s;
  ok_index : mread (k_mem s) (k_idx s + 8) (8 * k_count s) = Ok (ibytes es);
  ok_blocks : Forall2 (blk (k_mem s) (Z.min (k_next s) (k_size s - 8 * k_count s))) es q;
  ok_disj : disj es;
  ok_held : held q <= k_next s;
  ok_need : need q <= k_size s;
  ok_tight : e = true -> tight es (k_next s);
  ok_empty : es = [] -> k_next s = 0;
  ok_flag : q = [] -> e = true;
}.

Definition stk_inv (s : stk) (a : astk) : Prop := exists es, stk_ok s a.1 a.2 es.

Lemma held_nonneg q : 0 <= held q.
Proof. induction q as [|b q IH]; cbn; [lia|]. pose proof (zlen_nonneg b). lia. Qed.

Lemma stk_new_inv m n : 0 <= n <= zlen m -> n <= int_max -> stk_inv (stk_new m n) ([], true).
Proof.
  intros Hn Hi. exists []. constructor; cbn; unfold diSize; try lia; auto.
  - rewrite mread_ok by lia. reflexivity.
  - unfold need, zlen; cbn. lia.
Qed.

Lemma need_count m lim es q : Forall2 (blk m lim) es q -> need q = held q + 8 * zlen es.
Proof. intros H. unfold need. rewrite (zlen_forall2 _ _ _ H). reflexivity. Qed.

(** Space accounting. *)
Lemma space_ok s q e n : stk_inv s (q, e) ->
  (stk_space s n = true -> fits (k_size s) q n = true) /\ (e = true -> stk_space s n = fits (k_size s) q n).
Proof.
  intros [es H]; cbn in H. unfold stk_space, fits. rewrite (need_count _ _ _ _ (ok_blocks _ _ _ _ H)).
  pose proof (ok_held _ _ _ _ H). rewrite (ok_count _ _ _ _ H). unfold diSize. split; [lia|].
  intros He. pose proof (tight_held _ _ _ _ _ (ok_blocks _ _ _ _ H) (ok_tight _ _ _ _ H He)). lia.
Qed.

Lemma push_ok s q e d n :
  stk_inv s (q, e) -> 0 < n -> n <= zlen d -> stk_space s n = true ->
  exists s', stk_push s (Some d) n = Ok (s', true) /\ stk_inv s' (take (Z.to_nat n) d :: q, e) /\
    k_size s' = k_size s /\ zlen (k_mem s') = zlen (k_mem s).
Proof.
  intros [es H] Hn Hd Hsp; cbn in H. destruct H as [Hsz Hint Hcnt Hidx Hnx Hix Hbl Hdj Hhe Hne Hti Hem Hfl].
  unfold stk_push. destruct (Z.leb_spec n 0); [lia|]. rewrite Hsp; cbn [negb].
  assert (Hsp' : n <= k_size s - k_next s - (k_count s + 1) * 8).
  { unfold stk_space, diSize in Hsp. lia. }
  pose proof (zlen_nonneg es).
  assert (Hbs : mread d 0 n = Ok (take (Z.to_nat n) d)) by (rewrite mread_ok by lia; rewrite drop_0; reflexivity).
  rewrite Hbs; cbn [obind]. pose proof (mread_inv _ _ _ _ Hbs) as (_ & _ & _ & Hbl' & _).
  set (bs := take (Z.to_nat n) d) in *. clearbody bs.
  destruct (mwrite_exists (k_mem s) (k_next s) bs) as [m1 W1]; [lia|lia|]. rewrite W1; cbn [obind].
  destruct (mwrite_full _ _ _ _ W1) as (L1 & S1 & D1).
  destruct (mwrite_exists m1 (k_idx s) (enc32 (k_next s))) as [m2 W2]; [lia|rewrite zlen_enc32; lia|]. rewrite W2; cbn [obind].
  destruct (mwrite_full _ _ _ _ W2) as (L2 & S2 & D2).
  destruct (mwrite_exists m2 (k_idx s + 4) (enc32 n)) as [m3 W3]; [lia|rewrite zlen_enc32; lia|]. rewrite W3; cbn [obind].
  destruct (mwrite_full _ _ _ _ W3) as (L3 & S3 & D3).
  rewrite zlen_enc32 in *.
  eexists. split; [reflexivity|]. cbn [k_size k_mem]. splits; try lia.
  exists ((k_next s, n) :: es). constructor; cbn [k_mem k_next k_idx k_size k_count fst snd]; unfold diSize in *.
  - lia.
  - lia.
  - rewrite zlen_cons. lia.
  - lia.
  - lia.
  - replace (8 * (k_count s + 1)) with (8 + 8 * k_count s) by lia.
    apply (mread_app m3 (k_idx s - 8 + 8) 8 (8 * k_count s)).
    + replace (k_idx s - 8 + 8) with (k_idx s) by lia. apply (mread_app m3 (k_idx s) 4 4).
      * rewrite D3 by lia. exact S2.
      * exact S3.
    + replace (k_idx s - 8 + 8 + 8) with (k_idx s + 8) by lia. rewrite D3, D2, D1 by lia. exact Hix.
  - constructor.
    + unfold blk; cbn. splits; try lia. rewrite D3, D2 by lia. rewrite <- Hbl'. exact S1.
    + eapply Forall2_impl; [exact Hbl|]. intros f b Hf. pose proof Hf as (F1 & F2 & F3 & F4).
      eapply blk_frame; [exact Hf| |lia]. rewrite D3, D2, D1 by lia. reflexivity.
  - cbn. split; [|exact Hdj]. clear -Hbl. induction Hbl as [|f b es q Hf _ IH]; constructor; [|exact IH].
    destruct Hf as (F1 & F2 & F3 & F4). unfold sep; cbn. lia.
  - cbn [held]. lia.
  - unfold need; cbn [held]. rewrite zlen_cons. unfold need in Hne. rewrite <- (zlen_forall2 _ _ _ Hbl). lia.
  - intros He. cbn. split; [lia|]. auto.
  - discriminate.
  - discriminate.
Qed.

Lemma top_ok s b q e : stk_inv s (b :: q, e) ->
  0 < k_count s /\ exists o, top_size s = Ok (zlen b) /\ top_offset s = Ok o /\ mread (k_mem s) o (zlen b) = Ok b /\
    0 < zlen b /\ 0 <= o.
Proof.
  intros [es H]; cbn in H. destruct H as [Hsz Hint Hcnt Hidx Hnx Hix Hbl Hdj Hhe Hne Hti Hem Hfl].
  inversion Hbl as [|f ? es' ? Hf Hbl' E1 E2]; subst. rewrite zlen_cons in *. pose proof (zlen_nonneg es').
  split; [lia|]. destruct f as [o n]. pose proof (blk_len _ _ _ _ Hf) as Hlen. destruct Hf as (F1 & F2 & F3 & F4). cbn in *.
  exists o. apply read_entry in Hix as (H1 & H2 & _); cbn [fst snd] in *.
  unfold top_size, top_offset. replace (k_idx s + 12) with (k_idx s + 8 + 4) by lia. rewrite H1, H2; cbn [obind].
  rewrite !dec_enc32 by (unfold int_max in *; lia). splits; try congruence; try lia.
Qed.

Lemma pop_ok s b q e k :
  stk_inv s (b :: q, e) -> zlen b <= k ->
  exists s', stk_pop s k = Ok (s', zlen b, b) /\ stk_inv s' (q, exact_if_empty q e) /\
    k_size s' = k_size s /\ k_mem s' = k_mem s.
Proof.
  intros Hinv Hk. destruct (top_ok _ _ _ _ Hinv) as (Hc & o0 & Hts & Hto & Hrd & Hpos & Ho0).
  unfold stk_pop. destruct (Z.ltb_spec 0 (k_count s)); [|lia]. rewrite Hts; cbn [obind].
  destruct (Z.leb_spec (zlen b) k); [|lia]. rewrite Hto; cbn [obind]. rewrite Hrd; cbn [obind].
  destruct Hinv as [es H']; cbn in H'. destruct H' as [Hsz Hint Hcnt Hidx Hnx Hix Hbl Hdj Hhe Hne Hti Hem Hfl].
  inversion Hbl as [|f ? es' ? Hf Hbl' E1 E2]; subst. rewrite zlen_cons in *. pose proof (zlen_nonneg es').
  pose proof (blk_len _ _ _ _ Hf) as Hlen.
  assert (Ho : o0 = f.1).
  { apply read_entry in Hix as (E1 & E2 & _). unfold top_offset in Hto. rewrite E1 in Hto; cbn [obind] in Hto.
    destruct Hf as (F1 & F2 & F3 & F4). rewrite dec_enc32 in Hto by (unfold int_max in *; lia). congruence. }
  subst o0. destruct Hdj as [Hsep Hdj].
  destruct (Z.eqb_spec (k_count s - 1) 0) as [Hz|Hnz].
  - eexists. split; [reflexivity|]. cbn [k_size k_mem]. splits.
    assert (es' = []) by (apply zlen_0; lia). subst es'. inversion Hbl'; subst. cbn [exact_if_empty].
    apply (stk_new_inv (k_mem s) (k_size s)); lia.
  - eexists. split; [reflexivity|]. cbn [k_size k_mem]. splits.
    assert (Hes : es' <> []) by (intros ->; rewrite zlen_nil in *; lia).
    assert (He : exact_if_empty q e = e).
    { destruct q; [|reflexivity]. inversion Hbl'; subst; congruence. }
    rewrite He.
    set (next := if f.1 + zlen b =? k_next s then k_next s - zlen b else k_next s).
    assert (Hnext : next = k_next s /\ f.1 + zlen b <> k_next s \/ next = f.1 /\ f.1 + zlen b = k_next s).
    { subst next. destruct (Z.eqb_spec (f.1 + zlen b) (k_next s)); lia. }
    clearbody next. destruct Hf as (F1 & F2 & F3 & F4).
    exists es'. constructor; cbn [k_mem k_next k_idx k_size k_count fst snd]; unfold diSize.
    + lia.
    + lia.
    + lia.
    + lia.
    + lia.
    + apply read_entry in Hix as (_ & _ & Hix). rewrite <- Hix. f_equal; lia.
    + clear -Hbl' Hsep Hnext Hlen F2 F3. induction Hbl' as [|g c es q Hg _ IH]; constructor.
      * inversion Hsep as [|? ? Hs]; subst. destruct Hg as (G1 & G2 & G3 & G4). unfold sep in Hs.
        unfold blk. splits; try assumption. lia.
      * apply IH. inversion Hsep; assumption.
    + exact Hdj.
    + cbn [held] in Hhe. destruct Hnext as [[-> _]|[-> Heq]]; [pose proof (zlen_nonneg b)|]; lia.
    + unfold need in *; cbn [held] in Hne. rewrite zlen_cons in Hne. pose proof (zlen_nonneg b). lia.
    + intros He'. destruct (Hti He') as [T1 T2]. destruct Hnext as [[-> Hx]|[-> Heq]]; [lia|exact T2].
    + congruence.
    + intros ->. inversion Hbl'; congruence.
Qed.

Lemma held_rev q : held (rev q) = held q.
Proof.
  assert (Happ : forall a b, held (a ++ b) = held a + held b).
  { induction a as [|x a IH]; intros b; cbn; [lia|]. rewrite IH. lia. }
  induction q as [|x q IH]; cbn; [reflexivity|]. rewrite Happ, IH. cbn. lia.
Qed.
Lemma zlen_rev {A} (l : list A) : zlen (rev l) = zlen l.
Proof. unfold zlen. rewrite rev_length. reflexivity. Qed.
Lemma Forall2_rev' {A B} (R : A -> B -> Prop) l k : Forall2 R l k -> Forall2 R (rev l) (rev k).
Proof. induction 1; cbn; [constructor|]. apply Forall2_app; auto. Qed.

Lemma reverse_ok s q e :
  stk_inv s (q, e) ->
  exists s', stk_reverse s = Ok s' /\ stk_inv s' (rev q, e && (zlen q <=? 1)) /\
    k_size s' = k_size s /\ zlen (k_mem s') = zlen (k_mem s).
Proof.
  intros [es H]; cbn in H. destruct H as [Hsz Hint Hcnt Hidx Hnx Hix Hbl Hdj Hhe Hne Hti Hem Hfl].
  pose proof (zlen_forall2 _ _ _ Hbl) as Hlen. pose proof (held_nonneg q) as Hh0. pose proof (need_count _ _ _ _ Hbl).
  unfold stk_reverse. destruct (Z.ltb_spec 1 (k_count s)) as [Hgt|Hle].
  - unfold diSize. rewrite Hix; cbn [obind]. rewrite chunk8_ibytes, concat_rev_ibytes.
    pose proof (zlen_ibytes (rev es)) as Hil. rewrite zlen_rev in Hil.
    destruct (mwrite_exists (k_mem s) (k_idx s + 8) (ibytes (rev es))) as [m' W]; [lia|lia|].
    rewrite W; cbn [obind]. destruct (mwrite_full _ _ _ _ W) as (L & S & D).
    eexists. split; [reflexivity|]. cbn [k_size k_mem]. splits; [|lia].
    exists (rev es). constructor; cbn [k_mem k_next k_idx k_size k_count fst snd]; try lia.
    + rewrite zlen_rev. lia.
    + rewrite <- S. f_equal. lia.
    + apply Forall2_rev'. eapply Forall2_impl; [exact Hbl|]. intros f b Hf. pose proof Hf as (F1 & F2 & F3 & F4).
      eapply blk_frame; [exact Hf| |lia]. apply D. lia.
    + apply disj_rev; assumption.
    + rewrite held_rev. assumption.
    + unfold need in *. rewrite held_rev, zlen_rev. assumption.
    + intros E. apply Hem. apply (f_equal (@rev _)) in E. rewrite rev_involutive in E. exact E.
    + intros E. apply (f_equal zlen) in E. rewrite zlen_rev, zlen_nil in E. lia.
  - exists s. splits. destruct (Z.leb_spec (zlen q) 1); [|lia]. rewrite andb_true_r.
    assert (E : rev q = q) by (destruct q as [|b [|b2 q]]; cbn; try reflexivity; rewrite !zlen_cons in *; pose proof (zlen_nonneg q); lia).
    rewrite E. exists es. constructor; assumption.
Qed.

Definition kop_legal (o : kop) : Prop :=
  match o with KPush (Some d) n => n <= zlen d | _ => True end.

Lemma kstep_ok s a o :
  stk_inv s a -> kop_legal o ->
  exists s' x a', stk_step s o = Ok (s', x) /\ lifo_step (k_size s) a o x a' /\ stk_inv s' a' /\
    k_size s' = k_size s /\ zlen (k_mem s') = zlen (k_mem s).
Proof.
  intros Hinv Hl. destruct a as [q e]. 
  destruct o as [[d|] n|k| | |n| | | |]; cbn [stk_step kop_legal] in *.
  - destruct (stk_space s n) eqn:Hsp.
    + destruct (Z_lt_le_dec 0 n) as [Hn|Hn].
      * destruct (push_ok s q e d n Hinv Hn Hl Hsp) as (s' & -> & Hi & Hs & Hm); cbn [obind].
        eexists _, _, _. split; [reflexivity|]. splits; try eassumption.
        constructor; try assumption. apply (space_ok _ _ _ _ Hinv). assumption.
      * unfold stk_push. destruct (Z.leb_spec n 0); [|lia]. cbn [obind].
        eexists _, _, _. split; [reflexivity|]. splits; try eassumption. apply ls_push_no. auto.
    + unfold stk_push. rewrite Hsp; cbn [negb]. exists s, (RBool false), (q, e).
      split; [destruct (n <=? 0); reflexivity|]. splits; try eassumption. apply ls_push_no.
      destruct e; [|auto]. right. right. destruct (space_ok _ _ _ n Hinv) as [_ E]. rewrite <- E; auto.
  - cbn. eexists _, _, _. split; [reflexivity|]. splits; try eassumption. constructor.
  - destruct q as [|b q].
    + destruct Hinv as [es H]. pose proof (ok_blocks _ _ _ _ H) as Hb. inversion Hb; subst.
      unfold stk_pop. rewrite (ok_count _ _ _ _ H). cbn. eexists _, _, _. split; [reflexivity|].
      splits; [constructor|]. eexists; eassumption.
    + destruct (Z_le_gt_dec (zlen b) k) as [Hk|Hk].
      * destruct (pop_ok s b q e k Hinv Hk) as (s' & -> & Hi & Hs & Hm); cbn [obind].
        eexists _, _, _. split; [reflexivity|]. splits; try eassumption; [constructor; assumption|congruence].
      * destruct (top_ok _ _ _ _ Hinv) as (Hc & o0 & Hts & _).
        unfold stk_pop. destruct (Z.ltb_spec 0 (k_count s)); [|lia]. rewrite Hts; cbn [obind].
        destruct (Z.leb_spec (zlen b) k); [lia|]. cbn [obind].
        eexists _, _, _. split; [reflexivity|]. splits; try eassumption. apply ls_pop_short. lia.
  - unfold stk_next_size. destruct q as [|b q].
    + destruct Hinv as [es H]. pose proof (ok_blocks _ _ _ _ H) as Hb. inversion Hb; subst.
      rewrite (ok_count _ _ _ _ H). cbn. eexists _, _, _. split; [reflexivity|].
      splits; [apply (ls_next _ [] e)|]. eexists; eassumption.
    + destruct (top_ok _ _ _ _ Hinv) as (Hc & o0 & Hts & _).
      destruct (Z.ltb_spec 0 (k_count s)); [|lia]. rewrite Hts; cbn [obind].
      eexists _, _, _. split; [reflexivity|]. splits; try eassumption. apply (ls_next _ (b :: q) e).
  - eexists _, _, _. split; [reflexivity|]. splits; try eassumption.
    replace (stk_empty s) with (match q with [] => true | _ => false end); [constructor|].
    destruct Hinv as [es H]. pose proof (ok_blocks _ _ _ _ H) as Hb. unfold stk_empty. rewrite (ok_count _ _ _ _ H).
    cbn in Hb. inversion Hb; subst; [reflexivity|]. rewrite zlen_cons. match goal with |- _ = (1 + zlen ?l =? 0) => pose proof (zlen_nonneg l) end.
    symmetry. apply Z.eqb_neq. lia.
  - eexists _, _, _. split; [reflexivity|]. splits; try eassumption.
    destruct (space_ok _ _ _ n Hinv) as [H1 H2]. destruct e.
    + rewrite H2 by reflexivity. constructor.
    + constructor. exact H1.
  - eexists _, _, _. split; [reflexivity|]. splits; try eassumption. constructor.
  - eexists _, _, _. split; [reflexivity|]. splits; try eassumption.
    destruct Hinv as [es H]. unfold stk_current. rewrite (ok_count _ _ _ _ H), (zlen_forall2 _ _ _ (ok_blocks _ _ _ _ H)). constructor.
  - destruct (reverse_ok s q e Hinv) as (s' & -> & Hi & Hs & Hm); cbn [obind].
    eexists _, _, _. split; [reflexivity|]. splits; try eassumption. constructor.
  - eexists _, _, _. split; [reflexivity|]. cbn [k_size k_mem stk_clear]. splits; [constructor|].
    destruct Hinv as [es H]. apply (stk_new_inv (k_mem s) (k_size s)); [apply (ok_size _ _ _ _ H)|apply (ok_int _ _ _ _ H)].
Qed.

Lemma krun_ok ops : forall s a,
  stk_inv s a -> Forall kop_legal ops ->
  exists s' tr a', stk_run s ops = Ok (s', tr) /\ lifo_trace (k_size s) a tr a' /\ stk_inv s' a' /\
    map fst tr = ops /\ k_size s' = k_size s /\ zlen (k_mem s') = zlen (k_mem s).
Proof.
  induction ops as [|o ops IH]; intros s a Hi Hl; cbn [stk_run].
  - exists s, [], a. splits; try assumption. constructor.
  - inversion Hl as [|? ? Ho Hl']; subst.
    destruct (kstep_ok s a o Hi Ho) as (s1 & x & a1 & -> & Hst & Hi1 & Hs1 & Hm1); cbn [obind].
    destruct (IH s1 a1 Hi1 Hl') as (s2 & tr & a2 & -> & Ht & Hi2 & Hf & Hs2 & Hm2); cbn [obind].
    eexists _, _, a2. split; [reflexivity|]. rewrite Hs1 in Ht. splits; try congruence; try assumption.
    + econstructor; eassumption.
    + cbn. congruence.
Qed.
