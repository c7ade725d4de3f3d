(** The pointers CircularBuffer.hpp forms.  CircModel checks the bytes that are accessed; this file lists the pointers: each
    may be formed only up to one past the end of its array.  All offsets are relative to [origin].  The headers are accessed
    by memcpy, so alignment does not matter here. *)
From stdpp Require Import gmap.
From Verif Require Import Base Heap Own CircModel CircBufModel StackPtrs.

Definition circ_ptrs (s : circ) (o : cop) : outcome (list Z) :=
  match o with
  | CPush (Some _) n =>
      Ok (if n <=? 0 then []
          else if c_r s <=? c_w s then
            if n + 4 <=? c_cap s - c_w s then [c_w s; c_w s + 4; c_w s + n + 4]                 (* :56-59 *)
            else if n + 4 <=? c_r s then [c_w s; 4; n + 4]                                     (* :71-74 *)
            else []
          else if n + 4 <=? c_r s - c_w s then [c_w s; c_w s + 4; c_w s + n + 4]                (* :80-82 *)
          else [])
  | CPop k =>
      if c_w s =? c_r s then Ok []
      else
        sz0 <-! read_int (c_mem s) (c_r s) ;;
        '(r, sz) <-! (if sz0 <? 0 then sz1 <-! read_int (c_mem s) 0 ;; Ok (0, sz1) else Ok (c_r s, sz0)) ;;
        Ok (if sz <=? k then [r; r + 4; r + sz + 4] else [r])                                  (* :107-114 *)
  | _ => Ok []
  end.

(** Members of CircularBuffer; into the block the buffer has afterwards. *)
Definition cw_ptrs (w : world) (p : wop) : outcome (list Z) :=
  match p with
  | WCopy _ src => b <-! wget w src ;; Ok (match b_data b with Some _ => [b_r b; b_w b] | None => [] end)      (* :173-174 *)
  | WCopyAssign _ src => b <-! wget w src ;; Ok [b_r b; b_w b]                                                (* :211-212 *)
  | WResize o n =>
      b <-! wget w o ;;
      let readDiff := b_cap b - b_r b in
      Ok (if n =? b_cap b then []
          else if b_w b =? b_r b then []
          else if b_asize b <? n then
            if b_r b <? b_w b then [b_r b; b_w b]                                                             (* :233-234 *)
            else [n; n - readDiff; b_r b; b_w b]                                                               (* :238-243 *)
          else if b_r b <? b_w b then
            if b_w b <=? n then [] else if b_w b - b_r b <? n then [b_r b; b_w b; b_w b - b_r b] else []       (* :254-261 *)
          else if readDiff + b_w b <? n then [n; n - readDiff; b_r b; b_w b] else [])                          (* :274-282 *)
  | WCall o c => b <-! wget w o ;; circ_ptrs (raw_of (w_heap w) b) c
  | _ => Ok []
  end.
Definition wsets (p : wop) : option nat := match p with WCopy o _ | WCopyAssign o _ | WResize o _ | WCall o _ => Some o | _ => None end.
Definition wlen (w : world) (o : nat) : Z := match w_objs w !! o with Some b => zlen (hget (w_heap w) (b_org b)) | None => 0 end.

(** ** CircularBufferRaw *)
Definition ranged (s : circ) : Prop := 0 <= c_w s <= zlen (c_mem s) /\ 0 <= c_r s <= zlen (c_mem s) /\ c_cap s <= zlen (c_mem s).

Lemma put_len m off d n m' : circ_put m off d n = Ok m' -> zlen m' = zlen m /\ 0 <= off /\ off + 4 <= zlen m.
Proof.
  unfold circ_put. intros (m1 & W1 & E)%obind_ok. apply obind_ok in E as (bs & _ & W2). pose proof (mwrite_len _ _ _ _ W1). pose proof (mwrite_len _ _ _ _ W2). apply mwrite_inv in W1 as (? & ? & _).
  rewrite zlen_enc32 in *. lia.
Qed.

Lemma read_int_in m off z : read_int m off = Ok z -> 0 <= off /\ off + 4 <= zlen m.
Proof. unfold read_int. intros (bs & H & _)%obind_ok. apply mread_inv in H as (? & ? & ? & _). lia. Qed.

Lemma circ_step_ranged s o s' x zs : ranged s -> circ_step s o = Ok (s', x) -> circ_ptrs s o = Ok zs -> ranged s' /\ zlen (c_mem s') = zlen (c_mem s) /\ Forall (into (zlen (c_mem s))) zs.
Proof.
  intros (Hw & Hr & Hc) Es Ez. unfold ranged. destruct o as [[d|] n|k| | |n| |]; cbn [circ_step circ_ptrs] in *.
  - apply obind_ok in Es as ([s1 b] & E & [= <- <-]). injection Ez as <-. unfold circ_push in E. destruct (Z.leb_spec n 0); [injection E as <- <-; splits; try lia; constructor|].
    destruct (Z.leb_spec (c_r s) (c_w s)).
    + destruct (Z.leb_spec (n + 4) (c_cap s - c_w s)).
      * apply obind_ok in E as (m & Em & [= <- <-]). apply put_len in Em as (Hl & _ & _). cbn [c_mem c_w c_r c_cap]. rewrite Hl. splits; try lia; [destruct (_ && _); lia..|]. repeat constructor; unfold into; lia.
      * destruct (Z.leb_spec (n + 4) (c_r s)); [|injection E as <- <-; splits; try lia; constructor].
        apply obind_ok in E as (m1 & E1 & E). apply obind_ok in E as (m & Em & [= <- <-]). apply mwrite_len in E1. apply put_len in Em as (Hl & _ & _). cbn [c_mem c_w c_r c_cap]. rewrite Hl, E1. splits; try lia. repeat constructor; unfold into; lia.
    + destruct (Z.leb_spec (n + 4) (c_r s - c_w s)); [|injection E as <- <-; splits; try lia; constructor].
      apply obind_ok in E as (m & Em & [= <- <-]). apply put_len in Em as (Hl & _ & _). cbn [c_mem c_w c_r c_cap]. rewrite Hl. splits; try lia. repeat constructor; unfold into; lia.
  - injection Es as <- <-. injection Ez as <-. splits; try lia. constructor.
  - apply obind_ok in Es as ([[s1 z] bs] & E & [= <- <-]). unfold circ_pop in E. destruct (Z.eqb_spec (c_w s) (c_r s)); [injection E as <- <- <-; injection Ez as <-; splits; try lia; constructor|].
    apply obind_ok in E as (sz0 & Esz & E). rewrite Esz in Ez. cbn [obind] in Ez. apply obind_ok in E as ([r sz] & Er & E). rewrite Er in Ez. cbn [obind] in Ez. injection Ez as <-.
    assert (Hr0 : 0 <= r /\ r + 4 <= zlen (c_mem s)).
    { destruct (sz0 <? 0); [apply obind_ok in Er as (sz1 & E1 & [= <- <-]); apply read_int_in in E1; lia|]. injection Er as <- <-. apply read_int_in in Esz. lia. }
    destruct (Z.leb_spec sz k).
    + apply obind_ok in E as (bs1 & Eb & [= <- <- <-]). apply mread_inv in Eb as (? & ? & ? & _). cbn [c_mem c_w c_r c_cap]. destruct (_ <? 8); splits; try lia; repeat constructor; unfold into; lia.
    + injection E as <- <- <-. cbn [c_mem c_w c_r c_cap]. splits; try lia. repeat constructor; unfold into; lia.
  - apply obind_ok in Es as (z & _ & [= <- <-]). injection Ez as <-. splits; try lia. constructor.
  - injection Es as <- <-. injection Ez as <-. splits; try lia. constructor.
  - injection Es as <- <-. injection Ez as <-. splits; try lia. constructor.
  - injection Es as <- <-. injection Ez as <-. splits; try lia. constructor.
  - injection Es as <- <-. injection Ez as <-. cbn. splits; try lia. constructor.
Qed.

Lemma circ_ptrs_defined s o s' x : circ_step s o = Ok (s', x) -> exists zs, circ_ptrs s o = Ok zs.
Proof.
  destruct o as [[d|] n|k| | |n| |]; cbn [circ_step circ_ptrs]; eauto. intros ([[s1 z] bs] & E & _)%obind_ok. unfold circ_pop in E. destruct (c_w s =? c_r s); [eauto|].
  apply obind_ok in E as (sz0 & -> & E). cbn [obind]. apply obind_ok in E as ([r sz] & -> & E). cbn [obind]. eauto.
Qed.

Lemma circ_run_ranged ops : forall s s' tr, ranged s -> circ_run s ops = Ok (s', tr) -> ranged s' /\ zlen (c_mem s') = zlen (c_mem s).
Proof.
  induction ops as [|o ops IH]; intros s s' tr Hs; cbn [circ_run]; [intros [= <- <-]; auto|]. intros ([s1 x] & E1 & E)%obind_ok. apply obind_ok in E as ([s2 tr2] & E2 & [= <- <-]).
  destruct (circ_ptrs_defined _ _ _ _ E1) as (zs & Ez). destruct (circ_step_ranged _ _ _ _ _ Hs E1 Ez) as (H1 & H2 & _). destruct (IH _ _ _ H1 E2) as [H3 H4]. split; [exact H3|lia].
Qed.

Lemma circ_raw_ptrs mem n ops s tr o s' x : zlen mem = n -> circ_run (circ_new mem n) ops = Ok (s, tr) -> circ_step s o = Ok (s', x) -> exists zs, circ_ptrs s o = Ok zs /\ Forall (into n) zs.
Proof.
  intros Hm Er Es. pose proof (zlen_nonneg mem). assert (Hn : ranged (circ_new mem n)) by (unfold ranged; cbn; lia). destruct (circ_run_ranged _ _ _ _ Hn Er) as [Hs Hl]. cbn [c_mem circ_new] in Hl.
  destruct (circ_ptrs_defined _ _ _ _ Es) as (zs & Ez). exists zs. split; [exact Ez|]. destruct (circ_step_ranged _ _ _ _ _ Hs Es Ez) as (_ & _ & H1). rewrite Hl, Hm in H1. exact H1.
Qed.

(** ** CircularBuffer: what holds of every buffer as long as only valid memory was accessed. *)
Definition mem_own (h : heap) (d : ptr) (acap : Z) : Prop :=
  0 <= acap /\ (0 < acap -> exists id m, d = Some id /\ h_live h !! id = Some m /\ zlen m = acap) /\ forall id, d = Some id -> (id < h_next h)%nat.
Definition uobj (h : heap) (b : cbuf) : Prop :=
  mem_own h (b_data b) (b_acap b) /\ b_asize b = b_cap b /\ b_cap b <= b_acap b /\ 0 <= b_w b <= Z.max 0 (b_cap b) /\ 0 <= b_r b <= Z.max 0 (b_cap b) /\
  (b_org b = b_data b \/ (b_org b = None /\ b_acap b = 0)).
Definition U (w : world) : Prop := own_inv b_data (fun h b (_ : unit) => uobj h b) (w_heap w) (w_objs w) ((fun _ => tt) <$> w_objs w).

Lemma mem_frame h h' d d1 d2 acap : local h h' d1 d2 -> mem_own h d acap -> (forall id, d = Some id -> d1 <> Some id) -> mem_own h' d acap.
Proof.
  intros (L1 & L2 & _) (H1 & H2 & H3) Hne. split; [exact H1|]. split; [|intros id Hid; specialize (H3 _ Hid); lia]. intros Ha. destruct (H2 Ha) as (id & m & -> & Hm & Hl). exists id, m. split; [reflexivity|]. split; [|exact Hl].
  rewrite L2; [exact Hm|apply H3; reflexivity|apply Hne; reflexivity].
Qed.
Lemma u_frame h h' b (v : unit) d d' : heap_ok h -> local h h' d d' -> uobj h b -> (forall id, b_data b = Some id -> d <> Some id) -> uobj h' b.
Proof. intros _ Hl (Hm & Hr) Hne. split; [eapply mem_frame; eassumption|exact Hr]. Qed.
Lemma u_old h b (v : unit) id : heap_ok h -> uobj h b -> b_data b = Some id -> (id < h_next h)%nat.
Proof. intros _ ((_ & _ & H) & _) E. apply H, E. Qed.

Lemma u_obj w o b : U w -> w_objs w !! o = Some b -> uobj (w_heap w) b.
Proof. intros Hw Hb. apply (oi_obj _ _ _ _ _ Hw o b tt Hb). rewrite lookup_fmap, Hb. reflexivity. Qed.
Lemma u_get w o b : U w -> wget w o = Ok b -> w_objs w !! o = Some b /\ uobj (w_heap w) b.
Proof. intros Hw. unfold wget. destruct (w_objs w !! o) as [b'|] eqn:E; [|discriminate]. intros [= ->]. split; [reflexivity|eapply u_obj; eassumption]. Qed.
Lemma u_set w o h' b' d : U w -> (forall b, w_objs w !! o = Some b -> b_data b = d) -> (w_objs w !! o = None -> d = None) -> local (w_heap w) h' d (b_data b') -> uobj h' b' -> U (World h' (<[o := b']> (w_objs w))).
Proof.
  intros Hw H1 H2 Hl Hu. unfold U. cbn [w_heap w_objs]. rewrite fmap_insert. apply (own_update b_data _ u_frame u_old (w_heap w) (w_objs w) _ o h' b' tt d Hw H1 H2 Hl Hu).
Qed.
Lemma u_drop w o b h' : U w -> w_objs w !! o = Some b -> local (w_heap w) h' (b_data b) None -> U (World h' (delete o (w_objs w))).
Proof. intros Hw Hb Hl. unfold U. cbn [w_heap w_objs]. rewrite fmap_delete. apply (own_drop b_data _ u_frame _ _ _ _ _ _ Hw Hb Hl). Qed.

Lemma hput_next h p m : h_next (hput h p m) = h_next h.
Proof. unfold hput. destruct p as [id|]; [|reflexivity]. destruct (h_live h !! id); reflexivity. Qed.
Lemma hput_trans h h1 d d' m : local h h1 d d' -> local h (hput h1 d' m) d d'.
Proof.
  intros Hl. destruct d' as [id|]; [|exact Hl]. destruct (h_live h1 !! id) as [m0|] eqn:E; [eapply local_put_trans; [exact Hl|exact E]|]. unfold hput. rewrite E. exact Hl.
Qed.
Lemma hput_mem h d m acap : mem_own h d acap -> zlen m = zlen (hget h d) -> mem_own (hput h d m) d acap.
Proof.
  intros (H1 & H2 & H3) Hm. split; [exact H1|]. split; [|intros id E; rewrite hput_next; apply H3, E]. intros Ha. destruct (H2 Ha) as (id & m0 & -> & E & Hl). exists id, m. split; [reflexivity|].
  unfold hput. cbn [hget] in Hm. rewrite E in *. cbn in *. rewrite lookup_insert. split; [reflexivity|lia].
Qed.
Lemma hput_hlen h p m : zlen m = zlen (hget h p) -> zlen (hget (hput h p m) p) = zlen (hget h p).
Proof. intros Hm. destruct p as [id|]; [|reflexivity]. cbn in *. destruct (h_live h !! id) eqn:El; cbn in *; [rewrite lookup_insert; exact Hm|rewrite El; reflexivity]. Qed.
Lemma hcopy_put h d s n h' : hcopy h d s n = Ok h' -> exists m, h' = hput h d m /\ zlen m = zlen (hget h d).
Proof.
  unfold hcopy. destruct (n =? 0).
  - intros [= <-]. exists (hget h d). split; [|reflexivity]. destruct d as [id|]; [|reflexivity]. cbn. destruct (h_live h !! id) as [m|] eqn:E; [|reflexivity]. cbn. rewrite insert_id by exact E. destruct h; reflexivity.
  - destruct (bool_decide _); [discriminate|]. intros (bs & _ & E)%obind_ok. apply obind_ok in E as (m & Em & [= <-]). exists m. split; [reflexivity|apply (mwrite_len _ _ _ _ Em)].
Qed.
Lemma alloc_u h n d id h' : heap_ok h -> halloc h n = Ok (id, h') -> local h h' d (Some id) /\ mem_own h' (Some id) n /\ 0 <= n.
Proof.
  intros Hh. unfold halloc. destruct (Z.ltb_spec n 0); [discriminate|]. intros [= <- <-]. split; [apply local_alloc, Hh|]. split; [|lia]. split; [lia|]. cbn. split.
  - intros _. eexists _, _. split; [reflexivity|]. rewrite lookup_insert. split; [reflexivity|]. unfold zlen. rewrite map_length, seq_length. lia.
  - intros i [= <-]. lia.
Qed.
Lemma free_u h d h' : heap_ok h -> hfree h d = Ok h' -> local h h' d None.
Proof.
  intros Hh E. destruct (local_free h d Hh) as (h2 & E2 & Hl); [|rewrite E in E2; injection E2 as <-; exact Hl]. intros id ->. unfold hfree in E. destruct (h_live h !! id); [eauto|discriminate].
Qed.
Lemma local_comp h h1 h2 d d' id : heap_ok h -> local h h1 d (Some id) -> (h_next h <= id)%nat -> local h1 h2 d d' -> (forall i, d' = Some i -> d = Some i -> False) -> d' = None -> local h h2 d (Some id).
Proof.
  intros Hh (L1 & L2 & L3 & L4) Hge (P1 & P2 & P3 & P4) _ _. unfold local. splits; [lia| |exact P3|right; left; eauto]. intros i Hi Hne. rewrite P2; [apply L2; assumption|lia|exact Hne].
Qed.

Lemma resize_memory_u h b n c h1 b1 : heap_ok h -> mem_own h (b_data b) (b_acap b) -> cb_resize_memory h b n c = Ok (h1, b1) ->
  local h h1 (b_data b) (b_data b1) /\ mem_own h1 (b_data b1) (b_acap b1) /\ b_asize b1 = n /\ n <= b_acap b1 /\ b_w b1 = b_w b /\ b_r b1 = b_r b /\ b_cap b1 = b_cap b /\ b_org b1 = b_org b /\ b_acap b <= b_acap b1 /\
  (b_data b1 = b_data b \/ b_acap b < b_acap b1).
Proof.
  intros Hh Hm. unfold cb_resize_memory. destruct (Z.ltb_spec (b_acap b) n).
  - intros ([id h2] & Ea & E)%obind_ok. apply obind_ok in E as (h3 & E3 & [= <- <-]). cbn. destruct (alloc_u _ _ (b_data b) _ _ Hh Ea) as (L1 & M1 & Hn).
    assert (Hid : (h_next h <= id)%nat) by (unfold halloc in Ea; destruct (n <? 0); [discriminate|]; injection Ea as <- _; lia).
    assert (Hres : local h h3 (b_data b) (Some id) /\ mem_own h3 (Some id) n).
    { destruct (0 <? b_acap b); [|injection E3 as <-; auto]. apply obind_ok in E3 as (h4 & E4 & Ef).
      assert (H4 : local h h4 (b_data b) (Some id) /\ mem_own h4 (Some id) n).
      { destruct c; [|injection E4 as <-; auto]. apply hcopy_put in E4 as (m & -> & Hlm). split; [apply hput_trans, L1|apply hput_mem; assumption]. }
      destruct H4 as [L4 M4]. assert (Hh4 : heap_ok h4) by apply L4. pose proof (free_u _ _ _ Hh4 Ef) as Lf. split.
      - eapply local_comp; [exact Hh|exact L4|exact Hid|exact Lf|discriminate|reflexivity].
      - eapply mem_frame; [exact Lf|exact M4|]. intros i [= <-] Hd. destruct Hm as (_ & _ & Hm). specialize (Hm _ Hd). lia. }
    destruct Hres. splits; try assumption; try lia.
  - intros [= <- <-]. cbn. splits; try assumption; try lia; [apply local_refl, Hh|]. left. reflexivity.
Qed.

Lemma ulen h b : uobj h b -> 0 <= b_w b <= zlen (hget h (b_org b)) /\ 0 <= b_r b <= zlen (hget h (b_org b)) /\ b_cap b <= zlen (hget h (b_org b)) /\ (0 < b_acap b -> zlen (hget h (b_org b)) = b_acap b /\ b_org b = b_data b).
Proof.
  intros ((M1 & M2 & M3) & Ha & Hc & Hw & Hr & Ho). pose proof (zlen_nonneg (hget h (b_org b))) as Hz.
  destruct (Z.ltb_spec 0 (b_acap b)) as [Hp|Hp]; [|splits; try lia]. destruct (M2 Hp) as (id & m & Hd & Hl & Hm). destruct Ho as [Ho|[_ Ho]]; [|lia].
  rewrite Ho, Hd in *. cbn [hget] in *. rewrite Hl in *. cbn in *. splits; try lia. auto.
Qed.

(** Calls on the raw buffer keep the positions within the capacity. *)
Lemma circ_pos s o s' x : 0 <= c_w s <= Z.max 0 (c_cap s) -> 0 <= c_r s <= Z.max 0 (c_cap s) -> c_cap s <= zlen (c_mem s) -> circ_step s o = Ok (s', x) ->
  0 <= c_w s' <= Z.max 0 (c_cap s') /\ 0 <= c_r s' <= Z.max 0 (c_cap s') /\ c_cap s' = c_cap s /\ zlen (c_mem s') = zlen (c_mem s).
Proof.
  intros Hw Hr Hc Es. assert (Hrg : ranged s) by (pose proof (zlen_nonneg (c_mem s)); unfold ranged; lia). destruct (circ_ptrs_defined _ _ _ _ Es) as (zs & Ez). destruct (circ_step_ranged _ _ _ _ _ Hrg Es Ez) as (_ & Hlen & _).
  destruct o as [[d|] n|k| | |n| |]; cbn [circ_step] in *.
  - apply obind_ok in Es as ([s1 b] & E & [= <- <-]). unfold circ_push in E. destruct (Z.leb_spec n 0); [injection E as <- <-; lia|].
    destruct (Z.leb_spec (c_r s) (c_w s)).
    + destruct (Z.leb_spec (n + 4) (c_cap s - c_w s)).
      * apply obind_ok in E as (m & Em & [= <- <-]). cbn [c_mem c_w c_r c_cap] in *. destruct (_ && _); lia.
      * destruct (Z.leb_spec (n + 4) (c_r s)); [|injection E as <- <-; lia]. apply obind_ok in E as (m1 & E1 & E). apply obind_ok in E as (m & Em & [= <- <-]). cbn [c_mem c_w c_r c_cap] in *. lia.
    + destruct (Z.leb_spec (n + 4) (c_r s - c_w s)); [|injection E as <- <-; lia]. apply obind_ok in E as (m & Em & [= <- <-]). cbn [c_mem c_w c_r c_cap] in *. lia.
  - injection Es as <- <-. lia.
  - apply obind_ok in Es as ([[s1 z] bs] & E & [= <- <-]). unfold circ_pop in E. destruct (Z.eqb_spec (c_w s) (c_r s)); [injection E as <- <- <-; lia|].
    apply obind_ok in E as (sz0 & Esz & E). apply obind_ok in E as ([r sz] & Er & E).
    assert (Hr0 : 0 <= r <= Z.max 0 (c_cap s)) by (destruct (sz0 <? 0); [apply obind_ok in Er as (sz1 & E1 & [= <- <-]); lia|injection Er as <- <-; lia]).
    destruct (Z.leb_spec sz k); [|injection E as <- <- <-; cbn [c_mem c_w c_r c_cap] in *; lia]. apply obind_ok in E as (bs1 & Eb & [= <- <- <-]). apply mread_inv in Eb as (? & ? & ? & _). cbn [c_mem c_w c_r c_cap] in *.
    destruct (Z.ltb_spec (c_cap s - (r + sz + 4)) 8); lia.
  - apply obind_ok in Es as (z & _ & [= <- <-]). lia.
  - injection Es as <- <-. lia.
  - injection Es as <- <-. lia.
  - injection Es as <- <-. lia.
  - injection Es as <- <-. cbn in *. lia.
Qed.

(** Object names: a constructor makes a new object. *)
Definition fresh_name (w : world) (p : wop) : Prop := match p with WDefault o | WNew o _ | WCopy o _ | WMove o _ => w_objs w !! o = None | _ => True end.
Fixpoint fresh_names (w : world) (ps : list wop) : Prop :=
  match ps with [] => True | p :: ps' => fresh_name w p /\ forall w' x, wstep w p = Ok (w', x) -> fresh_names w' ps' end.

Lemma u_null h : uobj h (CBuf None 0 0 None 0 0 0).
Proof. unfold uobj, mem_own; cbn. splits; try lia; try discriminate; auto; lia. Qed.

Lemma resize_u h b n h' b' th : heap_ok h -> uobj h b -> cb_resize h b n = Ok (h', b', th) -> local h h' (b_data b) (b_data b') /\ uobj h' b'.
Proof.
  intros Hh Hu E. pose proof (ulen _ _ Hu) as (Lw & Lr & Lc & La). pose proof Hu as (Hm & Ha & Hc & Hw & Hr & Ho). unfold cb_resize in E. destruct (Z.eqb_spec n (b_cap b)); [injection E as <- <- <-; split; [apply local_refl, Hh|exact Hu]|].
  destruct (Z.eqb_spec (b_w b) (b_r b)).
  { apply obind_ok in E as ([h1 b1] & E1 & [= <- <- <-]). apply resize_memory_u in E1 as (L & M & E1 & E2 & _); [|assumption..]. split; [exact L|]. unfold uobj; cbn. splits; try assumption; try lia. left. reflexivity. }
  destruct (Z.ltb_spec (b_asize b) n).
  { apply obind_ok in E as ([h1 b1] & E1 & E). apply resize_memory_u in E1 as (L & M & E1 & E2 & E3 & E4 & E5 & E6 & _); [|assumption..].
    destruct (Z.ltb_spec (b_r b) (b_w b)).
    - injection E as <- <- <-. split; [exact L|]. unfold uobj; cbn. splits; try assumption; try lia. left. reflexivity.
    - apply obind_ok in E as (m & Em & [= <- <- <-]). cbn [b_data]. split; [apply hput_trans, L|]. unfold uobj; cbn. splits; try lia; [apply hput_mem; [exact M|apply (mmove_len _ _ _ _ _ Em)]|left; reflexivity]. }
  destruct (Z.ltb_spec (b_r b) (b_w b)).
  - destruct (Z.leb_spec (b_w b) n); [injection E as <- <- <-; split; [apply local_refl, Hh|]; unfold uobj; cbn; splits; try assumption; lia|].
    destruct (Z.ltb_spec (b_w b - b_r b) n); [|injection E as <- <- <-; split; [apply local_refl, Hh|exact Hu]]. apply obind_ok in E as (m & Em & [= <- <- <-]). apply mmove_len in Em. cbn [b_data].
    destruct Ho as [Ho|[Ho Ho2]]; [|lia]. rewrite Ho in *. split; [apply hput_trans, local_refl, Hh|]. unfold uobj; cbn. splits; try lia; [apply hput_mem; assumption|left; first [reflexivity|assumption]].
  - destruct (Z.ltb_spec (b_cap b - b_r b + b_w b) n); [|injection E as <- <- <-; split; [apply local_refl, Hh|exact Hu]]. apply obind_ok in E as (m & Em & [= <- <- <-]). apply mmove_len in Em. cbn [b_data].
    split; [apply hput_trans, local_refl, Hh|]. unfold uobj; cbn. splits; try lia; [apply hput_mem; assumption|left; reflexivity].
Qed.

Lemma u_step w p w' x : U w -> fresh_name w p -> wstep w p = Ok (w', x) -> U w'.
Proof.
  intros Hw Hf Es. assert (Hh : heap_ok (w_heap w)) by apply Hw. destruct p; cbn [wstep fresh_name] in *.
  - injection Es as <- <-. apply (u_set _ _ _ _ None Hw); [congruence|auto|apply local_refl, Hh|apply u_null].
  - unfold cb_new in Es. destruct (halloc (w_heap w) n) as [[id h1]| |] eqn:Ea; cbn [obind] in Es; [|injection Es as <- <-; exact Hw|discriminate]. injection Es as <- <-. destruct (alloc_u _ _ None _ _ Hh Ea) as (L & M & Hn).
    apply (u_set _ _ _ _ None Hw); [congruence|auto|exact L|]. unfold uobj; cbn. splits; try assumption; try lia. left. reflexivity.
  - apply obind_ok in Es as (b & Hb & Es). destruct (u_get _ _ _ Hw Hb) as (_ & (Hm & Ha & Hc & Hwr & Hr & Ho)). unfold cb_copy in Es.
    destruct (halloc (w_heap w) (b_asize b)) as [[id h1]| |] eqn:Ea; cbn [obind] in Es; [|injection Es as <- <-; exact Hw|discriminate]. destruct (alloc_u _ _ None _ _ Hh Ea) as (L & M & Hn).
    destruct (b_data b) as [i|] eqn:Ed.
    + destruct (hcopy h1 (Some id) (Some i) (b_asize b)) as [h2| |] eqn:Ec; cbn [obind] in Es; [|injection Es as <- <-; exact Hw|discriminate]. injection Es as <- <-. apply hcopy_put in Ec as (m & -> & Hl).
      apply (u_set _ _ _ _ None Hw); [congruence|auto|apply hput_trans, L|]. unfold uobj; cbn [b_data b_acap b_asize b_cap b_w b_r b_org]. splits; try lia; [apply hput_mem; assumption|left; reflexivity].
    + destruct (hfree h1 (Some id)) as [h2| |] eqn:Ef; cbn [obind] in Es; [|injection Es as <- <-; exact Hw|discriminate]. injection Es as <- <-.
      assert (Hacap : b_acap b = 0) by (destruct Hm as (M1 & M2 & _); destruct (Z.ltb_spec 0 (b_acap b)); [destruct (M2 H) as (? & ? & [=] & _)|lia]).
      assert (L2 : local (w_heap w) h2 None (Some id)).
      { pose proof (free_u _ _ _ (proj1 (proj2 (proj2 L))) Ef) as (P1 & P2 & P3 & _). destruct L as (L1 & L2 & L3 & L4). unfold halloc in Ea. destruct (b_asize b <? 0); [discriminate|]. injection Ea as <- <-.
        unfold local. split; [lia|]. split; [|split; [exact P3|right; left; exists (h_next (w_heap w)); split; [reflexivity|lia]]]. intros i Hi _. rewrite P2; [apply L2; [exact Hi|discriminate]|cbn; lia|]. intros E0. injection E0 as E0. clear - Hi E0. subst. apply (Nat.lt_irrefl _ Hi). }
      apply (u_set _ _ _ _ None Hw); [congruence|auto|exact L2|]. unfold uobj; cbn [b_data b_acap b_asize b_cap b_w b_r b_org]. splits; try lia.
      * split; [lia|]. split; [lia|]. intros i [= <-]. destruct M as (_ & _ & M). specialize (M _ eq_refl). pose proof (free_u _ _ _ (proj1 (proj2 (proj2 L))) Ef) as (P1 & _). lia.
      * right. split; [|reflexivity]. destruct Ho as [Ho|[Ho _]]; exact Ho.
  - apply obind_ok in Es as (b & Hb & Es). cbn in Es. injection Es as <- <-. destruct (u_get _ _ _ Hw Hb) as (Hs & Hu). assert (Hne : o <> src) by congruence.
    unfold U. cbn [w_heap w_objs]. rewrite !fmap_insert. eapply (own_move b_data (fun h b (_ : unit) => uobj h b)); [exact Hw|exact Hne|exact Hf|exact Hs|rewrite lookup_fmap, Hs; reflexivity|reflexivity|apply u_null].
  - apply obind_ok in Es as (bd & Hbd & Es). apply obind_ok in Es as (bs & Hb & Es). apply obind_ok in Es as ([h b] & E & [= <- <-]). destruct (u_get _ _ _ Hw Hbd) as (Hod & (Hmd & _)). destruct (u_get _ _ _ Hw Hb) as (Hos & (Hms & Ha & Hc & Hwr & Hr & Ho)).
    unfold cb_copy_assign in E. apply obind_ok in E as ([h1 b1] & E1 & E). apply obind_ok in E as (h2 & E2 & [= <- <-]). apply resize_memory_u in E1 as (L & M & H1 & H2 & H3 & H4 & H5 & H6 & _); [|assumption|exact Hmd]. cbn in *.
    apply hcopy_put in E2 as (m & -> & Hl). apply (u_set _ _ _ _ (b_data bd) Hw); [congruence|congruence|cbn [b_data]; apply hput_trans, L|]. unfold uobj; cbn. splits; try lia; [apply hput_mem; assumption|left; reflexivity].
  - apply obind_ok in Es as (bd & Hbd & Es). apply obind_ok in Es as (bs & Hb & Es). apply obind_ok in Es as ([[h b] bs'] & E & [= <- <-]). destruct (u_get _ _ _ Hw Hbd) as (Hod & Hud). destruct (u_get _ _ _ Hw Hb) as (Hos & Hus).
    unfold cb_move_assign in E. apply obind_ok in E as (h1 & E1 & [= <- <- <-]). pose proof (free_u _ _ _ Hh E1) as Hl. destruct (decide (o = src)) as [<-|Hne].
    + rewrite insert_insert. apply (u_set _ _ _ _ (b_data bd) Hw); [congruence|congruence|exact Hl|apply u_null].
    + assert (Hlive : forall id, b_data bd = Some id -> is_Some (h_live (w_heap w) !! id)) by (intros id Hid; rewrite Hid in E1; unfold hfree in E1; destruct (h_live (w_heap w) !! id); [eauto|discriminate]).
      destruct (own_move_assign b_data (fun h b (_ : unit) => uobj h b) u_frame (w_heap w) (w_objs w) _ o src bs bd tt (CBuf None 0 0 None 0 0 0) tt Hw Hne Hod Hos ltac:(rewrite lookup_fmap, Hos; reflexivity) Hlive eq_refl u_null) as (h2 & E2 & HU).
      rewrite E1 in E2. injection E2 as <-. unfold U. cbn [w_heap w_objs]. rewrite !fmap_insert. exact HU.
  - apply obind_ok in Es as (b & Hb & Es). apply obind_ok in Es as ([[h b'] th] & E & [= <- <-]). destruct (u_get _ _ _ Hw Hb) as (Hos & Hus). destruct (resize_u _ _ _ _ _ _ Hh Hus E) as [L Hu']. apply (u_set _ _ _ _ (b_data b) Hw); [congruence|congruence|exact L|exact Hu'].
  - apply obind_ok in Es as (b & Hb & Es). apply obind_ok in Es as ([[h b'] y] & E & [= <- <-]). destruct (u_get _ _ _ Hw Hb) as (Hos & Hus). pose proof (ulen _ _ Hus) as (Lw & Lr & Lc & La). destruct Hus as (Hm & Ha & Hc & Hwr & Hr & Ho).
    unfold cb_op in E. apply obind_ok in E as ([s y'] & E & [= <- <- <-]). apply circ_pos in E as (P1 & P2 & P3 & P4); [|exact Hwr|exact Hr|exact Lc]. cbn [raw_of c_cap c_mem] in *.
    apply (u_set _ _ _ _ (b_data b) Hw); [congruence|congruence|cbn [b_data]|].
    + destruct Ho as [->|[-> _]]; [apply hput_trans|]; apply local_refl, Hh.
    + unfold uobj; cbn. rewrite P3 in *. splits; try assumption; try lia. destruct Ho as [Ho|[Ho _]]; rewrite Ho in *; [apply hput_mem; assumption|exact Hm].
  - apply obind_ok in Es as (b & Hb & Es). apply obind_ok in Es as (h & E & [= <- <-]). destruct (u_get _ _ _ Hw Hb) as (Hos & Hus). apply (u_drop _ _ b); [exact Hw|exact Hos|]. unfold cb_destroy in E. destruct (0 <? b_acap b); [apply free_u; assumption|]. injection E as <-. apply local_none, Hh.
Qed.

Lemma u_after w o b : U w -> w_objs w !! o = Some b -> 0 <= b_w b <= wlen w o /\ 0 <= b_r b <= wlen w o /\ b_cap b <= wlen w o.
Proof. intros Hw Hb. pose proof (ulen _ _ (u_obj _ _ _ Hw Hb)) as (H1 & H2 & H3 & _). unfold wlen. rewrite Hb. auto. Qed.

Lemma cw_ptrs_in w p w' x zs o : U w -> fresh_name w p -> wstep w p = Ok (w', x) -> cw_ptrs w p = Ok zs -> wsets p = Some o -> x <> WThrew -> Forall (into (wlen w' o)) zs.
Proof.
  intros Hw Hf Es Ez Ho Hx. pose proof (u_step _ _ _ _ Hw Hf Es) as Hw'. destruct p; cbn [wsets] in Ho; try discriminate; injection Ho as ->; cbn [cw_ptrs wstep] in *.
  - apply obind_ok in Ez as (b & Hb & [= <-]). rewrite Hb in Es. cbn [obind] in Es. destruct (b_data b) as [i|] eqn:Ed; [|constructor].
    destruct (cb_copy (w_heap w) b) as [[h b']| |] eqn:Ec; [|injection Es as <- <-; congruence|discriminate]. injection Es as <- <-. destruct (u_after _ o _ Hw' (lookup_insert _ _ _)) as (H1 & H2 & _).
    unfold cb_copy in Ec. rewrite Ed in Ec. apply obind_ok in Ec as ([id h1] & _ & Ec). apply obind_ok in Ec as (h2 & _ & [= <- <-]). cbn [b_w b_r] in *. (constructor; [assumption|constructor; [assumption|constructor]]).
  - apply obind_ok in Ez as (b & Hb & [= <-]). apply obind_ok in Es as (bd & Hbd & Es). rewrite Hb in Es. cbn [obind] in Es. apply obind_ok in Es as ([h b'] & E & [= <- <-]). destruct (u_after _ o _ Hw' (lookup_insert _ _ _)) as (H1 & H2 & _).
    unfold cb_copy_assign in E. apply obind_ok in E as ([h1 b1] & E1 & E). apply obind_ok in E as (h2 & E2 & [= <- <-]). cbn [b_w b_r] in *.
    apply resize_memory_u in E1 as (_ & _ & _ & _ & E3 & E4 & _); [|apply Hw|apply (u_get _ _ _ Hw Hbd)]. cbn in E3, E4. rewrite <- E3, <- E4. (constructor; [assumption|constructor; [assumption|constructor]]).
  - apply obind_ok in Ez as (b & Hb & [= <-]). rewrite Hb in Es. cbn [obind] in Es. apply obind_ok in Es as ([[h b'] th] & E & [= <- <-]). destruct (u_get _ _ _ Hw Hb) as (Hos & Hus). pose proof (ulen _ _ Hus) as (Lw & Lr & Lc & La). destruct Hus as (Hm & Ha & Hc & Hwr & Hr & Ho).
    destruct (u_after _ o _ Hw' (lookup_insert _ _ _)) as (H1 & H2 & H3). set (len := wlen _ o) in *.
    unfold cb_resize in E. destruct (Z.eqb_spec n (b_cap b)); [constructor|]. destruct (Z.eqb_spec (b_w b) (b_r b)); [constructor|]. destruct (Z.ltb_spec (b_asize b) n).
    { apply obind_ok in E as ([h1 b1] & E1 & E). destruct (Z.ltb_spec (b_r b) (b_w b)).
      - injection E as <- <- <-. cbn [b_w b_r b_cap] in *. repeat constructor; unfold into; lia.
      - apply obind_ok in E as (m & Em & [= <- <- <-]). cbn [b_w b_r b_cap] in *. repeat constructor; unfold into; lia. }
    assert (Hlen : th = false -> b_cap b <= len).
    { intros ->. subst len. unfold wlen. cbn [w_objs w_heap]. rewrite lookup_insert. destruct (Z.ltb_spec (b_r b) (b_w b)).
      - destruct (Z.leb_spec (b_w b) n); [injection E as <- <-; exact Lc|]. destruct (Z.ltb_spec (b_w b - b_r b) n); [|discriminate]. apply obind_ok in E as (m & Em & [= <- <-]). cbn [b_org]. rewrite hput_hlen by (apply (mmove_len _ _ _ _ _ Em)). exact Lc.
      - destruct (Z.ltb_spec (b_cap b - b_r b + b_w b) n); [|discriminate]. destruct Ho as [Hd0|[_ Hd0]]; [|lia]. rewrite <- Hd0 in E. apply obind_ok in E as (m & Em & [= <- <-]). cbn [b_org]. rewrite hput_hlen by (apply (mmove_len _ _ _ _ _ Em)). exact Lc. }
    destruct (Z.ltb_spec (b_r b) (b_w b)).
    + destruct (Z.leb_spec (b_w b) n); [constructor|]. destruct (Z.ltb_spec (b_w b - b_r b) n); [|constructor]. apply obind_ok in E as (m & Em & [= <- <- <-]). specialize (Hlen eq_refl). repeat constructor; unfold into; lia.
    + destruct (Z.ltb_spec (b_cap b - b_r b + b_w b) n); [|constructor]. apply obind_ok in E as (m & Em & [= <- <- <-]). specialize (Hlen eq_refl). cbn [b_cap b_r b_w] in *. repeat constructor; unfold into; lia.
  - apply obind_ok in Ez as (b & Hb & Ez). rewrite Hb in Es. cbn [obind] in Es. apply obind_ok in Es as ([[h b'] y] & E & [= <- <-]). destruct (u_get _ _ _ Hw Hb) as (Hos & Hus). pose proof (ulen _ _ Hus) as (Lw & Lr & Lc & La).
    unfold cb_op in E. apply obind_ok in E as ([s y'] & E & [= <- <- <-]). assert (Hrg : ranged (raw_of (w_heap w) b)) by (unfold ranged, raw_of; cbn; lia).
    destruct (circ_step_ranged _ _ _ _ _ Hrg E Ez) as (_ & Hl & Hz). unfold wlen. cbn [w_objs w_heap]. rewrite lookup_insert. cbn [b_org raw_of c_mem] in *. rewrite hput_hlen by exact Hl. exact Hz.
Qed.

Lemma fresh_app ps1 : forall ps2 w w1 tr, fresh_names w (ps1 ++ ps2) -> wrun w ps1 = Ok (w1, tr) -> U w -> U w1 /\ fresh_names w1 ps2.
Proof.
  induction ps1 as [|p ps1 IH]; intros ps2 w w1 tr Hf; cbn [app wrun fresh_names] in *; [intros [= <- _] Hw; auto|]. intros ([w2 x] & E1 & E)%obind_ok Hw. apply obind_ok in E as ([w3 tr3] & E2 & [= <- _]). destruct Hf as [Hf1 Hf2].
  eapply IH; [eapply Hf2, E1|exact E2|]. eapply u_step; eassumption.
Qed.

Lemma circ_world_ptrs junk ps p w tr w' x zs o : fresh_names (world0 junk) (ps ++ [p]) -> wrun (world0 junk) ps = Ok (w, tr) -> wstep w p = Ok (w', x) -> x <> WThrew -> cw_ptrs w p = Ok zs -> wsets p = Some o ->
  Forall (into (wlen w' o)) zs.
Proof.
  intros Hf Er Es Hx Ez Ho. destruct (fresh_app _ _ _ _ _ Hf Er) as [Hw [Hp _]]; [unfold U; cbn [world0 w_objs w_heap]; rewrite fmap_empty; apply own_init; intros id m; cbn; rewrite lookup_empty; discriminate|]. exact (cw_ptrs_in _ _ _ _ _ _ Hw Hp Es Ez Ho Hx).
Qed.
