(** CircularBuffer and StackBuffer when memory runs out: [new unsigned char[n]] throws std::bad_alloc. *)
From stdpp Require Import gmap.
From Verif Require Import Base Heap CircModel.
From Verif Require CircBufModel StackModel.

(** Every call comes with a flag: [false] if memory runs out during it.  [None] as its result: it was left by bad_alloc. *)
Definition kept {A R : Type} (tr : list (A * option R)) : list (A * R) :=
  omap (fun '(p, r) => match r with Some x => Some (p, x) | None => None end) tr.
Definition failed {A R : Type} (tr : list (A * option R)) : list A :=
  omap (fun '(p, r) => match r with Some _ => None | None => Some p end) tr.

Section circular.
Import CircBufModel.

(** CircularBuffer.hpp:314-329.  The boolean: it was left by bad_alloc, at line 317, where nothing has changed yet. *)
Definition cbm_memory (ok : bool) (h : heap) (b : cbuf) (n : Z) (copyData : bool) : outcome (heap * cbuf * bool) :=
  if (b_acap b <? n) && negb ok then Ok (h, b, true)
  else '(h1, b1) <-! cb_resize_memory h b n copyData ;; Ok (h1, b1, false).

(** CircularBuffer.hpp:202-214 *)
Definition cbm_copy_assign (ok : bool) (h : heap) (dst src : cbuf) : outcome (heap * cbuf * bool) :=
  let b0 := CBuf (b_data dst) (b_asize dst) (b_acap dst) (b_org src) (b_w src) (b_r src) (b_cap src) in        (* :204 *)
  '(h1, b1, bad) <-! cbm_memory ok h b0 (b_asize src) false ;;
  if bad : bool then Ok (h1, b1, true)
  else
    h2 <-! hcopy h1 (b_data b1) (b_data src) (b_asize src) ;;
    Ok (h2, CBuf (b_data b1) (b_asize b1) (b_acap b1) (b_data b1) (b_w b1) (b_r b1) (b_cap b1), false).

(** CircularBuffer.hpp:216-291; the result [None]: left by bad_alloc, [Some true]: by the runtime_error of lines 265 and 283 *)
Definition cbm_resize (ok : bool) (h : heap) (b : cbuf) (n : Z) : outcome (heap * cbuf * option bool) :=
  if n =? b_cap b then Ok (h, b, Some false)
  else if b_w b =? b_r b then
    '(h1, b1, bad) <-! cbm_memory ok h b n true ;;
    if bad : bool then Ok (h1, b1, None)
    else Ok (h1, CBuf (b_data b1) (b_asize b1) (b_acap b1) (b_data b1) 0 0 n, Some false)
  else if b_asize b <? n then
    '(h1, b1, bad) <-! cbm_memory ok h b n true ;;
    if bad : bool then Ok (h1, b1, None)
    else if b_r b <? b_w b then
      Ok (h1, CBuf (b_data b1) (b_asize b1) (b_acap b1) (b_data b1) (b_w b) (b_r b) n, Some false)
    else
      let readDiff := b_cap b - b_r b in
      m <-! mmove (hget h1 (b_data b1)) (n - readDiff) (b_r b) (b_cap b - b_r b) ;;
      Ok (hput h1 (b_data b1) m,
          CBuf (b_data b1) (b_asize b1) (b_acap b1) (b_data b1) (b_w b) (n - readDiff) n, Some false)
  else '(h1, b1, threw) <-! cb_resize h b n ;; Ok (h1, b1, Some threw).                (* no memory is asked for *)

(** The constructors of lines 141-145 and 164-180 ask for memory first; no object exists if they are left. *)
Definition cbm_step (ok : bool) (w : world) (p : wop) : outcome (world * option wret) :=
  match p with
  | WNew o n => if ok then '(w1, x) <-! wstep w p ;; Ok (w1, Some x) else Ok (w, None)
  | WCopy o src => if ok then '(w1, x) <-! wstep w p ;; Ok (w1, Some x) else _ <-! wget w src ;; Ok (w, None)
  | WCopyAssign o src =>
      bd <-! wget w o ;; bs <-! wget w src ;;
      '(h, b, bad) <-! cbm_copy_assign ok (w_heap w) bd bs ;;
      Ok (World h (<[o := b]> (w_objs w)), if bad : bool then None else Some WDone)
  | WResize o n =>
      b <-! wget w o ;;
      '(h, b', r) <-! cbm_resize ok (w_heap w) b n ;;
      Ok (World h (<[o := b']> (w_objs w)), match r with Some true => Some WThrew | Some false => Some WDone | None => None end)
  | _ => '(w1, x) <-! wstep w p ;; Ok (w1, Some x)
  end.
Fixpoint cbm_run (w : world) (ps : list (bool * wop)) : outcome (world * list (wop * option wret)) :=
  match ps with
  | [] => Ok (w, [])
  | (ok, p) :: ps' => '(w1, x) <-! cbm_step ok w p ;; '(w2, tr) <-! cbm_run w1 ps' ;; Ok (w2, (p, x) :: tr)
  end.

Definition wassign (p : wop) : Prop := match p with WCopyAssign _ _ => True | _ => False end.

Lemma cbm_memory_inv ok h b n cd h1 b1 bad : cbm_memory ok h b n cd = Ok (h1, b1, bad) ->
  (bad = true /\ ok = false /\ b_acap b < n /\ h1 = h /\ b1 = b) \/ (bad = false /\ cb_resize_memory h b n cd = Ok (h1, b1)).
Proof.
  unfold cbm_memory. destruct (Z.ltb_spec (b_acap b) n), ok; cbn [andb negb]; intros E;
    try (apply obind_ok in E as ([h2 b2] & E & F); injection F as <- <- <-; right; auto; fail).
  injection E as <- <- <-. left. auto.
Qed.

(** A step is the step of [wstep], or nothing has changed, or it is a copy assignment. *)
Lemma cbm_step_inv ok w p w1 x : cbm_step ok w p = Ok (w1, x) ->
  match x with Some y => wstep w p = Ok (w1, y) | None => ok = false /\ (wassign p \/ w1 = w) end.
Proof.
  destruct p; cbn [cbm_step]; intros E;
    try (apply obind_ok in E as ([w2 y] & E & F); injection F as <- <-; exact E).
  - destruct ok; [apply obind_ok in E as ([w2 y] & E & F); injection F as <- <-; exact E|]. injection E as <- <-. auto.
  - destruct ok; [apply obind_ok in E as ([w2 y] & E & F); injection F as <- <-; exact E|]. apply obind_ok in E as (b & E & F). injection F as <- <-. auto.
  - apply obind_ok in E as (bd & Ed & E). apply obind_ok in E as (bs & Es & E). apply obind_ok in E as ([[h b] bad] & E & F). injection F as <- <-.
    unfold cbm_copy_assign in E. apply obind_ok in E as ([[h1 b1] bad1] & E & G). apply cbm_memory_inv in E.
    destruct E as [(-> & -> & _ & -> & ->)|(-> & E)].
    + injection G as <- <- <-. split; [reflexivity|left; exact I].
    + apply obind_ok in G as (h2 & G & F). injection F as <- <- <-. cbn [wstep]. rewrite Ed; cbn [obind]. rewrite Es; cbn [obind].
      unfold cb_copy_assign. rewrite E; cbn [obind]. rewrite G; cbn [obind]. reflexivity.
  - apply obind_ok in E as (b & Eb & E). apply obind_ok in E as ([[h b'] r] & E & F). injection F as <- <-.
    assert (K : match r with Some thr => cb_resize (w_heap w) b n = Ok (h, b', thr) | None => ok = false /\ h = w_heap w /\ b' = b end).
    { unfold cbm_resize in E. unfold cb_resize. destruct (n =? b_cap b) eqn:E1; [injection E as <- <- <-; reflexivity|].
      destruct (b_w b =? b_r b) eqn:E2.
      { apply obind_ok in E as ([[h1 b1] bad1] & E & G). apply cbm_memory_inv in E. destruct E as [(-> & -> & _ & -> & ->)|(-> & E)].
        - injection G as <- <- <-. auto.
        - injection G as <- <- <-. rewrite E. reflexivity. }
      destruct (b_asize b <? n) eqn:Ea.
      { apply obind_ok in E as ([[h1 b1] bad1] & E & G). apply cbm_memory_inv in E. destruct E as [(-> & -> & _ & -> & ->)|(-> & E)].
        - injection G as <- <- <-. auto.
        - rewrite E. cbn [obind]. destruct (b_r b <? b_w b); [injection G as <- <- <-; reflexivity|].
          apply obind_ok in G as (m & G & F). injection F as <- <- <-. rewrite G. reflexivity. }
      apply obind_ok in E as ([[h1 b1] thr] & E & F). injection F as <- <- <-. unfold cb_resize in E.
      rewrite E1, E2, Ea in E. exact E. }
    destruct r as [thr|].
    + cbn [wstep]. rewrite Eb; cbn [obind]. rewrite K; cbn [obind]. destruct thr; reflexivity.
    + destruct K as (-> & -> & ->). split; [reflexivity|]. right. unfold wget in Eb. destruct (w_objs w !! o) eqn:El; [|discriminate]. injection Eb as ->.
      rewrite insert_id by exact El. destruct w; reflexivity.
Qed.

Lemma cbm_run_kept : forall ps w w1 tr, cbm_run w ps = Ok (w1, tr) -> Forall (fun p => ~ wassign p) (failed tr) ->
  wrun w (map fst (kept tr)) = Ok (w1, kept tr).
Proof.
  induction ps as [|[ok p] ps IH]; intros w w1 tr E Hf; cbn [cbm_run] in E.
  - injection E as <- <-. reflexivity.
  - apply obind_ok in E as ([w2 x] & E & F). apply obind_ok in F as ([w3 tr2] & F & G). injection G as <- <-. apply cbm_step_inv in E.
    destruct x as [y|]; cbn [kept failed omap list_omap map fst] in *.
    + cbn [wrun]. rewrite E; cbn [obind]. fold (kept tr2). rewrite (IH _ _ _ F Hf). reflexivity.
    + apply Forall_cons in Hf as [Hp Hf]. destruct E as [_ [E| ->]]; [contradiction|]. apply (IH _ _ _ F Hf).
Qed.

Lemma cbm_run_true ps : forall w, cbm_run w (map (pair true) ps) = ('(w1, tr) <-! wrun w ps ;; Ok (w1, map (fun '(p, x) => (p, Some x)) tr)).
Proof.
  assert (Hm : forall h b n cd, cbm_memory true h b n cd = ('(h1, b1) <-! cb_resize_memory h b n cd ;; Ok (h1, b1, false))).
  { intros. unfold cbm_memory. rewrite andb_false_r. reflexivity. }
  assert (Hs : forall w p, cbm_step true w p = ('(w1, x) <-! wstep w p ;; Ok (w1, Some x))).
  { intros w p. destruct p; cbn [cbm_step]; try reflexivity.
    - cbn [wstep]. destruct (wget w o) as [bd| |]; [|reflexivity|reflexivity]. cbn [obind]. destruct (wget w src) as [bs| |]; [|reflexivity|reflexivity]. cbn [obind].
      unfold cbm_copy_assign, cb_copy_assign. rewrite Hm. destruct (cb_resize_memory _ _ _ _) as [[h1 b1]| |]; [|reflexivity|reflexivity]. cbn [obind].
      destruct (hcopy _ _ _ _); reflexivity.
    - cbn [wstep]. destruct (wget w o) as [b| |]; [|reflexivity|reflexivity]. cbn [obind]. unfold cbm_resize, cb_resize. rewrite !Hm.
      destruct (n =? b_cap b); [reflexivity|]. destruct (b_w b =? b_r b).
      { destruct (cb_resize_memory _ _ _ _) as [[h1 b1]| |]; reflexivity. }
      destruct (b_asize b <? n).
      { destruct (cb_resize_memory _ _ _ _) as [[h1 b1]| |]; [|reflexivity|reflexivity]. cbn [obind]. destruct (b_r b <? b_w b); [reflexivity|].
        destruct (mmove _ _ _ _); reflexivity. }
      destruct (b_r b <? b_w b).
      { destruct (b_w b <=? n); [reflexivity|]. destruct (_ <? n); [|reflexivity]. destruct (mmove _ _ _ _); reflexivity. }
      destruct (_ <? n); [|reflexivity]. destruct (mmove _ _ _ _); reflexivity. }
  induction ps as [|p ps IH]; intros w; cbn [map cbm_run wrun]; [reflexivity|]. rewrite Hs. destruct (wstep w p) as [[w1 x]| |]; [|reflexivity|reflexivity].
  cbn [obind]. rewrite IH. destruct (wrun w1 ps) as [[w2 tr]| |]; reflexivity.
Qed.

(** A copy assignment left by bad_alloc *)
Definition cb_stolen (bd bs : cbuf) : cbuf := CBuf (b_data bd) (b_asize bd) (b_acap bd) (b_org bs) (b_w bs) (b_r bs) (b_cap bs).
Lemma cbm_assign_fail w o src bd bs : w_objs w !! o = Some bd -> w_objs w !! src = Some bs -> b_acap bd < b_asize bs ->
  cbm_step false w (WCopyAssign o src) = Ok (World (w_heap w) (<[o := cb_stolen bd bs]> (w_objs w)), None).
Proof.
  intros Hd Hs Hl. cbn [cbm_step]. unfold wget. rewrite Hd, Hs. cbn [obind]. unfold cbm_copy_assign, cbm_memory. cbn [b_acap].
  destruct (Z.ltb_spec (b_acap bd) (b_asize bs)); [|lia]. reflexivity.
Qed.
End circular.

Section stack.
Import StackModel.

(** StackBuffer.hpp:311-329; left by bad_alloc at line 317 *)
Definition sbm_memory (ok : bool) (h : heap) (b : sbuf) (n : Z) (copyData : bool) : outcome (heap * sbuf * bool) :=
  if negb (n =? b_stated b) && (b_acap b <? n) && negb ok then Ok (h, b, true)
  else '(h1, b1) <-! sb_resize_memory h b n copyData ;; Ok (h1, b1, false).

(** StackBuffer.hpp:202-215 *)
Definition sbm_copy_assign (ok : bool) (h : heap) (dst src : sbuf) : outcome (heap * sbuf * bool) :=
  let b0 := SBuf (b_data dst) (b_stated dst) (b_acap dst) (b_org src) (b_next src) (b_idx src) (b_size src) (b_count src) in        (* :204 *)
  '(h1, b1, bad) <-! sbm_memory ok h b0 (b_stated src) false ;;
  if bad : bool then Ok (h1, b1, true)
  else
    h2 <-! hcopy h1 (b_data b1) (b_data src) (b_stated src) ;;
    Ok (h2, SBuf (b_data b1) (b_stated b1) (b_acap b1) (b_data b1) (b_next b1)
                 (b_size b1 - diSize - diSize * b_count b1) (b_size b1) (b_count b1), false).

(** StackBuffer.hpp:217-267; [None]: left by bad_alloc *)
Definition sbm_resize (ok : bool) (h : heap) (b : sbuf) (n : Z) : outcome (heap * sbuf * option rres) :=
  if n <? 0 then Ok (h, b, Some (RRet false))
  else if n =? b_size b then Ok (h, b, Some (RRet true))
  else if b_count b =? 0 then
    '(h1, b1, bad) <-! sbm_memory ok h b n true ;;
    if bad : bool then Ok (h1, b1, None)
    else Ok (h1, SBuf (b_data b1) (b_stated b1) (b_acap b1) (b_data b1) 0 (n - diSize) n 0, Some (RRet (b_stated b1 =? n)))
  else if b_stated b <? n then
    '(h1, b1, bad) <-! sbm_memory ok h b n true ;;
    if bad : bool then Ok (h1, b1, None)
    else
      m <-! mmove (hget h1 (b_data b1)) (n - diSize * b_count b) (b_size b - diSize * b_count b) (diSize * b_count b) ;;
      Ok (hput h1 (b_data b1) m,
          SBuf (b_data b1) (b_stated b1) (b_acap b1) (b_data b1) n (n - diSize - diSize * b_count b) n (b_count b),
          Some (RRet (b_stated b1 =? n)))
  else '(h1, b1, r) <-! sb_resize h b n ;; Ok (h1, b1, Some r).                (* no memory is asked for *)

Definition sbm_step (ok : bool) (w : sworld) (p : swop) : outcome (sworld * option swret) :=
  match p with
  | SNew o n => if ok then '(w1, x) <-! swstep w p ;; Ok (w1, Some x) else Ok (w, None)
  | SCopy o src => if ok then '(w1, x) <-! swstep w p ;; Ok (w1, Some x) else _ <-! sget w src ;; Ok (w, None)
  | SCopyAssign o src =>
      bd <-! sget w o ;; bs <-! sget w src ;;
      '(h, b, bad) <-! sbm_copy_assign ok (s_heap w) bd bs ;;
      Ok (SWorld h (<[o := b]> (s_objs w)), if bad : bool then None else Some SDone)
  | SResize o n =>
      b <-! sget w o ;;
      '(h, b', r) <-! sbm_resize ok (s_heap w) b n ;;
      Ok (SWorld h (<[o := b']> (s_objs w)), match r with Some (RRet x) => Some (SResized x) | Some RThrew => Some SThrew | None => None end)
  | _ => '(w1, x) <-! swstep w p ;; Ok (w1, Some x)
  end.
Fixpoint sbm_run (w : sworld) (ps : list (bool * swop)) : outcome (sworld * list (swop * option swret)) :=
  match ps with
  | [] => Ok (w, [])
  | (ok, p) :: ps' => '(w1, x) <-! sbm_step ok w p ;; '(w2, tr) <-! sbm_run w1 ps' ;; Ok (w2, (p, x) :: tr)
  end.

Definition swassign (p : swop) : Prop := match p with SCopyAssign _ _ => True | _ => False end.

Lemma sbm_memory_inv ok h b n cd h1 b1 bad : sbm_memory ok h b n cd = Ok (h1, b1, bad) ->
  (bad = true /\ ok = false /\ b_acap b < n /\ h1 = h /\ b1 = b) \/ (bad = false /\ sb_resize_memory h b n cd = Ok (h1, b1)).
Proof.
  unfold sbm_memory. destruct (n =? b_stated b), (Z.ltb_spec (b_acap b) n), ok; cbn [andb negb]; intros E;
    try (apply obind_ok in E as ([h2 b2] & E & F); injection F as <- <- <-; right; auto; fail).
  injection E as <- <- <-. left. auto.
Qed.

Lemma sbm_step_inv ok w p w1 x : sbm_step ok w p = Ok (w1, x) ->
  match x with Some y => swstep w p = Ok (w1, y) | None => ok = false /\ (swassign p \/ w1 = w) end.
Proof.
  destruct p; cbn [sbm_step]; intros E;
    try (apply obind_ok in E as ([w2 y] & E & F); injection F as <- <-; exact E).
  - destruct ok; [apply obind_ok in E as ([w2 y] & E & F); injection F as <- <-; exact E|]. injection E as <- <-. auto.
  - destruct ok; [apply obind_ok in E as ([w2 y] & E & F); injection F as <- <-; exact E|]. apply obind_ok in E as (b & E & F). injection F as <- <-. auto.
  - apply obind_ok in E as (bd & Ed & E). apply obind_ok in E as (bs & Es & E). apply obind_ok in E as ([[h b] bad] & E & F). injection F as <- <-.
    unfold sbm_copy_assign in E. apply obind_ok in E as ([[h1 b1] bad1] & E & G). apply sbm_memory_inv in E.
    destruct E as [(-> & -> & _ & -> & ->)|(-> & E)].
    + injection G as <- <- <-. split; [reflexivity|left; exact I].
    + apply obind_ok in G as (h2 & G & F). injection F as <- <- <-. cbn [swstep]. rewrite Ed; cbn [obind]. rewrite Es; cbn [obind].
      unfold sb_copy_assign. rewrite E; cbn [obind]. rewrite G; cbn [obind]. reflexivity.
  - apply obind_ok in E as (b & Eb & E). apply obind_ok in E as ([[h b'] r] & E & F). injection F as <- <-.
    assert (K : match r with Some rr => sb_resize (s_heap w) b n = Ok (h, b', rr) | None => ok = false /\ h = s_heap w /\ b' = b end).
    { unfold sbm_resize in E. unfold sb_resize. destruct (n <? 0) eqn:E0; [injection E as <- <- <-; reflexivity|].
      destruct (n =? b_size b) eqn:E1; [injection E as <- <- <-; reflexivity|].
      destruct (b_count b =? 0) eqn:E2.
      { apply obind_ok in E as ([[h1 b1] bad1] & E & G). apply sbm_memory_inv in E. destruct E as [(-> & -> & _ & -> & ->)|(-> & E)].
        - injection G as <- <- <-. auto.
        - injection G as <- <- <-. rewrite E. reflexivity. }
      destruct (b_stated b <? n) eqn:Ea.
      { apply obind_ok in E as ([[h1 b1] bad1] & E & G). apply sbm_memory_inv in E. destruct E as [(-> & -> & _ & -> & ->)|(-> & E)].
        - injection G as <- <- <-. auto.
        - rewrite E. cbn [obind]. apply obind_ok in G as (m & G & F). injection F as <- <- <-. rewrite G. reflexivity. }
      apply obind_ok in E as ([[h1 b1] rr] & E & F). injection F as <- <- <-. unfold sb_resize in E.
      rewrite E0, E1, E2, Ea in E. exact E. }
    destruct r as [rr|].
    + cbn [swstep]. rewrite Eb; cbn [obind]. rewrite K; cbn [obind]. destruct rr; reflexivity.
    + destruct K as (-> & -> & ->). split; [reflexivity|]. right. unfold sget in Eb. destruct (s_objs w !! o) eqn:El; [|discriminate]. injection Eb as ->.
      rewrite insert_id by exact El. destruct w; reflexivity.
Qed.

Lemma sbm_run_kept : forall ps w w1 tr, sbm_run w ps = Ok (w1, tr) -> Forall (fun p => ~ swassign p) (failed tr) ->
  swrun w (map fst (kept tr)) = Ok (w1, kept tr).
Proof.
  induction ps as [|[ok p] ps IH]; intros w w1 tr E Hf; cbn [sbm_run] in E.
  - injection E as <- <-. reflexivity.
  - apply obind_ok in E as ([w2 x] & E & F). apply obind_ok in F as ([w3 tr2] & F & G). injection G as <- <-. apply sbm_step_inv in E.
    destruct x as [y|]; cbn [kept failed omap list_omap map fst] in *.
    + cbn [swrun]. rewrite E; cbn [obind]. fold (kept tr2). rewrite (IH _ _ _ F Hf). reflexivity.
    + apply Forall_cons in Hf as [Hp Hf]. destruct E as [_ [E| ->]]; [contradiction|]. apply (IH _ _ _ F Hf).
Qed.

Lemma sbm_run_true ps : forall w, sbm_run w (map (pair true) ps) = ('(w1, tr) <-! swrun w ps ;; Ok (w1, map (fun '(p, x) => (p, Some x)) tr)).
Proof.
  assert (Hm : forall h b n cd, sbm_memory true h b n cd = ('(h1, b1) <-! sb_resize_memory h b n cd ;; Ok (h1, b1, false))).
  { intros. unfold sbm_memory. rewrite andb_false_r. reflexivity. }
  assert (Hs : forall w p, sbm_step true w p = ('(w1, x) <-! swstep w p ;; Ok (w1, Some x))).
  { intros w p. destruct p; cbn [sbm_step]; try reflexivity.
    - cbn [swstep]. destruct (sget w o) as [bd| |]; [|reflexivity|reflexivity]. cbn [obind]. destruct (sget w src) as [bs| |]; [|reflexivity|reflexivity]. cbn [obind].
      unfold sbm_copy_assign, sb_copy_assign. rewrite Hm. destruct (sb_resize_memory _ _ _ _) as [[h1 b1]| |]; [|reflexivity|reflexivity]. cbn [obind].
      destruct (hcopy _ _ _ _); reflexivity.
    - cbn [swstep]. destruct (sget w o) as [b| |]; [|reflexivity|reflexivity]. cbn [obind]. unfold sbm_resize, sb_resize. rewrite !Hm.
      destruct (n <? 0); [reflexivity|]. destruct (n =? b_size b); [reflexivity|]. destruct (b_count b =? 0).
      { destruct (sb_resize_memory _ _ _ _) as [[h1 b1]| |]; reflexivity. }
      destruct (b_stated b <? n).
      { destruct (sb_resize_memory _ _ _ _) as [[h1 b1]| |]; [|reflexivity|reflexivity]. cbn [obind]. destruct (mmove _ _ _ _); reflexivity. }
      destruct (n <? _); [reflexivity|]. destruct (mmove _ _ _ _); reflexivity. }
  induction ps as [|p ps IH]; intros w; cbn [map sbm_run swrun]; [reflexivity|]. rewrite Hs. destruct (swstep w p) as [[w1 x]| |]; [|reflexivity|reflexivity].
  cbn [obind]. rewrite IH. destruct (swrun w1 ps) as [[w2 tr]| |]; reflexivity.
Qed.

Definition sb_stolen (bd bs : sbuf) : sbuf :=
  SBuf (b_data bd) (b_stated bd) (b_acap bd) (b_org bs) (b_next bs) (b_idx bs) (b_size bs) (b_count bs).
Lemma sbm_assign_fail w o src bd bs : s_objs w !! o = Some bd -> s_objs w !! src = Some bs -> b_acap bd < b_stated bs -> b_stated bd <> b_stated bs ->
  sbm_step false w (SCopyAssign o src) = Ok (SWorld (s_heap w) (<[o := sb_stolen bd bs]> (s_objs w)), None).
Proof.
  intros Hd Hs Hl Hne. cbn [sbm_step]. unfold sget. rewrite Hd, Hs. cbn [obind]. unfold sbm_copy_assign, sbm_memory. cbn [b_acap b_stated].
  destruct (Z.ltb_spec (b_acap bd) (b_stated bs)); [|lia]. destruct (Z.eqb_spec (b_stated bs) (b_stated bd)); [congruence|]. reflexivity.
Qed.
End stack.
