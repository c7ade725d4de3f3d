(** Pointers and alignment: C100, C101 (StackBuffer), C102 (CircularBuffer) *)
From stdpp Require Import gmap.
From Verif Require Import Base Heap CircModel CircBufModel StackModel StackSpec StackProofs StackWorld StackFinal CircInts StackPtrs CircPtrs.

(** ** C100
    Full statement: every index record that StackBufferRaw and StackBuffer read or write is at an address divisible by 4.
    Missing: capacities that are not divisible by 4, for which no access is aligned, see [C100_refuted].
    [base]: address of the memory given to StackBufferRaw; [addr]: address of a block made by new[]. *)
Theorem C100_raw_partial :
  forall mem n ops s tr o z base, zlen mem = n -> n <= int_max -> Forall kop_legal ops -> stk_run (stk_new mem n) ops = Ok (s, tr) ->
    In z (stk_touch s o) -> ((base + z) mod 4 = 0 <-> (base + n) mod 4 = 0).
Proof. exact stack_raw_aligned. Qed.

Theorem C100_stack_partial :
  forall junk ps p w tr zs id z addr, swprog_ok True (sworld0 junk) (ps ++ [p]) -> swrun (sworld0 junk) ps = Ok (w, tr) ->
    sw_touch w p = Ok zs -> In (Some id, z) zs -> addr mod 4 = 0 ->
    exists A o k c a, sws_trace ∅ tr A /\ p = SCall o k /\ A !! o = Some (c, a) /\ ((addr + z) mod 4 = 0 <-> c mod 4 = 0).
Proof. exact stack_world_aligned. Qed.

(** Programs whose sizes are divisible by 4 *)
Theorem C100_sizes_partial :
  forall junk ps p w tr zs id z addr, swprog_ok True (sworld0 junk) (ps ++ [p]) ->
    (forall q, q ∈ ps -> match q with SNew _ n | SResize _ n => n mod 4 = 0 | _ => True end) ->
    swrun (sworld0 junk) ps = Ok (w, tr) -> sw_touch w p = Ok zs -> In (Some id, z) zs -> addr mod 4 = 0 -> (addr + z) mod 4 = 0.
Proof. intros * H1 H2. apply stack_world_all_aligned; [exact H1|]. apply Forall_forall. exact H2. Qed.

(** What [stk_touch] names is where the record is: after an accepted push the 8 bytes there hold the offset and size of the block. *)
Theorem C100_push_record :
  forall mem n ops s tr d k s', zlen mem = n -> n <= int_max -> Forall kop_legal ops -> stk_run (stk_new mem n) ops = Ok (s, tr) ->
    k <= zlen d -> stk_push s (Some d) k = Ok (s', true) ->
    exists z off, stk_touch s (KPush (Some d) k) = [z] /\ mread (k_mem s') z 8 = Ok (enc32 off ++ enc32 k) /\ mread (k_mem s') off k = Ok (take (Z.to_nat k) d).
Proof.
  intros mem n ops s tr d k s' Hm Hn Hl Er Hk Ep. destruct (raw_reach _ _ _ _ _ Hm Hn Hl Er) as (q & e & Hi & _).
  pose proof Ep as Ep'. unfold stk_push in Ep'. destruct (Z.leb_spec k 0); [discriminate|]. destruct (stk_space s k) eqn:Es; cbn [negb] in Ep'; [|discriminate].
  destruct (touch_push _ _ _ _ _ Hi H Hk Es) as (s1 & z & E1 & Ht & Hr). rewrite Ep in E1. injection E1 as <-. exists z, (k_next s). splits; try assumption.
  pose proof Hi as Hi0. apply inv_count in Hi as (Hc & Hc0 & Hidx & Hnx & _). unfold stk_space, diSize in Es. apply Z.leb_le in Es.
  apply obind_ok in Ep' as (bs & Hb & Ep'). apply obind_ok in Ep' as (m1 & W1 & Ep'). apply obind_ok in Ep' as (m2 & W2 & Ep'). apply obind_ok in Ep' as (m3 & W3 & [= <-]). cbn [k_mem].
  apply mread_inv in Hb as (_ & _ & _ & Hlb & Hb). change (drop (Z.to_nat 0) d) with d in Hb.
  rewrite (mread_mwrite_disj _ _ _ _ _ _ W3) by (rewrite zlen_enc32; lia). rewrite (mread_mwrite_disj _ _ _ _ _ _ W2) by (rewrite zlen_enc32; lia).
  pose proof (mread_mwrite_same _ _ _ _ W1) as R. rewrite Hlb in R. rewrite R, Hb. reflexivity.
Qed.

Example C100_nonvacuous :
  let ps := [SNew 0 40; SCall 0 (KPush (Some [1;2;3]) 3); SCall 0 (KPush (Some [5;6]) 2); SResize 0 60] in
  match swrun (sworld0 (fun _ _ => 0)) ps with
  | Ok (w, _) => sw_touch w (SCall 0 (KPop 2)) = Ok [(Some 1%nat, 44)] /\ sw_touch w (SCall 0 KNextSize) = Ok [(Some 1%nat, 44)] /\
      sw_touch w (SCall 0 KReverse) = Ok [(Some 1%nat, 44); (Some 1%nat, 52)]
  | _ => False
  end.
Proof. vm_compute. auto. Qed.

(** StackBuffer(21) and one push: the record is written at offset 13 of the new block. *)
Theorem C100_refuted :
  exists ps p w tr zs id z, ps = [SNew 0 21] /\ p = SCall 0 (KPush (Some [1; 2]) 2) /\ swprog_ok True (sworld0 (fun _ _ => 0)) (ps ++ [p]) /\
    swrun (sworld0 (fun _ _ => 0)) ps = Ok (w, tr) /\ sw_touch w p = Ok zs /\ In (Some id, z) zs /\
    (exists w', swstep w p = Ok (w', SRet (RBool true))) /\ forall addr, addr mod 4 = 0 -> (addr + z) mod 4 <> 0.
Proof.
  eexists _, _, _, _, _, 0%nat, 13. split; [reflexivity|]. split; [reflexivity|]. split.
  { cbn [app]. repeat (cbn [swprog_ok]; split; [cbn [swop_legal kop_legal]; splits; try reflexivity; try (eexists; reflexivity); try (vm_compute; discriminate)|];
      split; [cbn [swop_safe]; exact I|]; intros ?w ?x E; vm_compute in E; injection E as <- <-). exact I. }
  split; [vm_compute; reflexivity|]. split; [vm_compute; reflexivity|]. split; [left; reflexivity|]. split; [eexists; vm_compute; reflexivity|].
  intros addr Ha. rewrite Z.add_mod, Ha by lia. vm_compute. discriminate.
Qed.

(** ** C101
    Full statement: StackBufferRaw and StackBuffer form no pointer outside their memory (one past its end is allowed).
    Missing: the pointer to the next index record leaves the memory when fewer than 8 bytes are left for it, see
    [C101_raw_refuted], [C101_refuted]. *)
Theorem C101_new_partial :
  forall n, 0 <= n -> (Forall (into n) (new_ptrs n) <-> 8 <= n).
Proof. intros n Hn. apply new_into. lia. Qed.

Theorem C101_raw_partial :
  forall mem n ops s tr o s' x zs, zlen mem = n -> n <= int_max -> Forall kop_legal (ops ++ [o]) -> stk_run (stk_new mem n) ops = Ok (s, tr) ->
    stk_step s o = Ok (s', x) -> stk_ptrs s o = Ok zs ->
    exists a q' e', lifo_trace n ([], true) tr a /\ lifo_step n a o x (q', e') /\
      (Forall (into n) zs <-> match o with KPush _ _ => x = RBool true -> 8 * (zlen q' + 1) <= n | KClear => 8 <= n | _ => True end).
Proof. exact stack_raw_ptrs. Qed.

(** [c], [q]: capacity and blocks of the object that is changed, afterwards *)
Theorem C101_stack_partial :
  forall junk ps p w tr w' x zs o, swprog_ok True (sworld0 junk) (ps ++ [p]) -> swrun (sworld0 junk) ps = Ok (w, tr) ->
    swstep w p = Ok (w', x) -> sw_ptrs w p = Ok zs -> sets p = Some o ->
    exists A A', sws_trace ∅ tr A /\ sws_step A p x A' /\
      (zs = [] \/ exists c q e, A' !! o = Some (c, (q, e)) /\
        (Forall (into (olen w' o)) zs <->
         match p, x with
         | SCall _ (KPush _ _), SRet y => y = RBool true -> 8 * (zlen q + 1) <= c
         | SCall _ KClear, SRet _ => 8 <= c
         | SCall _ _, SRet _ => True
         | _, _ => 8 * (zlen q + 1) <= c
         end)).
Proof.
  intros * H1 H2 H3 H4 H5. destruct (stack_world_ptrs _ _ _ _ _ _ _ _ _ H1 H2 H3 H4 H5) as (A & A' & H6 & H7 & H8). exists A, A'. split; [exact H6|]. split; [exact H7|].
  destruct H8 as [H8|(c & q & e & H8 & H9)]; [left; exact H8|]. right. exists c, q, e. split; [exact H8|]. rewrite H9. destruct p as [| | | | | | | |o1 k|]; try reflexivity. destruct x; try reflexivity; destruct k; reflexivity.
Qed.

Example C101_nonvacuous :
  let ps := [SNew 0 40; SCall 0 (KPush (Some [1;2;3]) 3); SCall 0 (KPush (Some [5;6]) 2)] in
  match swrun (sworld0 (fun _ _ => 0)) ps with
  | Ok (w, _) => sw_ptrs w (SCall 0 (KPop 2)) = Ok [24; 3; 3] /\ sw_ptrs w (SCall 0 (KPush (Some [7]) 1)) = Ok [6; 8] /\ sw_ptrs w (SResize 0 60) = Ok [44; 24; 60; 60; 52; 36]
  | _ => False
  end.
Proof. vm_compute. auto. Qed.
Example C101_raw_nonvacuous :
  match stk_run (stk_new (repeat 0 40) 40) [KPush (Some [1;2;3]) 3; KPush (Some [5;6]) 2; KReverse] with
  | Ok (s, _) => stk_ptrs s (KPop 10) = Ok [24; 0] /\ stk_ptrs s KClear = Ok [40; 32]
  | _ => False
  end.
Proof. vm_compute. auto. Qed.

(** Two blocks of 2 bytes fill a stack of 20 bytes: afterwards nextIndex is 4 bytes before the memory. *)
Theorem C101_raw_refuted :
  exists ops s tr o s' zs, ops = [KPush (Some [1; 2]) 2] /\ o = KPush (Some [3; 4]) 2 /\ Forall kop_legal (ops ++ [o]) /\
    stk_run (stk_new (repeat 0 20) 20) ops = Ok (s, tr) /\ stk_step s o = Ok (s', RBool true) /\ stk_ptrs s o = Ok zs /\ In (-4) zs.
Proof.
  eexists _, _, _, _, _, _. split; [reflexivity|]. split; [reflexivity|]. split; [repeat constructor; vm_compute; discriminate|].
  split; [vm_compute; reflexivity|]. split; [vm_compute; reflexivity|]. split; [vm_compute; reflexivity|]. right. left. reflexivity.
Qed.

(** StackBuffer(4): the constructor forms origin + 4 - 8.  clear() of a default constructed StackBuffer: nullptr - 8. *)
Theorem C101_refuted :
  sw_ptrs (sworld0 (fun _ _ => 0)) (SNew 0 4) = Ok [4; -4] /\
  exists w, swstep (sworld0 (fun _ _ => 0)) (SDefault 0) = Ok (w, SDone) /\ sw_ptrs w (SCall 0 KClear) = Ok [0; -8].
Proof. split; [reflexivity|]. eexists. split; reflexivity. Qed.

(** ** C102
    CircularBufferRaw and CircularBuffer form no pointer outside their memory, in every execution that has accessed only valid
    memory so far. *)
Theorem C102_raw :
  forall mem n ops s tr o s' x, zlen mem = n -> circ_run (circ_new mem n) ops = Ok (s, tr) -> circ_step s o = Ok (s', x) ->
    exists zs, circ_ptrs s o = Ok zs /\ Forall (fun z => 0 <= z <= n) zs.
Proof. exact circ_raw_ptrs. Qed.

(** [fresh_names]: constructors make new objects; WThrew: no object was made *)
Theorem C102_circ :
  forall junk ps p w tr w' x zs o, fresh_names (world0 junk) (ps ++ [p]) -> wrun (world0 junk) ps = Ok (w, tr) ->
    wstep w p = Ok (w', x) -> x <> WThrew -> cw_ptrs w p = Ok zs -> wsets p = Some o -> Forall (fun z => 0 <= z <= wlen w' o) zs.
Proof. exact circ_world_ptrs. Qed.

Example C102_nonvacuous :
  let ps := [WNew 0 30; WCall 0 (CPush (Some [1;2;3;4;5;6;7;8]) 8); WCall 0 (CPush (Some [5;6]) 2); WCall 0 (CPop 8); WCall 0 (CPush (Some [7;8;9;10;11]) 5); WCall 0 (CPush (Some [1;2;3;4;5;6]) 6)] in
  match wrun (world0 (fun _ _ => 0)) ps with
  | Ok (w, _) => cw_ptrs w (WCall 0 (CPop 2)) = Ok [12; 16; 18] /\ cw_ptrs w (WResize 0 60) = Ok [60; 42; 12; 10] /\ wlen w 0 = 30 /\
      match wstep w (WResize 0 60) with Ok (w', _) => wlen w' 0 = 60 | _ => False end
  | _ => False
  end.
Proof. vm_compute. auto. Qed.
Example C102_nonvacuous_names : fresh_names (world0 (fun _ _ => 0)) [WNew 0 30; WCall 0 (CPush (Some [1;2]) 2); WCopy 1 0].
Proof. repeat (cbn [fresh_names fresh_name]; split; [first [reflexivity|exact I]|]; intros ?w ?x E; vm_compute in E; injection E as <- <-). exact I. Qed.

Print Assumptions C100_raw_partial.
Print Assumptions C100_stack_partial.
Print Assumptions C100_sizes_partial.
Print Assumptions C100_push_record.
Print Assumptions C100_refuted.
Print Assumptions C101_new_partial.
Print Assumptions C101_raw_partial.
Print Assumptions C101_stack_partial.
Print Assumptions C101_raw_refuted.
Print Assumptions C101_refuted.
Print Assumptions C102_raw.
Print Assumptions C102_circ.
