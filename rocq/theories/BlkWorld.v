(** Several objects that own disjoint sets of blocks and tables of one heap, and together own all of it. *)
From stdpp Require Import gmap.
From Verif Require Import Base BlkHeap BlkProofs.

Section world.
Context {V O W : Type}.
Implicit Types (h : bheap V) (bs ts : list nat).
Context (inv : bheap V -> O -> W -> list nat -> list nat -> Prop).
Hypothesis inv_frame : forall h h' x a bs ts,
  inv h x a bs ts -> (forall b, b ∈ bs -> sameb b h h') -> (forall u, u ∈ ts -> tb h' !! u = tb h !! u) ->
  hok bs ts h' -> inv h' x a bs ts.
Hypothesis inv_hok : forall h x a bs ts, inv h x a bs ts -> hok bs ts h.

Notation own := (gmap nat (list nat * list nat)).

Record winv h (objs : gmap nat O) (A : gmap nat W) (G : own) : Prop := {
  wi_new : forall b, (nx h <= b)%nat -> absb b h /\ tb h !! b = None;
  wi_dom : forall o, objs !! o = None <-> A !! o = None;
  wi_dom' : forall o, objs !! o = None <-> G !! o = None;
  wi_obj : forall o x a bs ts, objs !! o = Some x -> A !! o = Some a -> G !! o = Some (bs, ts) -> inv h x a bs ts;
  wi_sep : forall o o' bs ts bs' ts', o <> o' -> G !! o = Some (bs, ts) -> G !! o' = Some (bs', ts') ->
    (forall b, b ∈ bs -> b ∉ bs') /\ (forall u, u ∈ ts -> u ∉ ts');
  wi_babs : forall b, (forall o bs ts, G !! o = Some (bs, ts) -> b ∉ bs) -> absb b h;
  wi_tabs : forall u, (forall o bs ts, G !! o = Some (bs, ts) -> u ∉ ts) -> tb h !! u = None;
}.

Lemma wi_lookup h objs A G o a :
  winv h objs A G -> A !! o = Some a -> exists x bs ts, objs !! o = Some x /\ G !! o = Some (bs, ts) /\ inv h x a bs ts.
Proof.
  intros Hw Ha. destruct (objs !! o) as [x|] eqn:Ex; [|apply (wi_dom _ _ _ _ Hw) in Ex; congruence].
  destruct (G !! o) as [[bs ts]|] eqn:Eg; [|apply (wi_dom' _ _ _ _ Hw) in Eg; congruence].
  exists x, bs, ts. splits. eapply wi_obj; eassumption.
Qed.

(** One object changes, and the heap with it. *)
Lemma w_upd h objs A G o x' a' bs ts bs' ts' h' :
  winv h objs A G -> G !! o = Some (bs, ts) -> upd bs ts h bs' ts' h' -> inv h' x' a' bs' ts' ->
  winv h' (<[o := x']> objs) (<[o := a']> A) (<[o := (bs', ts')]> G).
Proof.
  intros Hw Hg U Hi.
  assert (Hok' : forall b, (nx h' <= b)%nat -> absb b h' /\ tb h' !! b = None) by apply (inv_hok _ _ _ _ _ Hi).
  assert (Hoth : forall o1 x1 a1 bs1 ts1, o1 <> o -> objs !! o1 = Some x1 -> A !! o1 = Some a1 -> G !! o1 = Some (bs1, ts1) ->
            inv h' x1 a1 bs1 ts1 /\ (forall b, b ∈ bs1 -> b ∉ bs' /\ (b < nx h)%nat) /\ (forall b, b ∈ ts1 -> b ∉ ts' /\ (b < nx h)%nat)).
  { intros o1 x1 a1 bs1 ts1 Hne E1 E2 E3. pose proof (wi_obj _ _ _ _ Hw _ _ _ _ _ E1 E2 E3) as H1.
    destruct (inv_hok _ _ _ _ _ H1) as (_ & Hb & Ht). destruct (wi_sep _ _ _ _ Hw _ _ _ _ _ _ Hne E3 Hg) as [S1 S2].
    splits.
    - eapply inv_frame; [exact H1| | |].
      + intros b Hin. eapply u_bsame; [exact U|auto|auto].
      + intros b Hin. eapply u_tsame; [exact U|auto|auto].
      + pose proof (u_nx _ _ _ _ _ _ U). unfold hok; splits; [exact Hok'| |]; intros b Hin; [specialize (Hb _ Hin)|specialize (Ht _ Hin)]; lia.
    - intros b Hin. split; [|auto]. intros Hin'. destruct (u_bnew _ _ _ _ _ _ U b Hin') as [_ [?|?]]; [apply (S1 b); assumption|specialize (Hb _ Hin); lia].
    - intros b Hin. split; [|auto]. intros Hin'. destruct (u_tnew _ _ _ _ _ _ U b Hin') as [_ [?|?]]; [apply (S2 b); assumption|specialize (Ht _ Hin); lia]. }
  constructor.
  - exact Hok'.
  - intros o1. destruct (decide (o = o1)) as [<-|Hne]; [rewrite !lookup_insert; split; discriminate|]. rewrite !lookup_insert_ne by assumption. apply Hw.
  - intros o1. destruct (decide (o = o1)) as [<-|Hne]; [rewrite !lookup_insert; split; discriminate|]. rewrite !lookup_insert_ne by assumption. apply Hw.
  - intros o1 x1 a1 bs1 ts1. destruct (decide (o = o1)) as [<-|Hne].
    + rewrite !lookup_insert. intros [= <-] [= <-] [= <- <-]. exact Hi.
    + rewrite !lookup_insert_ne by assumption. intros E1 E2 E3. eapply Hoth; [|eassumption..]. congruence.
  - assert (Hone : forall o1 bs1 ts1, o <> o1 -> G !! o1 = Some (bs1, ts1) ->
              (forall b, b ∈ bs1 -> b ∉ bs') /\ (forall b, b ∈ ts1 -> b ∉ ts')).
    { intros o1 bs1 ts1 Hne E3. destruct (objs !! o1) as [x1|] eqn:E1; [|apply (wi_dom' _ _ _ _ Hw) in E1; congruence].
      destruct (A !! o1) as [a1|] eqn:E2; [|apply (wi_dom _ _ _ _ Hw) in E2; congruence].
      destruct (Hoth o1 x1 a1 bs1 ts1 (not_eq_sym Hne) E1 E2 E3) as (_ & H1 & H2). split; intros b Hb; [apply H1|apply H2]; assumption. }
    intros o1 o2 bs1 ts1 bs2 ts2 Hne E1 E2.
    destruct (decide (o = o1)) as [<-|Hne1]; [rewrite lookup_insert in E1; injection E1 as <- <-|rewrite lookup_insert_ne in E1 by assumption];
    (destruct (decide (o = o2)) as [<-|Hne2]; [rewrite lookup_insert in E2; injection E2 as <- <-|rewrite lookup_insert_ne in E2 by assumption]).
    + congruence.
    + destruct (Hone _ _ _ Hne2 E2) as [H1 H2]. split; intros b Hb Hb'; [apply (H1 b)|apply (H2 b)]; assumption.
    + apply (Hone _ _ _ Hne1 E1).
    + exact (wi_sep _ _ _ _ Hw _ _ _ _ _ _ Hne E1 E2).
  - intros b Hb. assert (Hn : b ∉ bs') by (apply (Hb o bs' ts'), lookup_insert).
    destruct (decide (b ∈ bs)) as [Hin|Hnin]; [eapply u_babs; [exact U|left; exact Hin|exact Hn]|].
    destruct (decide (nx h <= b)%nat) as [Hle|Hgt]; [eapply u_babs; [exact U|right; exact Hle|exact Hn]|].
    eapply absb_same; [|eapply u_bsame; [exact U|exact Hnin|lia]].
    apply (wi_babs _ _ _ _ Hw). intros o1 bs1 ts1 E. destruct (decide (o = o1)) as [<-|Hne]; [congruence|].
    apply (Hb o1 bs1 ts1). rewrite lookup_insert_ne by assumption. exact E.
  - intros b Hb. assert (Hn : b ∉ ts') by (apply (Hb o bs' ts'), lookup_insert).
    destruct (decide (b ∈ ts)) as [Hin|Hnin]; [eapply u_tabs; [exact U|left; exact Hin|exact Hn]|].
    destruct (decide (nx h <= b)%nat) as [Hle|Hgt]; [eapply u_tabs; [exact U|right; exact Hle|exact Hn]|].
    rewrite (u_tsame _ _ _ _ _ _ U b) by (assumption || lia).
    apply (wi_tabs _ _ _ _ Hw). intros o1 bs1 ts1 E. destruct (decide (o = o1)) as [<-|Hne]; [congruence|].
    apply (Hb o1 bs1 ts1). rewrite lookup_insert_ne by assumption. exact E.
Qed.

(** An object that owns nothing can be added, provided its invariant holds without resources. *)
Lemma w_add h objs A G o x a :
  winv h objs A G -> objs !! o = None -> inv h x a [] [] ->
  winv h (<[o := x]> objs) (<[o := a]> A) (<[o := ([], [])]> G).
Proof.
  intros Hw Ho Hi. assert (Hg : G !! o = None) by (apply (wi_dom' _ _ _ _ Hw); exact Ho).
  constructor.
  - apply Hw.
  - intros o1. destruct (decide (o = o1)) as [<-|Hne]; [rewrite !lookup_insert; split; discriminate|]. rewrite !lookup_insert_ne by assumption. apply Hw.
  - intros o1. destruct (decide (o = o1)) as [<-|Hne]; [rewrite !lookup_insert; split; discriminate|]. rewrite !lookup_insert_ne by assumption. apply Hw.
  - intros o1 x1 a1 bs1 ts1. destruct (decide (o = o1)) as [<-|Hne].
    + rewrite !lookup_insert. intros [= <-] [= <-] [= <- <-]. exact Hi.
    + rewrite !lookup_insert_ne by assumption. apply Hw.
  - intros o1 o2 bs1 ts1 bs2 ts2 Hne E1 E2.
    destruct (decide (o = o1)) as [<-|Hne1]; [rewrite lookup_insert in E1; injection E1 as <- <-; split; intros b Hb; inversion Hb|rewrite lookup_insert_ne in E1 by assumption].
    destruct (decide (o = o2)) as [<-|Hne2]; [rewrite lookup_insert in E2; injection E2 as <- <-; split; intros b _ Hb; inversion Hb|rewrite lookup_insert_ne in E2 by assumption].
    exact (wi_sep _ _ _ _ Hw _ _ _ _ _ _ Hne E1 E2).
  - intros b Hb. apply (wi_babs _ _ _ _ Hw). intros o1 bs1 ts1 E. apply (Hb o1 bs1 ts1). rewrite lookup_insert_ne by congruence. exact E.
  - intros b Hb. apply (wi_tabs _ _ _ _ Hw). intros o1 bs1 ts1 E. apply (Hb o1 bs1 ts1). rewrite lookup_insert_ne by congruence. exact E.
Qed.

(** A new object built with fresh resources *)
Lemma w_new h objs A G o x a bs ts h' :
  winv h objs A G -> objs !! o = None -> upd [] [] h bs ts h' -> inv h' x a bs ts -> (exists x0 a0, inv h x0 a0 [] []) ->
  winv h' (<[o := x]> objs) (<[o := a]> A) (<[o := (bs, ts)]> G).
Proof.
  intros Hw Ho U Hi (x0 & a0 & H0). pose proof (w_add h objs A G o x0 a0 Hw Ho H0) as Hw1.
  pose proof (w_upd _ _ _ _ o x a [] [] bs ts h' Hw1 (lookup_insert _ _ _) U Hi) as Hw2. rewrite !insert_insert in Hw2. exact Hw2.
Qed.

(** An object that owns nothing disappears. *)
Lemma w_drop h objs A G o :
  winv h objs A G -> G !! o = Some ([], []) -> winv h (delete o objs) (delete o A) (delete o G).
Proof.
  intros Hw Hg. constructor.
  - apply Hw.
  - intros o1. destruct (decide (o = o1)) as [<-|Hne]; [rewrite !lookup_delete; tauto|]. rewrite !lookup_delete_ne by assumption. apply Hw.
  - intros o1. destruct (decide (o = o1)) as [<-|Hne]; [rewrite !lookup_delete; tauto|]. rewrite !lookup_delete_ne by assumption. apply Hw.
  - intros o1 x1 a1 bs1 ts1. rewrite !lookup_delete_Some. intros [_ ?] [_ ?] [_ ?]. eapply wi_obj; eassumption.
  - intros o1 o2 bs1 ts1 bs2 ts2 Hne. rewrite !lookup_delete_Some. intros [_ E1] [_ E2]. exact (wi_sep _ _ _ _ Hw _ _ _ _ _ _ Hne E1 E2).
  - intros b Hb. apply (wi_babs _ _ _ _ Hw). intros o1 bs1 ts1 E. destruct (decide (o = o1)) as [<-|Hne].
    + assert (bs1 = []) as -> by congruence. apply not_elem_of_nil.
    + apply (Hb o1 bs1 ts1). rewrite lookup_delete_ne by assumption. exact E.
  - intros b Hb. apply (wi_tabs _ _ _ _ Hw). intros o1 bs1 ts1 E. destruct (decide (o = o1)) as [<-|Hne].
    + assert (ts1 = []) as -> by congruence. apply not_elem_of_nil.
    + apply (Hb o1 bs1 ts1). rewrite lookup_delete_ne by assumption. exact E.
Qed.

Lemma w_del h objs A G o x0 a0 bs ts h' :
  winv h objs A G -> G !! o = Some (bs, ts) -> upd bs ts h [] [] h' -> inv h' x0 a0 [] [] ->
  winv h' (delete o objs) (delete o A) (delete o G).
Proof.
  intros Hw Hg U H0. pose proof (w_upd _ _ _ _ o x0 a0 bs ts [] [] h' Hw Hg U H0) as Hw1.
  apply (w_drop _ _ _ _ o) in Hw1; [|apply lookup_insert]. rewrite !delete_insert_delete in Hw1. exact Hw1.
Qed.

(** Everything [src] owns goes to [o], which owned nothing. *)
Lemma w_transfer h objs A G o src x' a' y' a0 bs ts :
  winv h objs A G -> o <> src -> G !! src = Some (bs, ts) -> G !! o = Some ([], []) ->
  inv h x' a' bs ts -> inv h y' a0 [] [] ->
  winv h (<[src := y']> (<[o := x']> objs)) (<[src := a0]> (<[o := a']> A)) (<[src := ([], [])]> (<[o := (bs, ts)]> G)).
Proof.
  intros Hw Hne Hs Ho Hi Hi0.
  assert (Hsep : forall o1 bs1 ts1, o1 <> src -> G !! o1 = Some (bs1, ts1) -> (forall b, b ∈ bs1 -> b ∉ bs) /\ (forall b, b ∈ ts1 -> b ∉ ts)).
  { intros o1 bs1 ts1 Hne1 E. exact (wi_sep _ _ _ _ Hw _ _ _ _ _ _ Hne1 E Hs). }
  constructor.
  - apply Hw.
  - intros o1. destruct (decide (src = o1)) as [<-|Hne1]; [rewrite !lookup_insert; split; discriminate|]. rewrite !(lookup_insert_ne _ src) by assumption.
    destruct (decide (o = o1)) as [<-|Hne2]; [rewrite !lookup_insert; split; discriminate|]. rewrite !lookup_insert_ne by assumption. apply Hw.
  - intros o1. destruct (decide (src = o1)) as [<-|Hne1]; [rewrite !lookup_insert; split; discriminate|]. rewrite !(lookup_insert_ne _ src) by assumption.
    destruct (decide (o = o1)) as [<-|Hne2]; [rewrite !lookup_insert; split; discriminate|]. rewrite !lookup_insert_ne by assumption. apply Hw.
  - intros o1 x1 a1 bs1 ts1. destruct (decide (src = o1)) as [<-|Hne1]; [rewrite !lookup_insert; intros [= <-] [= <-] [= <- <-]; exact Hi0|]. rewrite !(lookup_insert_ne _ src) by assumption.
    destruct (decide (o = o1)) as [<-|Hne2]; [rewrite !lookup_insert; intros [= <-] [= <-] [= <- <-]; exact Hi|]. rewrite !lookup_insert_ne by assumption. apply Hw.
  - assert (Hlk : forall o1 bs1 ts1, <[src := ([], [])]> (<[o := (bs, ts)]> G) !! o1 = Some (bs1, ts1) ->
      (bs1 = [] /\ ts1 = []) \/ (o1 = o /\ bs1 = bs /\ ts1 = ts) \/ (o1 <> src /\ o1 <> o /\ G !! o1 = Some (bs1, ts1))).
    { intros o1 bs1 ts1. destruct (decide (src = o1)) as [<-|Hne1]; [rewrite lookup_insert; intros [= <- <-]; auto|].
      rewrite (lookup_insert_ne _ src) by assumption.
      destruct (decide (o = o1)) as [<-|Hne2]; [rewrite lookup_insert; intros [= <- <-]; auto|]. rewrite lookup_insert_ne by assumption. auto. }
    intros o1 o2 bs1 ts1 bs2 ts2 Hne12 E1 E2.
    destruct (Hlk _ _ _ E1) as [(-> & ->)|[(-> & -> & ->)|(N1 & N2 & F1)]]; [split; intros b Hb; inversion Hb| |].
    + destruct (Hlk _ _ _ E2) as [(-> & ->)|[(-> & -> & ->)|(M1 & M2 & F2)]]; [split; intros b _ Hb; inversion Hb|congruence|].
      destruct (Hsep _ _ _ M1 F2) as [S1 S2]. split; intros b Hb Hb'; [apply (S1 b)|apply (S2 b)]; assumption.
    + destruct (Hlk _ _ _ E2) as [(-> & ->)|[(-> & -> & ->)|(M1 & M2 & F2)]]; [split; intros b _ Hb; inversion Hb|apply Hsep with o1; assumption|].
      exact (wi_sep _ _ _ _ Hw _ _ _ _ _ _ Hne12 F1 F2).
  - intros b Hb. apply (wi_babs _ _ _ _ Hw). intros o1 bs1 ts1 E.
    destruct (decide (src = o1)) as [<-|Hne1].
    + assert (bs1 = bs) as -> by congruence. apply (Hb o bs ts). rewrite lookup_insert_ne by congruence. apply lookup_insert.
    + destruct (decide (o = o1)) as [<-|Hne2]; [assert (bs1 = []) as -> by congruence; apply not_elem_of_nil|].
      apply (Hb o1 bs1 ts1). rewrite !lookup_insert_ne by assumption. exact E.
  - intros b Hb. apply (wi_tabs _ _ _ _ Hw). intros o1 bs1 ts1 E.
    destruct (decide (src = o1)) as [<-|Hne1].
    + assert (ts1 = ts) as -> by congruence. apply (Hb o bs ts). rewrite lookup_insert_ne by congruence. apply lookup_insert.
    + destruct (decide (o = o1)) as [<-|Hne2]; [assert (ts1 = []) as -> by congruence; apply not_elem_of_nil|].
      apply (Hb o1 bs1 ts1). rewrite !lookup_insert_ne by assumption. exact E.
Qed.

(** With no objects left, the heap is empty. *)
Lemma w_empty h A G : winv h ∅ A G -> el h = ∅ /\ bl h = ∅ /\ tb h = ∅.
Proof.
  clear inv_frame inv_hok. intros Hw. assert (Hg : forall o bs ts, G !! o = Some (bs, ts) -> False).
  { intros o bs ts E. pose proof (proj1 (wi_dom' _ _ _ _ Hw o) (lookup_empty _)). congruence. }
  splits.
  - apply map_empty. intros [b j]. apply (wi_babs _ _ _ _ Hw). intros o bs ts E. exfalso. eauto.
  - apply set_eq. intros b. split; [|set_solver]. intros Hb. exfalso.
    destruct (wi_babs _ _ _ _ Hw b) as [H1 _]; [intros o bs ts E; exfalso; eauto|]. contradiction.
  - apply map_empty. intros u. apply (wi_tabs _ _ _ _ Hw). intros o bs ts E. exfalso. eauto.
Qed.

Lemma w_init : winv bheap0 ∅ ∅ ∅.
Proof.
  clear inv_frame inv_hok. assert (Ha : forall b, absb b (@bheap0 V)) by (intros b; split; [cbn; set_solver|reflexivity]).
  constructor.
  - intros b _. split; [apply Ha|reflexivity].
  - intros o. rewrite !lookup_empty. tauto.
  - intros o. rewrite !lookup_empty. tauto.
  - intros o x a bs ts E. rewrite lookup_empty in E. discriminate.
  - intros o o' bs ts bs' ts' _ E. rewrite lookup_empty in E. discriminate.
  - intros b _. apply Ha.
  - intros u _. reflexivity.
Qed.

End world.
