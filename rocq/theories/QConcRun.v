(** Threads with rationals: one call, a client, and putting the parts together. *)
From Coq Require Import ZArith List Lia QArith.
From stdpp Require Import gmap list.
From Verif Require Import Mem Prog MemLem Kern Fp Imath Imrat Wp Const ConstFns ConstRat Conc Threads Spec SpecBin SpecHist SpecRat SpecDec SpecQHist SpecConc SpecQConc Public Hist QHist ConcFns ConcApi QConc.
Local Open Scope Z_scope.
Local Open Scope prog_scope.
Local Open Scope list_scope.

Ltac split_effect He := cbv zeta in He; repeat match goal with
   | H : if ?b then _ else _ |- _ => destruct b
   | H : _ /\ _ |- _ => destruct H
   | H : _ \/ _ |- _ => destruct H
   | H : exists _, _ |- _ => destruct H
   end.

Lemma in_members (r : rid) rs : r ∈ rs -> fst r ∈ flat_map (fun r : rid => [fst r; snd r]) rs /\ snd r ∈ flat_map (fun r : rid => [fst r; snd r]) rs.
Proof. intros H. rewrite !elem_of_list_In, !in_flat_map. apply elem_of_list_In in H. split; exists r; (split; [done|simpl; tauto]). Qed.
Lemma qchanges_out c r : r ∈ qoutputs c -> fst r ∈ qchanges c /\ snd r ∈ qchanges c.
Proof. intros H. apply in_members in H. destruct c; cbn [qchanges qoutputs flat_map app] in *; first [done | destruct H as [H _]; by apply elem_of_nil in H]. Qed.

Lemma qeffect_ints c M r M' o x : qeffect c M r M' -> ints (whole M) !! o = Some x -> o ∉ qchanges c -> ints (whole M') !! o = Some x.
Proof.
  intros He Ho N. destruct c; cbn [qeffect qchanges qoutputs] in *; split_effect He; subst M'; try done; cbn [ints whole put_frac put_frac_new spoil on_whole with_ints put_int] in *; unfold set_rat;
   try (by eapply effect_frame); repeat first [rewrite lookup_insert_ne by (cbn [flat_map app] in N; set_solver) | rewrite lookup_delete_ne by (cbn [flat_map app] in N; set_solver)]; try done.
  destruct (H1 (fst x0)) as [K1 _]; [by left|]. destruct (H1 (snd x0)) as [K2 _]; [by right|]. rewrite !lookup_insert_ne by congruence. done.
Qed.
Lemma qeffect_keeps_text c M r M' b l : qeffect c M r M' -> text (whole M) !! b = Some l -> b ∉ qwritten c -> text (whole M') !! b = Some l.
Proof.
  intros He Hb N. destruct c; cbn [qeffect qwritten] in *; split_effect He; subst M'; try done; cbn [text whole put_frac put_frac_new spoil on_whole with_ints put_text] in *; try (rewrite lookup_insert_ne; [done|set_solver]). by eapply effect_keeps_text.
Qed.
Lemma qeffect_there c M r M' s : qeffect c M r M' -> there M' s -> there M s \/ s ∈ qoutputs c \/ (ints (whole M) !! fst s = None /\ ints (whole M) !! snd s = None).
Proof.
  intros He [x Hs]. destruct c; cbn [qeffect qoutputs] in *; split_effect He; subst M'; cbn [fracs put_frac put_frac_new spoil on_whole] in Hs;
   first [left; by exists x | apply lookup_insert_Some in Hs as [[<- _]|[_ Hs]]; [first [right; left; set_solver | right; right; split; naive_solver]|left; by exists x] | apply lookup_delete_Some in Hs as [_ Hs]; left; by exists x].
Qed.

(** ** A thread *)
Definition qtinv (I : gset oid) (Bt : gset base) (R : gset rid) (B : gset base) (v : state) (N : mixed) : Prop :=
  tinv I Bt B v (whole N) /\ tidy N /\ (forall r, r ∈ R -> there N r /\ fst r ∈ I /\ snd r ∈ I) /\ (forall r, there N r -> fst r ∈ I \/ snd r ∈ I -> r ∈ R).

Lemma qlegal_changes c N : tidy N -> qlegal c N -> qmakes c = false -> forall o, o ∈ qchanges c -> has (whole N) o \/ raws (whole N) !! o = Some true.
Proof.
  intros T HL Hm o Ho. assert (HT : forall r, there N r -> o ∈ [fst r; snd r] -> has (whole N) o).
  { intros r Hr Hin. destruct (tidy_live _ _ T Hr) as [H1 H2]. apply elem_of_cons in Hin as [->|Hin]; [done|]. apply elem_of_list_singleton in Hin as ->. done. }
  destruct c; cbn [qlegal qmakes qchanges qoutputs flat_map app] in *; try discriminate Hm; try (by apply elem_of_nil in Ho).
  { destruct HL as [HL _]. by eapply legal_outputs. }
  all: repeat match goal with H : _ /\ _ |- _ => destruct H end; try (left; by eapply HT).
  all: first [left; by apply elem_of_list_singleton in Ho as -> | left; eapply HT; [by apply has_there|done]].
Qed.
Lemma qlegal_written c N b : qlegal c N -> b ∈ qwritten c -> is_Some (text (whole N) !! b).
Proof.
  intros HL Hb. destruct c; cbn [qwritten qlegal] in *; try (by apply elem_of_nil in Hb); [destruct HL as [HL _]; by eapply legal_written|..];
    apply elem_of_list_singleton in Hb as ->; destruct HL as (_ & HL); repeat match goal with H : _ /\ _ |- _ => destruct H | H : exists _, _ |- _ => destruct H end; eauto.
Qed.

Lemma qcall_shared I Bt R B c v N : qtinv I Bt R B v N -> qlegal c N -> qspares I Bt c ->
  wpw I B (do_qcall c) (fun r v' => exists N', qeffect c N r N' /\ qtinv I Bt R B v' N') v.
Proof.
  intros (HT & HY & HR1 & HR2) HL (P1 & P2 & P3). eapply wpw_mono.
  - apply wpw_keeps; [by eapply tinv_alive|]. eapply ww_wpw; [by eapply tinv_own| |].
    + apply (qcall_ww (fun o => o ∉ I) (fun b => ~ shared I B b)); [done|done| | |done].
      * intros Hm o Ho. split; [by apply P1|]. by eapply qlegal_changes.
      * intros b Hb Hs. apply (P2 b Hb). eapply (tinv_shared_text I Bt B v (whole N)); [done| |done]. by eapply qlegal_written.
    + eapply (one_qcall c v N (fun r v' => exists N', qeffect c N r N' /\ qshows v' N')); [split; [by apply shows_SH, HT|done]|done|]. intros r N' v' He Hs. exists N'. split; [done|by apply qshows_QH].
  - intros r v' [[(N' & He & Hs & HY') _] HK]. exists N'. split; [done|].
    assert (forall s, fst s ∈ I \/ snd s ∈ I -> s ∉ qoutputs c) as HO. { intros s Hs' Hc. apply qchanges_out in Hc as [C1 C2]. destruct Hs' as [Hs'|Hs']; [by apply (P1 _ C1)|by apply (P1 _ C2)]. }
    split; [|split; [done|split]].
    + eapply tinv_keeps; [exact HT|done|done| |].
      * intros o Ho. destruct HT as (_ & H1 & _). destruct (H1 o Ho) as [x Hx]. exists x. eapply qeffect_ints; [done|done|]. intros Hc. by apply (P1 o Hc).
      * intros b Hb. destruct HT as (_ & _ & H2 & _). destruct (H2 b Hb) as [x Hx]. exists x. eapply qeffect_keeps_text; [done|done|]. intros Hc. by apply (P2 b Hc).
    + intros s Hs'. destruct (HR1 s Hs') as ([x Hx] & M1 & M2). split; [|done]. exists x. eapply qeffect_frame; [done|done|]. apply HO. by left.
    + intros s Hth Hm. destruct (qeffect_there _ _ _ _ _ He Hth) as [Hth'|[Hc|[K1 K2]]]; [by apply HR2|by destruct (HO s Hm)|].
      destruct HT as (_ & H1 & _). destruct Hm as [Hm|Hm]; destruct (H1 _ Hm); congruence.
Qed.

Theorem qdrive_shared I Bt R B k v N : qtinv I Bt R B v N -> qfair I Bt k N ->
  wpw I B (drive_q k) (fun h v' => exists N', qhistory k N h N' /\ qtinv I Bt R B v' N') v.
Proof.
  revert v N. induction k as [|c k IH]; intros v N HT HF; cbn [drive_q].
  - exists N. split; [constructor|done].
  - destruct HF as (HL & HP & HF). apply wpw_bind. eapply wpw_mono; [by apply qcall_shared|]. intros r v' (N' & He & HT'). apply wpw_bind.
    eapply wpw_mono; [by apply IH, HF|]. intros h v2 (N2 & Hh & HT2). exists N2. split; [by econstructor|done].
Qed.
Lemma qfair_keeps I B k N h N' : qhistory k N h N' -> qfair I B k N ->
  (forall o x, o ∈ I -> ints (whole N) !! o = Some x -> ints (whole N') !! o = Some x) /\
  (forall b l, b ∈ B -> text (whole N) !! b = Some l -> text (whole N') !! b = Some l) /\
  (forall r x, fst r ∈ I -> fracs N !! r = Some x -> fracs N' !! r = Some x).
Proof.
  induction 1 as [|c k N r N1 h N2 He Hh IH]; intros HF; [done|]. destruct HF as (_ & (P1 & P2 & _) & HF). destruct (IH (HF _ _ He)) as (K1 & K2 & K3). split_and!.
  - intros o x Ho Hx. apply K1; [done|]. eapply qeffect_ints; [done|done|]. intros Hc. by apply (P1 o).
  - intros o x Ho Hx. apply K2; [done|]. eapply qeffect_keeps_text; [done|done|]. intros Hc. by apply (P2 o).
  - intros o x Ho Hx. apply K3; [done|]. eapply qeffect_frame; [done|done|]. intros Hc. by apply (P1 (fst o)); [apply qchanges_out|].
Qed.

(** ** Putting the rationals of the parts together *)
Definition unite_fracs (Ms : list mixed) : gmap rid (option Q) := foldr (fun N m => fracs N ∪ m) ∅ Ms.
Lemma unite_fracs_spec Ms r x : (forall N N' y y', N ∈ Ms -> N' ∈ Ms -> fracs N !! r = Some y -> fracs N' !! r = Some y' -> y = y') ->
  unite_fracs Ms !! r = Some x <-> exists N, N ∈ Ms /\ fracs N !! r = Some x.
Proof.
  induction Ms as [|N Ms IH]; intros HA; simpl.
  - rewrite lookup_empty. split; [done|]. by intros (T & HT & _); apply elem_of_nil in HT.
  - rewrite lookup_union_Some_raw, IH by (intros T1 T2 y y' M1 M2; apply HA; by right). split.
    + intros [Hx|[_ (T' & M & Hx)]]; [exists N; split; [by left|done]|exists T'; split; [by right|done]].
    + intros (T' & M & Hx). apply elem_of_cons in M as [->|M]; [by left|]. destruct (fracs N !! r) as [y|] eqn:E; [left; f_equal; eapply (HA N T'); [by left|by right|done|done]|]. right. split; [done|eauto].
Qed.
(** Parts that are tidy, and share only what is shared, are tidy together. *)
Lemma tidy_together (I : gset oid) (B : gset base) (R : gset rid) (S : store) (Ms : list mixed) :
  divided I B S (whole <$> Ms) -> (forall N, N ∈ Ms -> tidy N) -> (forall N r, N ∈ Ms -> r ∈ R -> there N r) ->
  (forall N r, N ∈ Ms -> there N r -> fst r ∈ I \/ snd r ∈ I -> r ∈ R) ->
  (forall r N N' y y', r ∈ R -> N ∈ Ms -> N' ∈ Ms -> fracs N !! r = Some y -> fracs N' !! r = Some y' -> y = y') ->
  exists F, (forall r x, F !! r = Some x <-> exists N, N ∈ Ms /\ fracs N !! r = Some x) /\ tidy (Mixed S F).
Proof.
  intros HD HT HR1 HR2 HA. exists (unite_fracs Ms).
  assert (HI : forall N o x, N ∈ Ms -> ints (whole N) !! o = Some x -> ints S !! o = Some x).
  { intros N o x HN Hx. apply (dv_ints _ _ _ _ HD). exists (whole N). split; [by apply elem_of_list_fmap_1|done]. }
  (* a member in two parts is shared, and so is its rational *)
  assert (HX : forall N N' r s, N ∈ Ms -> N' ∈ Ms -> there N r -> there N' s ->
     (fst r = fst s \/ fst r = snd s \/ snd r = fst s \/ snd r = snd s) -> there N' r).
  { intros N N' r s HN HN' Hr Hs HE. destruct (elem_of_list_lookup_1 _ _ HN) as [i Hi]. destruct (elem_of_list_lookup_1 _ _ HN') as [j Hj].
    destruct (decide (i = j)) as [->|Nij]; [simplify_eq; done|].
    destruct (tidy_live _ _ (HT _ HN) Hr) as [K1 K2]. destruct (tidy_live _ _ (HT _ HN') Hs) as [K3 K4].
    assert (forall o, is_Some (ints (whole N) !! o) -> is_Some (ints (whole N') !! o) -> o ∈ I) as HO.
    { intros o O1 O2. eapply (dv_apart _ _ _ _ HD i j); [by rewrite list_lookup_fmap, Hi|by rewrite list_lookup_fmap, Hj|done|by left|by left]. }
    apply HR1; [done|]. apply (HR2 N r HN Hr). destruct HE as [E|[E|[E|E]]]; [left|left|right|right]; apply HO; try done; by rewrite E. }
  assert (HU : forall r x, unite_fracs Ms !! r = Some x <-> exists N, N ∈ Ms /\ fracs N !! r = Some x).
  { intros r x. apply unite_fracs_spec. intros N N' y y' HN HN' Hy Hy'. destruct (elem_of_list_lookup_1 _ _ HN) as [i Hi]. destruct (elem_of_list_lookup_1 _ _ HN') as [j Hj].
    destruct (decide (i = j)) as [->|Nij]; [simplify_eq; congruence|].
    destruct (tidy_live _ _ (HT _ HN) (ex_intro _ _ Hy)) as [K1 K2]. destruct (tidy_live _ _ (HT _ HN') (ex_intro _ _ Hy')) as [K3 K4].
    assert (fst r ∈ I). { eapply (dv_apart _ _ _ _ HD i j); [by rewrite list_lookup_fmap, Hi|by rewrite list_lookup_fmap, Hj|done|by left|by left]. }
    eapply (HA r N N'); [|done..]. apply (HR2 N); [done|by eexists|by left]. }
  assert (HTh : forall r, there (Mixed S (unite_fracs Ms)) r -> exists N, N ∈ Ms /\ there N r).
  { intros r [x Hx]. apply HU in Hx as (N & HN & Hx). exists N. split; [done|by exists x]. }
  split; [done|]. split_and!; cbn [whole fracs].
  - intros r Hr. destruct (HTh r Hr) as (N & HN & Hr'). destruct (tidy_live _ _ (HT _ HN) Hr') as [[x1 K1] [x2 K2]]. split; [exists x1|exists x2]; by eapply HI.
  - intros r s Hr Hs. destruct (HTh r Hr) as (N & HN & Hr'). destruct (HTh s Hs) as (N' & HN' & Hs'). split.
    + intros E. assert (there N' r) as X by (eapply (HX N N' r s); tauto). destruct (proj1 (proj2 (HT _ HN')) r s X Hs') as [Y _]. done.
    + split; intros E.
      * assert (there N' r) as X by (eapply (HX N N' r s); tauto). destruct (proj1 (proj2 (HT _ HN')) r s X Hs') as [_ Y]. tauto.
      * assert (there N' r) as X by (eapply (HX N N' r s); tauto). destruct (proj1 (proj2 (HT _ HN')) r s X Hs') as [_ Y]. tauto.
  - intros r q Hr. apply HU in Hr as (N & HN & Hr). destruct (proj2 (proj2 (HT _ HN)) r q Hr) as [K1 K2]. split; by eapply HI.
Qed.
