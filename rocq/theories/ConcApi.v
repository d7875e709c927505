(** Dividing a state among the threads, and putting their views together again. *)
From Coq Require Import ZArith List Lia.
From stdpp Require Import gmap list.
From Verif Require Import Mem Prog MemLem Kern Wp Const Conc Threads Spec SpecBin SpecHist SpecConc Public Hist ConcFns.
Local Open Scope Z_scope.

(** ** Dividing *)
Definition owns (st : state) (T : store) (b : base) : Prop :=
  (exists o, b = Sng o /\ known T o) \/ (exists o, has T o /\ block_of st o = Some b) \/ is_Some (text T !! b).
Definition names_of (T : store) : gset oid := dom (ints T) ∪ dom (raws T).
Definition blocks_of (st : state) (T : store) : gset base :=
  list_to_set (Sng <$> elements (names_of T)) ∪ list_to_set (omap (block_of st) (elements (dom (ints T)))) ∪ dom (text T).
Definition view (st : state) (T : store) : state :=
  State (filter (fun p => p.1 ∈ names_of T) (objs st)) (filter (fun p => p.1 ∈ blocks_of st T) (mem st)) (glob st).
Lemma names_known T o : o ∈ names_of T <-> known T o.
Proof. unfold names_of, known. rewrite elem_of_union, !elem_of_dom. done. Qed.
Lemma blocks_owns st T b : b ∈ blocks_of st T <-> owns st T b.
Proof.
  unfold blocks_of, owns. rewrite !elem_of_union, !elem_of_list_to_set, elem_of_list_fmap, elem_of_list_omap, elem_of_dom.
  setoid_rewrite elem_of_elements. setoid_rewrite names_known. setoid_rewrite elem_of_dom. unfold has. naive_solver.
Qed.
Lemma view_obj st T o z : objs (view st T) !! o = Some z <-> objs st !! o = Some z /\ known T o.
Proof. simpl. rewrite map_filter_lookup_Some. simpl. by rewrite names_known. Qed.
Lemma view_mem st T b l : mem (view st T) !! b = Some l <-> mem st !! b = Some l /\ owns st T b.
Proof. simpl. rewrite map_filter_lookup_Some. simpl. by rewrite blocks_owns. Qed.

Definition shared_blocks (st : state) (I : gset oid) (Bt : gset base) : gset base := Bt ∪ list_to_set (omap (block_of st) (elements I)).
Lemma shared_blocks_spec st I Bt b : b ∈ shared_blocks st I Bt <-> b ∈ Bt \/ exists o, o ∈ I /\ block_of st o = Some b.
Proof. unfold shared_blocks. rewrite elem_of_union, elem_of_list_to_set, elem_of_list_omap. setoid_rewrite elem_of_elements. naive_solver. Qed.

Lemma view_block st T o : known T o -> block_of (view st T) o = block_of st o.
Proof.
  intros Hk. unfold block_of. destruct (objs st !! o) as [z|] eqn:E.
  - by rewrite (proj2 (view_obj st T o z) (conj E Hk)).
  - destruct (objs (view st T) !! o) as [z|] eqn:E2; [|done]. apply view_obj in E2 as [? _]. congruence.
Qed.

Section divide.
Context (I : gset oid) (Bt : gset base) (S : store) (Ts : list store) (st : state).
Hypothesis (HD : divided I Bt S Ts) (HS : shows st S).

Lemma part_ints T o v : T ∈ Ts -> ints T !! o = Some v -> ints S !! o = Some v.
Proof. intros HT Ho. apply (dv_ints _ _ _ _ HD). eauto. Qed.
Lemma part_raws T o v : T ∈ Ts -> raws T !! o = Some v -> raws S !! o = Some v.
Proof. intros HT Ho. apply (dv_raws _ _ _ _ HD). eauto. Qed.
Lemma part_text T o v : T ∈ Ts -> text T !! o = Some v -> text S !! o = Some v.
Proof. intros HT Ho. apply (dv_text _ _ _ _ HD). eauto. Qed.
Lemma not_both o : is_Some (ints S !! o) -> raws S !! o = None.
Proof. destruct HS as (W & HR & _ & H1 & _). intros [v Hv]. apply H1. by eapply rep_blanks. Qed.

Lemma view_shows T : T ∈ Ts -> shows (view st T) T.
Proof.
  intros HT. destruct HS as (W & HR & Ht & H1 & H2 & H3).
  assert (Hraw : forall o c, raws T !! o = Some c -> ints T !! o = None).
  { intros o c Hc. destruct (ints T !! o) as [x|] eqn:E; [|done]. apply part_ints in E; [|done]. apply part_raws in Hc; [|done]. rewrite not_both in Hc by eauto. done. }
  assert (Hst : forall o c, raws T !! o = Some c -> objs st !! o = blanks W !! o /\ is_Some (blanks W !! o)).
  { intros o c Hc. apply part_raws in Hc; [|done]. destruct (blanks W !! o) as [z|] eqn:E; [|apply H1 in E; congruence]. split; [|eauto]. rewrite <- E. apply (rep_others _ _ _ HR).
    destruct (ints S !! o) eqn:E2; [|done]. by rewrite (rep_blanks _ _ _ HR _ _ E2) in E. }
  exists (World (text T) (filter (fun p => p.1 ∈ dom (raws T)) (blanks W)) (glob st)). simpl.
  assert (HB : forall o z, filter (fun p : oid * mpz => p.1 ∈ dom (raws T)) (blanks W) !! o = Some z <-> blanks W !! o = Some z /\ is_Some (raws T !! o)).
  { intros o z. rewrite map_filter_lookup_Some. simpl. by rewrite elem_of_dom. }
  assert (HBN : forall o, raws T !! o = None <-> filter (fun p : oid * mpz => p.1 ∈ dom (raws T)) (blanks W) !! o = None).
  { intros o. split; intros Hn.
    - destruct (filter _ _ !! o) as [z|] eqn:E; [|done]. apply HB in E as [_ [c Hc]]. congruence.
    - destruct (raws T !! o) as [c|] eqn:E; [|done]. destruct (Hst _ _ E) as [_ [z Hz]]. by rewrite (proj2 (HB o z) (conj Hz (ex_intro _ c E))) in Hn. }
  split_and!; [|done|done| |].
  - constructor; simpl.
    + intros o v Ho. destruct (rep_holds _ _ _ HR o v) as (b & Hb & Hloc); [by eapply part_ints|]. exists b. split; [|done].
      destruct Hb as (al & us & sg & ds & rs & K1 & K2 & K3). exists al, us, sg, ds, rs. split; [apply view_obj; split; [done|left; eauto]|]. split; [|done].
      apply view_mem. split; [done|]. right; left. exists o. split; [by exists v|]. unfold block_of. by rewrite K1.
    + intros o1 o2 v1 v2 Ho1 Ho2. rewrite !view_block by (left; eauto). eapply (rep_apart _ _ _ HR); by eapply part_ints.
    + intros o Ho. destruct (raws T !! o) as [c|] eqn:E.
      * destruct (Hst _ _ E) as [K1 [z Hz]]. rewrite (proj2 (HB o z) (conj Hz (ex_intro _ c E))). apply view_obj. split; [congruence|right; eauto].
      * rewrite (proj1 (HBN o) E). destruct (objs (view st T) !! o) as [z|] eqn:E2; [|done]. apply view_obj in E2 as [_ [[? K]|[? K]]]; congruence.
    + intros o v Ho. apply HBN. destruct (raws T !! o) eqn:E; [|done]. by rewrite (Hraw _ _ E) in Ho.
    + intros b l Hb. apply view_mem. split; [|right; right; eauto]. apply (rep_bufs _ _ _ HR). rewrite Ht. by eapply part_text.
    + intros b l o v Hb Ho. rewrite view_block by (left; eauto). eapply (rep_bufs_apart _ _ _ HR); [rewrite Ht; by eapply part_text|by eapply part_ints].
    + intros b l o Hb. eapply (rep_bufs_sng _ _ _ HR). rewrite Ht. by eapply part_text.
    + intros b l Hb. apply view_mem in Hb as [Hb [(o & -> & Hk)|[(o & [v Ho] & Hbo)|Htx]]].
      * right; left. exists o. split; [done|]. assert (is_Some (objs st !! o)) as [z Hz].
        { destruct Hk as [[v Hv]|[c Hc]]; [|destruct (Hst _ _ Hc) as [-> ?]; done]. destruct (rep_holds _ _ _ HR o v) as (b' & Hb' & _); [by eapply part_ints|]. apply (holds_mem _ _ _ _ Hb'). }
        exists z. apply view_obj. done.
      * left. exists o, v. split; [done|]. rewrite view_block by (left; eauto). done.
      * by right; right.
    + intros o [z Hz]. apply view_obj in Hz as [Hz Hk]. destruct (rep_sng _ _ _ HR o) as [c Hc]; [eauto|]. exists c. apply view_mem. split; [done|]. left. eauto.
    + done.
    + rewrite (rep_glob _ _ _ HR). apply HR.
  - intros o z Ho Hz. apply HB in Hz as [Hz _]. eapply H2; [by eapply part_raws|done].
  - intros o Ho. apply H3. apply (dv_dyns _ _ _ _ HD). eauto.
Qed.

Lemma view_tinv T : T ∈ Ts -> tinv I Bt (shared_blocks st I Bt) (view st T) T.
Proof.
  intros HT. split_and!; [by apply view_shows|intros; by eapply dv_shared|intros; by eapply dv_shared_text|].
  intros b Hb. apply shared_blocks_spec in Hb as [Hb|(o & Ho & Hbo)]; [by left|]. right. exists o. split; [done|]. rewrite view_block; [done|]. left. by eapply dv_shared.
Qed.

Lemma view_conf : conf I (shared_blocks st I Bt) (view st <$> Ts) st.
Proof.
  assert (HT : forall i v, (view st <$> Ts) !! i = Some v -> exists T, v = view st T /\ Ts !! i = Some T /\ T ∈ Ts).
  { intros i v. rewrite list_lookup_fmap. destruct (Ts !! i) as [T|] eqn:E; [|done]. intros [= <-]. exists T. split_and!; [done|done|]. by eapply elem_of_list_lookup_2. }
  destruct HS as (W & HR & Ht & H1 & H2 & H3). constructor.
  - intros i v Hi. destruct (HT _ _ Hi) as (T & -> & _). apply map_filter_subseteq.
  - intros i v Hi. destruct (HT _ _ Hi) as (T & -> & _). apply map_filter_subseteq.
  - intros i v Hi. by destruct (HT _ _ Hi) as (T & -> & _).
  - intros i v Hi. destruct (HT _ _ Hi) as (T & -> & _ & K). destruct (view_shows T K) as (W' & HR' & Ht' & _). intros o. split.
    + intros Ho. destruct (rep_sng _ _ _ HR' o Ho). eauto.
    + intros [l Hl]. destruct (rep_all _ _ _ HR' _ _ Hl) as [(o' & x & Hx & Hb)|[(o' & [= <-] & Ho)|[l' Hb]]]; [|done|by destruct (rep_bufs_sng _ _ _ HR' _ _ o Hb)].
      destruct (rep_holds _ _ _ HR' _ _ Hx) as (b & Hb' & Hloc). assert (Hm := holds_mem _ _ _ _ Hb'). rewrite (holds_block _ _ _ _ Hb') in Hb. injection Hb as ->.
      destruct Hloc as [[= ->]|[n Hn]]; [|done]. apply Hm.
  - intros i v Hi. destruct (HT _ _ Hi) as (T & -> & _ & K). by eapply tinv_alive, view_tinv.
  - intros i j v w o Hi Hj N [z Hz] [z' Hz']. destruct (HT _ _ Hi) as (T & -> & K & _), (HT _ _ Hj) as (T' & -> & K' & _). apply view_obj in Hz as [_ Hz], Hz' as [_ Hz'].
    by eapply (dv_apart _ _ _ _ HD i j).
  - intros i j v w b Hi Hj N [z Hz] [z' Hz']. destruct (HT _ _ Hi) as (T & -> & K & M), (HT _ _ Hj) as (T' & -> & K' & M'). apply view_mem in Hz as [Hm Hz], Hz' as [_ Hz'].
    assert (Hblk : forall T o x, T ∈ Ts -> ints T !! o = Some x -> block_of st o = Some b -> b = Sng o \/ exists n, b = Hp n).
    { intros T0 o x HT0 Ho Hbo. destruct (rep_holds _ _ _ HR o x) as (b' & Hb' & Hloc); [by eapply part_ints|]. rewrite (holds_block _ _ _ _ Hb') in Hbo. by injection Hbo as ->. }
    assert (Hbs : forall o, o ∈ I -> block_of st o = Some b -> shared I (shared_blocks st I Bt) b).
    { intros o Ho Hb. assert (HB : b ∈ shared_blocks st I Bt) by (apply shared_blocks_spec; eauto). destruct (dv_shared _ _ _ _ HD T o M Ho) as [x Hx]. destruct (Hblk T o x M Hx Hb) as [->|[n ->]]; done. }
    assert (Htx : forall T0 o, T0 ∈ Ts -> is_Some (text T0 !! b) -> b <> Sng o).
    { intros T0 o HT0 [l Hl]. eapply (rep_bufs_sng _ _ _ HR). rewrite Ht. by eapply part_text. }
    assert (Hxb : forall T0 T1 o, T0 ∈ Ts -> T1 ∈ Ts -> is_Some (text T0 !! b) -> has T1 o -> block_of st o <> Some b).
    { intros T0 T1 o HT0 HT1 [l Hl] [x Hx]. eapply (rep_bufs_apart _ _ _ HR); [rewrite Ht; by apply (part_text T0 _ _ HT0 Hl)|by apply (part_ints T1 _ _ HT1 Hx)]. }
    destruct Hz as [(o & -> & Hk)|[(o & [x Hx] & Hbo)|Hz]], Hz' as [(o' & E' & Hk')|[(o' & [x' Hx'] & Hbo')|Hz']].
    + injection E' as <-. simpl. by eapply (dv_apart _ _ _ _ HD i j).
    + destruct (Hblk T' o' x' M' Hx' Hbo') as [[= ->]|[n ?]]; [|done]. simpl. eapply (dv_apart _ _ _ _ HD i j); [done|done|done|done|left; eauto].
    + by destruct (Htx T' o M' Hz' eq_refl).
    + subst b. destruct (Hblk T o x M Hx Hbo) as [[= ->]|[n ?]]; [|done]. simpl. eapply (dv_apart _ _ _ _ HD i j); [done|done|done|left; eauto|done].
    + assert (o' = o) as ->. { eapply (rep_apart _ _ _ HR); [by apply (part_ints T' _ _ M' Hx')|by apply (part_ints T _ _ M Hx)|congruence]. }
      eapply (Hbs o); [|done]. eapply (dv_apart _ _ _ _ HD i j); [done|done|done|left; eauto|left; eauto].
    + destruct (Hxb T' T o M' M Hz' (ex_intro _ x Hx) Hbo).
    + subst b. by destruct (Htx T o' M Hz eq_refl).
    + destruct (Hxb T T' o' M M' Hz (ex_intro _ x' Hx') Hbo').
    + assert (HB : b ∈ Bt) by (by eapply (dv_apart_text _ _ _ _ HD i j)). assert (HB' : b ∈ shared_blocks st I Bt) by (apply shared_blocks_spec; eauto). destruct b; [by destruct (Htx T o M Hz)|done|done].
  - intros o [z Hz]. assert (exists T, T ∈ Ts /\ known T o) as (T & M & Hk).
    { destruct (ints S !! o) as [x|] eqn:E; [apply (dv_ints _ _ _ _ HD) in E as (T & M & E); exists T; split; [done|left; eauto]|].
      rewrite (rep_others _ _ _ HR o E) in Hz. destruct (raws S !! o) as [c|] eqn:E2; [|apply H1 in E2; congruence]. apply (dv_raws _ _ _ _ HD) in E2 as (T & M & E2). exists T. split; [done|right; eauto]. }
    apply elem_of_list_lookup_1 in M as [i Hi]. exists i, (view st T). rewrite list_lookup_fmap, Hi. split; [done|]. exists z. by apply view_obj.
  - intros b [l Hl]. assert (exists T, T ∈ Ts /\ owns st T b) as (T & M & Hk).
    { destruct (rep_all _ _ _ HR _ _ Hl) as [(o & x & Hx & Hb)|[(o & -> & [z Hz])|[l' Hb]]].
      - apply (dv_ints _ _ _ _ HD) in Hx as (T & M & E). exists T. split; [done|]. right; left. exists o. split; [by exists x|done].
      - destruct (ints S !! o) as [x|] eqn:E; [apply (dv_ints _ _ _ _ HD) in E as (T & M & E); exists T; split; [done|]; left; exists o; split; [done|left; eauto]|].
        rewrite (rep_others _ _ _ HR o E) in Hz. destruct (raws S !! o) as [c|] eqn:E2; [|apply H1 in E2; congruence]. apply (dv_raws _ _ _ _ HD) in E2 as (T & M & E2). exists T. split; [done|]. left; exists o; split; [done|right; eauto].
      - rewrite Ht in Hb. apply (dv_text _ _ _ _ HD) in Hb as (T & M & E). exists T. split; [done|]. right; right. eauto. }
    apply elem_of_list_lookup_1 in M as [i Hi]. exists i, (view st T). rewrite list_lookup_fmap, Hi. split; [done|]. exists l. by apply view_mem.
Qed.
End divide.

(** ** Putting together *)
Lemma holds_mono v st o b x : objs v ⊆ objs st -> mem v ⊆ mem st -> holds v o b x -> holds st o b x.
Proof.
  intros H1 H2 (al & us & sg & ds & rs & K1 & K2 & K3). exists al, us, sg, ds, rs. split; [by eapply lookup_weaken|]. split; [by eapply lookup_weaken|done].
Qed.
Lemma holds_fun st o b b' x x' : holds st o b x -> holds st o b' x' -> x = x'.
Proof.
  intros (al & us & sg & ds & rs & K1 & K2 & K3 & K4 & K5 & K6 & K7 & K8 & K9) (al' & us' & sg' & ds' & rs' & L1 & L2 & L3 & L4 & L5 & L6 & L7 & L8 & L9).
  rewrite K1 in L1. injection L1 as <- <- <- <-. rewrite K2 in L2. injection L2 as L2. assert (E : length ds = length ds') by lia.
  apply app_inj_1 in L2 as [L2 _]; [|by rewrite !fmap_length]. apply (inj (fmap Some)) in L2 as <-. destruct K9 as [[? ?]|(? & ? & ?)], L9 as [[? ?]|(? & ? & ?)]; lia.
Qed.

Section union.
Context {K V : Type} `{Countable K} (f : store -> gmap K V).
Definition unite (Ts : list store) : gmap K V := foldr (fun T m => f T ∪ m) ∅ Ts.
Lemma unite_spec Ts k x : (forall T T' y y', T ∈ Ts -> T' ∈ Ts -> f T !! k = Some y -> f T' !! k = Some y' -> y = y') ->
  unite Ts !! k = Some x <-> exists T, T ∈ Ts /\ f T !! k = Some x.
Proof.
  induction Ts as [|T Ts IH]; intros HA; simpl.
  - rewrite lookup_empty. split; [done|]. by intros (T & HT & _); apply elem_of_nil in HT.
  - rewrite lookup_union_Some_raw, IH by (intros T1 T2 y y' M1 M2; apply HA; by right). split.
    + intros [Hx|[_ (T' & M & Hx)]]; [exists T; split; [by left|done]|exists T'; split; [by right|done]].
    + intros (T' & M & Hx). apply elem_of_cons in M as [->|M]; [by left|]. destruct (f T !! k) as [y|] eqn:E; [left; f_equal; eapply (HA T T'); [by left|by right|done|done]|]. right. split; [done|eauto].
Qed.
End union.

Lemma join I Bt B vs Ts st : conf I B vs st -> length vs = length Ts -> tunables_ok (glob st) ->
  (forall i v T, vs !! i = Some v -> Ts !! i = Some T -> tinv I Bt B v T) ->
  exists S, divided I Bt S Ts /\ shows st S.
Proof.
  intros C Hl Hg HT.
  assert (HV : forall T, T ∈ Ts -> exists i v, vs !! i = Some v /\ Ts !! i = Some T /\ tinv I Bt B v T /\ objs v ⊆ objs st /\ mem v ⊆ mem st).
  { intros T M. apply elem_of_list_lookup_1 in M as [i Hi]. destruct (lookup_lt_is_Some_2 vs i) as [v Hv]; [rewrite Hl; by eapply lookup_lt_Some|].
    exists i, v. split_and!; [done|done|by eapply HT|by eapply cf_o|by eapply cf_m]. }
  assert (HW : forall i v, vs !! i = Some v -> exists T, T ∈ Ts /\ Ts !! i = Some T /\ tinv I Bt B v T).
  { intros i v Hi. destruct (lookup_lt_is_Some_2 Ts i) as [T Hi']; [rewrite <- Hl; by eapply lookup_lt_Some|]. exists T. split_and!; [by eapply elem_of_list_lookup_2|done|by eapply HT]. }
  assert (Hko : forall v T o, tinv I Bt B v T -> known T o <-> is_Some (objs v !! o)).
  { intros v T o ((W & HR & Ht & H1 & H2 & H3) & _). split.
    - intros [[x Hx]|[c Hc]]; [destruct (rep_holds _ _ _ HR _ _ Hx) as (b & Hb & _); apply (holds_mem _ _ _ _ Hb)|].
      destruct (blanks W !! o) as [z|] eqn:E; [|apply H1 in E; congruence]. rewrite (rep_others _ _ _ HR o); [by exists z|]. destruct (ints T !! o) eqn:E2; [|done]. by rewrite (rep_blanks _ _ _ HR _ _ E2) in E.
    - intros [z Hz]. destruct (ints T !! o) as [x|] eqn:E; [left; eauto|right]. rewrite (rep_others _ _ _ HR o E) in Hz. destruct (raws T !! o) as [c|] eqn:E2; [by exists c|apply H1 in E2; congruence]. }
  assert (Hnb : forall v T o c, tinv I Bt B v T -> raws T !! o = Some c -> ints T !! o = None).
  { intros v T o c ((W & HR & Ht & H1 & H2 & H3) & _) Hc. destruct (ints T !! o) as [x|] eqn:E; [|done]. apply (rep_blanks _ _ _ HR) in E. apply H1 in E. congruence. }
  assert (Hap : forall i j Ti Tj o, Ts !! i = Some Ti -> Ts !! j = Some Tj -> i <> j -> known Ti o -> known Tj o -> o ∈ I).
  { intros i j Ti Tj o Hi Hj N Ki Kj. destruct (lookup_lt_is_Some_2 vs i) as [v Hv]; [rewrite Hl; by eapply lookup_lt_Some|]. destruct (lookup_lt_is_Some_2 vs j) as [w Hw]; [rewrite Hl; by eapply lookup_lt_Some|].
    eapply (cf_od _ _ _ _ C i j); [done|done|done| |]; eapply Hko; by eauto. }
  assert (Hapt : forall i j Ti Tj b, Ts !! i = Some Ti -> Ts !! j = Some Tj -> i <> j -> is_Some (text Ti !! b) -> is_Some (text Tj !! b) -> b ∈ Bt).
  { intros i j Ti Tj b Hi Hj N Ki Kj. destruct (lookup_lt_is_Some_2 vs i) as [v Hv]; [rewrite Hl; by eapply lookup_lt_Some|]. destruct (lookup_lt_is_Some_2 vs j) as [w Hw]; [rewrite Hl; by eapply lookup_lt_Some|].
    assert (Hm : forall v T, tinv I Bt B v T -> is_Some (text T !! b) -> is_Some (mem v !! b)). { intros v0 T0 ((W & HR & Ht & _) & _) [l Hlt]. exists l. apply (rep_bufs _ _ _ HR). by rewrite Ht. }
    eapply (tinv_shared_text I Bt B v Ti); [by eapply HT|done|]. eapply (cf_md _ _ _ _ C i j); [done|done|done| |]; eapply Hm; by eauto. }
  assert (Hsh : forall T o, T ∈ Ts -> o ∈ I -> is_Some (ints T !! o)). { intros T o M Ho. destruct (HV T M) as (i & v & _ & _ & (_ & H1 & _) & _). by apply H1. }
  assert (Hsht : forall T o, T ∈ Ts -> o ∈ Bt -> is_Some (text T !! o)). { intros T o M Ho. destruct (HV T M) as (i & v & _ & _ & (_ & _ & H1 & _) & _). by apply H1. }
  assert (AI : forall T o x, T ∈ Ts -> ints T !! o = Some x -> exists b, holds st o b x /\ (b = Sng o \/ exists n, b = Hp n)).
  { intros T o x M Ho. destruct (HV T M) as (i & v & _ & _ & ((W & HR & _) & _) & S1 & S2). destruct (rep_holds _ _ _ HR _ _ Ho) as (b & Hb & Hloc). exists b. split; [by eapply holds_mono|done]. }
  assert (AT : forall T b l, T ∈ Ts -> text T !! b = Some l -> mem st !! b = Some l /\ forall o, b <> Sng o).
  { intros T b l M Hb. destruct (HV T M) as (i & v & _ & _ & ((W & HR & Ht & _) & _) & S1 & S2). rewrite <- Ht in Hb. split; [|intros o; by eapply (rep_bufs_sng _ _ _ HR)]. eapply lookup_weaken; [by apply (rep_bufs _ _ _ HR)|done]. }
  assert (AR : forall T T' o c, T ∈ Ts -> T' ∈ Ts -> raws T !! o = Some c -> known T' o -> T' = T).
  { intros T T' o c M M' Hc Hk. destruct (HV T M) as (i & v & Hi & Hi' & Hv & _), (HV T' M') as (j & w & Hj & Hj' & Hw & _). destruct (decide (i = j)) as [->|N]; [congruence|].
    assert (Ho : o ∈ I) by (eapply (Hap i j); [done|done|done|right; eauto|done]). destruct (Hsh T o M Ho) as [x Hx]. by rewrite (Hnb _ _ _ _ Hv Hc) in Hx. }
  set (S := Store (unite ints Ts) (unite raws Ts) (foldr (fun T m => dyns T ∪ m) ∅ Ts) (unite text Ts)).
  assert (EI : forall o x, ints S !! o = Some x <-> exists T, T ∈ Ts /\ ints T !! o = Some x).
  { intros o x. apply unite_spec. intros T T' y y' M M' Hy Hy'. destruct (AI T o y M Hy) as (b & Hb & _), (AI T' o y' M' Hy') as (b' & Hb' & _). by eapply holds_fun. }
  assert (ER : forall o x, raws S !! o = Some x <-> exists T, T ∈ Ts /\ raws T !! o = Some x).
  { intros o x. apply unite_spec. intros T T' y y' M M' Hy Hy'. rewrite (AR T T' o y) in Hy' by (try done; right; eauto). congruence. }
  assert (ET : forall o x, text S !! o = Some x <-> exists T, T ∈ Ts /\ text T !! o = Some x).
  { intros o x. apply unite_spec. intros T T' y y' M M' Hy Hy'. destruct (AT T o y M Hy) as [E1 _], (AT T' o y' M' Hy') as [E2 _]. congruence. }
  assert (EN : forall o c, raws S !! o = Some c -> ints S !! o = None).
  { intros o c Hc. apply ER in Hc as (T & M & Hc). destruct (ints S !! o) as [x|] eqn:E; [|done]. apply EI in E as (T' & M' & E). rewrite (AR T T' o c) in E by (try done; left; eauto).
    destruct (HV T M) as (i & v & _ & _ & Hv & _). by rewrite (Hnb _ _ _ _ Hv Hc) in E. }
  assert (ED : forall o, o ∈ dyns S <-> exists T, T ∈ Ts /\ o ∈ dyns T).
  { intros o. simpl. clear. induction Ts as [|T Ts IH]; simpl.
    - split; [by intros ?%elem_of_empty|]. by intros (T & HT & _); apply elem_of_nil in HT.
    - rewrite elem_of_union, IH. split.
      + intros [Ho|(T' & M & Ho)]; [exists T; split; [by left|done]|exists T'; split; [by right|done]].
      + intros (T' & M & Ho). apply elem_of_cons in M as [->|M]; [by left|right; eauto]. }
  clearbody S. exists S. split.
  - by constructor.
  - assert (exists BL : gmap oid mpz, forall o z, BL !! o = Some z <-> objs st !! o = Some z /\ ints S !! o = None) as [BL HB].
    { exists (filter (fun p : oid * mpz => p.1 ∉ dom (ints S)) (objs st)). intros o z. rewrite map_filter_lookup_Some. simpl. by rewrite not_elem_of_dom. }
    exists (World (text S) BL (glob st)). simpl.
    assert (HO : forall o z, objs st !! o = Some z -> exists i v T, vs !! i = Some v /\ T ∈ Ts /\ tinv I Bt B v T /\ objs v !! o = Some z).
    { intros o z Hz. destruct (cf_oc _ _ _ _ C o) as (i & v & Hi & [z' Hz']); [eauto|]. destruct (HW i v Hi) as (T & M & _ & Hv). exists i, v, T. split_and!; [done..|].
      assert (objs st !! o = Some z') by (by eapply lookup_weaken, (cf_o _ _ _ _ C i)). congruence. }
    assert (HRaw : forall o c T, T ∈ Ts -> raws T !! o = Some c -> exists z, objs st !! o = Some z /\ (c = true -> digits z = None)).
    { intros o c T M Hc. destruct (HV T M) as (i & v & _ & _ & Hv & S1 & S2). assert (Hn := Hnb _ _ _ _ Hv Hc). destruct Hv as ((W & HR & Ht & H1 & H2 & H3) & _).
      destruct (blanks W !! o) as [z|] eqn:E; [|apply H1 in E; congruence]. exists z. split; [|intros ->; by eapply H2]. eapply lookup_weaken; [|done]. by rewrite (rep_others _ _ _ HR o Hn). }
    split_and!; [|done| | |].
    + constructor; simpl.
      * intros o x Ho. apply EI in Ho as (T & M & Ho). by eapply AI.
      * intros o1 o2 x1 x2 Ho1 Ho2 Hb. apply EI in Ho1 as (T1 & M1 & Ho1), Ho2 as (T2 & M2 & Ho2).
        destruct (HV T1 M1) as (i & v & Hi & Hi' & Hv & S1 & S2), (HV T2 M2) as (j & w & Hj & Hj' & Hw & S3 & S4).
        destruct (Hv) as ((W & HR & _) & _). destruct (Hw) as ((W' & HR' & _) & _). destruct (rep_holds _ _ _ HR _ _ Ho1) as (b & Hb1 & _). destruct (rep_holds _ _ _ HR' _ _ Ho2) as (b' & Hb2 & _).
        assert (b' = b) as ->. { assert (G1 := holds_block _ _ _ _ (holds_mono _ _ _ _ _ S1 S2 Hb1)). assert (G2 := holds_block _ _ _ _ (holds_mono _ _ _ _ _ S3 S4 Hb2)). congruence. }
        destruct (decide (i = j)) as [->|N].
        { simplify_eq. eapply (rep_apart _ _ _ HR); [done|done|]. by rewrite (holds_block _ _ _ _ Hb1), (holds_block _ _ _ _ Hb2). }
        assert (Hs : shared I B b). { eapply (cf_md _ _ _ _ C i j); [done|done|done|apply (holds_mem _ _ _ _ Hb1)|apply (holds_mem _ _ _ _ Hb2)]. }
        assert (o2 ∈ I) as HoI by (eapply (tinv_shared_block I Bt B w T2); [done|done|by apply (holds_block _ _ _ _ Hb2)|done]).
        destruct (Hsh T1 o2 M1 HoI) as [y Hy]. eapply (rep_apart _ _ _ HR); [done|done|]. rewrite (holds_block _ _ _ _ Hb1).
        destruct (rep_holds _ _ _ HR _ _ Hy) as (b2 & Hb2' & _). rewrite (holds_block _ _ _ _ Hb2').
        assert (G1 := holds_block _ _ _ _ (holds_mono _ _ _ _ _ S1 S2 Hb2')). assert (G2 := holds_block _ _ _ _ (holds_mono _ _ _ _ _ S3 S4 Hb2)). congruence.
      * intros o Ho. destruct (objs st !! o) as [z|] eqn:E; [by rewrite (proj2 (HB o z) (conj E Ho))|]. destruct (BL !! o) as [z|] eqn:E2; [|done]. apply HB in E2 as [? _]. congruence.
      * intros o x Ho. destruct (BL !! o) as [z|] eqn:E2; [|done]. apply HB in E2 as [_ E2]. congruence.
      * intros b l Hb. apply ET in Hb as (T & M & Hb). by eapply AT.
      * intros b l o x Hb Ho. apply ET in Hb as (T & M & Hb). destruct (AT T b l M Hb) as [E1 E2]. split; [|by apply E2]. intros E. apply EI in Ho as (T' & M' & Ho).
        destruct (HV T M) as (i & v & Hi & Hi' & Hv & S1 & S2), (HV T' M') as (j & w & Hj & Hj' & Hw & S3 & S4). destruct (Hv) as ((W & HR & Ht & _) & _). destruct (Hw) as ((W' & HR' & Ht' & _) & _).
        destruct (rep_holds _ _ _ HR' _ _ Ho) as (b' & Hb' & _). assert (b' = b) as ->. { assert (G2 := holds_block _ _ _ _ (holds_mono _ _ _ _ _ S3 S4 Hb')). congruence. }
        destruct (decide (i = j)) as [->|N]. { simplify_eq. rewrite <- Ht in Hb. destruct (rep_bufs_apart _ _ _ HR _ _ _ _ Hb Ho) as [N _]. by rewrite (holds_block _ _ _ _ Hb') in N. }
        assert (Hbv : mem v !! b = Some l) by (apply (rep_bufs _ _ _ HR); by rewrite Ht).
        assert (Hs : shared I B b). { eapply (cf_md _ _ _ _ C i j); [done|done|done|eauto|apply (holds_mem _ _ _ _ Hb')]. }
        assert (HbB : b ∈ Bt) by (eapply (tinv_shared_text I Bt B v T); [done|eauto|done]). destruct (Hsht T' b M' HbB) as [l' Hl']. rewrite <- Ht' in Hl'.
        destruct (rep_bufs_apart _ _ _ HR' _ _ _ _ Hl' Ho) as [N' _]. by rewrite (holds_block _ _ _ _ Hb') in N'.
      * intros b l o Hb. apply ET in Hb as (T & M & Hb). by eapply AT.
      * intros b l Hb. destruct (cf_mc _ _ _ _ C b) as (i & v & Hi & [l' Hl']); [eauto|]. destruct (HW i v Hi) as (T & M & _ & ((W & HR & Ht & _) & _)).
        assert (S1 := cf_o _ _ _ _ C _ _ Hi). assert (S2 := cf_m _ _ _ _ C _ _ Hi). destruct (rep_all _ _ _ HR _ _ Hl') as [(o & x & Hx & Hbo)|[(o & -> & [z Hz])|[l2 Hb2]]].
        -- left. exists o, x. split; [apply EI; eauto|]. destruct (rep_holds _ _ _ HR _ _ Hx) as (b' & Hb' & _). rewrite (holds_block _ _ _ _ Hb') in Hbo. injection Hbo as ->. by eapply holds_block, holds_mono.
        -- right; left. exists o. split; [done|]. exists z. by eapply lookup_weaken.
        -- right; right. exists l2. apply ET. exists T. by rewrite <- Ht.
      * intros o [z Hz]. destruct (HO o z Hz) as (i & v & T & Hi & M & ((W & HR & _) & _) & Hzv). destruct (rep_sng _ _ _ HR o) as [c Hc]; [eauto|]. exists c. eapply lookup_weaken; [done|]. by eapply cf_m.
      * done.
      * done.
    + intros o. split; intros Hn.
      * destruct (BL !! o) as [z|] eqn:E; [|done]. apply HB in E as [E1 E2]. destruct (HO o z E1) as (i & v & T & Hi & M & Hv & Hzv). destruct (proj2 (Hko v T o Hv) (ex_intro _ z Hzv)) as [[x Hx]|[c Hc]].
        -- assert (ints S !! o = Some x) by (apply EI; eauto). congruence.
        -- assert (raws S !! o = Some c) by (apply ER; eauto). congruence.
      * destruct (raws S !! o) as [c|] eqn:E; [|done]. assert (E2 := EN _ _ E). apply ER in E as (T & M & E). destruct (HRaw o c T M E) as (z & Hz & _). by rewrite (proj2 (HB o z) (conj Hz E2)) in Hn.
    + intros o z Hr Hz. apply HB in Hz as [Hz _]. apply ER in Hr as (T & M & Hr). destruct (HRaw o true T M Hr) as (z' & Hz' & Hd). assert (z' = z) as -> by congruence. by apply Hd.
    + intros o Ho. apply ED in Ho as (T & M & HoT).
      destruct (HV T M) as (i & v & _ & _ & ((W & HR & Ht & H1 & H2 & H3) & _) & _). by apply H3.
Qed.

Lemma interleaves_none {A : Type} st ps' st' : interleaves ([] : list (prog A)) st ps' st' -> ps' = [] /\ st' = st.
Proof. intros H. inversion H; subst; done. Qed.
