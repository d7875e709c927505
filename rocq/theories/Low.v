(** Any careful client withstands refused requests in the [NDEBUG] build. *)
From Coq Require Import ZArith Znumtheory List Lia.
From stdpp Require Import gmap list.
From Verif Require Import Mem Prog Kern Fp Imath Wp KernLem Rel RelWp Rel RelZ Divi Spec SpecBin SpecHist SpecRef SpecLow Public Gcd Root Exptmod Buf Text Outlen Read Bin Refuse Soft Soft2 Soft3 Soft4 Soft5 Soft6 Hist.
Local Open Scope Z_scope.
Local Open Scope prog_scope.

Record LX (T : lowstore) (B : gmap oid base) (X : ctx) : Prop := {
  lx_thr : multiply_threshold (cglob X) = threshold T;
  lx_dom : forall o, o ∈ lost T <-> is_Some (B !! o);
  lx_lost : forall o b, B !! o = Some b -> lost_in X o b;
  lx_inj : forall o1 o2 b, B !! o1 = Some b -> B !! o2 = Some b -> o1 = o2;
  lx_apart : forall o b, B !! o = Some b -> text (held T) !! b = None;
  lx_text : forall b, (forall o, B !! o <> Some b) -> cmem X !! b = text (held T) !! b;
  lx_raws0 : forall o, o ∈ lost T -> raws (held T) !! o = None;
  lx_raws : forall o, o ∉ lost T -> (raws (held T) !! o = None <-> craw X !! o = None);
  lx_null : forall o z, raws (held T) !! o = Some true -> craw X !! o = Some z -> digits z = None;
  lx_dyn : forall o, o ∈ dyns (held T) -> o.1 = true
}.
Definition LH (st : state) (T : lowstore) : Prop := exists X B, RV st (ints (held T)) X /\ LX T B X.
Lemma shows_LH st T : shows_low st T <-> LH st T.
Proof.
  split.
  - intros (W & B & HR & H1 & H2 & H3 & H4 & H5 & H6 & H7 & H8 & H9 & H10). exists (ctx_of W), B. split; [by apply Rep_RV|]. by constructor.
  - intros (X & B & HR & [H1 H2 H3 H4 H5 H6 H7 H8 H9 H10]). exists (world_of X), B. split; [by apply RV_Rep|]. by split_and!.
Qed.
Lemma LX_held S T B X : LX T B X -> raws S = raws (held T) -> dyns S = dyns (held T) -> text S = text (held T) -> LX (with_held S T) B X.
Proof. intros [H1 H2 H3 H4 H5 H6 H7 H8 H9 H10] E1 E2 E3. constructor; cbn [held lost threshold with_held]; rewrite ?E1, ?E2, ?E3; done. Qed.
Lemma LX_text_has T B X b l : LX T B X -> text (held T) !! b = Some l -> cmem X !! b = Some l.
Proof. intros HX Hb. rewrite (lx_text _ _ _ HX); [done|]. intros o Ho. apply (lx_apart _ _ _ HX) in Ho. congruence. Qed.
Lemma LX_text T B X b l l0 : LX T B X -> text (held T) !! b = Some l0 -> LX (with_held (put_text b l (held T)) T) B (setb X b l).
Proof.
  intros HX Hb. assert (forall o, B !! o <> Some b) as N. { intros o Ho. apply (lx_apart _ _ _ HX) in Ho. congruence. }
  destruct HX as [H1 H2 H3 H4 H5 H6 H7 H8 H9 H10]. constructor; cbn [held lost threshold with_held put_text raws dyns text setb with_cmem cmem craw cglob]; try done.
  - intros o b' Ho. destruct (H3 o b' Ho) as (z & Z1 & Z2 & Z3). exists z. split; [done|]. split; [done|]. destruct Z3 as [->|(n & l' & -> & Hl)]; [by left|right]. exists n, l'. split; [done|].
    cbn. rewrite lookup_insert_ne; [done|]. intros ->. by eapply N.
  - intros o b' Ho. rewrite lookup_insert_ne; [by eapply H5|]. intros ->. by eapply N.
  - intros b' Hb'. destruct (decide (b = b')) as [<-|N']; [by rewrite !lookup_insert|]. rewrite !lookup_insert_ne by done. by apply H6.
Qed.
Lemma LX_blank T B X o : LX T B X -> blank_at (held T) o -> o ∉ lost T /\ exists z, craw X !! o = Some z.
Proof.
  intros HX [c E]. assert (o ∉ lost T) as N by (intros H; apply (lx_raws0 _ _ _ HX) in H; congruence). split; [done|].
  destruct (craw X !! o) eqn:E2; [eauto|]. apply (lx_raws _ _ _ HX) in E2; [congruence|done].
Qed.
Lemma lost_ne T B X o b : LX T B X -> o ∉ lost T -> B !! o <> Some b.
Proof. intros HX N E. apply N, (lx_dom _ _ _ HX). eauto. Qed.
Lemma LX_new T B X o v : LX T B X -> o ∉ lost T -> LX (with_held (put_new o v (held T)) T) B (with_craw X (delete o (craw X))).
Proof.
  intros HX N. destruct HX as [H1 H2 H3 H4 H5 H6 H7 H8 H9 H10]. constructor; cbn [held lost threshold with_held put_new raws dyns text with_craw cmem craw cglob]; try done.
  - intros o' b' Ho. destruct (H3 o' b' Ho) as (z & Z1 & Z2 & Z3). exists z. split; [|done]. cbn. rewrite lookup_delete_ne; [done|]. intros <-. apply N, H2. eauto.
  - intros o' Ho. rewrite lookup_delete_None. auto.
  - intros o' Ho. rewrite !lookup_delete_None, H8 by done. done.
  - intros o' z. rewrite !lookup_delete_Some. intros [_ A] [_ C]. by eapply H9.
Qed.
(** A structure that holds no storage. *)
Lemma LX_null T B X o z S : LX T B X -> o ∉ lost T -> digits z = None -> raws S = <[o := true]> (raws (held T)) -> dyns S = dyns (held T) -> text S = text (held T) ->
  LX (with_held S T) B (with_craw X (<[o := z]> (craw X))).
Proof.
  intros [H1 H2 H3 H4 H5 H6 H7 H8 H9 H10] N Hz E1 E2 E3. constructor; cbn [held lost threshold with_held raws dyns text with_craw cmem craw cglob]; rewrite ?E1, ?E2, ?E3; try done.
  - intros o' b' Ho. destruct (H3 o' b' Ho) as (z' & Z1 & Z2 & Z3). exists z'. split; [|done]. cbn. rewrite lookup_insert_ne; [done|]. intros <-. apply N, H2. eauto.
  - intros o' Ho. rewrite lookup_insert_ne; [auto|]. by intros <-.
  - intros o' Ho. rewrite !lookup_insert_None, H8 by done. done.
  - intros o' z'. destruct (decide (o = o')) as [<-|N']; [rewrite !lookup_insert; by intros _ [= <-]|]. rewrite !lookup_insert_ne by done. apply H9.
Qed.
(** An integer is lost. *)
Lemma LX_lose T B X c b X' : LX T B X -> craw X !! c = None -> loses X c b X' -> LX (lose c T) (<[c := b]> B) X'.
Proof.
  intros HX Hc (HL & HG & HC & HM & Hb). destruct HX as [H1 H2 H3 H4 H5 H6 H7 H8 H9 H10].
  assert (B !! c = None) as Bc. { destruct (B !! c) eqn:E; [|done]. destruct (H3 _ _ E) as (z & Z & _). congruence. }
  assert (c ∉ lost T) as N by (intros H; apply H2 in H as [? ?]; congruence).
  assert (raws (held T) !! c = None) as Rc by (by apply H8).
  assert (forall o, B !! o <> Some b) as NB.
  { intros o Ho. destruct (H3 _ _ Ho) as (z & _ & _ & [->|(n & l & -> & Hl)]); [|congruence]. destruct HL as (z' & _ & _ & [[= ->]|(n & l & ? & _)]); [congruence|done]. }
  constructor; cbn [held lost threshold lose raws dyns text]; try done.
  - by rewrite HG.
  - intros o. rewrite elem_of_union, elem_of_singleton, H2. destruct (decide (c = o)) as [<-|N']; [rewrite lookup_insert; split; [eauto|by left]|]. rewrite lookup_insert_ne by done. split; [by intros [?|?]|by right].
  - intros o b'. destruct (decide (c = o)) as [<-|N']; [rewrite lookup_insert; by intros [= <-]|]. rewrite lookup_insert_ne by done. intros Ho.
    destruct (H3 _ _ Ho) as (z & Z1 & Z2 & Z3). exists z. rewrite HC by done. split; [done|]. split; [done|]. rewrite HM; [done|]. intros ->. by eapply NB.
  - intros o1 o2 b'. destruct (decide (c = o1)) as [<-|N1], (decide (c = o2)) as [<-|N2]; rewrite ?lookup_insert, ?lookup_insert_ne by done; [done|intros [= <-] Hx; by apply NB in Hx|intros Hx [= <-]; by apply NB in Hx|apply H4].
  - intros o b'. destruct (decide (c = o)) as [<-|N']; [rewrite lookup_insert; intros [= <-]|rewrite lookup_insert_ne by done; apply H5]. by rewrite <- H6.
  - intros b' Hb'. rewrite HM. 2:{ intros ->. apply (Hb' c). apply lookup_insert. } apply H6. intros o Ho. apply (Hb' o). rewrite lookup_insert_ne; [done|]. intros <-. congruence.
  - intros o [->%elem_of_singleton|Ho]%elem_of_union; [done|by apply H7].
  - intros o [N1 N2]%not_elem_of_union. rewrite not_elem_of_singleton in N1. rewrite HC by done. by apply H8.
  - intros o z Ho. rewrite HC; [by apply H9|]. intros ->. congruence.
Qed.
(** A lost integer is released. *)
Lemma LX_found T B X o b raw' craw' dyn' is' : LX T B X -> B !! o = Some b ->
  ((exists z, digits z = None /\ raw' = <[o := true]> (raws (held T)) /\ craw' = <[o := z]> (craw X)) \/ (raw' = raws (held T) /\ craw' = delete o (craw X))) -> dyn' ⊆ dyns (held T) ->
  LX (Low (Store is' raw' dyn' (text (held T))) (lost T ∖ {[o]}) (threshold T)) (delete o B) (Ctx (delete b (cmem X)) craw' (cglob X)).
Proof.
  intros HX Hb HC HD. destruct HX as [H1 H2 H3 H4 H5 H6 H7 H8 H9 H10].
  assert (forall o', o' <> o -> raw' !! o' = raws (held T) !! o' /\ craw' !! o' = craw X !! o') as HE.
  { intros o' N. destruct HC as [(z & _ & -> & ->)|[-> ->]]; [by rewrite !lookup_insert_ne|by rewrite lookup_delete_ne]. }
  constructor; cbn [held lost threshold raws dyns text cmem craw cglob]; try done.
  - intros o'. rewrite elem_of_difference, not_elem_of_singleton, H2. destruct (decide (o = o')) as [<-|N]; [rewrite lookup_delete; split; [by intros [? ?]|by intros [? ?]]|]. rewrite lookup_delete_ne by done. split; [by intros [? ?]|done].
  - intros o' b' [N Ho]%lookup_delete_Some. destruct (H3 _ _ Ho) as (z & Z1 & Z2 & Z3). exists z. cbn [cmem craw]. rewrite (proj2 (HE o' ltac:(done))). split; [done|]. split; [done|].
    rewrite lookup_delete_ne; [done|]. intros <-. by apply N, (H4 _ _ b).
  - intros o1 o2 b' [_ A]%lookup_delete_Some [_ C]%lookup_delete_Some. by eapply H4.
  - intros o' b' [_ A]%lookup_delete_Some. by eapply H5.
  - intros b' Hb'. destruct (decide (b = b')) as [<-|N]; [rewrite lookup_delete; symmetry; by eapply H5|]. rewrite lookup_delete_ne by done. apply H6. intros o' Ho'. apply (Hb' o'). rewrite lookup_delete_ne; [done|]. intros <-. congruence.
  - intros o' [Ho N]%elem_of_difference. rewrite not_elem_of_singleton in N. rewrite (proj1 (HE o' ltac:(done))). by apply H7.
  - intros o' N. destruct (decide (o' = o)) as [->|N'].
    + destruct HC as [(z & _ & -> & ->)|[-> ->]]; [by rewrite !lookup_insert|]. rewrite lookup_delete, (H7 o); [done|]. apply H2. eauto.
    + destruct (HE o' N') as [-> ->]. apply H8. intros H. apply N. set_solver.
  - intros o' z. destruct (decide (o' = o)) as [->|N'].
    + destruct HC as [(z' & Hz & -> & ->)|[-> ->]]; [rewrite !lookup_insert; by intros _ [= <-]|]. by rewrite lookup_delete.
    + destruct (HE o' N') as [-> ->]. apply H9.
  - intros o' Ho. apply H10. set_solver.
Qed.
Lemma RV_raw_none st V X o v : RV st V X -> V !! o = Some v -> craw X !! o = None.
Proof. intros H Ho. apply RV_Rep in H. exact (rep_blanks _ _ _ H _ _ Ho). Qed.
Lemma RV_int_none st V X o z : RV st V X -> craw X !! o = Some z -> V !! o = None.
Proof. intros H Ho. destruct (V !! o) eqn:E; [|done]. eapply RV_raw_none in E; [|done]. congruence. Qed.

Ltac sp := first [apply s_quiet; [solve [qt]|]|apply s_plain; [solve [apply p_compare_value|apply p_compare_uvalue|apply p_to_int|apply p_to_uint|apply p_alloc|apply p_free|apply p_default_precision|apply p_multiply_threshold]|]].
Ltac sb := apply soft_bind, wp_bind.
Definition ordinary (c : call) : Prop := match c with Clear _ | FreeInt _ | MultiplyThreshold _ => False | _ => True end.
Lemma works_ordinary c T r S' : ordinary c -> effect c (held T) r S' -> works c T r (with_held S' T).
Proof. intros Hc He. exists S'. split; [done|]. by destruct c. Qed.
Lemma one_call_low c st T (Q : answer -> state -> Prop) : LH st T -> safe c T -> (forall r T' st', answers c T r T' -> LH st' T' -> Q r st') -> sw (do_call c) Q st.
Proof.
  intros (X & B & HV & HX) HL HQ.
  set (S := held T) in *.
  assert (forall r T' st', works c T r T' -> LH st' T' -> Q r st') as HQW by (intros; eapply HQ; [by left|done]).
  assert (forall r T' st', fails c T r T' -> LH st' T' -> Q r st') as HQF by (intros; eapply HQ; [by right|done]).
  assert (with_held S T = T) as WS by (by destruct T).
  assert (forall r S' st', ordinary c -> effect c S r S' -> RV st' (ints S') X -> raws S' = raws S -> dyns S' = dyns S -> text S' = text S -> Q r st') as HQ1.
  { intros r S' st' Hc H1 H2 E1 E2 E3. eapply HQW; [by apply works_ordinary|]. exists X, B. split; [exact H2|]. by apply LX_held. }
  assert (forall r st', ordinary c -> effect c S r S -> RV st' (ints S) X -> Q r st') as HQ0 by (intros; by eapply HQ1).
  assert (forall r S' st', fails c T r (with_held S' T) -> RV st' (ints S') X -> raws S' = raws S -> dyns S' = dyns S -> text S' = text S -> Q r st') as HF1.
  { intros r S' st' H1 H2 E1 E2 E3. eapply HQF; [exact H1|]. exists X, B. split; [exact H2|]. by apply LX_held. }
  assert (forall r st', fails c T r T -> RV st' (ints S) X -> Q r st') as HF0 by (intros; eapply HQF; [done|by exists X, B]).
  assert (forall o v st', o ∉ lost T -> ordinary c -> effect c S (Num MP_OK) (put_new o v S) -> RV st' (<[o := v]> (ints S)) (with_craw X (delete o (craw X))) -> Q (Num MP_OK) st') as HQN.
  { intros. eapply HQW; [by apply works_ordinary|]. eexists _, B. split; [done|]. by apply LX_new. }
  assert (forall o z st', o ∉ lost T -> fails c T (Num MP_MEMORY) (with_held (Store (ints S) (<[o := true]> (raws S)) (dyns S) (text S)) T) ->
    RV st' (ints S) (with_craw X (<[o := nulled z]> (craw X))) -> Q (Num MP_MEMORY) st') as HFN.
  { intros. eapply HQF; [done|]. eexists _, B. split; [done|]. by apply LX_null. }
  assert (forall b l l0 r st', text S !! b = Some l0 -> ordinary c -> effect c S r (put_text b l S) -> RV st' (ints S) (setb X b l) -> Q r st') as HQT.
  { intros. eapply HQW; [by apply works_ordinary|]. eexists _, B. split; [done|]. by eapply LX_text. }
  assert (forall o v r st', ints S !! o = Some v -> fails c T r (lose o T) -> spoilt st' (ints S) X o -> Q r st') as HFS.
  { intros o v r st' Ho Hf Hs. destruct (spoilt_loses _ _ _ _ Hs) as (b & X' & HV' & Hl). eapply HQF; [exact Hf|]. exists X', (<[o := b]> B). split; [exact HV'|]. eapply LX_lose; [done| |done]. by eapply RV_raw_none. }
  assert (forall a, within T a -> short (cglob X) (val S a)) as HS.
  { intros a. unfold within, short. by rewrite (lx_thr _ _ _ HX). }
  assert (forall a b, (within T a /\ within T b) \/ lopsided (val S a) (val S b) \/ lopsided (val S b) (val S a) -> unsplit (cglob X) (val S a) (val S b)) as HU.
  { intros a b [[A1 A2]|A1]; [left; split; by apply HS|by right]. }
  destruct c; cbn [do_call safe legal ordinary] in *; fold S in HL; vals; try done.
  - destruct (LX_blank _ _ _ _ HX HL) as [N [z Hz]]. sp. eapply wpV_init; [done..|]. intros st' _ H'. apply s_ret. by eapply HQN.
  - destruct (LX_blank _ _ _ _ HX H) as [N [z Hz]]. sb. eapply sV_init_size; [done..| |].
    + intros st' H'. apply s_ret. by eapply HFN.
    + intros st' _ H'. apply s_ret. by eapply HQN.
  - destruct (LX_blank _ _ _ _ HX H) as [N [z Hz]]. sb. eapply sV_init_copy; [done..| |].
    + intros st' H'. apply s_ret. by eapply HFN.
    + intros st' _ H'. apply s_ret. by eapply HQN.
  - destruct (LX_blank _ _ _ _ HX H) as [N [z Hz]]. sb. eapply sV_init_value; [done..| |].
    + intros st' H'. apply s_ret. by eapply HFN.
    + intros st' _ H'. apply s_ret. by eapply HQN.
  - destruct (LX_blank _ _ _ _ HX H) as [N [z Hz]]. sb. eapply sV_init_uvalue; [done..| |].
    + intros st' H'. apply s_ret. by eapply HFN.
    + intros st' _ H'. apply s_ret. by eapply HQN.
  - (* clear *) sp. destruct (decide (o ∈ lost T)) as [Ho|No].
    + destruct (proj1 (lx_dom _ _ _ HX o) Ho) as [b Hb]. pose proof (lx_lost _ _ _ HX _ _ Hb) as Hlost. eapply wpV_clear_lost; [done..|]. intros st' z Hz H'. apply s_ret.
      eapply HQW; [eexists; split; [done|reflexivity]|]. eexists _, (delete o B). split; [|eapply LX_found; [done..| |done]; left; by exists z].
      cbn [held ints]. rewrite delete_notin; [exact H'|]. destruct Hlost as (z0 & Hz0 & _). by apply (RV_int_none _ _ _ _ _ HV Hz0).
    + assert (lost T ∖ {[o]} = lost T) as EL by (apply difference_disjoint_L; set_solver). destruct (ints S !! o) as [v|] eqn:Eo.
      * eapply wpV_clear; [done..|]. intros st' z Hz H'. apply s_ret. eapply HQW; [eexists; split; [done|reflexivity]|]. cbv iota. rewrite EL. eexists _, B. split; [exact H'|]. by apply LX_null.
      * destruct HL as [[[? HL]|HL]|HL]; [congruence| |done]. destruct (LX_blank _ _ _ o HX ltac:(by eexists)) as [_ [z Hz]]. eapply wpV_clear_again; [done|done|by eapply (lx_null _ _ _ HX)|]. apply s_ret.
        eapply HQW; [eexists; split; [done|reflexivity]|]. cbv iota. rewrite EL. fold S. rewrite delete_notin by done. rewrite insert_id by done. exists X, B. split; [done|].
        assert (Low (Store (ints S) (raws S) (dyns S) (text S)) (lost T) (threshold T) = T) as -> by (unfold S; by destruct T as [[] ? ?]). done.
  - sp. eapply wpV_alloc; [done|apply s_ret; apply HQ0; [done|by left|done]|]. intros o st' H1 H2 H3 H'. apply s_ret.
    assert (o ∉ lost T) as No. { intros Ho. apply (lx_dom _ _ _ HX) in Ho as [b Hb]. destruct (lx_lost _ _ _ HX _ _ Hb) as (z & Hz & _). congruence. }
    assert (raws S !! o = None) as Hr by (by apply (lx_raws _ _ _ HX)).
    eapply HQW; [apply works_ordinary; [done|]; right; exists o; split; [exact H2|]; split; [exact Hr|]; by split|]. exists X, B. split; [exact H'|].
    destruct HX as [X1 X2 X3 X4 X5 X6 X7 X8 X9 X10]. constructor; try done. cbn. intros o' [->%elem_of_singleton|Ho]%elem_of_union; [done|by apply X10].
  - (* free *) sp. destruct (decide (o ∈ lost T)) as [Ho|No].
    + assert (o ∈ dyns S) as Hd by (by destruct HL as [[_ ?]|[_ ?]]). destruct (proj1 (lx_dom _ _ _ HX o) Ho) as [b Hb]. pose proof (lx_lost _ _ _ HX _ _ Hb) as Hlost. unfold mp_int_free. wb.
      eapply wpV_clear_lost; [done..|]. intros st1 z Hz H1. eapply wpV_free_raw; [exact H1|cbn; apply lookup_insert|by apply (lx_dyn _ _ _ HX)|]. intros st' H'. apply s_ret.
      eapply HQW; [eexists; split; [done|reflexivity]|]. cbv iota. cbn [with_craw cmem craw cglob] in H'. rewrite delete_insert_delete in H'.
      eexists _, (delete o B). split; [|eapply LX_found; [done..|by right|set_solver]]. cbn [held ints].
      rewrite delete_notin; [exact H'|]. destruct Hlost as (z0 & Hz0 & _). by apply (RV_int_none _ _ _ _ _ HV Hz0).
    + assert (lost T ∖ {[o]} = lost T) as EL by (apply difference_disjoint_L; set_solver). destruct HL as [[HL HD]|[? _]]; [|done]. apply has_val in HL.
      eapply wpV_free; [done..|by apply (lx_dyn _ _ _ HX)|]. intros st' H'. apply s_ret. eapply HQW; [eexists; split; [done|reflexivity]|]. cbv iota. rewrite EL. exists X, B. split; [exact H'|].
      destruct HX as [X1 X2 X3 X4 X5 X6 X7 X8 X9 X10]. constructor; try done. cbn. intros o' [Ho _]%elem_of_difference. by apply X10.
  - sb. eapply sV_set_value; [done..| |]; intros st' H'; apply s_ret; [by apply HF0|by eapply HQ1].
  - sb. eapply sV_set_uvalue; [done..| |]; intros st' H'; apply s_ret; [by apply HF0|by eapply HQ1].
  - sb. eapply sV_copy; [done..| |]; [apply s_ret; by apply HF0|]. intros st' H'. apply s_ret. by eapply HQ1.
  - sp. eapply wpV_swap; [done..|]. intros st' H'. apply s_ret. by eapply HQ1.
  - sp. eapply wpV_zero; [done..|]. intros st' H'. apply s_ret. by eapply HQ1.
  - sb. eapply sV_abs; [done..| |]; [apply s_ret; by apply HF0|]. intros st' H'. apply s_ret. by eapply HQ1.
  - sb. eapply sV_neg; [done..| |]; [apply s_ret; by apply HF0|]. intros st' H'. apply s_ret. by eapply HQ1.
  - sb. eapply sV_add_spoilt; [exact HV|exact H1| |exact H|exact H0|]; intros st' H'; apply s_ret; [by eapply HFS|by eapply HQ1].
  - sb. eapply sV_add_value_spoilt; [exact HV|exact H0| |exact H|exact H1|]; intros st' H'; apply s_ret; [by eapply HFS|by eapply HQ1].
  - sb. eapply sV_sub_spoilt; [exact HV|exact H1| |exact H|exact H0|]; intros st' H'; apply s_ret; [by eapply HFS|by eapply HQ1].
  - sb. eapply sV_sub_value_spoilt; [exact HV|exact H0| |exact H|exact H1|]; intros st' H'; apply s_ret; [by eapply HFS|by eapply HQ1].
  - sb. eapply sV_mul; [done..|by apply HU|apply s_ret; by apply HF0|]. intros st' H'. apply s_ret. by eapply HQ1.
  - sb. eapply sV_mul_value; [done..| |]; intros st' H'; apply s_ret; [by apply HF0|by eapply HQ1].
  - sb. eapply sV_mul_pow2; [done..| | |]; intros st' H'; apply s_ret; [apply HF0; [|done]; split; [done|by left]|eapply HF1; [split; [done|by right]|done..]|by eapply HQ1].
  - sb. eapply sV_sqr; [done..|by apply HS|apply s_ret; by apply HF0|]. intros st' H'. apply s_ret. by eapply HQ1.
  - sb. eapply sV_div_pow2; [done..| | |]; intros st' H'; apply s_ret; [apply HF0; [|done]; split; [done|by left]|eapply HF1; [split; [done|by right]|done..]|by eapply HQ1].
  - sp. eapply wpV_compare; [done..|]. apply s_ret. apply HQ0; [done| |done]. eexists. split; [done|]. split; [apply ordered_sgn|done].
  - sp. eapply wpV_compare_unsigned; [done..|]. apply s_ret. apply HQ0; [done| |done]. eexists. split; [done|]. split; [apply ordered_sgn|done].
  - sp. eapply wpV_compare_zero; [done..|]. apply s_ret. apply HQ0; [done| |done]. eexists. split; [done|]. split; [|done]. rewrite <- (Z.sub_0_r (val S a)) at 1. apply ordered_sgn.
  - sp. eapply wpV_compare_value; [done..|]. intros st' H'. apply s_ret. apply HQ0; [done| |done]. eexists. split; [done|]. split; [apply ordered_sgn|done].
  - sp. eapply wpV_compare_uvalue; [done..|]. intros st' H'. apply s_ret. apply HQ0; [done| |done]. eexists. split; [done|]. split; [apply ordered_sgn|done].
  - sp. destruct (Z.eq_dec (val S a) 0) as [E|E].
    + rewrite E in HL. eapply wpV_is_pow2_0; [done..|]. apply s_ret. apply HQ0; [done| |done]. eexists. split; [done|]. split; [done|]. done.
    + eapply wpV_is_pow2; [done..| |].
      * intros j Hj Ej. apply s_ret. apply HQ0; [done| |done]. eexists. split; [done|]. split; [done|]. intros _. by left.
      * intros Hj. apply s_ret. apply HQ0; [done| |done]. eexists. split; [done|]. split; [done|]. intros _. by right.
  - sp. eapply wpV_is_odd; [done..|]. apply s_ret. by apply HQ0.
  - sp. eapply wpV_is_even; [done..|]. apply s_ret. by apply HQ0.
  - sb. eapply sV_gcd; [done..| | |].
    + intros E1 E2. apply s_ret. apply HQ0; [done| |done]. cbn [effect]. by rewrite E1, E2.
    + intros v st' H'. apply s_ret. apply (HF1 _ (put_int c v S)); [split; [done|by exists v]|exact H'|done..].
    + intros E st' H'. apply s_ret. eapply (HQ1 _ (put_int _ _ _)); [done| |exact H'|done..]. cbn [effect]. destruct (Z.eqb_spec (val S a) 0), (Z.eqb_spec (val S b) 0); try done. lia.
  - sb. eapply sV_egcd; [done..| | | | |].
    + intros E1 E2. apply s_ret. apply HQ0; [done| |done]. cbn [effect]. by rewrite E1, E2.
    + intros st' V' HB H'. apply s_ret. destruct HB as [->|[[s ->]|(s & t & ->)]].
      * apply HF0; [|done]. split; [done|by left].
      * apply (HF1 _ (put_opt x s S)); [split; [done|right; left; by exists s]|exact H'|done..].
      * apply (HF1 _ (put_opt y t (put_opt x s S))); [split; [done|right; right; by exists s, t]|exact H'|done..].
    + intros E1 E2 st' H'. apply s_ret. eapply (HQ1 _ (put_opt _ _ (put_opt _ _ (put_int _ _ _)))); [done| |exact H'|done..]. cbn [effect]. cbv zeta. assert (Z.gcd (Z.abs (val S a)) (Z.abs (val S b)) = Z.abs (val S b)) as EG by (rewrite E1, Z.gcd_comm, Z.gcd_0_r; lia). rewrite EG, E1. change (Z.abs 0) with 0.
      destruct (Z.eqb_spec (Z.abs (val S b)) 0); [lia|]. split; [done|]. exists 0, 1. split; [lia|]. by left.
    + intros E1 E2 st' H'. apply s_ret. eapply (HQ1 _ (put_opt _ _ (put_opt _ _ (put_int _ _ _)))); [done| |exact H'|done..]. cbn [effect]. cbv zeta. assert (Z.gcd (Z.abs (val S a)) (Z.abs (val S b)) = Z.abs (val S a)) as EG by (rewrite E2, Z.gcd_0_r; lia). rewrite EG, E2. change (Z.abs 0) with 0.
      destruct (Z.eqb_spec (Z.abs (val S a)) 0); [lia|]. split; [done|]. exists 1, 0. split; [lia|]. by left.
    + intros E1 E2 st' s t Hst H'. apply s_ret. eapply (HQ1 _ (put_int _ _ (put_opt _ _ (put_opt _ _ _)))); [done| |exact H'|done..]. cbn [effect]. rewrite Z.gcd_abs_l, Z.gcd_abs_r.
      destruct (Z.eqb_spec (Z.abs (val S a)) 0); [lia|]. split; [done|]. exists s, t. split; [done|]. by right.
  - sp. eapply wpV_to_int; [done..| |].
    + intros E st' H'. apply s_ret. apply HQ0; [done| |done]. split; [done|]. destruct (Z.ltb_spec (- 2 ^ 63) (val S a)); [|lia]. by destruct (Z.ltb_spec (val S a) (2 ^ 63)); [|lia].
    + intros E st' H'. apply s_ret. apply HQ0; [done| |done]. split; [done|]. destruct (Z.ltb_spec (- 2 ^ 63) (val S a)); [|done]. by destruct (Z.ltb_spec (val S a) (2 ^ 63)); [lia|].
  - sp. eapply wpV_to_uint; [done..| |].
    + intros E st' H'. apply s_ret. apply HQ0; [done| |done]. split; [done|]. destruct (Z.leb_spec 0 (val S a)); [|lia]. by destruct (Z.ltb_spec (val S a) (2 ^ 64)); [|lia].
    + intros E st' H'. apply s_ret. apply HQ0; [done| |done]. split; [done|]. destruct (Z.leb_spec 0 (val S a)); [|done]. by destruct (Z.ltb_spec (val S a) (2 ^ 64)); [lia|].
  - sp. eapply wpV_count_bits; [done..|]. apply s_ret. apply HQ0; [done| |done]. eexists. split; [done|]. split; [done|]. split; [apply bitlen_pos|]. split; [apply bitlen_pow|].
    fold S. unfold bitlen. destruct (Z.eqb_spec (val S a) 0) as [E|E]; [done|]. split; [|done]. intros _. pose proof (Z.log2_spec (Z.abs (val S a)) ltac:(lia)) as HL2. rewrite Z.add_simpl_r. lia.
  - sp. eapply wpV_string_len; [done..|]. apply s_ret. apply HQ0; [done| |done]. eexists. split; [done|]. split; [done|]. intros Hv s Hs.
    apply bitlen_le in Hv; [|done]. pose proof (enough_bits_20000 r ltac:(done)). destruct (outlen_enough (bitlen (val S a)) r) as [E1 E2]; [done|pose proof (bitlen_pos (val S a)); lia|].
    pose proof (bitlen_pow (val S a)). pose proof (numeral_len_le r (val S a) s (outlen (bitlen (val S a)) r) ltac:(lia) Hs ltac:(lia) E2). lia.
  - destruct H2 as (l & Hl & Hlen). destruct (numeral_exists r (val S a) ltac:(lia)) as [s Hs]. sb. eapply sV_to_string; [done|done|by eapply LX_text_has|done|done|done|lia| | |].
    + intros st' H'. apply s_ret. by apply HF0.
    + intros st' L H'. apply s_ret. eapply HQT; [done|done| |exact H']. exists l, s. split; [done|]. split; [done|]. by left.
    + intros st' s' L L' H'. apply s_ret. eapply HQT; [done|done| |exact H']. exists l, s. split; [done|]. split; [done|]. right. split; [done|]. split; [done|]. by exists s'.
  - destruct (parse_shape r s) as (sp & sg & body & ds & rest & Hs). pose proof Hs as (Es & S1 & S2 & S3 & S4 & S5). unfold mp_int_read_string. sb. sb.
    eapply sf_read_cstring; [done..| |].
    { intros st' s' H'. apply s_ret. cbn [fst]. apply s_ret. by eapply HFS. }
    rewrite Es in H1 |- *. eapply wpV_read_cstring; [done..|]. intros st' H'. apply s_ret. cbn [fst]. apply s_ret.
    eapply (HQ1 _ (put_int _ _ _)); [done| |exact H'|done..]. exists sp, sg, body, ds, rest. split; [done|]. by split.
  - destruct (parse_shape r s) as (sp & sg & body & ds & rest & Hs). pose proof Hs as (Es & S1 & S2 & S3 & S4 & S5). sb.
    eapply sf_read_cstring; [done..| |].
    { intros st' s' H'. apply s_ret. cbn [fst snd]. eapply HFS; [done| |done]. split; [by eexists|done]. }
    rewrite Es in H1 |- *. eapply wpV_read_cstring; [done..|]. intros st' H'. apply s_ret.
    eapply (HQ1 _ (put_int _ _ _)); [done| |exact H'|done..]. exists sp, sg, body, ds, rest. split; [done|]. by split.
  - sp. eapply wpV_unsigned_len; [done..|apply unsigned_bitlen|]. apply s_ret. apply HQ0; [done| |done]. eexists. split; [apply unsigned_bitlen|done].
  - sp. eapply wpV_binary_len; [done..|apply signed_bitlen|]. apply s_ret. apply HQ0; [done| |done]. eexists. split; [apply signed_bitlen|done].
  - destruct H0 as (l & Hl & Hlen). sp. eapply wpV_to_unsigned; [done|done|by eapply LX_text_has|done|apply unsigned_bitlen|]. intros st' H'. apply s_ret. eapply HQT; [done|done| |exact H']. eexists l, _. split; [done|]. split; [apply unsigned_bitlen|]. by split.
  - destruct H1 as (l & Hl & Hlen). sp. eapply wpV_to_binary; [done|done|by eapply LX_text_has|done|done|apply signed_bitlen|]. intros st' H'. apply s_ret. eapply HQT; [done|done| |exact H']. eexists l, _. split; [done|]. split; [apply signed_bitlen|]. by split.
  - destruct H2 as (l & bs & Hl & HB & <-). sb. eapply sV_read_unsigned; [done|by eexists|by eapply LX_text_has|done|by destruct bs; [simpl in *; lia|]|lia|apply s_ret; by apply HF0|]. intros st' H'. apply s_ret. eapply (HQ1 _ (put_int _ _ _)); [done| |exact H'|done..]. exists l, bs. by split_and!.
  - destruct H2 as (l & bs & Hl & HB & <-). sb. eapply sV_read_binary; [done|by eexists|by eapply LX_text_has|done|by destruct bs; [simpl in *; lia|]|lia|apply s_ret; by apply HF0|]. intros st' H'. apply s_ret. eapply (HQ1 _ (put_int _ _ _)); [done| |exact H'|done..]. exists l, bs. by split_and!.
  - assert (tunables_ok (cglob X)) as [G1 G2] by (apply RV_Rep in HV; apply HV). sp. unfold mp_int_default_precision. wb. apply wp_assert; [apply Z.ltb_lt; lia|]. apply wp_GetG, wp_SetG, wp_ret, s_ret.
    eapply HQW; [by apply works_ordinary|]. eexists _, B. split; [apply RV_glob; [done|]|].
    + split; [done|]. cbn. rewrite (RV_glob_eq _ _ _ HV). done.
    + destruct HX as [X1 X2 X3 X4 X5 X6 X7 X8 X9 X10]. constructor; try done. cbn. rewrite (RV_glob_eq _ _ _ HV). done.
  - assert (tunables_ok (cglob X)) as [G1 G2] by (apply RV_Rep in HV; apply HV). sp. unfold mp_int_multiply_threshold. wb. apply wp_assert; [apply Z.leb_le; lia|]. apply wp_GetG, wp_SetG, wp_ret, s_ret.
    eapply HQW; [eexists; split; [done|reflexivity]|]. eexists _, B. split; [apply RV_glob; [done|]|].
    + split; [|done]. cbn. rewrite (RV_glob_eq _ _ _ HV). done.
    + destruct HX as [X1 X2 X3 X4 X5 X6 X7 X8 X9 X10]. by constructor.
Qed.

Theorem drive_low k st T : LH st T -> careful k T -> sw (drive k) (fun h st' => exists T', story k T h T' /\ LH st' T') st.
Proof.
  revert st T. induction k as [|c k IH]; intros st T HS HW; cbn [drive].
  - apply s_ret. exists T. split; [constructor|done].
  - destruct HW as [HL HW]. sb. eapply one_call_low; [done..|]. intros r T' st' He HS'. sb. eapply wp_mono; [apply IH; [done|by apply HW]|].
    intros h st2 (T2 & Hh & HT2). apply s_ret. exists T2. split; [by econstructor|done].
Qed.
