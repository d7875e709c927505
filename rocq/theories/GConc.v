(** Threads that use the GMP interface: one call writes nothing shared; a client. *)
From Coq Require Import ZArith List Lia QArith.
From stdpp Require Import gmap list.
From Verif Require Import Mem Prog MemLem Kern Fp Imath Imrat Gmp Wp Const ConstFns ConstRat ConstGmp ConstGmpU Conc Threads Spec SpecBin SpecHist SpecRat SpecDec SpecQHist SpecGmp SpecGstr SpecGHist SpecConc SpecQConc SpecGConc Public Hist QHist GHist ConcFns ConcApi QConc QConcRun.
Local Open Scope Z_scope.
Local Open Scope prog_scope.
Local Open Scope list_scope.

Definition gmakes (c : gcall) : bool := match c with Lib c => qmakes c | ZInit _ | PInit _ => true | _ => false end.
(** The calls with a local made from a machine integer. *)
Definition has_localu (c : gcall) : bool :=
  match c with ZAddUi _ _ _ | ZSubUi _ _ _ | ZMulUi _ _ _ | ZPowUi _ _ _ | ZDivexactUi _ _ _ | ZFdivQUi _ _ _ => true | _ => false end.
Lemma changed_qchanges c : changed_q c = qchanges c. Proof. by destruct c. Qed.

Create HintDb wgc discriminated.
#[local] Hint Constants Opaque : wgc.
#[local] Hint Extern 1 => match goal with H : forall o, o ∈ _ -> ?P o |- ?P _ => apply H; unfold both; cbn [fst snd num den flat_map app]; unfold num, den; mem end : wgc.
#[local] Hint Extern 0 => assumption : wgc.
#[local] Hint Extern 1 (ow _ _ _) => match goal with H : false = false -> _ |- _ => apply (H eq_refl); mem end : wgc.
#[local] Hint Extern 1 (rw _ _ _) => match goal with H : false = false -> _ |- _ => split; unfold num, den; apply (H eq_refl); unfold both; mem end : wgc.
#[local] Hint Resolve wc_mpq_clear wc_mpq_cmp wc_mpq_init wc_mpq_mul wc_mpq_set wc_mpz_abs wc_mpz_add wc_mpz_clear wc_mpz_cmp_si wc_mpz_cmpabs wc_mpz_cmp wc_mpz_init wc_mpz_mul wc_mpz_neg wc_mpz_set_si wc_mpz_set wc_mpz_sub wc_mpz_swap wc_mpq_sgn wc_mpz_sgn wc_mpq_set_ui wc_mpz_set_ui wc_mpq_canonicalize wc_mpz_addmul wc_mpz_divexact wc_mpz_divisible_p wc_mpz_submul wc_mpz_gcd wc_mpz_get_str wc_mpq_get_str wc_mpz_set_str wc_mpq_set_str wc_mpz_get_ui wc_mpz_get_si wc_mpz_lcm wc_mpz_mul_2exp wc_mpz_cdiv_q wc_mpz_fdiv_q wc_mpz_fdiv_r wc_mpz_tdiv_q wc_mpz_export wc_mpz_import wc_mpz_sizeinbase : wgc.
Lemma gcall_ww (LO : oid -> Prop) (LB : base -> Prop) (HS : forall o, LO o -> LB (Sng o)) (Cl : oid -> Prop) c : has_localu c = false ->
  (forall o, o ∈ changed c -> LO o) -> (gmakes c = false -> forall o, o ∈ changed c -> Cl o) -> (forall b, b ∈ gwritten c -> LB b) -> gtunes c = false ->
  ww LO LB Cl (do_gcall c) (fun _ _ => True).
Proof.
  intros H0 H1 H2 H3 H4.
  assert (Fin : forall {A} (p : prog A) (g : A -> qanswer), wx LO LB Cl Cl p (fun _ => True) -> ww LO LB Cl (r <- p; Ret (g r)) (fun _ _ => True)).
  { intros A p g Hp. apply ww_bind. eapply ww_mono; [exact Hp|]. done. }
  assert (Ho : gmakes c = false -> forall o, o ∈ changed c -> ow LO Cl o) by (intros; split; auto).
  destruct c; cbn [do_gcall gmakes gwritten changed gtunes has_localu] in *; try discriminate H0; unfold quiet, number.
  { rewrite changed_qchanges in *. apply (qcall_ww LO LB); done. }
  all: clear H2.
  all: apply Fin; solve [eauto 3 with wgc nocore].
Qed.
Lemma gcall_wpw (O : gset oid) (B : gset base) (Cl : oid -> Prop) c Q st : own_ok O B Cl st ->
  (forall o, o ∈ changed c -> o ∉ O) -> (gmakes c = false -> forall o, o ∈ changed c -> Cl o) -> (forall b, b ∈ gwritten c -> ~ shared O B b) -> gtunes c = false ->
  wp (do_gcall c) Q st -> wpw O B (do_gcall c) Q st.
Proof.
  intros HO H1 H2 H3 H4 HW. destruct (has_localu c) eqn:E.
  - assert (HS : forall o, o ∉ O -> ~ shared O B (Sng o)) by done.
    assert (forall o, gmakes c = false -> o ∈ changed c -> ow (fun o => o ∉ O) Cl o) as Hw by (intros; split; auto).
    destruct c; try discriminate E; cbn [do_gcall changed gmakes] in *; unfold quiet, number in *; (assert (ow (fun o => o ∉ O) Cl _) as Hc by (apply Hw; [done|apply elem_of_list_here])).
    + unfold mpz_add_ui in *. eapply (wpw_arith_ui O B mp_int_add); [exact HO|done| |done]. intros. by apply (wc_mp_int_add (fun o => o ∉ O) (fun b => ~ shared O B b)).
    + unfold mpz_sub_ui in *. eapply (wpw_arith_ui O B mp_int_sub); [exact HO|done| |done]. intros. by apply (wc_mp_int_sub (fun o => o ∉ O) (fun b => ~ shared O B b)).
    + unfold mpz_mul_ui in *. eapply (wpw_arith_ui O B mp_int_mul); [exact HO|done| |done]. intros. by apply (wc_mp_int_mul (fun o => o ∉ O) (fun b => ~ shared O B b)).
    + by eapply wpw_pow_ui.
    + by eapply wpw_fdiv_q_ui.
    + unfold mpz_divexact_ui in *. eapply (wpw_arith_ui O B (fun a t c => mp_int_div a t (Some c) None)); [exact HO|done| |done]. intros. by apply (wc_mp_int_div (fun o => o ∉ O) (fun b => ~ shared O B b)).
  - eapply wpw_mono; [eapply (ww_wpw _ _ _ Cl (fun _ _ => True) Q); [exact HO| |exact HW]|by intros ? ? [? _]]. by apply gcall_ww.
Qed.

(** ** What a call leaves *)
Lemma geffect_keeps_text c M r M' b l : geffect c M r M' -> text (whole M) !! b = Some l -> b ∉ gwritten c -> text (whole M') !! b = Some l.
Proof.
  intros He Hb N. destruct c; cbn [geffect gwritten] in *; split_effect He; try subst M'; try done; cbn [text whole put_z put_frac put_frac_new spoil on_whole with_ints put_int put_new put_text]; try (rewrite lookup_insert_ne; [done|set_solver]); try done.
  by eapply qeffect_keeps_text.
Qed.
Lemma geffect_fracs c M r M' s x : geffect c M r M' -> fracs M !! s = Some x -> fst s ∉ changed c -> snd s ∉ changed c -> fracs M' !! s = Some x.
Proof.
  intros He Hs N1 N2.
  assert (HL : forall os, (forall o, o ∈ os -> o ∈ changed c) -> lose os (fracs M) !! s = Some x).
  { intros os Hos. rewrite lose_lookup, Hs. simpl. rewrite decide_False; [done|]. intros [K|K]; [by apply N1, Hos|by apply N2, Hos]. }
  destruct c; cbn [geffect changed] in *; split_effect He; try subst M'; try done; cbn [fracs put_z put_frac put_frac_new spoil on_whole];
    try (by apply HL); try (rewrite lookup_insert_ne by (intros ->; unfold both in *; set_solver); done); try (rewrite lookup_delete_ne by (intros ->; unfold both in *; set_solver); done).
  eapply qeffect_frame; [done|done|]. intros Hc. rewrite changed_qchanges in *. apply qchanges_out in Hc as [? _]. done.
Qed.
Lemma geffect_there c M r M' s : geffect c M r M' -> there M' s -> there M s \/ fst s ∈ changed c /\ snd s ∈ changed c \/ (ints (whole M) !! fst s = None /\ ints (whole M) !! snd s = None).
Proof.
  intros He Hs. destruct c; cbn [geffect changed] in *.
  { destruct (qeffect_there _ _ _ _ _ He Hs) as [?|[Hc|?]]; [by left| |by right; right]. right. left. rewrite changed_qchanges. by apply qchanges_out. }
  all: split_effect He; try subst M'; try (by left); first [left; exact (lose_there _ _ _ _ Hs) | let y := fresh "y" in destruct Hs as [y Hs]; cbn [fracs put_frac put_frac_new spoil on_whole] in Hs;
    first [apply lookup_insert_Some in Hs as [[<- _]|[_ Hs]]; [right; left; unfold both; set_solver|left; by exists y] | apply lookup_delete_Some in Hs as [_ Hs]; left; by exists y | left; by exists y]].
Qed.

(** ** A thread *)
Lemma glegal_changes c N : tidy N -> glegal c N -> gmakes c = false -> forall o, o ∈ changed c -> has (whole N) o \/ raws (whole N) !! o = Some true.
Proof.
  intros T HL Hm o Ho. assert (HT : forall r, there N r -> o ∈ both r -> has (whole N) o).
  { intros r Hr Hin. destruct (tidy_live _ _ T Hr) as [H1 H2]. apply elem_of_cons in Hin as [-> | Hin]; [done|]. apply elem_of_list_singleton in Hin as ->. done. }
  destruct c; cbn [glegal gmakes changed both] in *; try discriminate Hm; try (by apply elem_of_nil in Ho).
  { rewrite changed_qchanges in Ho. by eapply qlegal_changes. }
  all: cbv zeta in HL; repeat match goal with H : _ /\ _ |- _ => destruct H end; left.
  all: first [by eapply HT | by apply elem_of_list_singleton in Ho as -> | by apply elem_of_cons in Ho as [-> | Ho]; [done|apply elem_of_list_singleton in Ho as ->]].
Qed.
Lemma glegal_written c N b : glegal c N -> b ∈ gwritten c -> is_Some (text (whole N) !! b).
Proof.
  intros HL Hb. destruct c; cbn [gwritten glegal] in *; try (by apply elem_of_nil in Hb); [by eapply qlegal_written|..];
    apply elem_of_list_singleton in Hb as ->; cbv zeta in HL; destruct HL as (_ & HL); repeat match goal with H : _ /\ _ |- _ => destruct H | H : exists _, _ |- _ => destruct H end; eauto.
Qed.
Lemma gcall_shared I Bt R B c v N : qtinv I Bt R B v N -> glegal c N -> gspares I Bt c ->
  wpw I B (do_gcall c) (fun r v' => exists N', geffect c N r N' /\ qtinv I Bt R B v' N') v.
Proof.
  intros (HT & HY & HR1 & HR2) HL (P1 & P2 & P3). eapply wpw_mono.
  - apply wpw_keeps; [by eapply tinv_alive|]. eapply gcall_wpw; [by eapply tinv_own|done| | |done|].
    + intros Hm o Ho. split; [by apply P1|]. by eapply glegal_changes.
    + intros b Hb Hs. apply (P2 b Hb). eapply (tinv_shared_text I Bt B v (whole N)); [done| |done]. by eapply glegal_written.
    + eapply (one_gcall c v N (fun r v' => exists N', geffect c N r N' /\ qshows v' N')); [split; [by apply shows_SH, HT|done]|done|]. intros r N' v' He Hs. exists N'. split; [done|by apply qshows_QH].
  - intros r v' [(N' & He & Hs & HY') HK]. exists N'. split; [done|].
    split; [|split; [done|split]].
    + eapply tinv_keeps; [exact HT|done|done| |].
      * intros o Ho. destruct HT as (_ & H1 & _). destruct (H1 o Ho) as [x Hx]. exists x. eapply geffect_ints; [done|done|]. intros Hc. by apply (P1 o Hc).
      * intros b Hb. destruct HT as (_ & _ & H2 & _). destruct (H2 b Hb) as [x Hx]. exists x. eapply geffect_keeps_text; [done|done|]. intros Hc. by apply (P2 b Hc).
    + intros s Hs'. destruct (HR1 s Hs') as ([x Hx] & M1 & M2). split; [|done]. exists x. eapply geffect_fracs; [done|done|..]; intros Hc; by apply (P1 _ Hc).
    + intros s Hth Hm. destruct (geffect_there _ _ _ _ _ He Hth) as [Hth'|[[C1 C2]|[K1 K2]]]; [by apply HR2| |].
      * destruct Hm as [Hm|Hm]; [by destruct (P1 _ C1)|by destruct (P1 _ C2)].
      * destruct HT as (_ & H1 & _). destruct Hm as [Hm|Hm]; destruct (H1 _ Hm); congruence.
Qed.
Theorem gdrive_shared I Bt R B k v N : qtinv I Bt R B v N -> gfair I Bt k N ->
  wpw I B (drive_g k) (fun h v' => exists N', ghistory k N h N' /\ qtinv I Bt R B v' N') v.
Proof.
  revert v N. induction k as [|c k IH]; intros v N HT HF; cbn [drive_g].
  - exists N. split; [constructor|done].
  - destruct HF as (HL & HP & HF). apply wpw_bind. eapply wpw_mono; [by apply gcall_shared|]. intros r v' (N' & He & HT'). apply wpw_bind.
    eapply wpw_mono; [by apply IH, HF|]. intros h v2 (N2 & Hh & HT2). exists N2. split; [by econstructor|done].
Qed.
Lemma gfair_keeps I B k N h N' : ghistory k N h N' -> gfair I B k N ->
  (forall o x, o ∈ I -> ints (whole N) !! o = Some x -> ints (whole N') !! o = Some x) /\
  (forall b l, b ∈ B -> text (whole N) !! b = Some l -> text (whole N') !! b = Some l) /\
  (forall r x, fst r ∈ I -> snd r ∈ I -> fracs N !! r = Some x -> fracs N' !! r = Some x).
Proof.
  induction 1 as [|c k N r N1 h N2 He Hh IH]; intros HF; [done|]. destruct HF as (_ & (P1 & P2 & _) & HF). destruct (IH (HF _ _ He)) as (K1 & K2 & K3). split_and!.
  - intros o x Ho Hx. apply K1; [done|]. eapply geffect_ints; [done|done|]. intros Hc. by apply (P1 o).
  - intros o x Ho Hx. apply K2; [done|]. eapply geffect_keeps_text; [done|done|]. intros Hc. by apply (P2 o).
  - intros o x O1 O2 Hx. apply K3; [done|done|]. eapply geffect_fracs; [done|done|..]; intros Hc; by apply (P1 _ Hc).
Qed.
