(** C66: the GMP interface in the [NDEBUG] build when requests for memory are
    refused.  There [CHECK] (gmp_compat.c 41-45) tests nothing.  See [SpecRef] for
    [withstands]. *)
From Coq Require Import ZArith List Lia QArith.
From stdpp Require Import gmap list.
From Verif Require Import Mem Prog Kern Imath Imrat Gmp Exec Wp Rel RelZ Spec SpecHist SpecLow SpecRat SpecRef Public Refuse Rat Hist PStore PRefuse PRatRefuse PExhaust Soft Soft2 Soft3 SoftRat Concrete ConcreteRat SpecGmpRef.
Local Open Scope Z_scope.
Local Open Scope prog_scope.
Local Open Scope list_scope.

Local Transparent bind assert.
Local Arguments bind {A B} !p f : simpl nomatch.
Lemma run_then {A B} dbg (p : prog A) (f : A -> prog B) orc : forall t st, run dbg orc (bind p f) t st =
  match run dbg orc p t st with Done a st' t' => run dbg orc (f a) t' st' | OOM n => OOM n | AssertFail => AssertFail | UB => UB | OutOfFuel => OutOfFuel end.
Proof.
  induction p as [a|p k IH|p c k IH|o k IH|o z k IH|k IH|o k IH|k IH|o k IH
    |n k IH|p n k IH|p k IH|n k IH|p k IH|k IH|g' k IH|a b k IH| |]; intros t st.
  1: done.
  all: cbn [bind run]; repeat (first [apply IH | done | case_match]); done.
Qed.

Lemma withstands_then {A B} (p : prog A) (f : A -> prog B) st P Q :
  withstands p st P -> (forall r st', P r st' -> withstands (f r) st' Q) -> withstands (bind p f) st Q.
Proof.
  intros Hp Hf orc t. destruct (Hp orc t) as (r & st' & t' & E & H'). rewrite run_then, E. by apply Hf.
Qed.
Lemma withstands_check e st (P : Z -> state -> Prop) (Q : unit -> state -> Prop) :
  withstands e st P -> (forall r st', P r st' -> Q tt st') -> withstands (CHECK e) st Q.
Proof.
  intros He HQ. unfold CHECK. eapply withstands_then; [exact He|]. intros r st' H' orc t. exists tt, st', t. split; [|eauto]. unfold assert. cbn [run].
  by destruct (r =? MP_OK).
Qed.
Lemma withstands_mono {A} (p : prog A) st (P Q : A -> state -> Prop) : withstands p st P -> (forall r st', P r st' -> Q r st') -> withstands p st Q.
Proof. intros Hp H orc t. destruct (Hp orc t) as (r & st' & t' & E & H'). eauto 6. Qed.
Lemma withstands_quiet {A} (p : prog A) st V W (Q : A -> state -> Prop) : quiet p -> Rep st V W -> (RV st V (ctx_of W) -> wp p Q st) -> withstands p st Q.
Proof. intros Hq H HW. eapply by_soft; [exact H|]. intros HV. apply quiet_soft; [done|by apply HW]. Qed.

(** ** C66 The GMP interface when memory runs out *)
(** Assignment, negation, absolute value and products: done, or nothing changed. *)
Theorem C66_set st V W c a va vc : Rep st V W -> V !! a = Some va -> V !! c = Some vc ->
  withstands (mpz_set c a) st (fun _ st' => Rep st' (<[c := va]> V) W \/ Rep st' V W).
Proof. intros H Ha Hc. eapply withstands_check; [by eapply C54_copy|]. naive_solver. Qed.
Example C66_set_ex : match run false (orc_first 0) (mpz_set hC hA) 0 exS with Done _ st' _ => value_of st' hC = Some 0 | _ => False end /\
  match run false orc_yes (mpz_set hC hA) 0 exS with Done _ st' _ => value_of st' hC = Some (2 ^ 100 - 12345) | _ => False end.
Proof. by vm_compute. Qed.
Print Assumptions C66_set.
Theorem C66_neg st V W c a va vc : Rep st V W -> V !! a = Some va -> V !! c = Some vc ->
  withstands (mpz_neg c a) st (fun _ st' => Rep st' (<[c := - va]> V) W \/ Rep st' V W).
Proof. intros H Ha Hc. eapply withstands_check; [by eapply C54_neg|]. naive_solver. Qed.
Example C66_neg_ex : match run false (orc_first 0) (mpz_neg hC hA) 0 exS with Done _ st' _ => value_of st' hC = Some 0 | _ => False end.
Proof. by vm_compute. Qed.
Print Assumptions C66_neg.
Theorem C66_abs st V W c a va vc : Rep st V W -> V !! a = Some va -> V !! c = Some vc ->
  withstands (mpz_abs c a) st (fun _ st' => Rep st' (<[c := Z.abs va]> V) W \/ Rep st' V W).
Proof. intros H Ha Hc. eapply withstands_check; [by eapply C54_abs|]. naive_solver. Qed.
Example C66_abs_ex : match run false (orc_first 0) (mpz_abs hC hA) 0 exS with Done _ st' _ => value_of st' hC = Some 0 | _ => False end.
Proof. by vm_compute. Qed.
Print Assumptions C66_abs.
Theorem C66_set_si st V W c v vc : Rep st V W -> V !! c = Some vc -> - 2 ^ 63 < v < 2 ^ 63 ->
  withstands (mpz_set_si c v) st (fun _ st' => Rep st' (<[c := v]> V) W \/ Rep st' V W).
Proof. intros H Hc Hv. eapply withstands_check; [by eapply C54_set_value|]. naive_solver. Qed.
Example C66_set_si_ex : match run false (orc_first 1) (mpz_set_si hH (- 2 ^ 40)) 0 exH with Done _ st' _ => value_of st' hH = Some 4 | _ => False end.
Proof. by vm_compute. Qed.
Print Assumptions C66_set_si.
Theorem C66_set_ui st V W c v vc : Rep st V W -> V !! c = Some vc -> 0 <= v < 2 ^ 64 ->
  withstands (mpz_set_ui c v) st (fun _ st' => Rep st' (<[c := v]> V) W \/ Rep st' V W).
Proof. intros H Hc Hv. eapply withstands_check; [by eapply C54_set_uvalue|]. naive_solver. Qed.
Example C66_set_ui_ex : match run false (orc_first 1) (mpz_set_ui hH (2 ^ 40)) 0 exH with Done _ st' _ => value_of st' hH = Some 4 | _ => False end.
Proof. by vm_compute. Qed.
Print Assumptions C66_set_ui.
Theorem C66_mul st V W c a b va vb vc : Rep st V W -> V !! a = Some va -> V !! b = Some vb -> V !! c = Some vc -> unsplit (tunables W) va vb ->
  withstands (mpz_mul c a b) st (fun _ st' => Rep st' (<[c := va * vb]> V) W \/ Rep st' V W).
Proof. intros H Ha Hb Hc Hu. eapply withstands_check; [by eapply C54_mul|]. naive_solver. Qed.
Example C66_mul_ex : match run false (orc_first 0) (mpz_mul hC hA hA) 0 exS with Done _ st' _ => value_of st' hC = Some 0 | _ => False end /\
  match run false orc_yes (mpz_mul hC hA hA) 0 exS with Done _ st' _ => value_of st' hC = Some ((2 ^ 100 - 12345) * (2 ^ 100 - 12345)) | _ => False end.
Proof. by vm_compute. Qed.
Print Assumptions C66_mul.

(** Shifts and greatest common divisors: the other variables keep their values. *)
Theorem C66_mul_2exp st V W c a k va vc : Rep st V W -> V !! a = Some va -> V !! c = Some vc -> 0 <= k < 2 ^ 32 ->
  withstands (mpz_mul_2exp c a k) st (fun _ st' => Rep st' (<[c := va * 2 ^ k]> V) W \/ Rep st' V W \/ Rep st' (<[c := va]> V) W).
Proof.
  intros H Ha Hc Hk. unfold mpz_mul_2exp. eapply (withstands_then _ _ _ (fun r st' => r = Z.sgn va /\ st' = st)).
  { eapply withstands_quiet; [unfold mp_int_compare_zero; qt|exact H|]. intros HV. by eapply wpV_compare_zero. }
  intros r st' [-> ->]. destruct (Z.eqb_spec (Z.sgn va) 0) as [E|E].
  - assert (va = 0) as -> by lia. eapply withstands_quiet; [unfold mp_int_zero; qt|exact H|]. intros HV. eapply wpV_zero; [exact HV|exact Hc|]. intros st' H'. left. rewrite Z.mul_0_l. by apply RV_done.
  - rewrite (proj2 (Z.ltb_lt k (2 ^ 63))) by lia. eapply withstands_check; [by eapply C54_mul_pow2|]. naive_solver.
Qed.
Example C66_mul_2exp_ex : match run false (orc_first 1) (mpz_mul_2exp hC hA 2000) 0 exS with Done _ st' _ => value_of st' hC = Some (2 ^ 100 - 12345) | _ => False end.
Proof. by vm_compute. Qed.
Print Assumptions C66_mul_2exp.
Theorem C66_gcd st V W c a b va vb vc : Rep st V W -> V !! a = Some va -> V !! b = Some vb -> V !! c = Some vc ->
  withstands (mpz_gcd c a b) st (fun _ st' => exists v, Rep st' (<[c := v]> V) W).
Proof.
  intros H Ha Hb Hc. unfold mpz_gcd. eapply (withstands_then _ _ _ (fun r st' => r = Z.sgn va /\ st' = st)).
  { eapply withstands_quiet; [unfold mp_int_compare_zero; qt|exact H|]. intros HV. by eapply wpV_compare_zero. }
  intros r st' [-> ->]. eapply (withstands_then _ _ _ (fun r st' => r = Z.sgn vb /\ st' = st)).
  { eapply withstands_quiet; [unfold mp_int_compare_zero; qt|exact H|]. intros HV. by eapply wpV_compare_zero. }
  intros r st' [-> ->]. destruct (_ && _)%bool.
  - eapply withstands_quiet; [unfold mp_int_zero; qt|exact H|]. intros HV. eapply wpV_zero; [exact HV|exact Hc|]. intros st' H'. exists 0. by apply RV_done.
  - eapply withstands_check; [by eapply C54_gcd|]. intros r st' [(_ & _ & H')|[(_ & _ & _ & H')|(_ & v & H')]]; eauto. exists vc. by rewrite insert_id.
Qed.
Example C66_gcd_ex : match run false (orc_first 0) (mpz_gcd hC hA hB) 0 exS with Done _ st' _ => value_of st' hC = Some 0 /\ value_of st' hA = Some (2 ^ 100 - 12345) | _ => False end.
Proof. by vm_compute. Qed.
Print Assumptions C66_gcd.

(** The sum and the difference: afterwards the output can be released, all other
    variables hold what they held, and nothing has leaked. *)
Lemma run_check_then {B} e (k : prog B) orc t st : run false orc (CHECK e;; k) t st = run false orc (e;; k) t st.
Proof. unfold CHECK. rewrite !run_then. destruct (run false orc e t st) as [r st' t'| | | |] eqn:E; try done. all: unfold assert; cbn [run]; by destruct (r =? MP_OK). Qed.
Theorem C66_add st V W c a b va vb vc : Rep st V W -> V !! a = Some va -> V !! b = Some vb -> V !! c = Some vc ->
  withstands (mpz_add c a b;; mpz_clear c) st (fun _ st' => exists z, digits z = None /\ Rep st' (delete c V) (World (bufs W) (<[c := z]> (blanks W)) (tunables W))).
Proof.
  intros H Ha Hb Hc. enough (withstands (mp_int_add a b c;; mp_int_clear c) st (fun _ st' => exists z, digits z = None /\ Rep st' (delete c V) (World (bufs W) (<[c := z]> (blanks W)) (tunables W)))) as HE.
  { intros orc t. unfold mpz_add, mpz_clear. rewrite run_check_then. apply HE. }
  eapply by_soft; [exact H|]. intros HV. apply soft_bind, wp_bind. eapply (sV_add_spoilt st V (ctx_of W) c vc _ HV Hc); [|exact Ha|exact Hb|].
  - intros st' HX. apply quiet_soft; [qt|]. eapply spoilt_clear; [exact HX|]. intros st2 z Hd H2. exists z. split; [done|by apply RV_done].
  - intros st' H'. apply quiet_soft; [qt|]. eapply wpV_clear; [exact H'|apply lookup_insert|]. intros st2 z Hd H2. rewrite delete_insert_delete in H2. exists z. split; [done|by apply RV_done].
Qed.
Example C66_add_ex : match run false (orc_first 0) (mpz_add hL hJ hJ;; mpz_clear hL) 0 exJ with Done _ st' _ => value_of st' hK = Some (-1) /\ size (mem st') = (size (mem exJ) - 1)%nat | _ => False end.
Proof. by vm_compute. Qed.
Print Assumptions C66_add.
Theorem C66_sub st V W c a b va vb vc : Rep st V W -> V !! a = Some va -> V !! b = Some vb -> V !! c = Some vc ->
  withstands (mpz_sub c a b;; mpz_clear c) st (fun _ st' => exists z, digits z = None /\ Rep st' (delete c V) (World (bufs W) (<[c := z]> (blanks W)) (tunables W))).
Proof.
  intros H Ha Hb Hc. enough (withstands (mp_int_sub a b c;; mp_int_clear c) st (fun _ st' => exists z, digits z = None /\ Rep st' (delete c V) (World (bufs W) (<[c := z]> (blanks W)) (tunables W)))) as HE.
  { intros orc t. unfold mpz_sub, mpz_clear. rewrite run_check_then. apply HE. }
  eapply by_soft; [exact H|]. intros HV. apply soft_bind, wp_bind. eapply (sV_sub_spoilt st V (ctx_of W) c vc _ HV Hc); [|exact Ha|exact Hb|].
  - intros st' HX. apply quiet_soft; [qt|]. eapply spoilt_clear; [exact HX|]. intros st2 z Hd H2. exists z. split; [done|by apply RV_done].
  - intros st' H'. apply quiet_soft; [qt|]. eapply wpV_clear; [exact H'|apply lookup_insert|]. intros st2 z Hd H2. rewrite delete_insert_delete in H2. exists z. split; [done|by apply RV_done].
Qed.
Example C66_sub_ex : match run false (orc_first 0) (mpz_sub hL hJ hK;; mpz_clear hL) 0 exJ with Done _ st' _ => value_of st' hK = Some (-1) /\ size (mem st') = (size (mem exJ) - 1)%nat | _ => False end.
Proof. by vm_compute. Qed.
Print Assumptions C66_sub.

(** Rationals: [init] needs no memory that can be refused; an assignment may stop
    between numerator and denominator. *)
Theorem C66_q_init st V W r zn zd :
  Rep st V W -> fst r <> snd r -> blanks W !! fst r = Some zn -> blanks W !! snd r = Some zd ->
  withstands (mpq_init r) st (fun _ st' => Rep st' (set_rat r 0 V) (World (bufs W) (delete (snd r) (delete (fst r) (blanks W))) (tunables W))).
Proof. intros H N Hn Hd. eapply withstands_check; [by eapply C61_init|]. naive_solver. Qed.
Example C66_q_init_ex : match run false (orc_first 0) (mpq_init rA) 0 (declares [fst rA; snd rA]) with Done _ st' _ => value_of st' (fst rA) = Some 0 /\ value_of st' (snd rA) = Some 1 | _ => False end.
Proof. by vm_compute. Qed.
Print Assumptions C66_q_init.
Theorem C66_q_set st V W c a q : Rep st V W -> structs [a; c] -> rat_at V a q -> rat_live V c ->
  withstands (mpq_set c a) st (fun _ st' => Rep st' (set_rat c q V) W \/ Rep st' V W \/ Rep st' (<[fst c := Qnum (Qred q)]> V) W).
Proof. intros H HS Ha Hc. eapply withstands_check; [by eapply C61_copy|]. naive_solver. Qed.
Example C66_q_set_ex : match run false (orc_but 1) (mpq_set rC rA) 0 exR with Done _ st' _ => value_of st' (fst rC) = Some (- 2 ^ 224 + 1) /\ value_of st' (snd rC) = Some 1 | _ => False end.
Proof. by vm_compute. Qed.
Print Assumptions C66_q_set.

(** A whole sequence of these calls, whichever of their requests are refused: every
    variable holds a number that the sequence may leave there, and the store is
    intact. *)
Definition do_zcall (x : zcall) : prog unit :=
  match x with
  | Set_ c a => mpz_set c a
  | Neg_ c a => mpz_neg c a
  | Abs_ c a => mpz_abs c a
  | SetSi c v => mpz_set_si c v
  | SetUi c v => mpz_set_ui c v
  | Mul_ c a b => mpz_mul c a b
  | Mul2 c a k => mpz_mul_2exp c a k
  | Gcd_ c a b => mpz_gcd c a b
  | Swap_ a b => mpz_swap a b
  end.
Fixpoint do_zcalls (l : list zcall) : prog unit :=
  match l with
  | [] => Ret tt
  | x :: l' => do_zcall x;; do_zcalls l'
  end.
Theorem C66_call st V W x : Rep st V W -> legal (tunables W) V x ->
  withstands (do_zcall x) st (fun _ st' => exists V', may V x V' /\ Rep st' V' W).
Proof.
  intros H HL. destruct x as [c a|c a|c a|c v|c v|c a b|c a k|c a b|a b]; cbn [do_zcall legal] in *.
  - destruct HL as [[vc Hc] [va Ha]]. eapply withstands_mono; [by eapply C66_set|]. cbn [may goal]. rewrite Ha. intros _ st' [H'|H']; [|by eauto]. eexists. split; [left; by eauto|done].
  - destruct HL as [[vc Hc] [va Ha]]. eapply withstands_mono; [by eapply C66_neg|]. cbn [may goal]. rewrite Ha. intros _ st' [H'|H']; [|by eauto]. eexists. split; [left; by eauto|done].
  - destruct HL as [[vc Hc] [va Ha]]. eapply withstands_mono; [by eapply C66_abs|]. cbn [may goal]. rewrite Ha. intros _ st' [H'|H']; [|by eauto]. eexists. split; [left; by eauto|done].
  - destruct HL as [[vc Hc] Hv]. eapply withstands_mono; [by eapply C66_set_si|]. cbn [may goal]. intros _ st' [H'|H']; [|by eauto]. eexists. split; [left; by eauto|done].
  - destruct HL as [[vc Hc] Hv]. eapply withstands_mono; [by eapply C66_set_ui|]. cbn [may goal]. intros _ st' [H'|H']; [|by eauto]. eexists. split; [left; by eauto|done].
  - destruct HL as [[vc Hc] (va & vb & Ha & Hb & Hu)]. eapply withstands_mono; [by eapply C66_mul|]. cbn [may goal]. rewrite Ha, Hb. intros _ st' [H'|H']; [|by eauto]. eexists. split; [left; by eauto|done].
  - destruct HL as ([vc Hc] & [va Ha] & Hk). eapply withstands_mono; [by eapply C66_mul_2exp|]. cbn [may goal]. rewrite Ha. intros _ st' [H'|[H'|H']]; eexists; (split; [|exact H']); [left|right; left|right; right]; eauto.
  - destruct HL as ([vc Hc] & [va Ha] & [vb Hb]). eapply withstands_mono; [by eapply C66_gcd|]. cbn [may]. intros _ st' [v H']. eauto.
  - destruct HL as ([va Ha] & [vb Hb]). eapply withstands_quiet; [unfold mpz_swap, mp_int_swap; qt|exact H|]. intros HV. eapply wpV_swap; [exact HV|exact Ha|exact Hb|]. intros st' H'. cbn [may]. eexists. split; [by eauto|by apply RV_done].
Qed.
Print Assumptions C66_call.
Theorem C66_survives l : forall st V W, Rep st V W -> legal_all (tunables W) V l ->
  withstands (do_zcalls l) st (fun _ st' => exists V', may_all V l V' /\ Rep st' V' W).
Proof.
  induction l as [|x l IH]; intros st V W H HL; cbn [do_zcalls legal_all may_all] in *.
  - intros orc t. exists tt, st, t. eauto.
  - destruct HL as [HL HN]. eapply withstands_then; [by apply C66_call|]. intros _ st1 (V1 & HM & H1). eapply withstands_mono; [apply IH; [exact H1|by apply HN]|].
    intros _ st' (V' & HM' & H'). eauto.
Qed.
Example C66_survives_ex : legal_all (tunables world0) (exMV (2 ^ 128 - 1) (2 ^ 33 + 1) 7) [Mul_ hC hA hA; Swap_ hA hC; Mul2 hB hC 100; Gcd_ hC hA hB] /\
  match run false (orc_but 0) (do_zcalls [Mul_ hC hA hA; Swap_ hA hC; Mul2 hB hC 100; Gcd_ hC hA hB]) 0 (exM (2 ^ 128 - 1) (2 ^ 33 + 1) 7) with
  | Done _ st' _ => value_of st' hB = Some ((2 ^ 128 - 1) * 2 ^ 100) | _ => False end.
Proof.
  split; [|by vm_compute]. split; [split; [by eexists|]; do 2 eexists; do 2 (split; [reflexivity|]); left; by vm_compute|].
  assert (forall (V : gmap oid Z) o, is_Some (V !! o) -> forall c (v : Z), is_Some (<[c := v]> V !! o)) as K. { intros V o H c v. destruct (decide (c = o)) as [->|N]; [rewrite lookup_insert; eauto|by rewrite lookup_insert_ne]. }
  set (V := exMV _ _ _). assert (is_Some (V !! hA) /\ is_Some (V !! hB) /\ is_Some (V !! hC)) as (HA & HB & HC) by (split; [|split]; by eexists). clearbody V.
  intros V1 HM1. assert (is_Some (V1 !! hA) /\ is_Some (V1 !! hB) /\ is_Some (V1 !! hC)) as (HA1 & HB1 & HC1). { destruct HM1 as [(c & v & _ & ->)| ->]; auto. }
  cbn [legal_all]. split; [done|]. intros V2 (va & vb & _ & _ & ->). cbn [legal]. split; [split; [auto|split; [auto|lia]]|].
  intros V3 HM3. split; [|done]. destruct HM3 as [(v & _ & ->)|[-> |(v & _ & ->)]]; repeat split; auto.
Qed.
Print Assumptions C66_survives.

(** What goes wrong, unnoticed, since nothing is reported.  A call returns as usual
    and its output is not the result. *)
Local Ltac silent := split; [reps|]; do 2 (split; [done|]); vm_compute; eexists; split; [reflexivity|discriminate].
Theorem C66_mul_refuted : exists st V W c a b va vb orc, Rep st V W /\ V !! a = Some va /\ V !! b = Some vb /\
  match run false orc (mpz_mul c a b) 0 st with Done _ st' _ => exists v, value_of st' c = Some v /\ v <> va * vb | _ => False end.
Proof. exists (exM (2 ^ 128 - 1) (2 ^ 33 + 1) 7), (exMV (2 ^ 128 - 1) (2 ^ 33 + 1) 7), world0, hC, hA, hB, (2 ^ 128 - 1), (2 ^ 33 + 1), (orc_but 0). silent. Qed.
Print Assumptions C66_mul_refuted.
Theorem C66_add_refuted : exists st V W c a b va vb orc, Rep st V W /\ V !! a = Some va /\ V !! b = Some vb /\
  match run false orc (mpz_add c a b) 0 st with Done _ st' _ => exists v, value_of st' c = Some v /\ v <> va + vb | _ => False end.
Proof. exists (exM (2 ^ 128 - 1) (2 ^ 33 + 1) 7), (exMV (2 ^ 128 - 1) (2 ^ 33 + 1) 7), world0, hC, hA, hB, (2 ^ 128 - 1), (2 ^ 33 + 1), (orc_but 0). silent. Qed.
Print Assumptions C66_add_refuted.
Theorem C66_addmul_refuted : exists st V W c a b va vb vc orc, Rep st V W /\ V !! c = Some vc /\ V !! a = Some va /\ V !! b = Some vb /\
  match run false orc (mpz_addmul c a b) 0 st with Done _ st' _ => exists v, value_of st' c = Some v /\ v <> vc + va * vb | _ => False end.
Proof. exists (exM (2 ^ 128 - 1) (2 ^ 33 + 1) 7), (exMV (2 ^ 128 - 1) (2 ^ 33 + 1) 7), world0, hC, hA, hB, (2 ^ 128 - 1), (2 ^ 33 + 1), 0, (orc_but 1). split; [reps|]. do 3 (split; [done|]). vm_compute; eexists; split; [reflexivity|discriminate]. Qed.
Print Assumptions C66_addmul_refuted.
Theorem C66_tdiv_q_refuted : exists st V W c a b va vb orc, Rep st V W /\ V !! a = Some va /\ V !! b = Some vb /\ vb <> 0 /\
  match run false orc (mpz_tdiv_q c a b) 0 st with Done _ st' _ => exists v, value_of st' c = Some v /\ v <> Z.quot va vb | _ => False end.
Proof. exists (exM (2 ^ 128 - 1) (2 ^ 33 + 1) 7), (exMV (2 ^ 128 - 1) (2 ^ 33 + 1) 7), world0, hC, hA, hB, (2 ^ 128 - 1), (2 ^ 33 + 1), (orc_but 3). split; [reps|]. do 3 (split; [done|]). vm_compute; eexists; split; [reflexivity|discriminate]. Qed.
Print Assumptions C66_tdiv_q_refuted.
Theorem C66_fdiv_q_refuted : exists st V W c a b va vb orc, Rep st V W /\ V !! a = Some va /\ V !! b = Some vb /\ vb <> 0 /\
  match run false orc (mpz_fdiv_q c a b) 0 st with Done _ st' _ => exists v, value_of st' c = Some v /\ v <> va / vb | _ => False end.
Proof. exists (exM (2 ^ 128 - 1) (2 ^ 33 + 1) 7), (exMV (2 ^ 128 - 1) (2 ^ 33 + 1) 7), world0, hC, hA, hB, (2 ^ 128 - 1), (2 ^ 33 + 1), (orc_but 4). split; [reps|]. do 3 (split; [done|]). vm_compute; eexists; split; [reflexivity|discriminate]. Qed.
Print Assumptions C66_fdiv_q_refuted.
Theorem C66_pow_ui_refuted : exists st V W c a va n orc, Rep st V W /\ V !! a = Some va /\ 0 <= n < 2 ^ 64 /\
  match run false orc (mpz_pow_ui c a n) 0 st with Done _ st' _ => exists v, value_of st' c = Some v /\ v <> va ^ n | _ => False end.
Proof. exists (exM (2 ^ 128 - 1) (2 ^ 33 + 1) 7), (exMV (2 ^ 128 - 1) (2 ^ 33 + 1) 7), world0, hC, hB, (2 ^ 33 + 1), 5, (orc_but 6). silent. Qed.
Print Assumptions C66_pow_ui_refuted.
Theorem C66_lcm_refuted : exists st V W c a b va vb orc, Rep st V W /\ V !! a = Some va /\ V !! b = Some vb /\
  match run false orc (mpz_lcm c a b) 0 st with Done _ st' _ => exists v, value_of st' c = Some v /\ v <> Z.lcm va vb | _ => False end.
Proof. exists (exM (2 ^ 128 - 1) (2 ^ 33 + 1) 7), (exMV (2 ^ 128 - 1) (2 ^ 33 + 1) 7), world0, hC, hA, hB, (2 ^ 128 - 1), (2 ^ 33 + 1), (orc_but 4). silent. Qed.
Print Assumptions C66_lcm_refuted.
(** A question is answered wrongly: the number is no multiple. *)
Theorem C66_divisible_refuted : exists st V W a b va vb orc, Rep st V W /\ V !! a = Some va /\ V !! b = Some vb /\ va mod vb <> 0 /\
  match run false orc (mpz_divisible_p a b) 0 st with Done r _ _ => r = true | _ => False end.
Proof. exists (exM (2 ^ 128 - 1) (2 ^ 33 + 1) 7), (exMV (2 ^ 128 - 1) (2 ^ 33 + 1) 7), world0, hA, hB, (2 ^ 128 - 1), (2 ^ 33 + 1), (orc_but 3). split; [reps|]. do 2 (split; [done|]). split; [by vm_compute|]. by vm_compute. Qed.
Print Assumptions C66_divisible_refuted.
(** Worse, a temporary whose initialisation was refused is used all the same:
    undefined behaviour. *)
Theorem C66_add_ui_refuted : exists st V W c a v orc, Rep st V W /\ is_Some (V !! c) /\ is_Some (V !! a) /\ 0 <= v < 2 ^ 64 /\
  run false orc (mpz_add_ui c a v) 0 st = UB.
Proof. exists (exM (2 ^ 128 - 1) (2 ^ 33 + 1) 7), (exMV (2 ^ 128 - 1) (2 ^ 33 + 1) 7), world0, hC, hA, (2 ^ 40), (orc_but 2). split; [reps|]. do 2 (split; [by eexists|]). split; [done|by vm_compute]. Qed.
Print Assumptions C66_add_ui_refuted.
Theorem C66_sub_ui_refuted : exists st V W c a v orc, Rep st V W /\ is_Some (V !! c) /\ is_Some (V !! a) /\ 0 <= v < 2 ^ 64 /\
  run false orc (mpz_sub_ui c a v) 0 st = UB.
Proof. exists (exM (2 ^ 128 - 1) (2 ^ 33 + 1) 7), (exMV (2 ^ 128 - 1) (2 ^ 33 + 1) 7), world0, hC, hA, (2 ^ 40), (orc_but 2). split; [reps|]. do 2 (split; [by eexists|]). split; [done|by vm_compute]. Qed.
Print Assumptions C66_sub_ui_refuted.
Theorem C66_mul_ui_refuted : exists st V W c a v orc, Rep st V W /\ is_Some (V !! c) /\ is_Some (V !! a) /\ 0 <= v < 2 ^ 64 /\
  run false orc (mpz_mul_ui c a v) 0 st = UB.
Proof. exists (exM (2 ^ 128 - 1) (2 ^ 33 + 1) 7), (exMV (2 ^ 128 - 1) (2 ^ 33 + 1) 7), world0, hC, hA, (2 ^ 40), (orc_but 2). split; [reps|]. do 2 (split; [by eexists|]). split; [done|by vm_compute]. Qed.
Print Assumptions C66_mul_ui_refuted.
Theorem C66_fdiv_r_refuted : exists st V W c a b va vb orc, Rep st V W /\ is_Some (V !! c) /\ V !! a = Some va /\ V !! b = Some vb /\ vb <> 0 /\
  run false orc (mpz_fdiv_r c a b) 0 st = UB.
Proof. exists (exM (2 ^ 128 - 1) (2 ^ 33 + 1) 7), (exMV (2 ^ 128 - 1) (2 ^ 33 + 1) 7), world0, hC, hA, hB, (2 ^ 128 - 1), (2 ^ 33 + 1), (orc_but 3). split; [reps|]. split; [by eexists|]. do 3 (split; [done|]). by vm_compute. Qed.
Print Assumptions C66_fdiv_r_refuted.
Theorem C66_fdiv_q_ui_refuted : exists st V W c a d orc, Rep st V W /\ is_Some (V !! c) /\ is_Some (V !! a) /\ 0 < d < 2 ^ 64 /\
  run false orc (mpz_fdiv_q_ui c a d) 0 st = UB.
Proof. exists (exM (2 ^ 128 - 1) (2 ^ 33 + 1) 7), (exMV (2 ^ 128 - 1) (2 ^ 33 + 1) 7), world0, hC, hA, 5, (orc_but 4). split; [reps|]. do 2 (split; [by eexists|]). split; [done|by vm_compute]. Qed.
Print Assumptions C66_fdiv_q_ui_refuted.
