(** Any client of the GMP interface sees a store of integers and rationals. *)
From Coq Require Import ZArith Znumtheory List Lia QArith Qabs Qpower.
From stdpp Require Import gmap list.
From Verif Require Import Mem Prog Kern Fp Imath Imrat Gmp Wp KernLem Rel RelWp RelZ Divi Spec SpecBin SpecHist SpecRat SpecDec SpecGmp SpecGstr SpecQHist SpecGHist Public Gcd Root Exptmod Buf Text Outlen Read Bin Hist Rat RatText RatDec RatOut Gmpr Outup Gmpstr Impexp QHist.
Local Open Scope Z_scope.
Local Open Scope prog_scope.

Definition quiet (p : prog unit) : prog qanswer := p;; Ret (Plain Nothing).
Definition number (p : prog Z) : prog qanswer := x <- p; Ret (Plain (Num x)).
(** The function of the GMP interface for each call. *)
Definition do_gcall (c : gcall) : prog qanswer :=
  match c with
  | Lib c => do_qcall c
  | ZInit x => quiet (mpz_init x)
  | ZClear x => quiet (mpz_clear x)
  | ZSet c a => quiet (mpz_set c a)
  | ZSetUi c n => quiet (mpz_set_ui c n)
  | ZSetSi c n => quiet (mpz_set_si c n)
  | ZSwap a c => quiet (mpz_swap a c)
  | ZAbs c a => quiet (mpz_abs c a)
  | ZNeg c a => quiet (mpz_neg c a)
  | ZAdd c a b => quiet (mpz_add c a b)
  | ZSub c a b => quiet (mpz_sub c a b)
  | ZMul c a b => quiet (mpz_mul c a b)
  | ZAddMul c a b => quiet (mpz_addmul c a b)
  | ZSubMul c a b => quiet (mpz_submul c a b)
  | ZAddUi c a n => quiet (mpz_add_ui c a n)
  | ZSubUi c a n => quiet (mpz_sub_ui c a n)
  | ZMulUi c a n => quiet (mpz_mul_ui c a n)
  | ZMul2exp c a k => quiet (mpz_mul_2exp c a k)
  | ZPowUi c a k => quiet (mpz_pow_ui c a k)
  | ZGcd c a b => quiet (mpz_gcd c a b)
  | ZLcm c a b => quiet (mpz_lcm c a b)
  | ZCdivQ q n d => quiet (mpz_cdiv_q q n d)
  | ZFdivQ q n d => quiet (mpz_fdiv_q q n d)
  | ZFdivR r n d => quiet (mpz_fdiv_r r n d)
  | ZTdivQ q n d => quiet (mpz_tdiv_q q n d)
  | ZFdivQUi q n d => number (mpz_fdiv_q_ui q n d)
  | ZDivexact q n d => quiet (mpz_divexact q n d)
  | ZDivexactUi q n d => quiet (mpz_divexact_ui q n d)
  | ZDivisible n d => x <- mpz_divisible_p n d; Ret (Plain (Flag x))
  | ZCmp a b => number (mpz_cmp a b)
  | ZCmpSi a n => number (mpz_cmp_si a n)
  | ZCmpabs a b => number (mpz_cmpabs a b)
  | ZSgn a => number (mpz_sgn a)
  | ZGetUi a => number (mpz_get_ui a)
  | ZGetSi a => number (mpz_get_si a)
  | ZSetStr c s k => number (mpz_set_str c s k)
  | ZGetStr b off k a => quiet (mpz_get_str (b, Z.of_nat off) k a)
  | ZSizeinbase a k => number (mpz_sizeinbase a k)
  | ZExport b off order size endian a => number (mpz_export (b, Z.of_nat off) order (Z.of_nat size) endian 0 a)
  | ZImport c n order size endian b off => quiet (mpz_import c (Z.of_nat n) order (Z.of_nat size) endian 0 (Some (b, Z.of_nat off)))
  | PInit r => quiet (mpq_init r)
  | PClear r => quiet (mpq_clear r)
  | PSet c a => quiet (mpq_set c a)
  | PSetUi c n d => quiet (mpq_set_ui c n d)
  | PMul c a b => quiet (mpq_mul c a b)
  | PCmp a b => number (mpq_cmp a b)
  | PSgn a => number (mpq_sgn a)
  | PCanonicalize r => quiet (mpq_canonicalize r)
  | PSetStr c s k => number (mpq_set_str c s k)
  | PGetStr b off k a => quiet (mpq_get_str (b, Z.of_nat off) k a)
  end.
(** Running a client. *)
Fixpoint drive_g (k : gclient) : prog (list (gcall * qanswer)) :=
  match k with
  | GStop => Ret []
  | GThen c k => r <- do_gcall c; h <- drive_g (k r); Ret ((c, r) :: h)
  end.

Lemma lose_lookup os F r : lose os F !! r = (fun x => if decide (fst r ∈ os \/ snd r ∈ os) then None else x) <$> (F !! r).
Proof. unfold lose. rewrite map_lookup_imap. by destruct (F !! r). Qed.
Lemma lose_there os S' M r : there (Mixed S' (lose os (fracs M))) r -> there M r.
Proof. unfold there. cbn [fracs]. rewrite lose_lookup, fmap_is_Some. done. Qed.
Lemma tidy_lose M os S' : tidy M -> (forall o, is_Some (ints (whole M) !! o) -> is_Some (ints S' !! o)) ->
  (forall o v, o ∉ os -> ints (whole M) !! o = Some v -> ints S' !! o = Some v) -> tidy (Mixed S' (lose os (fracs M))).
Proof.
  intros T HL HV. split_and!; cbn [whole].
  - intros r Hr. apply lose_there in Hr. destruct (tidy_live M r T Hr). split; by apply HL.
  - intros r s Hr Hs. apply lose_there in Hr. apply lose_there in Hs. by apply (proj1 (proj2 T)).
  - intros r q Hr. cbn [fracs] in Hr. rewrite lose_lookup in Hr. destruct (fracs M !! r) as [x|] eqn:E; [|done]. cbn in Hr. destruct (decide _) as [|N]; [done|]. injection Hr as ->.
    destruct (proj2 (proj2 T) r q E). split; apply HV; tauto.
Qed.
Lemma tidy_put_z M c v : tidy M -> has (whole M) c -> tidy (put_z c v M).
Proof.
  intros T Hc. apply tidy_lose; [done| |]; cbn [ints put_int].
  - intros o Ho. destruct (decide (c = o)) as [<-|N]; [rewrite lookup_insert; by eexists|by rewrite lookup_insert_ne].
  - intros o w N Ho. rewrite lookup_insert_ne; [done|]. intros <-. set_solver.
Qed.
Lemma fits_20000 x r : 2 <= r <= 36 -> x < 2 ^ 20000 -> x < 2 ^ Z.min (enough_bits r) (2 ^ 29).
Proof. intros Hr Hv. eapply Z.lt_le_trans; [exact Hv|]. clear Hv. pose proof (enough_bits_20000 r Hr). apply Z.pow_le_mono_r; lia. Qed.
Lemma first_slash (s : list Z) : 47 ∉ s \/ exists s1 s2, s = s1 ++ 47 :: s2 /\ 47 ∉ s1.
Proof.
  induction s as [|x s IH]; [left; set_solver|]. destruct (decide (x = 47)) as [->|N]; [right; exists [], s; set_solver|].
  destruct IH as [IH|(s1 & s2 & -> & IH)]; [left; set_solver|right; exists (x :: s1), s2; set_solver].
Qed.
Lemma digit_count_ex k v : 2 <= k -> exists D, digit_count k v D.
Proof.
  intros Hk. assert (forall n : nat, (1 <= n)%nat -> Z.abs v < k ^ Z.of_nat n -> exists D, digit_count k v D) as HN.
  { induction n as [|n IH]; [lia|]. intros _ Hn. destruct (decide (n = 0%nat)) as [->|N0]; [exists 1; split; [lia|]; split; [done|lia]|].
    destruct (Z.lt_ge_cases (Z.abs v) (k ^ Z.of_nat n)) as [L|L]; [apply IH; [lia|done]|]. exists (Z.of_nat (S n)). split; [lia|]. split; [done|]. intros _. by replace (Z.of_nat (S n) - 1) with (Z.of_nat n) by lia. }
  destruct (numeral_exists k v Hk) as [s Hs]. destruct (Outup.numeral_digits k v s Hk Hs) as [L1 L2]. apply (HN (Z.to_nat (Z.of_nat (length s) - if v <? 0 then 1 else 0))); [lia|]. by rewrite Z2Nat.id by lia.
Qed.
Lemma wpV_sizeinbase st V X z v k D (Q : Z -> state -> Prop) : RV st V X -> V !! z = Some v -> 2 <= k <= 36 -> Z.abs v < 2 ^ Z.min (enough_bits k) (2 ^ 29) -> digit_count k v D ->
  (forall x, D <= x <= D + 1 -> ((exists j, k = 2 ^ j) -> x = D) -> Q x st) -> wp (mpz_sizeinbase z k) Q st.
Proof.
  intros H Hz Hb Hv HD HQ. unfold mpz_sizeinbase. wb. eapply wpV_compare_zero; [exact H|exact Hz|].
  destruct (Z.eqb_spec (Z.sgn v) 0) as [E|E].
  { apply wp_ret. assert (v = 0) as -> by lia. destruct HD as (D1 & _ & D3). assert (D = 1) as ->; [|apply HQ; [lia|done]].
    destruct (Z.eq_dec D 1); [done|]. specialize (D3 ltac:(lia)). assert (0 < k ^ (D - 1)) by (apply Z.pow_pos_nonneg; lia). lia. }
  destruct (numeral_exists k v ltac:(lia)) as [s Hs]. pose proof (string_len_bounds k v s Hb Hv Hs) as HB. pose proof (digit_count_numeral _ _ _ _ (proj1 Hb) Hs HD) as EL.
  assert ((exists j, k = 2 ^ j) -> outlen (bitlen v) k = D) as HX.
  { intros [j ->]. assert (1 <= j <= 5) as Hj. { assert (0 <= j) by (destruct (Z.neg_nonneg_cases j); [rewrite Z.pow_neg_r in Hb by done; lia|done]). split; [destruct (Z.eq_dec j 0); [subst j; cbn in Hb; lia|lia]|]. destruct (Z.le_gt_cases j 5); [done|]. pose proof (Z.pow_le_mono_r 2 6 j ltac:(lia) ltac:(lia)). change (2 ^ 6) with 64 in *. lia. }
    rewrite (outlen_exact j v s Hj); [rewrite EL; lia| |done]. apply (bitlen_le v (Z.min (enough_bits (2 ^ j)) (2 ^ 29))) in Hv; [lia|]. pose proof (enough_bits_pos (2 ^ j)). lia. }
  assert (bitlen v <= 2 ^ 29) as HBL. { apply (bitlen_le v (Z.min (enough_bits k) (2 ^ 29))) in Hv; [lia|]. pose proof (enough_bits_pos k). lia. }
  pose proof (outlen_tight k v s Hb HBL Hs) as HT. clear Hv.
  wb. eapply wpV_string_len; [exact H|exact Hz|done|]. set (N := outlen (bitlen v) k) in *. destruct HD as [D1 _].
  assert (Z.of_nat (length s) < 2 ^ 31) as L31 by (eapply (numeral_short _ _ _ _ _ _ _ H Hz (proj1 Hb) Hs)).
  wb. apply wp_assert; [destruct (v <? 0); lia|]. wb. eapply wpV_compare_zero; [exact H|exact Hz|]. apply wp_ret.
  destruct (Z.ltb_spec v 0); (destruct (Z.ltb_spec (Z.sgn v) 0); [|lia]) || (destruct (Z.ltb_spec (Z.sgn v) 0); [lia|]).
  - unfold w64. rewrite Z.mod_small by lia. apply HQ; [lia|]. intros J; specialize (HX J); lia.
  - unfold w64. rewrite Z.mod_small by lia. apply HQ; [lia|]. intros J; specialize (HX J); lia.
Qed.

Lemma one_gcall c st M (Q : qanswer -> state -> Prop) : QH st M -> glegal c M -> (forall r M' st', geffect c M r M' -> QH st' M' -> Q r st') -> wp (do_gcall c) Q st.
Proof.
  intros (HS & HT) HL HQ. pose proof HS as (X & HV & HX). set (S := whole M) in *.
  assert (forall a b c0, has_frac M a -> has_frac M b -> there M c0 -> structs [a; b; c0]) as ST3 by (intros a b c0 Ha%has_there Hb%has_there Hc; apply (tidy_structs M); [done|by repeat constructor]).
  assert (forall a c0, has_frac M a -> there M c0 -> structs [a; c0]) as ST2 by (intros a c0 Ha%has_there Hc; apply (tidy_structs M); [done|by repeat constructor]).
  assert (forall c0, there M c0 -> structs [c0]) as ST1 by (intros c0 Hc; apply (tidy_structs M); [done|by repeat constructor]).
  assert (forall r st', geffect c M r M -> RV st' (ints S) X -> Q r st') as HQ0 by (intros; eapply HQ; [done|]; split; [by exists X|done]).
  assert (forall c0 v r st', ints S !! c0 = Some (val S c0) -> geffect c M r (put_z c0 v M) -> RV st' (<[c0 := v]> (ints S)) X -> Q r st') as HQZ.
  { intros c0 v r st' Hc0 He H'. eapply HQ; [done|]. split; [by exists X|apply tidy_put_z; [done|by eexists]]. }
  assert (forall c0 q r st', there M c0 -> geffect c M r (put_frac c0 q M) -> RV st' (set_rat c0 q (ints S)) X -> Q r st') as HQP.
  { intros c0 q r st' Hc0 He H'. eapply HQ; [done|]. split; [by exists X|by apply tidy_put]. }
  assert (forall c0 v r st', RV st' (<[c0 := v]> (ints S)) X -> geffect c M r (put_z c0 v M) -> ints S !! c0 = Some (val S c0) -> Q r st') as HQZ1 by (intros; by eapply HQZ).
  assert (forall c0 q r st', RV st' (set_rat c0 q (ints S)) X -> geffect c M r (put_frac c0 q M) -> there M c0 -> Q r st') as HQP1 by (intros; by eapply HQP).
  assert (forall b l r st', geffect c M r (on_whole (put_text b l S) M) -> RV st' (ints S) (setb X b l) -> Q r st') as HQT.
  { intros b l r st' He H'. eapply HQ; [done|]. split; [|by apply tidy_whole]. eexists. split; [exact H'|]. by apply SX_text. }
  assert (forall o, blank_at S o -> exists z, craw X !! o = Some z) as HB by (intros o; by apply blank_raw).
  pose proof (tidy_at M) as TA. pose proof (tidy_live M) as TL.
  destruct c; cbn [do_gcall glegal geffect] in *; cbv zeta in *; fold S in HL, HQ, HQ0, HQZ, HQZ1, HQP, HQP1, HQT; unfold quiet, number; vals.
  - (* Lib *) eapply one_qcall; [by split|done|]. done.
  - destruct (HB _ HL) as [z Hz]. wb. apply wp_check. eapply wpV_init; [exact HV|exact Hz|]. intros st' Hn0 H'. split; [done|]. apply wp_ret. eapply HQ; [done|]. split; [eexists; split; [exact H'|by apply SX_new]|].
    apply tidy_whole; [done|]. intros o v Hm Ho. cbn [ints put_new]. rewrite lookup_insert_ne; [done|]. intros <-. fold S in Ho. congruence.
  - wb. eapply wpV_clear; [exact HV|done|]. intros st' z Hz H'. apply wp_ret. eapply HQ; [done|]. split.
    + eexists. split; [exact H'|]. destruct HX as (X1 & X2 & X3 & X4). split_and!; try done; simpl.
      * intros o'. rewrite !lookup_insert_None, X2. done.
      * intros o' z'. destruct (decide (x = o')) as [<-|N]; [rewrite !lookup_insert; by intros _ [= <-]|]. rewrite !lookup_insert_ne by done. apply X3.
    + apply tidy_whole; [done|]. intros o v Hm Ho. cbn [ints]. rewrite lookup_delete_ne; [done|]. by intros <-.
  - wb. apply wp_check. eapply wpV_copy; [exact HV|done|done|]. intros st' H'. split; [done|]. apply wp_ret. by eapply HQZ1.
  - wb. apply wp_check. eapply wpV_set_uvalue; [exact HV|done|done|]. intros st' H'. split; [done|]. apply wp_ret. by eapply HQZ1.
  - wb. apply wp_check. eapply wpV_set_value; [exact HV|done|done|]. intros st' H'. split; [done|]. apply wp_ret. by eapply HQZ1.
  - wb. eapply wpV_swap; [exact HV|done|done|]. intros st' H'. apply wp_ret. eapply HQ; [done|]. split; [by exists X|]. apply tidy_lose; [done| |]; cbn [ints put_int]; fold S.
    + intros o Ho. destruct (decide (c = o)) as [<-|N]; [rewrite lookup_insert; by eexists|]. rewrite lookup_insert_ne by done. destruct (decide (a = o)) as [<-|N2]; [rewrite lookup_insert; by eexists|by rewrite lookup_insert_ne].
    + intros o v N Ho. rewrite !lookup_insert_ne; [done|set_solver|set_solver].
  - wb. apply wp_check. eapply wpV_abs; [exact HV|done|done|]. intros st' H'. split; [done|]. apply wp_ret. by eapply HQZ1.
  - wb. apply wp_check. eapply wpV_neg; [exact HV|done|done|]. intros st' H'. split; [done|]. apply wp_ret. by eapply HQZ1.
  - wb. apply wp_check. eapply wpV_add; [exact HV|done|done|done|]. intros st' H'. split; [done|]. apply wp_ret. by eapply HQZ1.
  - wb. apply wp_check. eapply wpV_sub; [exact HV|done|done|done|]. intros st' H'. split; [done|]. apply wp_ret. by eapply HQZ1.
  - wb. apply wp_check. eapply wpV_mul; [exact HV|done|done|done|]. intros st' H'. split; [done|]. apply wp_ret. by eapply HQZ1.
  - wb. eapply wpV_addmul; [exact HV|done|done|done|]. intros st' H'. apply wp_ret. by eapply HQZ1.
  - wb. eapply wpV_submul; [exact HV|done|done|done|]. intros st' H'. apply wp_ret. by eapply HQZ1.
  - wb. eapply wpV_add_ui; [exact HV|done|done|done|]. intros st' H'. apply wp_ret. by eapply HQZ1.
  - wb. eapply wpV_sub_ui; [exact HV|done|done|done|]. intros st' H'. apply wp_ret. by eapply HQZ1.
  - wb. eapply wpV_mul_ui; [exact HV|done|done|done|]. intros st' H'. apply wp_ret. by eapply HQZ1.
  - wb. eapply wpV_mul_2exp; [exact HV|done|done|lia|right; lia|]. intros st' H'. apply wp_ret. by eapply HQZ1.
  - wb. eapply wpV_pow_ui; [exact HV|done|done|done|]. intros st' H'. apply wp_ret. by eapply HQZ1.
  - wb. eapply wpV_zgcd; [exact HV|done|done|done|]. intros st' H'. apply wp_ret. by eapply HQZ1.
  - wb. eapply wpV_zlcm; [exact HV|done|done|done|]. intros st' H'. apply wp_ret. by eapply HQZ1.
  - wb. eapply wpV_cdiv_q; [exact HV|done|done|done|done|]. intros st' H'. apply wp_ret. by eapply HQZ1.
  - wb. eapply wpV_fdiv_q; [exact HV|done|done|done|done|]. intros st' H'. apply wp_ret. by eapply HQZ1.
  - wb. eapply wpV_fdiv_r; [exact HV|done|done|done|done|]. intros st' H'. apply wp_ret. by eapply HQZ1.
  - wb. eapply wpV_tdiv_q; [exact HV|done|done|done|done|]. intros st' H'. apply wp_ret. by eapply HQZ1.
  - wb. eapply wpV_fdiv_q_ui; [exact HV|done|done|done|]. intros st' H'. apply wp_ret. by eapply HQZ1.
  - match goal with H : (_ | _) |- _ => destruct H as [v Ev] end. wb. eapply (wpV_tdiv_q _ _ _ q n d); [exact HV|done|done|done|done|]. intros st' H'. apply wp_ret. eapply (HQZ q v); [done|by exists v|].
    rewrite Ev, Z.quot_mul in H' by done. done.
  - match goal with H : (_ | _) |- _ => destruct H as [v Ev] end. wb. eapply wpV_divexact_ui; [exact HV|done|done|done|]. intros st' H'. apply wp_ret. eapply (HQZ q v); [done|by exists v|].
    rewrite Ev, Z.quot_mul in H' by lia. done.
  - wb. eapply wpV_divisible_p; [exact HV|done|done|]. intros st' b H' Hb. apply wp_ret. apply HQ0; [by exists b|done].
  - wb. eapply wpV_compare; [exact HV|done|done|]. apply wp_ret. apply HQ0; [eexists; split; [done|]; split; [done|apply ordered_sgn]|done].
  - wb. eapply wpV_compare_value; [exact HV|done|done|]. intros st' H'. apply wp_ret. apply HQ0; [eexists; split; [done|]; split; [done|apply ordered_sgn]|done].
  - wb. eapply wpV_compare_unsigned; [exact HV|done|done|]. apply wp_ret. apply HQ0; [eexists; split; [done|]; split; [done|apply ordered_sgn]|done].
  - wb. eapply wpV_compare_zero; [exact HV|done|]. apply wp_ret. apply HQ0; [eexists; split; [done|]; split; [done|]|done]. rewrite <- (Z.sub_0_r (val S a)) at 1. apply ordered_sgn.
  - wb. eapply wpV_get_ui; [exact HV|done|]. intros st' H'. apply wp_ret. by apply HQ0.
  - wb. eapply wpV_get_si; [exact HV|done|done|]. intros st' H'. apply wp_ret. by apply HQ0.
  - destruct (reads_ex radix s) as (v & rest & K). wb. eapply wpV_set_str; [exact HV|done|done|exact K|done|]. intros st' H'. apply wp_ret. eapply HQZ; [done| |exact H']. by exists v, rest.
  - match goal with H : exists l s, _ |- _ => destruct H as (l & s & Hl & Hs & Hlen) end. wb. eapply wpV_get_str; [exact HV|done|by eapply text_has|done|apply fits_20000; [split|]; assumption|exact Hs|exact Hlen|]. intros st' H'. apply wp_ret. eapply HQT; [|exact H']. by exists l, s.
  - destruct (digit_count_ex radix (val S a) ltac:(assumption)) as [D HD]. wb. eapply wpV_sizeinbase; [exact HV|done|done|apply fits_20000; [split|]; assumption|exact HD|]. intros x Hx1 Hx2. apply wp_ret. apply HQ0; [by exists x, D|done].
  - match goal with H : exists l n, _ |- _ => destruct H as (l & n & Hl & Hn & Hlen & Hf) end. wb. eapply wpV_export; [exact HV|done|by eapply text_has|done|done|done|exact Hn|exact Hlen|exact Hf|]. intros st' H'. apply wp_ret. eapply HQT; [|exact H']. by exists l, n.
  - match goal with H : exists l bs, _ |- _ => destruct H as (l & bs & Hl & Hbs & Hlen) end. destruct (words_onto order endian size count bs ltac:(done) (proj1 Hbs) Hlen) as (v & Hv & Hw).
    wb. eapply wpV_import; [exact HV|done|by eapply text_has|done|done|done|done|exact Hv|by rewrite Hw|done|]. intros st' H'. apply wp_ret. eapply HQZ; [done| |exact H']. exists l, v. split; [done|]. split; [done|]. by rewrite Hw.
  - destruct HL as (N & B1 & B2). destruct (HB _ B1) as [z1 Z1], (HB _ B2) as [z2 Z2]. wb. apply wp_check. eapply wpV_rat_init; [exact HV|exact N|exact Z1|exact Z2|]. intros st' E1 E2 H'. split; [done|]. apply wp_ret.
    eapply HQ; [done|]. split; [|apply (tidy_new M r 0); [done|done|by intros i [->| ->]|done]]. eexists. split; [exact H'|].
    destruct HX as (X1 & X2 & X3 & X4). split_and!; try done; cbn [craw with_craw unraw raws put_frac_new whole].
    + intros o'. fold S. rewrite !lookup_delete_None. unfold num, den. rewrite X2. done.
    + intros o' z'. fold S. rewrite !lookup_delete_Some. intros (_ & _ & A) (_ & _ & B). by eapply X3.
  - destruct (TL _ HT HL) as [[x1 K1] [x2 K2]]. wb. eapply wpV_rat_clear; [exact HV|by apply (ST1 _ HL r r); left|exact K1|exact K2|]. unfold num, den. intros st' zn zd D1 D2 H'. apply wp_ret. eapply HQ; [done|]. split; [|by apply tidy_del].
    eexists. split; [exact H'|]. destruct HX as (X1 & X2 & X3 & X4). split_and!; try done; simpl.
    + intros o'. rewrite !lookup_insert_None, X2. done.
    + intros o' z'. destruct (decide (snd r = o')) as [<-|N]; [rewrite !lookup_insert; by intros _ [= <-]|]. rewrite !(lookup_insert_ne _ (snd r)) by done.
      destruct (decide (fst r = o')) as [<-|N2]; [rewrite !lookup_insert; by intros _ [= <-]|]. rewrite !lookup_insert_ne by done. apply X3.
  - wb. apply wp_check. eapply wpV_rat_copy; [exact HV|by apply ST2|by apply TA|by apply TL|]. intros st' H'. split; [done|]. apply wp_ret. by eapply HQP1.
  - wb. apply wp_check. eapply wpV_rat_set_uvalue; [exact HV|by apply ST1|by apply TL|done|lia|lia|]. intros E st' H'. split; [done|]. apply wp_ret. by eapply HQP1.
  - wb. apply wp_check. eapply wpV_rat_mul; [exact HV|by apply ST3|by apply TA|by apply TA|by apply TL|]. intros st' H'. split; [done|]. apply wp_ret. by eapply HQP1.
  - wb. eapply wpV_rat_compare; [exact HV|by apply TA|by apply TA|]. intros st' x H' Hx _. apply wp_ret. apply HQ0; [by eexists|done].
  - destruct (TA _ HT HL) as [A1 A2]. wb. eapply wpV_compare_zero; [exact HV|exact A1|]. apply wp_ret. apply HQ0; [|done]. eexists. split; [done|]. split; [done|].
    apply qordered_intro; change (Qnum (Qred 0)) with 0; change (Zpos (Qden (Qred 0))) with 1; lia.
  - destruct (TL _ HT H) as [K1%has_val K2%has_val]. wb. apply wp_check. eapply wpV_rat_reduce; [exact HV|by apply (ST1 r H r r); left|exact K1|exact K2|done|by rewrite frac_eq|]. intros st' H'. split; [done|]. apply wp_ret. by eapply HQP1.
  - assert (fst c <> snd c) as N by (by apply (ST1 c H c c); left). destruct (TL _ HT H) as [[v1 K1] [v2 K2]]. fold S in K1, K2.
    wb. unfold mpq_set_str, mp_rat_numer_ref, mp_rat_denom_ref, num, den. destruct (first_slash s) as [N47|(s1 & s2 & -> & N47)].
    + destruct (reads_ex radix s) as (n & rest & R1). rewrite split_at_none by done. cbn [fst snd].
      wb. unfold mp_int_read_string. wb. eapply wpV_read_reads; [exact HV|exact K1|done|exact R1|done|]. intros st2 HV2. apply wp_ret.
      wb. eapply wpV_set_uvalue; [exact HV2|rewrite lookup_insert_ne by done; exact K2|lia|]. intros st3 HV3. apply wp_ret. apply wp_ret.
      eapply (HQP c (inject_Z n)); [done| |]. { left. exists n, rest. split; [done|]. split; [done|]. split; [|done]. by destruct rest. }
      eapply RV_eqV; [exact HV3|]. unfold set_rat. rewrite Qred_int. done.
    + match goal with H : Z.of_nat _ < _ |- _ => rewrite app_length in H; cbn [length] in H end. destruct (reads_ex radix s1) as (n & rest1 & R1), (reads_ex radix s2) as (d & rest2 & R2). rewrite split_at_some by done. cbn [fst snd].
      wb. unfold mp_int_read_string. wb. eapply wpV_read_reads; [exact HV|exact K1|done|exact R1|lia|]. intros st2 HV2. apply wp_ret.
      wb. wb. eapply wpV_read_reads; [exact HV2|rewrite lookup_insert_ne by done; exact K2|done|exact R2|lia|]. intros st3 HV3. apply wp_ret. apply wp_ret. apply wp_ret.
      apply (HQ _ (spoil c n d M)); [|split; [by exists X|by apply tidy_spoil]]. right. exists s1, s2, n, d, rest1, rest2. split_and!; try done. by destruct rest1, rest2.
  - match goal with H : exists l s, _ |- _ => destruct H as (l & s & Hl & Hs & Hlen & Ho) end.
    assert (2 <= Z.abs radix <= 36) as Hr by (split; assumption). apply (fits_20000 _ _ Hr) in H1. apply (fits_20000 _ _ Hr) in H2. wb.
    eapply wpV_get_ratio; [exact HV|exact (TA _ HT H)|by eapply text_has|exact Hr|exact H1|exact H2|exact Hs|exact Hlen|exact Ho|]. intros st' t Ht H'. apply wp_ret. eapply HQT; [|exact H']. by exists l, s, t.
Qed.

Theorem drive_g_ok k st M : QH st M -> gwell_behaved k M -> wp (drive_g k) (fun h st' => exists M', ghistory k M h M' /\ QH st' M') st.
Proof.
  revert st M. induction k as [|c k IH]; intros st M HS HW; cbn [drive_g].
  - apply wp_ret. exists M. split; [constructor|done].
  - destruct HW as [HL HW]. wb. eapply one_gcall; [done..|]. intros r M' st' He HS'. wb. eapply wp_mono; [apply IH; [done|by apply HW]|].
    intros h st2 (M2 & Hh & HS2). apply wp_ret. exists M2. split; [by econstructor|done].
Qed.

(** ** Frames *)
Lemma qeffect_ints c M r M' o v : qeffect c M r M' -> ints (whole M) !! o = Some v -> o ∉ changed_q c -> ints (whole M') !! o = Some v.
Proof.
  intros He Ho N. destruct c; cbn [qeffect changed_q qoutputs concat map both app] in *; cbv zeta in He; repeat match goal with
   | H : if ?b then _ else _ |- _ => destruct b
   | H : _ /\ _ |- _ => destruct H
   | H : _ \/ _ |- _ => destruct H
   | H : exists _, _ |- _ => destruct H
   end; subst M'; try done; cbn [ints whole put_frac put_frac_new spoil on_whole with_ints put_int put_text];
   first [by eapply effect_frame | rewrite set_rat_ne by set_solver; done | rewrite !lookup_delete_ne by set_solver; done | rewrite !lookup_insert_ne by set_solver; done | idtac].
  rewrite set_rat_ne; [done| |]; intros ->;
   match goal with H : forall i, _ -> ints _ !! i = None /\ _ |- _ => pose proof (proj1 (H _ (or_introl eq_refl))); pose proof (proj1 (H _ (or_intror eq_refl))); congruence end.
Qed.
Lemma geffect_ints c M r M' o v : geffect c M r M' -> ints (whole M) !! o = Some v -> o ∉ changed c -> ints (whole M') !! o = Some v.
Proof.
  intros He Ho N. destruct c; cbn [geffect changed both] in *; cbv zeta in He; repeat match goal with
   | H : _ /\ _ |- _ => destruct H
   | H : _ \/ _ |- _ => destruct H
   | H : exists _, _ |- _ => destruct H
   end; try subst M'; try done; cbn [ints whole put_z put_frac put_frac_new spoil on_whole with_ints put_int put_new put_text];
   first [by eapply qeffect_ints | rewrite set_rat_ne by set_solver; done | rewrite !lookup_delete_ne by set_solver; done | rewrite !lookup_insert_ne by set_solver; done].
Qed.
Lemma ghistory_ints k M h M' o v : ghistory k M h M' -> ints (whole M) !! o = Some v -> (forall c r, (c, r) ∈ h -> o ∉ changed c) -> ints (whole M') !! o = Some v.
Proof.
  induction 1 as [|c k M r M' h M'' He Hh IH]; intros Ho N; [done|]. apply IH; [eapply geffect_ints; [done..|]; apply (N c r); set_solver|]. intros c' r' Hc. apply (N c' r'). set_solver.
Qed.
Lemma geffect_text c M r M' b : geffect c M r M' -> text (whole M) !! b = None -> text (whole M') !! b = None.
Proof.
  intros He Hb. destruct c; cbn [geffect] in *; cbv zeta in He; repeat match goal with
   | H : _ /\ _ |- _ => destruct H
   | H : _ \/ _ |- _ => destruct H
   | H : exists _, _ |- _ => destruct H
   end; try subst M'; try done; cbn [text whole put_text on_whole]; try (rewrite lookup_insert_ne; [done|congruence]). by eapply qeffect_text.
Qed.
Lemma ghistory_text k M h M' b : ghistory k M h M' -> text (whole M) !! b = None -> text (whole M') !! b = None.
Proof. induction 1 as [|c k M r M' h M'' He Hh IH]; intros Hb; [done|]. apply IH. by eapply geffect_text. Qed.
