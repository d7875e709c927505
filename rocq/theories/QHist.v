(** Any client of the library sees a store of integers and rationals. *)
From Coq Require Import ZArith Znumtheory List Lia QArith Qabs Qpower.
From stdpp Require Import gmap list.
From Verif Require Import Mem Prog Kern Fp Imath Imrat Wp KernLem Rel RelWp Rel RelZ Divi Spec SpecBin SpecHist SpecRat SpecDec SpecGstr SpecQHist Public Gcd Root Exptmod Buf Text Outlen Read Bin Hist Rat RatText RatDec RatOut Gmpstr.
Local Open Scope Z_scope.
Local Open Scope prog_scope.

(** The library's function for each call. *)
Definition do_qcall (c : qcall) : prog qanswer :=
  match c with
  | Int c => a <- do_call c; Ret (Plain a)
  | QInit r => x <- mp_rat_init r; Ret (Plain (Num x))
  | QInitSize r n d => x <- mp_rat_init_size r n d; Ret (Plain (Num x))
  | QInitCopy r a => x <- mp_rat_init_copy r a; Ret (Plain (Num x))
  | QClear r => mp_rat_clear r;; Ret (Plain Nothing)
  | QAlloc => r <- mp_rat_alloc; Ret (QHandle r)
  | QFree r => mp_rat_free r;; Ret (Plain Nothing)
  | QSetValue r n d => x <- mp_rat_set_value r n d; Ret (Plain (Num x))
  | QSetUvalue r n d => x <- mp_rat_set_uvalue r n d; Ret (Plain (Num x))
  | QNumer r c => x <- mp_rat_numer r c; Ret (Plain (Num x))
  | QDenom r c => x <- mp_rat_denom r c; Ret (Plain (Num x))
  | QSign a => x <- mp_rat_sign a; Ret (Plain (Num x))
  | QCopy a c => x <- mp_rat_copy a c; Ret (Plain (Num x))
  | QZero c => mp_rat_zero c;; Ret (Plain Nothing)
  | QAbs a c => x <- mp_rat_abs a c; Ret (Plain (Num x))
  | QNeg a c => x <- mp_rat_neg a c; Ret (Plain (Num x))
  | QRecip a c => x <- mp_rat_recip a c; Ret (Plain (Num x))
  | QAdd a b c => x <- mp_rat_add a b c; Ret (Plain (Num x))
  | QSub a b c => x <- mp_rat_sub a b c; Ret (Plain (Num x))
  | QMul a b c => x <- mp_rat_mul a b c; Ret (Plain (Num x))
  | QDiv a b c => x <- mp_rat_div a b c; Ret (Plain (Num x))
  | QAddInt a b c => x <- mp_rat_add_int a b c; Ret (Plain (Num x))
  | QSubInt a b c => x <- mp_rat_sub_int a b c; Ret (Plain (Num x))
  | QMulInt a b c => x <- mp_rat_mul_int a b c; Ret (Plain (Num x))
  | QDivInt a b c => x <- mp_rat_div_int a b c; Ret (Plain (Num x))
  | QExpt a k c => x <- mp_rat_expt a k c; Ret (Plain (Num x))
  | QCompare a b => x <- mp_rat_compare a b; Ret (Plain (Num x))
  | QCompareUnsigned a b => x <- mp_rat_compare_unsigned a b; Ret (Plain (Num x))
  | QCompareZero a => x <- mp_rat_compare_zero a; Ret (Plain (Num x))
  | QCompareValue a n d => x <- mp_rat_compare_value a n d; Ret (Plain (Num x))
  | QIsInteger a => x <- mp_rat_is_integer a; Ret (Plain (Flag x))
  | QToInts a => x <- mp_rat_to_ints a; Ret (Pair x.1.1 x.1.2 x.2)
  | QToString a k b off limit => x <- mp_rat_to_string a k (b, Z.of_nat off) limit; Ret (Plain (Num x))
  | QToDecimal a k prec m b off limit => x <- mp_rat_to_decimal a k prec (rounding_code m) (b, Z.of_nat off) limit; Ret (Plain (Num x))
  | QReadCString c k s => x <- mp_rat_read_cstring c k s; Ret (Tail x.1 x.2)
  | QReadCDecimal c k s => x <- mp_rat_read_cdecimal c k s; Ret (Tail x.1 x.2)
  | QReadUString c k s => x <- mp_rat_read_ustring c k s; Ret (Tail x.1 (Some x.2))
  | QReduce a => x <- mp_rat_reduce a; Ret (Plain (Num x))
  | QStringLen a k => x <- mp_rat_string_len a k; Ret (Plain (Num x))
  | QDecimalLen a k prec => x <- mp_rat_decimal_len a k prec; Ret (Plain (Num x))
  end.
(** Running a client. *)
Fixpoint drive_q (k : qclient) : prog (list (qcall * qanswer)) :=
  match k with
  | QStop => Ret []
  | QThen c k => r <- do_qcall c; h <- drive_q (k r); Ret ((c, r) :: h)
  end.

Lemma tidy_structs M rs : tidy M -> Forall (there M) rs -> structs rs.
Proof. intros (_ & T & _) HF r s Hr Hs. rewrite Forall_forall in HF. apply T; apply HF; by apply elem_of_list_In. Qed.
Lemma tidy_at M r : tidy M -> has_frac M r -> rat_at (ints (whole M)) r (qval M r).
Proof. intros (_ & _ & T) [q E]. unfold qval. rewrite E. by apply T. Qed.
Lemma tidy_live M r : tidy M -> there M r -> rat_live (ints (whole M)) r. Proof. intros (T & _ & _). apply T. Qed.
Lemma has_there M r : has_frac M r -> there M r. Proof. intros [q E]. by eexists. Qed.
Lemma rat_at_red V r q : rat_at V r q -> rat_at V r (Qred q).
Proof. unfold rat_at. by rewrite (Qred_complete _ _ (Qred_correct q)). Qed.
(** The members of a rational that is not [c] are not those of [c]. *)
Lemma tidy_apart M r c : tidy M -> there M r -> there M c -> r <> c -> fst r <> fst c /\ snd r <> snd c /\ fst r <> snd c /\ snd r <> fst c.
Proof.
  intros (_ & T & _) Hr Hc N. destruct (T r c Hr Hc) as [A B]. destruct (T c r Hc Hr) as [C _].
  assert (fst r <> fst c) as D. { intros E. apply N. rewrite (surjective_pairing r), (surjective_pairing c). f_equal; tauto. }
  split_and!; [done|tauto|done|congruence].
Qed.
(** A store in which only members of [c], or nothing, have changed. *)
Lemma tidy_set M c o V' S' : tidy M -> there M c \/ (fst c <> snd c /\ forall i, i = fst c \/ i = snd c -> ints (whole M) !! i = None) ->
  ints S' = V' -> (forall i, i <> fst c -> i <> snd c -> V' !! i = ints (whole M) !! i) -> rat_live V' c ->
  (forall q, o = Some q -> rat_at V' c q) -> tidy (Mixed S' (<[c := o]> (fracs M))).
Proof.
  intros T Hc <- HV HL HQ. set (V' := ints S') in *.
  assert (forall r, there M r -> r <> c -> fst r <> fst c /\ snd r <> snd c /\ fst r <> snd c /\ snd r <> fst c) as HA.
  { intros r Hr N. destruct Hc as [Hc|[_ Hc]]; [by eapply tidy_apart|]. destruct (tidy_live _ _ T Hr) as [[x1 H1] [x2 H2]].
    pose proof (Hc (fst c) (or_introl eq_refl)). pose proof (Hc (snd c) (or_intror eq_refl)). split_and!; congruence. }
  assert (fst c <> snd c) as Nc. { destruct Hc as [Hc|[Hc _]]; [by apply (proj1 (proj2 T) c c)|done]. }
  assert (forall r, there (Mixed S' (<[c:=o]> (fracs M))) r -> r = c \/ (r <> c /\ there M r)) as HT.
  { intros r [x Hr]. simpl in Hr. apply lookup_insert_Some in Hr as [[-> _]|[N Hr]]; [by left|right]. split; [done|by eexists]. }
  split_and!; cbn [whole fracs].
  - intros r Hr. destruct (HT r Hr) as [->|[N Hr']]; [done|]. destruct (tidy_live _ _ T Hr') as [H1 H2]. destruct (HA r Hr' N) as (?&?&?&?). split; by rewrite HV.
  - intros r s Hr Hs. destruct (HT r Hr) as [->|[N Hr']], (HT s Hs) as [->|[N' Hs']].
    + done.
    + destruct (HA s Hs' N') as (?&?&?&?). split; [done|]. split; intros E; congruence.
    + destruct (HA r Hr' N) as (?&?&?&?). split; [done|]. split; intros E; congruence.
    + by apply (proj1 (proj2 T) r s).
  - intros r q Hr. apply lookup_insert_Some in Hr as [[-> E]|[N Hr]]; [by apply HQ|]. destruct (HA r ltac:(by eexists) ltac:(done)) as (?&?&?&?). destruct (proj2 (proj2 T) r q Hr) as [K1 K2]. split; by rewrite HV.
Qed.
Lemma set_rat_ne c q V i : i <> fst c -> i <> snd c -> set_rat c q V !! i = V !! i.
Proof. intros. unfold set_rat. by rewrite !lookup_insert_ne by done. Qed.
Lemma tidy_put M c q : tidy M -> there M c -> tidy (put_frac c q M).
Proof.
  intros T Hc. assert (fst c <> snd c) as N by (by apply (proj1 (proj2 T) c c)). pose proof (rat_at_set (ints (whole M)) c q N) as HA. eapply tidy_set; [done|by left|done| |by eapply rat_at_live|].
  - intros i. apply set_rat_ne.
  - intros q' [= <-]. by apply rat_at_red.
Qed.
Lemma tidy_spoil M c n d : tidy M -> there M c -> tidy (spoil c n d M).
Proof.
  intros T Hc. assert (fst c <> snd c) as N by (by apply (proj1 (proj2 T) c c)). eapply tidy_set; [done|by left|done| | |done].
  - intros i N1 N2. cbn [ints with_ints whole]. by rewrite !lookup_insert_ne by done.
  - split; cbn [ints with_ints]; [rewrite lookup_insert_ne by done|]; rewrite lookup_insert; by eexists.
Qed.
Lemma tidy_new M c q S' : tidy M -> fst c <> snd c -> (forall i, i = fst c \/ i = snd c -> ints (whole M) !! i = None) -> ints S' = set_rat c q (ints (whole M)) -> tidy (Mixed S' (<[c := Some (Qred q)]> (fracs M))).
Proof.
  intros T N Hc E. pose proof (rat_at_set (ints (whole M)) c q N) as HA. eapply tidy_set; [done|by right|exact E| |by eapply rat_at_live|].
  - intros i. apply set_rat_ne.
  - intros q' [= <-]. by apply rat_at_red.
Qed.
Lemma tidy_del M c S' : tidy M -> there M c -> ints S' = delete (snd c) (delete (fst c) (ints (whole M))) -> tidy (Mixed S' (delete c (fracs M))).
Proof.
  intros T Hc E. assert (forall r x, delete c (fracs M) !! r = Some x -> r <> c /\ fracs M !! r = Some x) as HD by (intros r x Hr; apply lookup_delete_Some in Hr; split; [intros ->|]; tauto).
  split_and!; cbn [whole fracs]; rewrite ?E.
  - intros r [x Hr]. apply HD in Hr as [N Hr]. destruct (tidy_apart M r c T) as (?&?&?&?); [by eexists|done|done|]. destruct (tidy_live M r T ltac:(by eexists)) as [K1 K2]. split; by rewrite !lookup_delete_ne by done.
  - intros r s [x Hr] [y Hs]. apply HD in Hr as [_ Hr]. apply HD in Hs as [_ Hs]. apply (proj1 (proj2 T)); by eexists.
  - intros r q Hr. apply HD in Hr as [N Hr]. destruct (tidy_apart M r c T) as (?&?&?&?); [by eexists|done|done|]. destruct (proj2 (proj2 T) r q Hr) as [K1 K2]. split; by rewrite !lookup_delete_ne by done.
Qed.
(** Only integers that are not members of rationals have changed. *)
Lemma tidy_whole M S' : tidy M -> (forall o v, member M o -> ints (whole M) !! o = Some v -> ints S' !! o = Some v) -> tidy (on_whole S' M).
Proof.
  intros T H. assert (forall r, there M r -> member M (fst r) /\ member M (snd r)) as HM by (intros r Hr; split; exists r; auto).
  split_and!; cbn [whole fracs on_whole].
  - intros r Hr. destruct (HM r Hr), (tidy_live M r T Hr) as [[x1 K1] [x2 K2]]. split; eexists; by eapply H.
  - apply (proj1 (proj2 T)).
  - intros r q Hr. destruct (HM r ltac:(by eexists)), (proj2 (proj2 T) r q Hr). split; by eapply H.
Qed.

Definition QH (st : state) (M : mixed) : Prop := SH st (whole M) /\ tidy M.
Lemma point_rounds_ok (q : Q) : 0 < Zpos (Qden (Qred q)). Proof. lia. Qed.

Lemma space_split (a b c d : list Z) : a ++ b = c ++ 47 :: d -> Forall is_space a -> Forall is_space c -> (forall x, head b = Some x -> ~ is_space x) -> a = c /\ b = 47 :: d.
Proof.
  revert c. induction a as [|x a IH]; intros [|y c] E Ha Hc Hb; cbn [app] in E.
  - by split.
  - subst b. inversion Hc; subst. by destruct (Hb y eq_refl).
  - injection E as -> _. inversion Ha as [|? ? Y _]; subst. unfold is_space in Y. lia.
  - injection E as -> E. inversion Ha; inversion Hc; subst. destruct (IH c E) as [-> ->]; done.
Qed.
Lemma outlen_fits v r k : 2 <= r <= 36 -> 1 <= k <= 2 ^ 30 - 4 -> Z.abs v < 2 ^ k -> outlen (bitlen v) r <= 2 ^ 30 - 3 /\
  (Z.abs v < 2 ^ 20000 -> forall s, numeral r v s -> Z.of_nat (length s) <= outlen (bitlen v) r + if v <? 0 then 1 else 0).
Proof.
  intros Hr Hk Hv. pose proof (bitlen_le v k ltac:(lia) Hv) as B1. pose proof (bitlen_pos v) as B2. pose proof (outlen_le (bitlen v) r Hr ltac:(lia)) as B3. split; [lia|].
  intros Hs s Ns. destruct (outlen_enough (bitlen v) r Hr) as [E1 E2]. { apply bitlen_le in Hs; [|done]. pose proof (enough_bits_20000 r ltac:(done)). lia. }
  clear Hs Hv. pose proof (bitlen_pow v). apply (numeral_len_le r v s); [lia|done|lia|lia].
Qed.
Lemma one_qcall c st M (Q : qanswer -> state -> Prop) : QH st M -> qlegal c M -> (forall r M' st', qeffect c M r M' -> QH st' M' -> Q r st') -> wp (do_qcall c) Q st.
Proof.
  intros (HS & HT) HL HQ. pose proof HS as (X & HV & HX). set (S := whole M) in *.
  assert (forall a b c0, has_frac M a -> has_frac M b -> there M c0 -> structs [a; b; c0]) as ST3 by (intros a b c0 Ha%has_there Hb%has_there Hc; apply (tidy_structs M); [done|by repeat constructor]).
  assert (forall a c0, has_frac M a -> there M c0 -> structs [a; c0]) as ST2 by (intros a c0 Ha%has_there Hc; apply (tidy_structs M); [done|by repeat constructor]).
  assert (forall c0, there M c0 -> structs [c0]) as ST1 by (intros c0 Hc; apply (tidy_structs M); [done|by repeat constructor]).
  assert (forall r st', qeffect c M r M -> RV st' (ints S) X -> Q r st') as HQ0 by (intros; eapply HQ; [done|]; split; [by exists X|done]).
  assert (forall c0 q r st', there M c0 -> qeffect c M r (put_frac c0 q M) -> RV st' (set_rat c0 q (ints S)) X -> Q r st') as HQP.
  { intros c0 q r st' Hc0 He H'. eapply HQ; [done|]. split; [by exists X|by apply tidy_put]. }
  assert (forall b l r st', qeffect c M r (on_whole (put_text b l S) M) -> RV st' (ints S) (setb X b l) -> Q r st') as HQT.
  { intros b l r st' He H'. eapply HQ; [done|]. split; [|by apply tidy_whole]. eexists. split; [exact H'|]. by apply SX_text. }
  assert (forall o, blank_at S o -> exists z, craw X !! o = Some z) as HB by (intros o; by apply blank_raw).
  assert (forall o q st', fst o <> snd o -> ints S !! fst o = None -> ints S !! snd o = None -> qeffect c M (Plain (Num MP_OK)) (put_frac_new o q M) -> RV st' (set_rat o q (ints S)) (unraw o X) -> Q (Plain (Num MP_OK)) st') as HQN.
  { intros o q st' N E1 E2 He H'. eapply HQ; [done|]. split; [|apply (tidy_new M o q); [done|done|by intros i [->| ->]|done]]. eexists. split; [exact H'|].
    destruct HX as (X1 & X2 & X3 & X4). split_and!; try done; cbn [craw with_craw unraw raws put_frac_new whole].
    - intros o'. fold S. rewrite !lookup_delete_None. unfold num, den. rewrite X2. done.
    - intros o' z'. fold S. rewrite !lookup_delete_Some. intros (_ & _ & A) (_ & _ & B). by eapply X3. }
  pose proof (tidy_at M) as TA. pose proof (tidy_live M) as TL.
  destruct c; cbn [do_qcall qlegal qeffect] in *; cbv zeta in *; fold S in HL, HQ, HQ0, HQP, HQT, HQN; vals.
  - (* Int *) wb. eapply one_call; [exact HS|done|]. intros a S' st' He HS'. apply wp_ret. eapply HQ; [by eexists _, _|]. split; [done|]. apply tidy_whole; [done|]. intros o v Hm Ho. eapply effect_frame; [done..|]. intros Hin. by eapply H0.
  - destruct HL as (N & B1 & B2). destruct (HB _ B1) as [z1 Z1], (HB _ B2) as [z2 Z2]. wb. eapply wpV_rat_init; [exact HV|exact N|exact Z1|exact Z2|]. intros st' E1 E2 H'. apply wp_ret. by eapply HQN.
  - destruct H as (N & B1 & B2). destruct (HB _ B1) as [z1 Z1], (HB _ B2) as [z2 Z2]. wb. eapply wpV_rat_init_size; [exact HV|exact N|exact Z1|exact Z2|done|done|]. intros st' E1 E2 H'. apply wp_ret. by eapply HQN.
  - destruct H as (N & B1 & B2). destruct (HB _ B1) as [z1 Z1], (HB _ B2) as [z2 Z2]. wb. eapply wpV_rat_init_copy; [exact HV|exact N|exact Z1|exact Z2|by apply TA|]. intros st' E1 E2 H'. apply wp_ret. by eapply HQN.
  - destruct (TL _ HT HL) as [[x1 K1] [x2 K2]]. wb. eapply wpV_rat_clear; [exact HV|by apply (ST1 _ HL r r); left|exact K1|exact K2|]. unfold num, den. intros st' zn zd D1 D2 H'. apply wp_ret. eapply HQ; [done|]. split; [|by apply tidy_del].
    eexists. split; [exact H'|]. destruct HX as (X1 & X2 & X3 & X4). split_and!; try done; simpl.
    + intros o'. rewrite !lookup_insert_None, X2. done.
    + intros o' z'. destruct (decide (snd r = o')) as [<-|N]; [rewrite !lookup_insert; by intros _ [= <-]|]. rewrite !(lookup_insert_ne _ (snd r)) by done.
      destruct (decide (fst r = o')) as [<-|N2]; [rewrite !lookup_insert; by intros _ [= <-]|]. rewrite !lookup_insert_ne by done. apply X3.
  - wb. eapply wpV_rat_alloc; [exact HV|intros st' H'; apply wp_ret; apply HQ0; [by left|done]|]. intros o st' N E1 E2 C1 C2 HM H'. apply wp_ret. destruct HX as (X1 & X2 & X3 & X4).
    assert (fracs M !! o = None) as Fo. { destruct (fracs M !! o) eqn:Eo; [|done]. destruct (TL o HT ltac:(by eexists)) as [[v Hv] _]. unfold S in E1. congruence. }
    eapply HQ; [right; exists o; split; [done|]; split; [done|]; split; [|by split]; intros i [->| ->]; (split; [done|by apply X2])|]. split; [|apply (tidy_new M o 0); [done|done|by intros i [->| ->]|done]].
    eexists. split; [exact H'|]. split_and!; try done; simpl. destruct HM as [M1 M2]. intros o' [[->%elem_of_singleton| ->%elem_of_singleton]%elem_of_union|Ho]%elem_of_union; [done|done|by apply X4].
  - destruct (TL _ HT H) as [[x1 H11] [x2 H12]]. destruct HX as (X1 & X2 & X3 & X4). wb. eapply wpV_rat_free; [exact HV|by apply (ST1 _ H r r); left|exact H11|exact H12|by split; apply X4|]. intros st' H'. apply wp_ret. eapply HQ; [done|]. split; [|by apply tidy_del].
    eexists. split; [exact H'|]. split_and!; try done; simpl. intros o' [Ho _]%elem_of_difference. by apply X4.
  - wb. eapply wpV_rat_set_value; [exact HV|by apply ST1|by apply TL|done|done| |].
    + intros E. apply wp_ret. apply HQ0; [|done]. by rewrite E.
    + intros E st' H'. apply wp_ret. eapply HQP; [done| |exact H']. by destruct (Z.eqb_spec d 0).
  - wb. eapply wpV_rat_set_uvalue; [exact HV|by apply ST1|by apply TL|done|done| |].
    + intros E. apply wp_ret. apply HQ0; [|done]. by rewrite E.
    + intros E st' H'. apply wp_ret. eapply HQP; [done| |exact H']. by destruct (Z.eqb_spec d 0).
  - destruct (TA _ HT H) as [A1 A2]. wb. unfold mp_rat_numer. eapply wpV_copy; [exact HV|exact A1|done|]. intros st' H'. apply wp_ret. eapply HQ; [done|]. split; [by exists X|]. apply tidy_whole; [done|].
    intros o v Hm Ho. simpl. rewrite lookup_insert_ne; [done|]. intros <-. done.
  - destruct (TA _ HT H) as [A1 A2]. wb. unfold mp_rat_denom. eapply wpV_copy; [exact HV|exact A2|done|]. intros st' H'. apply wp_ret. eapply HQ; [done|]. split; [by exists X|]. apply tidy_whole; [done|].
    intros o v Hm Ho. simpl. rewrite lookup_insert_ne; [done|]. intros <-. done.
  - destruct (TA _ HT HL) as [A1 A2]. wb. unfold mp_rat_sign. eapply Gcd.wpV_sign; [exact HV|exact A1|]. apply wp_ret. apply HQ0; [|done]. eexists. split; [done|]. split; [done|].
    set (q := qval M a) in *. assert ((q < 0)%Q <-> Qnum (Qred q) < 0) as E. { rewrite <- (Qred_correct q) at 1. unfold Qlt. cbn [Qnum Qden]. lia. }
    rewrite E. destruct (Z.ltb_spec (Qnum (Qred q)) 0); unfold MP_NEG, MP_ZPOS; split; lia.
  - wb. eapply wpV_rat_copy; [exact HV|by apply ST2|by apply TA|by apply TL|]. intros st' H'. apply wp_ret. by eapply HQP.
  - wb. eapply wpV_rat_zero; [exact HV|by apply ST1|by apply TL|]. intros st' H'. apply wp_ret. by eapply HQP.
  - wb. eapply wpV_rat_abs; [exact HV|by apply ST2|by apply TA|by apply TL|]. intros st' H'. apply wp_ret. by eapply HQP.
  - wb. eapply wpV_rat_neg; [exact HV|by apply ST2|by apply TA|by apply TL|]. intros st' H'. apply wp_ret. by eapply HQP.
  - wb. eapply wpV_rat_recip; [exact HV|by apply ST2|by apply TA|by apply TL| |].
    + intros E. apply wp_ret. apply HQ0; [|done]. by destruct (Qeq_dec _ _).
    + intros E st' H'. apply wp_ret. eapply HQP; [done| |exact H']. by destruct (Qeq_dec _ _).
  - wb. eapply wpV_rat_add; [exact HV|by apply ST3|by apply TA|by apply TA|by apply TL|]. intros st' H'. apply wp_ret. by eapply HQP.
  - wb. eapply wpV_rat_sub; [exact HV|by apply ST3|by apply TA|by apply TA|by apply TL|]. intros st' H'. apply wp_ret. by eapply HQP.
  - wb. eapply wpV_rat_mul; [exact HV|by apply ST3|by apply TA|by apply TA|by apply TL|]. intros st' H'. apply wp_ret. by eapply HQP.
  - wb. eapply wpV_rat_div; [exact HV|by apply ST3|by apply TA|by apply TA|by apply TL| |].
    + intros E. apply wp_ret. apply HQ0; [|done]. by destruct (Qeq_dec _ _).
    + intros E st' H'. apply wp_ret. eapply HQP; [done| |exact H']. by destruct (Qeq_dec _ _).
  - wb. eapply wpV_rat_add_int; [exact HV|by apply ST2|by apply TA|done|by apply TL|]. intros st' H'. apply wp_ret. by eapply HQP.
  - wb. eapply wpV_rat_sub_int; [exact HV|by apply ST2|by apply TA|done|by apply TL|]. intros st' H'. apply wp_ret. by eapply HQP.
  - wb. eapply wpV_rat_mul_int; [exact HV|by apply ST2|by apply TA|done|by apply TL|done|]. intros st' H'. apply wp_ret. by eapply HQP.
  - wb. eapply wpV_rat_div_int; [exact HV|by apply ST2|by apply TA|done|by apply TL|done| |].
    + intros E. apply wp_ret. apply HQ0; [|done]. by rewrite E.
    + intros E st' H'. apply wp_ret. eapply HQP; [done| |exact H']. by destruct (Z.eqb_spec (val S b) 0).
  - wb. eapply wpV_rat_expt; [exact HV|by apply ST2|by apply TA|by apply TL|done| |].
    + intros E. apply wp_ret. apply HQ0; [|done]. by destruct (Z.ltb_spec k 0); [|lia].
    + intros E st' H'. apply wp_ret. eapply HQP; [done| |exact H']. by destruct (Z.ltb_spec k 0); [lia|].
  - wb. eapply wpV_rat_compare; [exact HV|by apply TA|by apply TA|]. intros st' x H' Hx _. apply wp_ret. apply HQ0; [by eexists|done].
  - wb. eapply wpV_rat_compare_unsigned; [exact HV|by apply TA|by apply TA|]. intros st' x H' Hx. apply wp_ret. apply HQ0; [by eexists|done].
  - destruct (TA _ HT HL) as [A1 A2]. wb. unfold mp_rat_compare_zero. eapply wpV_compare_zero; [exact HV|exact A1|]. apply wp_ret. apply HQ0; [|done]. eexists. split; [done|]. split; [done|].
    apply qordered_intro; change (Qnum (Qred 0)) with 0; change (Zpos (Qden (Qred 0))) with 1; lia.
  - wb. eapply wpV_rat_compare_value; [exact HV|by apply TA|done|done|done|]. intros st' x H' Hx. apply wp_ret. apply HQ0; [by eexists|done].
  - wb. eapply wpV_rat_is_integer; [exact HV|by apply TA|]. intros st' x H' Hx. apply wp_ret. apply HQ0; [by eexists|done].
  - wb. eapply wpV_rat_to_ints; [exact HV|by apply TA|done|lia| |].
    + intros E1 E2 st' H'. apply wp_ret. apply HQ0; [|done]. split; [done|]. cbn [fst snd]. destruct (Z.ltb_spec (- 2 ^ 63) (Qnum (Qred (qval M a)))); [|lia]. destruct (Z.ltb_spec (Qnum (Qred (qval M a))) (2 ^ 63)); [|lia]. cbn [andb].
      by destruct (Z.ltb_spec (Zpos (Qden (Qred (qval M a)))) (2 ^ 63)); [|lia].
    + intros E1 st' x y H'. apply wp_ret. apply HQ0; [|done]. split; [done|]. cbn [fst snd].
      destruct (Z.ltb_spec (- 2 ^ 63) (Qnum (Qred (qval M a)))), (Z.ltb_spec (Qnum (Qred (qval M a))) (2 ^ 63)), (Z.ltb_spec (Zpos (Qden (Qred (qval M a)))) (2 ^ 63)); cbn [andb]; try (by eexists _, _). lia.
  - destruct (TA _ HT H) as [A1 A2]. match goal with H : exists l, text S !! b = Some l /\ _ |- _ => destruct H as (l & Hl & Hlen) end.
    destruct (numeral_exists r (Qnum (Qred (qval M a))) ltac:(lia)) as [sn Hsn]. destruct (numeral_exists r (Zpos (Qden (Qred (qval M a)))) ltac:(lia)) as [sd Hsd].
    set (s := if Qnum (Qred (qval M a)) =? 0 then sn else sn ++ 47 :: sd). assert (rat_text r (qval M a) s) as Hs by (by exists sn, sd).
    match goal with H : forall s sn, _ |- _ => specialize (H s sn Hs Hsn) as HZ end.
    assert (2 <= r) as R2 by lia. destruct (numeral_short _ _ _ _ _ _ _ HV A1 R2 Hsn) as [L1 _]. destruct (numeral_short _ _ _ _ _ _ _ HV A2 R2 Hsd) as [L2 _].
    assert (Qnum (Qred (qval M a)) <> 0 -> s = sn ++ 47 :: sd) as E1 by (intros E; unfold s; by rewrite (proj2 (Z.eqb_neq _ _) E)).
    wb. eapply wpV_rat_to_string; [exact HV|exact A1|exact A2|by eapply text_has|done|done|exact Hsn|exact Hsd|fold s; lia| | | |].
    + intros st' E H'. apply wp_ret. eapply HQT; [|exact H']. assert (s = sn) as Es by (unfold s; by rewrite E). eexists l, s, _. split; [done|]. split; [done|]. split; [reflexivity|]. left. split; [|by rewrite Es].
      rewrite E in Hsn. apply numeral_zero in Hsn; [|lia]. rewrite Es, Hsn. cbn [length]. lia.
    + intros st' t _ E _ Ht H'. specialize (E1 E). apply wp_ret. eapply HQT; [|exact H']. eexists l, s, _. split; [done|]. split; [done|]. split; [reflexivity|].
      assert (length s = length sn + 1 + length sd)%nat as Ls by (rewrite E1, app_length; cbn [length]; lia).
      destruct (Z.leb_spec (Z.of_nat (length sn) + 1 + Z.of_nat (length sd) + 1) limit); [left|right; destruct Ht].
      * split; [lia|]. split; [done|]. rewrite Ht, E1. by rewrite <- app_assoc.
      * split; [lia|]. by split.
    + intros st' t L T1 T2 H'. apply wp_ret. eapply HQT; [|exact H']. eexists l, s, _. split; [done|]. split; [done|]. split; [reflexivity|]. right. split; [|by split].
      unfold s. destruct (_ =? _); [done|rewrite app_length; lia].
    + intros E L. specialize (E1 E). rewrite E1, app_length in HZ. cbn [length] in HZ. lia.
  - match goal with H : exists l N s, _ |- _ => destruct H as (l & N & s & Hl & [Hr Hs] & HC & Hlen & Hlim) end. destruct (TA _ HT H) as [A1 A2].
    assert (2 + (if (Qnum (Qred (qval M a)) <? 0) && negb (N =? 0) then 1 else 0) <= limit) as HL2.
    { pose proof Hs as (i & f & Hi & _ & Es). assert (1 <= length i)%nat as Li by (destruct Hi as (ds & _ & _ & Hds & _ & ->); rewrite app_length, map_length; destruct ds; [done|cbn [length]; lia]).
      rewrite Es, !app_length in Hlim. destruct (_ && _); cbn [length] in Hlim; lia. }
    wb. eapply (wpV_rat_to_decimal _ _ _ _ _ _ _ _ _ _ off l limit N s); [exact HV|exact A1|exact A2|done|by eapply text_has|done|done|exact Hr|exact HC|exact Hs|lia|exact HL2|lia| |].
    + intros _ st' H'. apply wp_ret. eapply HQT; [|exact H']. exists l, N, s. by split_and!.
    + intros; lia.
  - assert (num c <> den c) as N by (by apply (ST1 c H c c); left).
    destruct (reads_ex r s) as (n & rest & K3). pose proof is_space_dec. destruct (span_while is_space rest) as (sp & u & E & Hsp & Hu).
    assert (~ (exists u', u = 47 :: u') -> wp (x <- mp_rat_read_cstring c r s; Ret (Tail x.1 x.2)) Q st) as HW.
    { intros NE. assert (forall x, head u = Some x -> ~ is_space x /\ x <> 47) as Hh.
      { intros x Hx. split; [by apply Hu|]. intros ->. apply NE. destruct u; [done|]. injection Hx as ->. by eexists. }
      wb. eapply wpV_rat_read_int; [exact HV|done|by apply TL|done|done|exact K3|exact E|done|exact Hh|].
      intros st' HV'. apply wp_ret. eapply HQP; [done| |exact HV']. left. exists n, sp, u. rewrite <- E. by split_and!. }
    destruct u as [|x u]; [apply HW; by intros [? ?]|]. destruct (decide (x = 47)) as [->|Nx]; [|apply HW; intros [? [= ? ?]]; congruence]. clear HW.
    destruct (reads_ex r u) as (d & rest2 & K4). subst rest. wb. eapply wpV_rat_read_slash; [exact HV|done|by apply TL|done|done|exact K3|done|exact K4| | |].
    + intros E Nd st' H'. apply wp_ret. eapply HQP; [done| |exact H']. right. exists n, sp, u, d, rest2. split; [done|]. split; [done|]. split; [done|]. by left.
    + intros E Nd st' H'. apply wp_ret. apply (HQ _ (spoil c n d M)); [|split; [by exists X|by apply tidy_spoil]]. right. exists n, sp, u, d, rest2. split; [done|]. split; [done|]. split; [done|]. right. by left.
    + intros E st' H'. apply wp_ret. apply (HQ _ (spoil c n d M)); [|split; [by exists X|by apply tidy_spoil]]. right. exists n, sp, u, d, rest2. split; [done|]. split; [done|]. split; [done|]. right. by right.
  - assert (num c <> den c) as N by (by apply (ST1 c H c c); left).
    destruct (reads_ex r s) as (n & rest & K3). destruct (decide (head rest = Some 46)) as [E|E].
    2:{ wb. eapply wpV_rat_read_nopoint; [exact HV|done|by apply TL|done|done|exact K3|done|]. intros st' HV'. apply wp_ret. eapply HQP; [done| |exact HV']. left. by exists n, rest. }
    destruct rest as [|x u]; [done|]. injection E as ->.
    assert ((exists c u', u = c :: u' /\ (is_space c \/ c = 43 \/ c = 45)) \/ (forall c, head u = Some c -> ~ is_space c /\ c <> 43 /\ c <> 45)) as [(x & u' & -> & Hx)|Hu].
    { destruct u as [|x u]; [by right|]. pose proof is_space_dec. destruct (decide (is_space x \/ x = 43 \/ x = 45)) as [Hc|Hc]; [left; by exists x, u|]. right. intros c' [= <-]. tauto. }
    { wb. eapply wpV_rat_read_badpoint; [exact HV|done|by apply TL|done|done|exact K3|done|]. intros st' HV'. apply wp_ret. eapply HQP; [done| |exact HV']. right. right. by exists n, x, u'. }
    destruct (digits_ex r u) as (fb & fds & rest & -> & HF & Hrest). destruct K3 as (sp & sg & ib & ids & (-> & S1 & S2 & S3 & S4 & S5) & _).
    assert (exists q, reads_point r (sp ++ sg ++ ib ++ 46 :: fb ++ rest) q rest) as [q Hq].
    { eexists. exists sp, sg, ib, ids, fb, fds. split_and!; [done|done|done|exact S3|exact HF|exact Hrest|exact Hu|reflexivity]. }
    wb. eapply wpV_rat_read_point; [exact HV|done|by apply TL|done|done|exact Hq|]. intros st' HV'. apply wp_ret. eapply HQP; [done| |exact HV']. right. left. by exists q, rest.
  - rename r into k0. assert (num c <> den c) as N by (by apply (ST1 c H c c); left). unfold mp_rat_read_ustring.
    set (k := if k0 =? 0 then 10 else k0) in *. assert (2 <= k <= 36) as Hk by (unfold k; destruct (Z.eqb_spec k0 0); lia). clearbody k.
    destruct (reads_ex k s) as (n & rest & K3). pose proof is_space_dec as _. destruct (span_while is_space rest) as (sp & u & E & Hsp & Hu).
    assert (Decision (exists u', u = 47 :: u')) as DE. { destruct u as [|y u]; [right; by intros [? ?]|]. destruct (decide (y = 47)) as [->|Ny]; [left; by eexists|right; intros [? [= ? ?]]; congruence]. }
    destruct DE as [(u' & ->)|NE]; [|assert (forall x, head u = Some x -> ~ is_space x /\ x <> 47) as Hh].
    2:{ intros x Hx. split; [by apply Hu|]. intros ->. apply NE. destruct u; [done|]. injection Hx as ->. by eexists. }
    + (* a slash *) destruct (reads_ex k u') as (d & rest2 & K4). subst rest. wb. wb. eapply wpV_rat_read_slash; [exact HV|done|by apply TL|done|done|exact K3|done|exact K4| | |]; cbn [fst snd].
      * intros E Nd st' H'. apply wp_ret. apply wp_ret. eapply HQP; [done| |exact H']. do 3 right. exists n, sp, u', d, rest2. split; [done|]. split; [done|]. split; [done|]. by left.
      * intros E Nd st' H'. apply wp_ret. apply wp_ret. apply (HQ _ (spoil c n d M)); [|split; [by exists X|by apply tidy_spoil]]. do 3 right. exists n, sp, u', d, rest2. split; [done|]. split; [done|]. split; [done|]. right. by left.
      * intros E st' H'. destruct (decide (head rest2 = Some 46)) as [E2|E2].
        -- destruct rest2 as [|y rest2]; [done|]. injection E2 as ->. change (MP_TRUNC =? MP_TRUNC) with true. cbv iota. wb. eapply wpV_rat_read_nopoint; [exact H'|done| |done|done|exact K3| |].
           { split; unfold num, den in *; [rewrite lookup_insert_ne by done|]; rewrite lookup_insert; by eexists. }
           { destruct sp as [|y sp]; [done|]. intros [= ->]. inversion Hsp as [|? ? Y _]. unfold is_space in Y. lia. }
           intros st2 H2. apply wp_ret. apply wp_ret. rewrite set_rat_over in H2 by done. cbn [fst snd]. assert (match sp ++ 47 :: u' with [] => MP_OK | _ => MP_TRUNC end = MP_TRUNC) as -> by (by destruct sp).
           eapply HQP; [done| |exact H2]. do 3 right. exists n, sp, u', d, (46 :: rest2). split; [done|]. split; [done|]. split; [done|]. do 3 right. done.
        -- assert (forall (A : Type) (a b : A), (match rest2 with 46 :: _ => a | _ => b end) = b) as ER.
           { intros A a b. destruct rest2 as [|y rest2]; [done|]. destruct (decide (y = 46)) as [->|Ny]; [done|]. by repeat (destruct y as [|y|y]; try done; try (destruct y; try done)). }
           rewrite ER. apply wp_ret. apply wp_ret. apply (HQ _ (spoil c n d M)); [|split; [by exists X|by apply tidy_spoil]]. do 3 right. exists n, sp, u', d, rest2. split; [done|]. split; [done|]. split; [done|]. right. right. by left.
    + wb. wb. eapply wpV_rat_read_int; [exact HV|done|by apply TL|done|done|exact K3|exact E|done|exact Hh|]. intros st' H'. cbn [fst snd]. destruct (decide (head rest = Some 46)) as [E2|E2].
      * destruct rest as [|y v]; [done|]. injection E2 as ->. change (MP_TRUNC =? MP_TRUNC) with true. cbv iota. pose proof (rat_at_set (ints S) c (inject_Z n) N) as HA.
        assert ((exists x u', v = x :: u' /\ (is_space x \/ x = 43 \/ x = 45)) \/ (forall x, head v = Some x -> ~ is_space x /\ x <> 43 /\ x <> 45)) as [(x & v' & -> & Hx)|Hv].
        { destruct v as [|x v]; [by right|]. pose proof is_space_dec. destruct (decide (is_space x \/ x = 43 \/ x = 45)) as [Hc|Hc]; [left; by exists x, v|]. right. intros c' [= <-]. tauto. }
        { wb. eapply wpV_rat_read_badpoint; [exact H'|done|by eapply rat_at_live|done|done|exact K3|done|]. intros st2 H2. apply wp_ret. apply wp_ret. unfold set_rat at 2 in H2. rewrite set_rat_over in H2 by done. eapply HQP; [done| |exact H2]. do 2 right. left. by exists n, x, v'. }
        destruct (digits_ex k v) as (fb & fds & rest & -> & HF & Hrest). pose proof K3 as K3'. destruct K3 as (sp' & sg & ib & ids & (-> & S1 & S2 & S3 & S4 & S5) & _).
        assert (exists q, reads_point k (sp' ++ sg ++ ib ++ 46 :: fb ++ rest) q rest) as [q Hq].
        { eexists. exists sp', sg, ib, ids, fb, fds. split_and!; [done|done|done|exact S3|exact HF|exact Hrest|exact Hv|reflexivity]. }
        wb. eapply wpV_rat_read_point; [exact H'|done|by eapply rat_at_live|done|done|exact Hq|]. intros st2 H2. apply wp_ret. apply wp_ret. unfold set_rat at 2 in H2. rewrite set_rat_over in H2 by done. cbn [fst snd]. eapply HQP; [done| |exact H2]. right. left. by exists q, rest.
      * assert (forall (A : Type) (a b : A), (match rest with 46 :: _ => a | _ => b end) = b) as ER.
        { intros A a b. destruct rest as [|y v]; [done|]. destruct (decide (y = 46)) as [->|Ny]; [done|]. by repeat (destruct y as [|y|y]; try done; try (destruct y; try done)). }
        rewrite ER. apply wp_ret. apply wp_ret. eapply HQP; [done| |exact H']. left. exists n, rest. split; [done|]. split; [|done]. intros sp2 u2 -> F2.
        destruct (space_split sp u sp2 u2) as [-> ->]; [done|done|done|by intros x Hx; apply Hu|]. by destruct (Hh 47 eq_refl).
  - destruct (TA _ HT HL) as [A1 A2]. wb. unfold mp_rat_reduce. eapply wpV_rat_reduce; [exact HV|by apply (ST1 a (has_there _ _ HL) a a); left|exact A1|exact A2|done|by apply rat_quo|]. intros st' H'. apply wp_ret. eapply HQP; [by apply has_there|done|exact H'].
  - destruct (TA _ HT H) as [A1 A2]. set (n := Qnum (Qred (qval M a))) in *. set (d := Zpos (Qden (Qred (qval M a)))) in *. assert (0 < d) as D0 by done.
    match goal with H : exists k, _ |- _ => destruct H as (k & Hk & HK1 & HK2) end. assert (Z.abs d = d) as Ad by (apply Z.abs_eq; lia).
    destruct (outlen_fits n r k ltac:(done) Hk HK1) as [N1 N3]. destruct (outlen_fits d r k ltac:(done) Hk ltac:(by rewrite Ad)) as [D1 D3]. rewrite Ad in D3. set (BIG := 2 ^ 20000) in *. clearbody BIG. destruct (Z.ltb_spec d 0); [lia|].
    wb. unfold mp_rat_string_len. wb. eapply wpV_string_len; [exact HV|exact A1|done|]. wb. eapply wpV_compare_zero; [exact HV|exact A1|]. destruct (Z.eqb_spec (Z.sgn n) 0) as [E|E]; cbn [negb].
    + wb. apply wp_ret. destruct (Z.gtb_spec (outlen (bitlen n) r + 1 + (if n <? 0 then 1 else 0) + 0) INT_MAX) as [L|L].
      { unfold INT_MAX in L. destruct (n <? 0); lia. }
      apply wp_ret. apply wp_ret. apply HQ0; [|done]. eexists. split; [done|]. split; [done|]. intros B1 B2 s (sn & sd & Hsn & Hsd & ->). fold n. specialize (N3 B1 sn Hsn). clear B1 B2 D3. destruct (Z.eqb_spec n 0); lia.
    + wb. eapply wpV_string_len; [exact HV|exact A2|done|]. destruct (Z.ltb_spec d 0); [lia|]. rewrite Z.add_0_r.
      destruct (Z.gtb_spec (outlen (bitlen n) r + 1 + (if n <? 0 then 1 else 0) + (outlen (bitlen d) r + 1)) INT_MAX) as [L|L].
      { unfold INT_MAX in L. destruct (n <? 0); lia. }
      apply wp_ret. apply wp_ret. apply HQ0; [|done]. eexists. split; [done|]. split; [done|]. intros B1 B2 s (sn & sd & Hsn & Hsd & ->). fold n. specialize (N3 B1 sn Hsn). specialize (D3 B2 sd Hsd). clear B1 B2. destruct (Z.eqb_spec n 0); [lia|]. rewrite app_length. cbn [length]. lia.
  - destruct (TA _ HT H) as [A1 A2]. set (n := Qnum (Qred (qval M a))) in *. set (d := Zpos (Qden (Qred (qval M a)))) in *. assert (0 < d) as D0 by done.
    match goal with H : exists k, _ |- _ => destruct H as (k & Hk & HK1) end. destruct (outlen_fits n r k ltac:(done) Hk HK1) as [N1 _]. wb. unfold mp_rat_decimal_len. wb. eapply wpV_string_len; [exact HV|exact A1|done|]. fold n.
    assert ((if prec =? 0 then 1 else to_int32 (u32 (1 + prec + 1))) = if prec =? 0 then 1 else prec + 2) as ->.
    { destruct (prec =? 0); [done|]. unfold u32, to_int32. rewrite !(Z.mod_small (1 + prec + 1)) by lia. destruct (Z.ltb_spec (1 + prec + 1) (2 ^ 31)); lia. }
    set (O := outlen (bitlen n) r) in *. set (x := O + 1 + (if n <? 0 then 1 else 0) + if prec =? 0 then 1 else prec + 2).
    assert (x <= INT_MAX) as Hx by (unfold x, INT_MAX; destruct (n <? 0), (prec =? 0); lia).
    destruct (Z.gtb_spec x INT_MAX); [lia|]. apply wp_ret. apply wp_ret. apply HQ0; [|done]. eexists. split; [done|]. split; [done|]. intros B m N s [HR Hs]. fold n d in HR, Hs.
    destruct (outlen_enough (bitlen n) r ltac:(done)) as [E1 E2]. { pose proof (bitlen_pos n). apply bitlen_le in B; [|done]. pose proof (enough_bits_20000 r ltac:(done)). lia. } clear B. fold O in E1, E2.
    set (P := r ^ prec) in *. assert (0 < P) as HP by (apply Z.pow_pos_nonneg; lia). assert (0 <= N <= Z.abs n * P) as HN.
    { assert (0 <= Z.abs n * P) as A0 by (apply Z.mul_nonneg_nonneg; lia). set (A := Z.abs n * P) in *. clear - HR A0 D0. destruct m; cbn [rounds] in HR; nia. }
    assert (0 <= N / P <= Z.abs n) as HT2. { split; [apply Z.div_pos; lia|]. apply Z.div_le_upper_bound; lia. }
    destruct Hs as (i & f & Hi & Hf & Es). rewrite Z2Nat.id in Hi, Hf by lia. fold P in Hi, Hf. destruct Hf as (fds & Lf & _ & _ & ->).
    pose proof (bitlen_pow n) as B5. pose proof (numeral_len_le r (N / P) i O ltac:(lia) Hi ltac:(rewrite Z.abs_eq by lia; lia) ltac:(lia)) as L1. destruct (Z.ltb_spec (N / P) 0); [lia|].
    rewrite Es, !app_length. unfold x. clear Es HR. destruct (Z.eqb_spec prec 0) as [->|Np].
    + change (Z.to_nat 0 =? 0)%nat with true. cbn [length]. destruct (n <? 0); cbn [andb]; [|cbn [length]; lia]. destruct (negb _); cbn [length]; lia.
    + rewrite (proj2 (Nat.eqb_neq (Z.to_nat prec) 0)) by lia. cbn [length]. rewrite map_length, Lf. destruct (n <? 0); cbn [andb]; [|cbn [length]; lia]. destruct (negb _); cbn [length]; lia.
Qed.

Theorem drive_q_ok k st M : QH st M -> qwell_behaved k M -> wp (drive_q k) (fun h st' => exists M', qhistory k M h M' /\ QH st' M') st.
Proof.
  revert st M. induction k as [|c k IH]; intros st M HS HW; cbn [drive_q].
  - apply wp_ret. exists M. split; [constructor|done].
  - destruct HW as [HL HW]. wb. eapply one_qcall; [done..|]. intros r M' st' He HS'. wb. eapply wp_mono; [apply IH; [done|by apply HW]|].
    intros h st2 (M2 & Hh & HS2). apply wp_ret. exists M2. split; [by econstructor|done].
Qed.
Lemma qshows_QH st M : qshows st M <-> QH st M.
Proof. unfold qshows, QH. by rewrite shows_SH. Qed.

(** ** Frames *)
Lemma qeffect_frame c M r M' o x : qeffect c M r M' -> fracs M !! o = Some x -> o ∉ qoutputs c -> fracs M' !! o = Some x.
Proof.
  intros He Ho N. destruct c; cbn [qeffect qoutputs] in *; cbv zeta in He; repeat match goal with
   | H : if ?b then _ else _ |- _ => destruct b
   | H : _ /\ _ |- _ => destruct H
   | H : _ \/ _ |- _ => destruct H
   | H : exists _, _ |- _ => destruct H
   end; subst M'; try done; cbn [fracs put_frac put_frac_new spoil on_whole];
   first [rewrite lookup_insert_ne by set_solver; done | rewrite lookup_delete_ne by set_solver; done | rewrite lookup_insert_ne by congruence; done].
Qed.
Lemma qhistory_frame k M h M' o x : qhistory k M h M' -> fracs M !! o = Some x -> (forall c r, (c, r) ∈ h -> o ∉ qoutputs c) -> fracs M' !! o = Some x.
Proof.
  induction 1 as [|c k M r M' h M'' He Hh IH]; intros Ho N; [done|]. apply IH; [eapply qeffect_frame; [done..|]; apply (N c r); set_solver|]. intros c' r' Hc. apply (N c' r'). set_solver.
Qed.
Lemma qeffect_text c M r M' b : qeffect c M r M' -> text (whole M) !! b = None -> text (whole M') !! b = None.
Proof.
  intros He Hb. destruct c; cbn [qeffect] in *; cbv zeta in He; repeat match goal with
   | H : if ?b then _ else _ |- _ => destruct b
   | H : _ /\ _ |- _ => destruct H
   | H : _ \/ _ |- _ => destruct H
   | H : exists _, _ |- _ => destruct H
   end; subst M'; try done; cbn [text whole put_text on_whole]; try (rewrite lookup_insert_ne; [done|congruence]). by eapply effect_text.
Qed.
Lemma qhistory_text k M h M' b : qhistory k M h M' -> text (whole M) !! b = None -> text (whole M') !! b = None.
Proof. induction 1 as [|c k M r M' h M'' He Hh IH]; intros Hb; [done|]. apply IH. by eapply qeffect_text. Qed.
