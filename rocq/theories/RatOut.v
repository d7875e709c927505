(** Rational numbers as text: writing with a radix point. *)
From Coq Require Import ZArith List Lia QArith.
From stdpp Require Import gmap list.
From Verif Require Import SpecHist.
From Verif Require Import Mem Prog Kern Fp Imath Imrat Wp MemLem Dig KernLem Rel RelWp RelZ Life Basic Basic2 Mult Shift Knuth Divi Powr Spec Public Gcd SpecRat Rat Buf Text Read Outlen SpecDec.
From Verif Require Import Inlen Bin Rsa RatText RatDec.
Local Open Scope Z_scope.
Local Open Scope list_scope.

(** ** Arithmetic *)
Definition bumps (m : rounding) (rho d : Z) : bool :=
  match m with Down => false | Up => negb (rho =? 0) | Half_up => d <=? 2 * rho | Half_down => d <? 2 * rho end.
Lemma rounds_bump m F rho d N : 0 < d -> 0 <= rho < d -> rounds m (F * d + rho) d N -> N = F + if bumps m rho d then 1 else 0.
Proof.
  intros Hd Hrho H.
  destruct m; cbn [rounds bumps] in *.
  - assert (N < F + 1) by (apply (Zmult_lt_reg_r _ _ d); lia). assert (F < N + 1) by (apply (Zmult_lt_reg_r _ _ d); lia). lia.
  - destruct (Z.leb_spec d (2 * rho)).
    + assert (N < F + 2) by (apply (Zmult_lt_reg_r _ _ d); lia). assert (F < N) by (apply (Zmult_lt_reg_r _ _ d); lia). lia.
    + assert (N < F + 1) by (apply (Zmult_lt_reg_r _ _ d); lia). assert (F < N + 1) by (apply (Zmult_lt_reg_r _ _ d); lia). lia.
  - destruct (Z.eqb_spec rho 0) as [->|]; cbn [negb].
    + assert (N < F + 1) by (apply (Zmult_lt_reg_r _ _ d); lia). assert (F < N + 1) by (apply (Zmult_lt_reg_r _ _ d); lia). lia.
    + assert (N < F + 2) by (apply (Zmult_lt_reg_r _ _ d); lia). assert (F < N) by (apply (Zmult_lt_reg_r _ _ d); lia). lia.
  - destruct (Z.ltb_spec d (2 * rho)).
    + assert (N < F + 2) by (apply (Zmult_lt_reg_r _ _ d); lia). assert (F < N) by (apply (Zmult_lt_reg_r _ _ d); lia). lia.
    + assert (N < F + 1) by (apply (Zmult_lt_reg_r _ _ d); lia). assert (F < N + 1) by (apply (Zmult_lt_reg_r _ _ d); lia). lia.
Qed.
Lemma numeral_ex r v : 2 <= r -> exists s, numeral r v s.
Proof.
  intros Hr. destruct (Z.eq_dec v 0) as [->|N]. { exists [48], [0]. split; [repeat constructor; lia|]. done. }
  destruct (numeral_digits r (Z.abs v) Hr ltac:(lia)) as (ds & H1 & H2 & H3 & H4). eexists. by apply (numeral_intro r v ds).
Qed.
Lemma horner_fixed_inj r a : forall b, 0 < r -> length a = length b -> Forall (fun d => 0 <= d < r) a -> Forall (fun d => 0 <= d < r) b -> horner r a = horner r b -> a = b.
Proof.
  induction a as [|x a IH]; intros [|y b] Hr HL Ha Hb HE; [done|done|done|]. injection HL as HL. apply Forall_cons in Ha as [Hx Ha], Hb as [Hy Hb].
  rewrite !horner_cons, HL in HE by done. pose proof (horner_bounds r a Hr Ha) as Ba. pose proof (horner_bounds r b Hr Hb) as Bb. rewrite HL in Ba.
  assert (x = y) as ->. { set (P := r ^ Z.of_nat (length b)) in *. assert (x * P < (y + 1) * P) by lia. assert (y * P < (x + 1) * P) by lia.
    assert (x < y + 1) by (apply (Zmult_lt_reg_r _ _ P); lia). assert (y < x + 1) by (apply (Zmult_lt_reg_r _ _ P); lia). lia. }
  f_equal. apply IH; [done|done|done|done|lia].
Qed.
Lemma fixed_pad r k f s t : 0 < r -> 0 <= f -> numeral r f s -> (length s <= k)%nat -> fixed r k f t -> t = replicate (k - length s) 48 ++ s.
Proof.
  intros Hr Hf (ds & H1 & H2 & _ & _ & ->) HL (es & E1 & E2 & E3 & ->). destruct (Z.ltb_spec f 0); [lia|]. cbn [app] in *. rewrite map_length in *.
  assert (es = replicate (k - length ds) 0 ++ ds) as ->.
  { apply (horner_fixed_inj r); [done|rewrite app_length, replicate_length; lia|done| |rewrite horner_zeros; lia].
    apply Forall_app. split; [|done]. apply Forall_replicate. lia. }
  rewrite map_app. f_equal. clear. induction (k - length ds)%nat as [|n IH]; [done|]. cbn [replicate map]. by rewrite IH.
Qed.
Lemma over_at l off (pre old s : list Z) : (off + length pre + length s <= length l)%nat -> (length old <= length s)%nat ->
  overwrite (off + length pre) s (overwrite off (pre ++ old) l) = overwrite off (pre ++ s) l.
Proof.
  intros H1 H2. rewrite <- (overwrite_app l off pre old) by lia. rewrite overwrite_overwrite; [|rewrite overwrite_length; lia|done]. by apply overwrite_app.
Qed.

(** ** The leading zeros *)
Lemma wpV_lead n : forall st V X t1 d x vd radix k (Q : Z * Z -> state -> Prop), RV st V X -> V !! t1 = Some x -> V !! d = Some vd -> t1 <> d -> 2 <= radix <= 36 ->
  (forall st' i, 0 <= i <= Z.of_nat n -> (i < Z.of_nat n -> vd <= x * radix ^ i) -> (0 < i -> x * radix ^ (i - 1) < vd) ->
     RV st' (<[t1 := x * radix ^ i]> V) X -> Q (MP_OK, k + i) st') ->
  wp (lead_loop n t1 d radix k) Q st.
Proof.
  induction n as [|n IH]; intros st V X t1 d x vd radix k Q HV H1 H2 N Hr HQ; cbn [lead_loop].
  { apply wp_ret. replace k with (k + 0) by lia. apply HQ; [lia|lia|lia|]. rewrite Z.pow_0_r, Z.mul_1_r, insert_id; done. }
  wb. eapply wpV_compare; [exact HV|exact H1|exact H2|]. destruct (Z.ltb_spec (Z.sgn (x - vd)) 0) as [L|L].
  2:{ apply wp_ret. replace k with (k + 0) by lia. apply HQ; [lia|rewrite Z.pow_0_r; lia|lia|]. rewrite Z.pow_0_r, Z.mul_1_r, insert_id; done. }
  wb. eapply wpV_mul_value; [exact HV|exact H1|exact H1|lia|]. intros st1 HV1. cbn [Z.eqb MP_OK negb].
  eapply IH; [exact HV1|apply lookup_insert|by rewrite lookup_insert_ne|done|done|]. intros st2 i Hi L1 L2 HV2. rewrite insert_insert in HV2.
  assert (forall j, 0 <= j -> x * radix * radix ^ j = x * radix ^ (j + 1)) as E. { intros j Hj. rewrite Z.pow_add_r, Z.pow_1_r by lia. ring. }
  rewrite E in * by lia. replace (k + 1 + i) with (k + (i + 1)) by lia. apply HQ; [lia|intros; apply L1; lia| |done].
  intros _. destruct (Z.eq_dec i 0) as [->|Ni]; [rewrite Z.pow_0_r; lia|]. specialize (L2 ltac:(lia)). rewrite E in L2 by lia. by replace (i - 1 + 1) with (i + 1 - 1) in L2 by lia.
Qed.
Lemma wpV_get_sign st V X a v (Q : Z -> state -> Prop) : RV st V X -> V !! a = Some v -> Q (if v <? 0 then MP_NEG else MP_ZPOS) st -> wp (get_sign a) Q st.
Proof.
  intros (ζ & HZ & Hv) Ha HQ. destruct (relv_some _ _ _ _ Hv Ha) as (z & Hz & <- & N & O). destruct (RZ_s01 _ _ _ _ _ HZ Hz) as [M S].
  eapply wpZ_sign; [done..|]. revert HQ. unfold zval in *. red in N. destruct S as [S|S]; rewrite S in *.
  - change (0 =? 0) with true. cbv iota. destruct (Z.ltb_spec (zm z) 0); [lia|done].
  - change (1 =? 0) with false in *. cbv iota. destruct (Z.ltb_spec (- zm z) 0); [done|]. assert (zm z = 0) as M0 by lia. by apply N in M0.
Qed.

Lemma RV_eqX (st : state) (V : gmap oid Z) (X X' : ctx) : RV st V X -> X = X' -> RV st V X'.
Proof. by intros H ->. Qed.
Section out.
Context (V : gmap oid Z) (X : ctx) (r : rat).
(** The rounding. *)
Lemma wpV_rounding st m prec t0 t1 t2 x0 x1 rho d (Q : Z * bool -> state -> Prop) :
  RV st (<[t2 := rho]> (<[t1 := x1]> (<[t0 := x0]> V))) X -> V !! den r = Some d -> t0 <> t1 -> t0 <> t2 -> t1 <> t2 -> t0 <> den r -> t1 <> den r -> t2 <> den r -> 0 <= rho -> 0 < d ->
  (forall st' x2, RV st' (<[t2 := x2]> (<[t1 := x1 + if negb (prec =? 0) && bumps m rho d then 1 else 0]> (<[t0 := x0 + if (prec =? 0) && bumps m rho d then 1 else 0]> V))) X -> Q (MP_OK, false) st') ->
  wp (if rounding_code m =? MP_ROUND_UP then
        cz <- mp_int_compare_zero t2;
        res <- (if negb (cz =? 0) then round_up prec t0 t1 else Ret MP_OK);
        Ret (res, false)
      else if (rounding_code m =? MP_ROUND_HALF_UP) || (rounding_code m =? MP_ROUND_HALF_DOWN) then
        res <- mp_int_mul_pow2 t2 1 t2;
        if negb (res =? MP_OK) then Ret (res, false) else
        cmp <- mp_int_compare t2 (den r);
        let cmp := if rounding_code m =? MP_ROUND_HALF_UP then cmp + 1 else cmp in
        res <- (if cmp >? 0 then round_up prec t0 t1 else Ret MP_OK);
        Ret (res, false)
      else if rounding_code m =? MP_ROUND_DOWN then Ret (MP_OK, false)
      else Ret (MP_BADARG, true))%prog Q st.
Proof.
  intros HV Hd N1 N2 N3 N4 N5 N6 Hrho Hd0 HQ.
  assert (forall st' x2 (up : bool), RV st' (<[t2 := x2]> (<[t1 := x1]> (<[t0 := x0]> V))) X -> up = bumps m rho d ->
    wp (res <- (if up then round_up prec t0 t1 else Ret MP_OK); Ret (res, false))%prog Q st') as HU.
  { intros st' x2 up HV' ->. unfold round_up. destruct (bumps m rho d); rewrite ?andb_true_r, ?andb_false_r in HQ.
    - wb. destruct (Z.eqb_spec prec 0) as [->|Np]; cbn [negb] in HQ.
      + eapply wpV_add_value; [exact HV'|lk|lk|lia|]. intros st'' HV''. apply wp_ret. eapply HQ. eapply RV_eqV; [exact HV''|]. rewrite Z.add_0_r. mapeq.
      + eapply wpV_add_value; [exact HV'|lk|lk|lia|]. intros st'' HV''. apply wp_ret. eapply HQ. eapply RV_eqV; [exact HV''|]. rewrite Z.add_0_r. mapeq.
    - wb. apply wp_ret. apply wp_ret. eapply HQ. rewrite !Z.add_0_r. exact HV'. }
  destruct m; cbn [rounding_code].
  - (* Down *) change (_ =? _) with false at 1. cbv iota. change ((0 =? MP_ROUND_HALF_UP) || (0 =? MP_ROUND_HALF_DOWN)) with false. change (0 =? MP_ROUND_DOWN) with true. cbv iota. apply wp_ret.
    eapply HQ. cbn [bumps]. rewrite !andb_false_r, !Z.add_0_r. exact HV.
  - change (1 =? MP_ROUND_UP) with false. change ((1 =? MP_ROUND_HALF_UP) || (1 =? MP_ROUND_HALF_DOWN)) with true. change (1 =? MP_ROUND_HALF_UP) with true. cbv iota.
    wb. eapply wpV_mul_pow2; [exact HV|lk|lk|lia|]. intros st1 HV1. rewrite insert_insert in HV1. change (negb (MP_OK =? MP_OK)) with false. cbv iota.
    wb. eapply wpV_compare; [exact HV1|lk|lk|]. cbv zeta. eapply HU; [exact HV1|]. cbn [bumps]. rewrite Z.gtb_ltb. change (2 ^ 1) with 2. destruct (Z.leb_spec d (2 * rho)), (Z.ltb_spec 0 (Z.sgn (rho * 2 - d) + 1)); try done; lia.
  - change (2 =? MP_ROUND_UP) with true. cbv iota. wb. eapply wpV_compare_zero; [exact HV|lk|]. eapply HU; [exact HV|]. cbn [bumps]. destruct (Z.eqb_spec rho 0), (Z.eqb_spec (Z.sgn rho) 0); try done; lia.
  - change (3 =? MP_ROUND_UP) with false. change ((3 =? MP_ROUND_HALF_UP) || (3 =? MP_ROUND_HALF_DOWN)) with true. change (3 =? MP_ROUND_HALF_UP) with false. cbv iota.
    wb. eapply wpV_mul_pow2; [exact HV|lk|lk|lia|]. intros st1 HV1. rewrite insert_insert in HV1. change (negb (MP_OK =? MP_OK)) with false. cbv iota.
    wb. eapply wpV_compare; [exact HV1|lk|lk|]. cbv zeta. eapply HU; [exact HV1|]. cbn [bumps]. rewrite Z.gtb_ltb. change (2 ^ 1) with 2. destruct (Z.ltb_spec d (2 * rho)), (Z.ltb_spec 0 (Z.sgn (rho * 2 - d))); try done; lia.
Qed.

(** Writing the integer part [x0], the point, and the fraction [x1] behind [k - 1] zeros. *)
Lemma wpV_emit st W radix prec k t0 t1 x0 x1 b (off : nat) l sg i s1 limit (Q : Z * bool -> state -> Prop) :
  RV st W (setb X b (overwrite off sg l)) -> W !! t0 = Some x0 -> W !! t1 = Some x1 -> 2 <= radix <= 36 -> 0 <= prec < 2 ^ 31 - 1 ->
  numeral radix x0 i -> numeral radix x1 s1 -> (1 <= length i)%nat -> (1 <= length s1)%nat -> (prec <> 0 -> 1 <= k <= prec /\ Z.of_nat (length s1) = prec - k + 1) ->
  let s := (sg ++ i) ++ (if prec =? 0 then [] else 46 :: replicate (Z.to_nat (k - 1)) 48 ++ s1) in
  (off + Nat.min (length s) (Z.to_nat limit) + 1 <= length l)%nat -> Z.of_nat (length sg) + 2 <= limit -> (prec <> 0 -> limit <> Z.of_nat (length s) + 1) ->
  (Z.of_nat (length s) + 1 <= limit -> forall st', RV st' W (setb X b (overwrite off (s ++ [0]) l)) -> Q (MP_OK, false) st') ->
  (limit <= Z.of_nat (length s) -> forall st' t, (length t <= Z.to_nat limit + 1)%nat -> RV st' W (setb X b (overwrite off t l)) -> Q (MP_TRUNC, false) st') ->
  wp (res <- mp_int_to_string t0 radix (b, Z.of_nat (off + length sg)) (limit - Z.of_nat (length sg));
    if negb (res =? MP_OK) then Ret (res, false) else
    len <- strlen_loop (Z.to_nat (limit - Z.of_nat (length sg))) (b, Z.of_nat (off + length sg)) 0;
    if prec =? 0 then Ret (MP_OK, false) else
    Store ((b, Z.of_nat (off + length sg)) +p len) 46;;
    if prec =? INT_MAX then Undef else
    if limit - Z.of_nat (length sg) - len - 1 <? prec + 1 then Ret (MP_TRUNC, false) else
    memset ((b, Z.of_nat (off + length sg)) +p len +p 1) 48 (k - 1);;
    res <- mp_int_to_string t1 radix ((b, Z.of_nat (off + length sg)) +p len +p 1 +p (k - 1)) (limit - Z.of_nat (length sg) - len - 1 - k);
    Ret (res, false))%prog Q st.
Proof.
  intros HV H0 H1 Hr Hp Hi Hs1 Li Ls1 Hk s Hl Hlim Hx HQ1 HQ2.
  assert (Z.of_nat (length s) = Z.of_nat (length sg) + Z.of_nat (length i) + if prec =? 0 then 0 else 1 + prec) as Ls.
  { unfold s. rewrite !app_length. clear - Hk. destruct (Z.eqb_spec prec 0) as [|E]; [cbn [length]; lia|]. cbn [length]. rewrite app_length, replicate_length. specialize (Hk E). lia. }
  assert (length sg + length i <= length s)%nat as Ls' by (clear - Ls Hp; destruct (prec =? 0); lia).
  wb. eapply wpV_to_string; [exact HV|exact H0|apply setb_lookup|done|lia|exact Hi|rewrite overwrite_length by lia; lia| |].
  2:{ intros st' s' L1 L2 HV'. change (negb (MP_TRUNC =? MP_OK)) with true. cbv iota. apply wp_ret. rewrite setb_setb, overwrite_app in HV' by (rewrite app_length; cbn [length]; lia).
      eapply HQ2; [lia| |exact HV']. rewrite !app_length. cbn [length]. lia. }
  intros st11 L1 HV11. rewrite setb_setb, overwrite_app in HV11 by (rewrite app_length; cbn [length]; lia). change (negb (MP_OK =? MP_OK)) with false. cbv iota.
  wb. eapply (wpV_strlen _ _ _ b); [exact HV11|apply setb_lookup| |exact (numeral_nz _ _ _ Hi)| |].
  { lia. }
  { intros j c Hj. rewrite <- Nat.add_assoc. apply overwrite_at; [|rewrite !app_length; cbn [length]; lia]. rewrite lookup_app_r by lia. by replace (length sg + j - length sg)%nat with j by lia. }
  rewrite !Z.add_0_l, !ptr_add. destruct (Z.eqb_spec prec 0) as [E|E].
  { apply wp_ret. apply HQ1; [lia|]. eapply RV_eqX; [exact HV11|]. do 2 f_equal. unfold s. by rewrite app_nil_r, <- app_assoc. }
  replace (Z.of_nat (off + length sg) + Z.of_nat (length i)) with (Z.of_nat (off + length (sg ++ i))) by (rewrite app_length; lia).
  destruct (Hk E) as [Hk1 Hk2]. specialize (Hx E).
  wb. eapply wpV_storeb; [exact HV11|apply setb_lookup|rewrite overwrite_length; rewrite !app_length; cbn [length]; lia|]. intros st12 HV12.
  rewrite setb_setb, Nat2Z.id, insert_over in HV12 by (rewrite overwrite_length; rewrite !app_length; cbn [length]; lia).
  rewrite app_assoc, over_at in HV12 by (rewrite ?app_length; cbn [length]; lia). clear HV11 st11.
  rewrite ?ptr_add. change INT_MAX with (2 ^ 31 - 1). destruct (Z.eqb_spec prec (2 ^ 31 - 1)); [lia|].
  destruct (Z.ltb_spec (limit - Z.of_nat (length sg) - Z.of_nat (length i) - 1) (prec + 1)) as [L|L].
  { apply wp_ret. eapply HQ2; [lia| |exact HV12]. rewrite !app_length. cbn [length]. lia. }
  set (z := Z.to_nat (k - 1)) in *. replace (k - 1) with (Z.of_nat z) by lia.
  assert (length ((sg ++ i) ++ [46]) = (length sg + length i + 1)%nat) as Lpre by (rewrite !app_length; cbn [length]; lia).
  replace (Z.of_nat (off + length (sg ++ i)) + 1) with (Z.of_nat (off + length ((sg ++ i) ++ [46%Z]))) by (rewrite Lpre, app_length; lia).
  wb. eapply wpV_memset; [exact HV12|apply setb_lookup|rewrite overwrite_length; lia|]. intros st13 HV13. rewrite setb_setb, overwrite_app in HV13 by (rewrite replicate_length; lia). clear HV12 st12.
  wb. rewrite ?ptr_add. replace (Z.of_nat (off + length ((sg ++ i) ++ [46%Z])) + Z.of_nat z) with (Z.of_nat (off + length (((sg ++ i) ++ [46%Z]) ++ replicate z 48%Z))) by (rewrite (app_length _ (replicate _ _)), replicate_length; lia).
  eapply wpV_to_string; [exact HV13|exact H1|apply setb_lookup|done|lia|exact Hs1|rewrite overwrite_length; rewrite (app_length _ (replicate _ _)), replicate_length; lia| |].
  2:{ intros; lia. }
  intros st14 _ HV14. rewrite setb_setb, overwrite_app in HV14 by (rewrite !app_length, replicate_length; cbn [length]; lia).
  apply wp_ret. apply HQ1; [lia|]. eapply RV_eqX; [exact HV14|]. do 2 f_equal. unfold s. rewrite <- !app_assoc. cbn [app]. by rewrite <- !app_assoc.
Qed.

Lemma wpV_rat_to_decimal st n d radix prec m b (off : nat) l limit N s (Q : Z -> state -> Prop) :
  RV st V X -> V !! num r = Some n -> V !! den r = Some d -> 0 < d -> cmem X !! b = Some l -> 2 <= radix <= 36 -> 0 <= prec < 2 ^ 31 - 1 ->
  rounds m (Z.abs n * radix ^ prec) d N ->
  (N = Z.abs n * radix ^ prec / d \/ forall k, 1 <= k -> (Z.abs n * radix ^ prec / d) mod radix ^ prec + 1 <> radix ^ k) ->
  decimal_text radix (Z.to_nat prec) (n <? 0) N s -> (off + Nat.min (length s) (Z.to_nat limit) + 1 <= length l)%nat ->
  2 + (if (n <? 0) && negb (N =? 0) then 1 else 0) <= limit -> (prec <> 0 -> limit <> Z.of_nat (length s) + 1) ->
  (Z.of_nat (length s) + 1 <= limit -> forall st', RV st' V (setb X b (overwrite off (s ++ [0]) l)) -> Q MP_OK st') ->
  (limit <= Z.of_nat (length s) -> forall st' t, (length t <= Z.to_nat limit + 1)%nat -> RV st' V (setb X b (overwrite off t l)) -> Q MP_TRUNC st') ->
  wp (mp_rat_to_decimal r radix prec (rounding_code m) (b, Z.of_nat off) limit) Q st.
Proof.
  intros HV Hn Hd Hd0 Hb Hr Hp HR HC (i & f & Hi & Hf & Es) Hl Hlim Hx HQ1 HQ2. unfold mp_rat_to_decimal. cbv zeta. wb.
  eapply wpV_with_copy_g; [exact HV|exact Hn|]. intros t0 st1 Ht0 HV1.
  eapply wpV_with_zero_g; [exact HV1|]. intros t1 st2 Ht1 HV2.
  eapply wpV_with_zero_g; [exact HV2|]. intros t2 st3 Ht2 HV3.
  assert (t0 <> num r) as A1 by congruence. assert (t0 <> den r) as A2 by congruence.
  assert (t1 <> t0) as A3 by (intros ->; by rewrite lookup_insert in Ht1). rewrite lookup_insert_ne in Ht1 by done.
  assert (t2 <> t1) as A4 by (intros ->; by rewrite lookup_insert in Ht2). rewrite lookup_insert_ne in Ht2 by done.
  assert (t2 <> t0) as A5 by (intros ->; by rewrite lookup_insert in Ht2). rewrite lookup_insert_ne in Ht2 by done.
  assert (t1 <> num r) as A6 by congruence. assert (t1 <> den r) as A7 by congruence. assert (t2 <> num r) as A8 by congruence. assert (t2 <> den r) as A9 by congruence.
  wb. eapply wpV_abs; [exact HV3|lk|lk|]. intros st4 HV4.
  wb. eapply wpV_div with (va := Z.abs n) (vb := d); [exact HV4|lk|lk|congruence|eexists; lk|eexists; lk|lia|]. intros _ st5 HV5. cbn [assign] in HV5. change (negb (MP_OK =? MP_OK)) with false. cbv iota.
  rewrite Z.quot_div_nonneg, Z.rem_mod_nonneg in HV5 by lia.
  assert (to_int32 prec = prec) as -> by (unfold to_int32; rewrite ?Z.mod_small by lia; destruct (Z.ltb_spec prec (2 ^ 31)); lia).
  set (T := Z.abs n / d) in *. set (rem := Z.abs n mod d) in *. pose proof (Z.mod_pos_bound (Z.abs n) d Hd0) as Brem. fold rem in Brem.
  pose proof (Z.div_mod (Z.abs n) d ltac:(lia)) as En. fold T rem in En. assert (0 <= T) as BT by (apply Z.div_pos; lia).
  wb. eapply wpV_lead; [exact HV5|lk|lk|done|done|]. intros st6 k Hk K1 K2 HV6. rewrite Z2Nat.id in Hk, K1 by lia. cbn [fst snd]. change (negb (MP_OK =? MP_OK)) with false. cbv iota. rewrite Z.add_0_l.
  set (P := radix ^ prec) in *. assert (0 < P) as PP by (apply Z.pow_pos_nonneg; lia). pose proof (eq_refl : P = radix ^ prec) as EP. clearbody P.
  match goal with |- wp (bind ?p ?g) ?Q0 _ => assert (forall st7 x2, RV st7 (<[t2 := x2]> (<[t1 := rem * P]> (<[t0 := T]> V))) X -> wp (g MP_OK) Q0 st7) as HK end.
  2:{ wb. destruct (Z.ltb_spec k prec) as [L|L].
    - wb. eapply wpV_expt_value; [exact HV6|lk|lia|lia|]. intros _ st7 HV7. rewrite Z.mod_small in HV7 by lia. change (negb (MP_OK =? MP_OK)) with false. cbv iota.
      eapply wpV_mul; [exact HV7|lk|lk|lk|]. intros st8 HV8. eapply HK. eapply RV_eqV; [exact HV8|].
      replace (rem * radix ^ k * radix ^ (prec - k)) with (rem * P) by (rewrite EP, <- Z.mul_assoc, <- Z.pow_add_r by lia; do 2 f_equal; lia). mapeq.
    - apply wp_ret. eapply HK. eapply RV_eqV; [exact HV6|]. replace k with prec by lia. rewrite <- EP. mapeq. }
  clear HV6 HV5 HV4 HV3 HV2 HV1 st6 st5 st4 st3 st2 st1. intros st7 x2 HV7. change (negb (MP_OK =? MP_OK)) with false. cbv iota.
  wb. eapply wpV_div with (va := rem * P) (vb := d); [exact HV7|lk|lk|congruence|eexists; lk|eexists; lk|lia|]. intros _ st8 HV8. cbn [assign] in HV8. change (negb (MP_OK =? MP_OK)) with false. cbv iota.
  assert (0 <= rem * P) as B0 by (apply Z.mul_nonneg_nonneg; lia). rewrite Z.quot_div_nonneg, Z.rem_mod_nonneg in HV8 by lia. set (F := rem * P / d) in *. set (rho := (rem * P) mod d) in *.
  pose proof (Z.mod_pos_bound (rem * P) d Hd0) as Brho. fold rho in Brho. pose proof (Z.div_mod (rem * P) d ltac:(lia)) as EF. fold F rho in EF.
  assert (0 <= F < P) as BF. { split; [apply Z.div_pos; lia|]. apply Z.div_lt_upper_bound; [lia|]. apply Z.mul_lt_mono_pos_r; lia. }
  assert (Z.abs n * P = (T * P + F) * d + rho) as EN by (rewrite En; transitivity (d * T * P + rem * P); [ring|rewrite EF; ring]).
  assert (Z.abs n * P / d = T * P + F) as EN'. { symmetry. apply (Z.div_unique _ _ _ rho); [lia|]. rewrite EN. ring. }
  rewrite EN' in HC. assert ((T * P + F) mod P = F) as EN2 by (rewrite Z.add_comm, Z.mod_add, Z.mod_small; lia). rewrite EN2 in HC.
  rewrite EN in HR. pose proof (rounds_bump _ _ _ _ _ Hd0 Brho HR) as ER.
  wb. eapply (wpV_rounding st8 m prec t0 t1 t2 T F rho d); [eapply RV_eqV; [exact HV8|mapeq]|done|congruence|congruence|congruence|done|done|done|lia|done|].
  clear HV8 HV7 st8 st7 x2. intros st9 x2 HV9. cbn [fst]. change (negb (MP_OK =? MP_OK)) with false. cbv iota.
  set (u := if bumps m rho d then 1 else 0) in *.
  set (T' := T + (if (prec =? 0) && bumps m rho d then 1 else 0)) in *. set (F' := F + (if negb (prec =? 0) && bumps m rho d then 1 else 0)) in *.
  assert (N = T' * P + F' /\ 0 <= F' < P /\ (prec = 0 -> F' = 0) /\ (0 < prec -> T' = T /\ F' = F + u)) as (EN3 & BF' & P0 & P1).
  { destruct (Z.eqb_spec prec 0) as [E|E]; cbn [negb andb] in T', F'.
    - assert (P = 1) as EP1 by (by rewrite EP, E). unfold T', F'. fold u. split; [rewrite EP1, ER, EP1; lia|]. lia.
    - unfold T', F'. fold u. rewrite Z.add_0_r. split; [lia|]. split; [|lia]. assert (0 <= u <= 1) by (unfold u; destruct (bumps m rho d); lia).
      split; [lia|]. destruct HC as [HC|HC]; [lia|]. specialize (HC prec ltac:(lia)). rewrite <- EP in HC. lia. }
  assert (0 <= T') as BT' by (clear - BT; unfold T'; destruct ((prec =? 0) && bumps m rho d); lia). clearbody T' F'.
  assert (N / radix ^ Z.of_nat (Z.to_nat prec) = T') as E1. { rewrite Z2Nat.id, <- EP by lia. symmetry. clear - EN3 BF'. apply (Z.div_unique _ _ _ F'); lia. }
  assert (N mod radix ^ Z.of_nat (Z.to_nat prec) = F') as E2. { rewrite Z2Nat.id, <- EP by lia. symmetry. clear - EN3 BF'. apply (Z.mod_unique _ _ T'); lia. }
  rewrite E1 in Hi. rewrite E2 in Hf. clear E1 E2.
  assert ((N =? 0) = (T' =? 0) && (F' =? 0)) as EZ. { clear - EN3 BF' BT'. destruct (Z.eqb_spec T' 0) as [->|], (Z.eqb_spec F' 0) as [->|]; cbn [andb]; [apply Z.eqb_eq|apply Z.eqb_neq|apply Z.eqb_neq|apply Z.eqb_neq]; nia. }
  clear HR EN EN' EN2 En EF.
  wb. eapply wpV_get_sign; [exact HV9|lk|]. set (neg := (n <? 0) && negb (N =? 0)) in *.
  match goal with |- wp (bind ?p ?g) ?Q0 _ => assert (wp (g neg) Q0 st9) as HK end.
  2:{ wb. destruct (n <? 0); cbn [andb] in neg; [change (MP_NEG =? MP_NEG) with true|change (MP_ZPOS =? MP_NEG) with false]; cbv iota; [|by apply wp_ret].
      wb. eapply wpV_compare_zero; [exact HV9|lk|]. replace (Z.sgn T' =? 0) with (T' =? 0) by (clear; destruct (Z.eqb_spec T' 0), (Z.eqb_spec (Z.sgn T') 0); try done; lia).
      unfold neg in HK. rewrite EZ in HK. destruct (T' =? 0); cbn [negb andb] in *; [|by apply wp_ret].
      wb. eapply wpV_compare_zero; [exact HV9|lk|]. replace (Z.sgn F' =? 0) with (F' =? 0) by (clear; destruct (Z.eqb_spec F' 0), (Z.eqb_spec (Z.sgn F') 0); try done; lia).
      by apply wp_ret. }
  set (sg := if neg then [45] else []) in *.
  assert (length sg = Z.to_nat (if neg then 1 else 0)) as Lsg by (unfold sg; by destruct neg).
  match goal with |- wp (bind ?p ?g) ?Q0 _ => assert (forall st10, RV st10 (<[t2 := x2]> (<[t1 := F']> (<[t0 := T']> V))) (setb X b (overwrite off sg l)) -> wp (g tt) Q0 st10) as HK end.
  2:{ wb. unfold sg in HK. destruct neg.
      - eapply wpV_storeb; [exact HV9|exact Hb|lia|]. intros st10 HV10. rewrite Nat2Z.id, insert_over in HV10 by lia. by apply HK.
      - apply wp_ret. apply HK. by rewrite overwrite_nil, setb_id. }
  clear HV9. intros st10 HV10.
  assert ((if neg then (b, Z.of_nat off) +p 1 else (b, Z.of_nat off)) = (b, Z.of_nat (off + length sg))) as ->.
  { unfold sg. destruct neg; [rewrite ptr_add|]; f_equal; cbn [length]; lia. }
  assert ((if neg then limit - 1 else limit) = limit - Z.of_nat (length sg)) as ->.
  { unfold sg. destruct neg; cbn [length]; lia. }
  assert (Z.of_nat (length sg) + 2 <= limit) as Hlim' by (destruct neg; lia). clearbody sg neg. clear Lsg Hlim.
  assert (1 <= length i)%nat as Li. { destruct Hi as (ds & _ & _ & Nd & _ & ->). clear - Nd. rewrite app_length, map_length. destruct ds; [done|cbn; lia]. }
  destruct (numeral_ex radix F' (proj1 Hr)) as [s1 Hs1].
  assert (1 <= length s1)%nat as Ls0. { destruct Hs1 as (ds & _ & _ & Nd & _ & ->). clear - Nd. rewrite app_length, map_length. destruct ds; [done|cbn; lia]. }
  assert (0 <= u <= 1) as Bu by (clear; unfold u; destruct (bumps m rho d); lia).
  assert (prec <> 0 -> 1 <= k <= prec /\ Z.of_nat (length s1) = prec - k + 1) as HK.
  { intros E. assert (1 <= k) as Hk1. { clear - K1 Hk E Hp Brem. destruct (Z.eq_dec k 0) as [->|]; [|lia]. specialize (K1 ltac:(lia)). rewrite Z.pow_0_r in K1. lia. }
    split; [lia|]. specialize (K2 ltac:(lia)). destruct (P1 ltac:(lia)) as [PT PF].
    assert (F' < radix ^ (prec - k + 1)) as U1.
    { assert (F < radix ^ (prec - k + 1)) as U0.
      { apply Z.div_lt_upper_bound; [lia|]. rewrite EP. replace prec with ((k - 1) + (prec - k + 1)) at 1 by lia. rewrite Z.pow_add_r, Z.mul_assoc by lia.
        apply Z.mul_lt_mono_pos_r; [apply Z.pow_pos_nonneg; lia|done]. }
      clear - HC ER Bu U0 PF Hk1 Hk. destruct HC as [HC|HC]; [assert (u = 0) by lia; lia|]. specialize (HC (prec - k + 1) ltac:(lia)). lia. }
    pose proof (numeral_len_le radix F' s1 (prec - k + 1) (proj1 Hr) Hs1 ltac:(rewrite Z.abs_eq; [exact U1|apply BF']) ltac:(lia)) as G1. destruct (Z.ltb_spec F' 0); [lia|].
    destruct (Z.eq_dec k prec) as [->|Nk]; [clear - G1 Ls0; lia|].
    assert (radix ^ (prec - k) <= F') as U2.
    { specialize (K1 ltac:(lia)). assert (radix ^ (prec - k) <= F); [|clear - H0 PF Bu; lia]. apply Z.div_le_lower_bound; [lia|]. rewrite EP. replace prec with (k + (prec - k)) at 2 by lia. rewrite Z.pow_add_r, Z.mul_assoc by lia.
      apply Z.mul_le_mono_nonneg_r; [apply Z.pow_nonneg; lia|done]. }
    pose proof (numeral_len_ge radix F' s1 (prec - k) (proj1 Hr) Hs1 ltac:(rewrite Z.abs_eq; [exact U2|apply BF']) ltac:(lia)) as G2. destruct (Z.ltb_spec F' 0); [lia|]. clear - G1 G2. lia. }
  assert (s = (sg ++ i) ++ (if prec =? 0 then [] else 46 :: replicate (Z.to_nat (k - 1)) 48 ++ s1)) as Es'.
  { rewrite Es, <- app_assoc. do 2 f_equal. destruct (Z.eqb_spec prec 0) as [->|E]; [done|]. destruct (Nat.eqb_spec (Z.to_nat prec) 0); [lia|]. f_equal.
    destruct (HK E) as [Hk1 Hk2]. rewrite (fixed_pad radix (Z.to_nat prec) F' s1 f); [|lia|apply BF'|exact Hs1|clear - Hk1 Hk2; lia|exact Hf]. do 2 f_equal. clear - Hk1 Hk2. lia. }
  assert (forall st' (rs : Z) l', RV st' (<[t2 := x2]> (<[t1 := F']> (<[t0 := T']> V))) (setb X b l') ->
    (forall st'', RV st'' V (setb X b l') -> Q rs st'') -> 
    snd (rs, false) = false /\ exists (V2 : gmap oid Z) v X2, V2 !! t2 = None /\ RV st' (<[t2 := v]> V2) X2 /\ (forall st3, RV st3 V2 X2 ->
    snd (rs, false) = false /\ exists (V3 : gmap oid Z) v X3, V3 !! t1 = None /\ RV st3 (<[t1 := v]> V3) X3 /\ (forall st4, RV st4 V3 X3 ->
    snd (rs, false) = false /\ exists (V4 : gmap oid Z) v X4, V4 !! t0 = None /\ RV st4 (<[t0 := v]> V4) X4 /\ (forall st5, RV st5 V4 X4 -> wp (Ret (fst (rs, false))) Q st5)))) as FIN.
  { intros st' rs l' HV' HQ'. split; [done|]. eexists _, x2, _. split; [|split; [exact HV'|]]; [by rewrite !lookup_insert_ne by congruence|]. intros st'' HV''.
    split; [done|]. eexists _, F', _. split; [|split; [exact HV''|]]; [by rewrite !lookup_insert_ne by congruence|]. intros st3 HV3.
    split; [done|]. eexists V, T', _. split; [done|]. split; [exact HV3|]. intros st4 HV4. apply wp_ret. by apply HQ'. }
  eapply (wpV_emit st10 _ radix prec k t0 t1 T' F' b off l sg i s1 limit); [exact HV10|lk|lk|done|done|done|done|done|done|done|rewrite <- Es'; exact Hl|done|rewrite <- Es'; exact Hx| |].
  - intros L st' HV'. rewrite <- Es' in *. eapply FIN; [exact HV'|]. intros st'' HV''. by apply HQ1.
  - intros L st' t Lt HV'. rewrite <- Es' in *. eapply FIN; [exact HV'|]. intros st'' HV''. by eapply HQ2.
Qed.
End out.

(** ** Lengths *)
Definition log_small (r : Z) : bool := ((0 <? f_num (s_log2 r)) && (0 <? f_den (s_log2 r)) && (f_num (s_log2 r) <=? f_den (s_log2 r)))%bool.
Lemma log_small_all : upto 35 log_small 2 = true. Proof. vm_compute. reflexivity. Qed.
Lemma outlen_le n r : 2 <= r <= 36 -> 0 < n <= 2 ^ 40 -> outlen n r <= n + 1.
Proof.
  intros Hr Hn. pose proof (upto_spec _ _ _ r log_small_all ltac:(lia)) as HL. unfold log_small in HL. rewrite !andb_true_iff in HL. destruct HL as [[L1 L2] L3]. apply Z.ltb_lt in L1, L2. apply Z.leb_le in L3.
  unfold outlen. set (Ln := f_num (s_log2 r)) in *. set (Ld := f_den (s_log2 r)) in *. cbv zeta.
  set (A := f_of_int n). destruct (frac_bounds n 1 ltac:(lia) ltac:(lia)) as (A1 & A2 & _). fold (f_of_int n) in A1, A2. fold A in A1, A2.
  assert (0 < c53) as Hc by (unfold c53; lia).
  assert (fle A (n * (c53 + 1)) (1 * c53)) as GA by (apply frac_le; lia).
  set (B := f_mul A (s_log2 r)). assert (0 < f_num A * Ln) as PN by nia. assert (0 < f_den A * Ld) as PD by nia.
  destruct (frac_bounds _ _ PN PD) as (B1 & B2 & _). fold Ln Ld in B. change (f_of_frac (f_num A * Ln) (f_den A * Ld)) with B in B1, B2.
  assert (fle B (n * (c53 + 1) * (c53 + 1)) (c53 * c53)) as GB.
  { apply frac_le; [done|done|done|]. unfold fle in GA. rewrite Z.mul_1_l in GA. fold Ln Ld. set (x := f_num A) in *. set (y := f_den A) in *. clearbody x y Ln Ld. clear - GA L1 L2 L3 A1 A2 Hc Hn.
    transitivity (x * c53 * Ld); [replace (x * Ln * c53) with (x * c53 * Ln) by ring; apply Z.mul_le_mono_nonneg_l; [apply Z.mul_nonneg_nonneg; lia|done]|]. pose proof (Z.mul_le_mono_nonneg_r _ _ Ld ltac:(lia) GA). lia. }
  set (h := f_of_frac 999999 1000000). set (S := f_add B h).
  assert (f_num h <= f_den h) as Hh by (by vm_compute). assert (0 < f_num h) as Hhn by (by vm_compute). assert (0 < f_den h) as Hhd by (by vm_compute).
  assert (0 < f_num B * f_den h + f_num h * f_den B) as SN by nia. assert (0 < f_den B * f_den h) as SD by nia.
  destruct (frac_bounds _ _ SN SD) as (S1 & S2 & _). change (f_of_frac (f_num B * f_den h + f_num h * f_den B) (f_den B * f_den h)) with S in S1, S2.
  set (P := n * (c53 + 1) * (c53 + 1)) in *.
  assert (fle S ((P + c53 * c53) * (c53 + 1)) (c53 * c53 * c53)) as GS.
  { apply frac_le; [done|done|nia|]. unfold fle in GB. set (fn := f_num B) in *. set (fd := f_den B) in *. set (hn := f_num h) in *. set (hd := f_den h) in *.
    set (cc := c53 * c53) in *. assert (0 < cc) as Hcc by (unfold cc; nia). clearbody P fn fd hn hd cc. clear - GB Hh Hhn Hhd B1 B2 Hcc.
    pose proof (Z.mul_le_mono_nonneg_r _ _ hd ltac:(lia) GB). pose proof (Z.mul_le_mono_nonneg_r _ _ (fd * cc) ltac:(nia) Hh). lia. }
  apply trunc_le in GS; [|done|nia]. set (N := f_trunc S) in *. clearbody N. clear - GS Hn.
  assert (N < n + 2); [|lia]. apply (Zmult_lt_reg_r _ _ (c53 * c53 * c53)); [unfold c53; lia|]. eapply Z.le_lt_trans; [exact GS|]. unfold P, c53. lia.
Qed.

(** ** Every string can be read; what is written is read back *)
Lemma reads_ex r s : exists v rest, reads r s v rest.
Proof. destruct (parse_shape r s) as (sp & sg & body & ds & rest & H). eexists _, rest, sp, sg, body, ds. split; [exact H|reflexivity]. Qed.
Lemma digits_ex r (w : list Z) : exists body ds rest, w = body ++ rest /\ Forall2 (digit_in r) body ds /\ (forall c d, head rest = Some c -> ~ digit_in r c d).
Proof.
  pose proof (digit_in_dec r). destruct (span_while (fun c => exists d, digit_in r c d) w) as (body & rest & -> & HF & Hr).
  assert (exists ds, Forall2 (digit_in r) body ds) as [ds Hds].
  { clear -HF. induction HF as [|c body [d Hd] _ [ds IH]]; [by exists []|]. exists (d :: ds). by constructor. }
  exists body, ds, rest. split; [done|]. split; [done|]. intros c d Hc Hd. eapply Hr; eauto.
Qed.
Section any.
Context (st : state) (V : gmap oid Z) (X : ctx).
Lemma wpV_rat_read_any r radix s (Q : Z * option (list Z) -> state -> Prop) :
  RV st V X -> num r <> den r -> rat_live V r -> 2 <= radix <= 36 -> Z.of_nat (length s) < 2 ^ 31 ->
  (forall st' q e, RV st' (set_rat r q V) X -> Q (MP_OK, e) st') ->
  (forall st' n d x e, x = MP_TRUNC \/ x = MP_UNDEF -> RV st' (<[den r := d]> (<[num r := n]> V)) X -> Q (x, e) st') ->
  wp (mp_rat_read_cstring r radix s) Q st.
Proof.
  intros HV N HL Hr Hl HQ1 HQ2. destruct (reads_ex radix s) as (n & rest & H1). pose proof is_space_dec. destruct (span_while is_space rest) as (sp & u & E & Hsp & Hu).
  assert (~ (exists u', u = 47 :: u') -> wp (mp_rat_read_cstring r radix s) Q st) as HW.
  { intros NE. eapply wpV_rat_read_int; [done|done|done|done|done|exact H1|exact E|done| |].
    - intros c Hc. split; [by apply Hu|]. intros ->. apply NE. destruct u; [done|]. injection Hc as ->. by eexists.
    - intros st' HV'. destruct rest as [|c' rest]; [by eapply HQ1|]. eapply (HQ2 _ (Qnum (Qred (inject_Z n))) (Zpos (Qden (Qred (inject_Z n))))); [by left|exact HV']. }
  destruct u as [|c u]; [apply HW; by intros [? ?]|]. destruct (decide (c = 47)) as [->|Nc]; [|apply HW; intros [? [= ? ?]]; congruence].
  destruct (reads_ex radix u) as (d & rest2 & H2). subst rest. eapply wpV_rat_read_slash; [done|done|done|done|done|exact H1|done|exact H2| | |].
  - intros _ _ st' HV'. by eapply HQ1.
  - intros _ _ st' HV'. eapply HQ2; [by right|exact HV'].
  - intros _ st' HV'. eapply HQ2; [by left|exact HV'].
Qed.
Lemma wpV_rat_readd_any r radix s (Q : Z * option (list Z) -> state -> Prop) :
  RV st V X -> num r <> den r -> rat_live V r -> 2 <= radix <= 36 -> Z.of_nat (length s) < 2 ^ 31 ->
  (forall st' q x e, x = MP_OK \/ x = MP_TRUNC -> RV st' (set_rat r q V) X -> Q (x, e) st') ->
  wp (mp_rat_read_cdecimal r radix s) Q st.
Proof.
  intros HV N HL Hr Hl HQ. destruct (reads_ex radix s) as (n & rest & H1).
  destruct (decide (head rest = Some 46)) as [E|E].
  2:{ eapply wpV_rat_read_nopoint; [done|done|done|done|done|exact H1|done|]. intros st' HV'. eapply HQ; [|exact HV']. destruct rest; [by left|by right]. }
  destruct rest as [|c u]; [done|]. injection E as ->.
  assert ((exists c u', u = c :: u' /\ (is_space c \/ c = 43 \/ c = 45)) \/ (forall c, head u = Some c -> ~ is_space c /\ c <> 43 /\ c <> 45)) as [(c & u' & -> & Hc)|Hu].
  { destruct u as [|c u]; [by right|]. pose proof is_space_dec. destruct (decide (is_space c \/ c = 43 \/ c = 45)) as [Hc|Hc]; [left; by exists c, u|]. right. intros c' [= <-]. tauto. }
  { eapply wpV_rat_read_badpoint; [done|done|done|done|done|exact H1|done|]. intros st' HV'. eapply HQ; [by right|exact HV']. }
  destruct (digits_ex radix u) as (fb & fds & rest & -> & HF & Hrest). destruct H1 as (sp & sg & ib & ids & (-> & S1 & S2 & S3 & S4 & S5) & _).
  eapply (wpV_rat_read_point st V X r radix _ _ rest); [done|done|done|done|done| |].
  { exists sp, sg, ib, ids, fb, fds. split_and!; [done|done|done|exact S3|exact HF|exact Hrest|exact Hu|reflexivity]. }
  intros st' HV'. eapply HQ; [|exact HV']. destruct rest; [by left|by right].
Qed.
End any.
Lemma map_digits r ds : 2 <= r <= 36 -> Forall (fun d => 0 <= d < r) ds -> Forall2 (digit_in r) (map digit_char ds) ds.
Proof. intros Hr H. induction H as [|d ds Hd _ IH]; [constructor|]. cbn [map]. constructor; [|done]. split; [apply digit_char_of; lia|lia]. Qed.
Lemma numeral_reads r v s rest : 2 <= r <= 36 -> numeral r v s -> (forall c d, head rest = Some c -> ~ digit_in r c d) -> reads r (s ++ rest) v rest.
Proof.
  intros Hr (ds & H1 & H2 & H3 & _ & ->) Hrest. exists [], (if v <? 0 then [45] else []), (map digit_char ds), ds. pose proof (map_digits r ds Hr H1) as HM.
  split; [|destruct (Z.ltb_spec v 0); [rewrite decide_True by done|rewrite decide_False by done]; lia].
  split; [by rewrite <- !app_assoc|]. split; [constructor|]. split; [destruct (v <? 0); tauto|]. split; [exact HM|]. split; [exact Hrest|].
  intros _ c Hc. eapply digit_head; [exact HM|by destruct ds|exact Hc].
Qed.
Lemma set_rat_eq (r : oid * oid) (q q' : Q) (V : gmap oid Z) : (q == q')%Q -> set_rat r q V = set_rat r q' V.
Proof. intros E. apply Qred_complete in E. unfold set_rat. by rewrite E. Qed.
Lemma wpV_rat_read_text st V X r radix q s (Q : Z * option (list Z) -> state -> Prop) :
  RV st V X -> num r <> den r -> rat_live V r -> 2 <= radix <= 36 -> Z.of_nat (length s) < 2 ^ 31 -> rat_text radix q s ->
  (forall st', RV st' (set_rat r q V) X -> Q (MP_OK, Some []) st') ->
  wp (mp_rat_read_cstring r radix s) Q st.
Proof.
  intros HV N HL Hr Hl (n & d & Hn & Hd & ->) HQ. destruct (Z.eqb_spec (Qnum (Qred q)) 0) as [E|E].
  - rewrite E in Hn. eapply (wpV_rat_read_int st V X r radix n 0 [] [] []); [done|done|done|done|done| |done|constructor|done|].
    { rewrite <- (app_nil_r n) at 1. by apply numeral_reads. }
    intros st' HV'. apply HQ. rewrite (set_rat_eq r q (inject_Z 0)); [done|]. rewrite <- (Qred_correct q). unfold Qeq. rewrite E. done.
  - eapply (wpV_rat_read_slash st V X r radix _ (Qnum (Qred q)) [] d (Zpos (Qden (Qred q))) []); [done|done|done|done|done| |constructor| | | |done].
    { apply numeral_reads; [done|done|]. intros c x [= <-] [[=] _]. }
    { rewrite <- (app_nil_r d) at 1. by apply numeral_reads. }
    { intros _ _ st' HV'. apply HQ. rewrite (set_rat_eq r q (frac (Qnum (Qred q)) (Zpos (Qden (Qred q))))); [done|]. rewrite <- (Qred_correct q) at 1. rewrite (Qmake_Qdiv (Qnum (Qred q)) (Qden (Qred q))) || idtac.
      unfold frac. rewrite <- Qmake_Qdiv. by destruct (Qred q). }
    done.
Qed.
Lemma fixed_digits r k f s : 2 <= r <= 36 -> fixed r k f s -> exists ds, Forall2 (digit_in r) s ds /\ length ds = k /\ horner r ds = f.
Proof. intros Hr (ds & <- & H1 & H2 & ->). exists ds. split; [by apply map_digits|done]. Qed.
Lemma wpV_rat_readd_text st V X r radix (prec : nat) neg N s (Q : Z * option (list Z) -> state -> Prop) :
  RV st V X -> num r <> den r -> rat_live V r -> 2 <= radix <= 36 -> Z.of_nat (length s) < 2 ^ 31 -> 0 <= N -> decimal_text radix prec neg N s ->
  (forall st', RV st' (set_rat r (frac (if neg : bool then - N else N) (radix ^ Z.of_nat prec)) V) X -> Q (MP_OK, Some []) st') ->
  wp (mp_rat_read_cdecimal r radix s) Q st.
Proof.
  intros HV Nd HL Hr Hl HN (i & f & Hi & Hf & Es) HQ. set (P := radix ^ Z.of_nat prec) in *. assert (0 < P) as HP by (apply Z.pow_pos_nonneg; lia).
  destruct Hi as (ids & I1 & I2 & I3 & _ & Ei). assert (0 <= N / P) as HT by (apply Z.div_pos; lia). destruct (Z.ltb_spec (N / P) 0); [lia|]. cbn [app] in Ei.
  destruct (fixed_digits _ _ _ _ Hr Hf) as (fds & F1 & F2 & F3).
  set (sg := if neg && negb (N =? 0) then [45] else []) in *. assert (sg = [] \/ sg = [43] \/ sg = [45]) as Hsg by (unfold sg; destruct (_ && _); tauto).
  assert ((if decide (sg = [45]) then -1 else 1) * N = if neg then - N else N) as HSG.
  { unfold sg. destruct neg; cbn [andb]; [|rewrite decide_False by done; lia]. destruct (Z.eqb_spec N 0) as [->|]; cbn [negb]; [rewrite decide_False by done; lia|rewrite decide_True by done; lia]. }
  pose proof (map_digits radix ids Hr I1) as HI. rewrite <- Ei in HI.
  destruct (Nat.eqb_spec prec 0) as [->|Np].
  - eapply (wpV_rat_read_nopoint st V X r radix s (if neg then - N else N) []); [done|done|done|done|done| |done|].
    + rewrite Es, app_nil_r. exists [], sg, i, ids. split; [split; [by rewrite app_nil_r|]; split; [constructor|]; split; [done|]; split; [exact HI|]; split; [done|]|].
      * intros _ c Hc. eapply digit_head; [exact HI|by rewrite Ei; destruct ids|exact Hc].
      * rewrite <- HSG. rewrite I2, Z.abs_eq by done. change P with 1. rewrite Z.div_1_r. destruct (decide _); lia.
    + intros st' HV'. apply HQ. rewrite (set_rat_eq _ _ (inject_Z (if neg then - N else N))); [done|]. unfold frac. change P with 1. unfold Qdiv. change (/ inject_Z 1)%Q with 1%Q. apply Qmult_1_r.
  - eapply (wpV_rat_read_point st V X r radix s _ []); [done|done|done|done|done| |exact HQ].
    exists [], sg, i, ids, f, fds. split_and!; [by rewrite app_nil_r, Es|constructor|done|exact HI|exact F1|done| |].
    + intros c Hc. rewrite app_nil_r in Hc. rewrite <- (app_nil_r f) in Hc. eapply digit_head; [exact F1| |exact Hc]. intros ->. by inversion F1; subst fds.
    + rewrite horner_app, F2, F3, I2, Z.abs_eq by done. fold P. rewrite <- HSG. f_equal. f_equal. rewrite (Z.mul_comm (N / P)). apply Z.div_mod. lia.
Qed.
