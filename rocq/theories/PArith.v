(** Properties of integer arithmetic (C01-C09, C16, C30-C32).

    Each theorem is about any machine state [st] that represents a store [V] of
    integers; the handles may coincide wherever the statement does not say
    otherwise.  See [Spec] for [Rep], [calls], [assign] and [live]. *)
From Coq Require Import ZArith List Lia.
From stdpp Require Import gmap list.
From Verif Require Import Mem Prog Kern Imath Exec Spec Public Concrete.
Local Open Scope Z_scope.

Local Ltac pub rule :=
  intros; repeat match goal with H : is_Some _ |- _ => destruct H as [? ?] end;
  (eapply by_rule; [eassumption|]); intros; (eapply rule; [eassumption..|]); intros; split; [done|]; by apply RV_done.

(** ** C01 Addition is exact *)
Theorem C01_add st V W a b c va vb :
  Rep st V W -> V !! a = Some va -> V !! b = Some vb -> is_Some (V !! c) ->
  calls (mp_int_add a b c) st (fun r st' => r = MP_OK /\ Rep st' (<[c := va + vb]> V) W).
Proof. pub wpV_add. Qed.
Example C01_add_ex : result (mp_int_add hA hB hB) hB exS = Some (MP_OK, Some (vA + vB)).
Proof. by vm_compute. Qed.
Print Assumptions C01_add.

Theorem C01_add_value st V W a v c va :
  Rep st V W -> V !! a = Some va -> is_Some (V !! c) -> - 2 ^ 63 < v < 2 ^ 63 ->
  calls (mp_int_add_value a v c) st (fun r st' => r = MP_OK /\ Rep st' (<[c := va + v]> V) W).
Proof. intros H Ha [vc Hc] Hv. eapply by_rule; [done|]. intros st1 H1. eapply wpV_add_value; [done..|]. intros st' H'. split; [done|by apply RV_done]. Qed.
Example C01_add_value_ex : result (mp_int_add_value hA (- 2 ^ 63 + 1) hC) hC exS = Some (MP_OK, Some (vA - 2 ^ 63 + 1)).
Proof. by vm_compute. Qed.
Print Assumptions C01_add_value.
(** ... but not for the smallest operand: its negation overflows. *)
Theorem C01_add_value_min_refuted : exists st V W a c,
  Rep st V W /\ is_Some (V !! a) /\ is_Some (V !! c) /\ exec (mp_int_add_value a (- 2 ^ 63) c) st = UB.
Proof. exists exS, exV, world0, hA, hC. split; [apply ex_rep|]. split; [by eexists|]. split; [by eexists|]. by vm_compute. Qed.
Print Assumptions C01_add_value_min_refuted.

(** ** C02 Subtraction is exact *)
Theorem C02_sub st V W a b c va vb :
  Rep st V W -> V !! a = Some va -> V !! b = Some vb -> is_Some (V !! c) ->
  calls (mp_int_sub a b c) st (fun r st' => r = MP_OK /\ Rep st' (<[c := va - vb]> V) W).
Proof. pub wpV_sub. Qed.
Example C02_sub_ex : result (mp_int_sub hB hA hB) hB exS = Some (MP_OK, Some (vB - vA)).
Proof. by vm_compute. Qed.
Print Assumptions C02_sub.

Theorem C02_sub_value st V W a v c va :
  Rep st V W -> V !! a = Some va -> is_Some (V !! c) -> - 2 ^ 63 < v < 2 ^ 63 ->
  calls (mp_int_sub_value a v c) st (fun r st' => r = MP_OK /\ Rep st' (<[c := va - v]> V) W).
Proof. intros H Ha [vc Hc] Hv. eapply by_rule; [done|]. intros st1 H1. eapply wpV_sub_value; [done..|]. intros st' H'. split; [done|by apply RV_done]. Qed.
Example C02_sub_value_ex : result (mp_int_sub_value hB 9 hE) hE exS = Some (MP_OK, Some (vB - 9)).
Proof. by vm_compute. Qed.
Print Assumptions C02_sub_value.

(** ** C03 Multiplication is exact at every size, for every threshold *)
Theorem C03_mul st V W a b c va vb :
  Rep st V W -> V !! a = Some va -> V !! b = Some vb -> is_Some (V !! c) ->
  calls (mp_int_mul a b c) st (fun r st' => r = MP_OK /\ Rep st' (<[c := va * vb]> V) W).
Proof. pub wpV_mul. Qed.
Example C03_mul_ex : result (mp_int_mul hA hB hA) hA exS = Some (MP_OK, Some (vA * vB)).
Proof. by vm_compute. Qed.
Print Assumptions C03_mul.

Theorem C03_mul_value st V W a v c va :
  Rep st V W -> V !! a = Some va -> is_Some (V !! c) -> - 2 ^ 63 < v < 2 ^ 63 ->
  calls (mp_int_mul_value a v c) st (fun r st' => r = MP_OK /\ Rep st' (<[c := va * v]> V) W).
Proof. intros H Ha [vc Hc] Hv. eapply by_rule; [done|]. intros st1 H1. eapply wpV_mul_value; [done..|]. intros st' H'. split; [done|by apply RV_done]. Qed.
Example C03_mul_value_ex : result (mp_int_mul_value hB (-77) hC) hC exS = Some (MP_OK, Some (vB * -77)).
Proof. by vm_compute. Qed.
Print Assumptions C03_mul_value.

(** ** C04 Squaring is exact at every size, for every threshold *)
Theorem C04_sqr st V W a c va :
  Rep st V W -> V !! a = Some va -> is_Some (V !! c) ->
  calls (mp_int_sqr a c) st (fun r st' => r = MP_OK /\ Rep st' (<[c := va * va]> V) W).
Proof. pub wpV_sqr. Qed.
Example C04_sqr_ex : result (mp_int_sqr hB hB) hB exS = Some (MP_OK, Some (vB * vB)).
Proof. by vm_compute. Qed.
Print Assumptions C04_sqr.

(** ** C05 Division: truncated quotient and remainder ([Z.quot] and [Z.rem]) *)
Theorem C05_div st V W a b q r va vb :
  Rep st V W -> V !! a = Some va -> V !! b = Some vb -> vb <> 0 -> live q V -> live r V -> q <> r ->
  calls (mp_int_div a b q r) st (fun res st' =>
    res = MP_OK /\ Rep st' (assign r (Z.rem va vb) (assign q (Z.quot va vb) V)) W).
Proof. intros H Ha Hb N Lq Lr Nqr. eapply by_rule; [done|]. intros st1 H1. eapply wpV_div; [done..| |]; [done|]. intros _ st' H'. split; [done|by apply RV_done]. Qed.
Example C05_div_ex : result (mp_int_div hA hB (Some hB) (Some hA)) hA exS = Some (MP_OK, Some (Z.rem vA vB)) /\
                     result (mp_int_div hA hB (Some hB) (Some hA)) hB exS = Some (MP_OK, Some (Z.quot vA vB)).
Proof. by vm_compute. Qed.
Print Assumptions C05_div.

Theorem C05_div_by_zero st V W a b q r :
  Rep st V W -> is_Some (V !! a) -> V !! b = Some 0 -> live q V -> live r V -> q <> r ->
  calls (mp_int_div a b q r) st (fun res st' => res = MP_UNDEF /\ st' = st).
Proof. intros H [va Ha] Hb Lq Lr Nqr. apply wp_calls. apply Rep_RV in H. by eapply wpV_div. Qed.
Example C05_div_by_zero_ex : result (mp_int_div hA hC (Some hB) None) hB exS = Some (MP_UNDEF, Some vB).
Proof. by vm_compute. Qed.
Print Assumptions C05_div_by_zero.

(** ** C06 Modulus: the least non-negative residue *)
Theorem C06_mod st V W a m c va vm :
  Rep st V W -> V !! a = Some va -> V !! m = Some vm -> 0 < vm -> is_Some (V !! c) ->
  calls (mp_int_mod a m c) st (fun r st' => r = MP_OK /\ Rep st' (<[c := va mod vm]> V) W).
Proof.
  intros H Ha Hm N [vc Hc]. eapply by_rule; [done|]. intros st1 H1. eapply wpV_mod; [done..|lia|]. intros _ st' H'.
  split; [done|]. rewrite Divi.mod_val_pos in H' by done. by apply RV_done.
Qed.
Example C06_mod_ex : result (mp_int_mod hB hE hB) hB exS = Some (MP_OK, Some (vB mod 3)).
Proof. by vm_compute. Qed.
Print Assumptions C06_mod.

Theorem C06_mod_zero st V W a m c :
  Rep st V W -> is_Some (V !! a) -> V !! m = Some 0 -> is_Some (V !! c) ->
  calls (mp_int_mod a m c) st (fun r st' => r = MP_UNDEF /\ Rep st' V W).
Proof. intros H [va Ha] Hm [vc Hc]. eapply by_rule; [done|]. intros st1 H1. eapply wpV_mod; [done..| |done]. intros _ st' H'. split; [done|by apply RV_done]. Qed.
Example C06_mod_zero_ex : result (mp_int_mod hA hC hB) hB exS = Some (MP_UNDEF, Some vB).
Proof. by vm_compute. Qed.
Print Assumptions C06_mod_zero.
(** For a negative modulus the "residue" need not even be smaller than the
    modulus in absolute value: -13 mod -12 comes out as -13. *)
Theorem C06_mod_negative_refuted : exists st V W a m c va vm x,
  Rep st V W /\ V !! a = Some va /\ V !! m = Some vm /\ vm < 0 /\ is_Some (V !! c) /\
  result (mp_int_mod a m c) c st = Some (MP_OK, Some x) /\ ~ (0 <= x < Z.abs vm) /\ Z.abs vm <= Z.abs x.
Proof.
  exists (put (H 9) (-13) exS), (<[H 9 := -13]> exV), world0, (H 9), hD, hC, (-13), vD, (-13).
  split; [apply Rep_put; [apply ex_rep|reflexivity|by vm_compute]|]. do 3 (split; [by vm_compute|]). split; [by eexists|]. split; [by vm_compute|]. change vD with (-12). lia.
Qed.
Print Assumptions C06_mod_negative_refuted.

(** ** C07 Power-of-two scaling *)
Theorem C07_mul_pow2 st V W a k c va :
  Rep st V W -> V !! a = Some va -> is_Some (V !! c) -> 0 <= k < 2 ^ 32 ->
  calls (mp_int_mul_pow2 a k c) st (fun r st' => r = MP_OK /\ Rep st' (<[c := va * 2 ^ k]> V) W).
Proof. intros H Ha [vc Hc] Hv. eapply by_rule; [done|]. intros st1 H1. eapply wpV_mul_pow2; [done..|]. intros st' H'. split; [done|by apply RV_done]. Qed.
Example C07_mul_pow2_ex : result (mp_int_mul_pow2 hB 45 hB) hB exS = Some (MP_OK, Some (vB * 2 ^ 45)).
Proof. by vm_compute. Qed.
Print Assumptions C07_mul_pow2.
(** The exponent is an [mp_small], but is cut to 32 bits without a word. *)
Theorem C07_mul_pow2_big_refuted : exists st V W a k c va,
  Rep st V W /\ V !! a = Some va /\ is_Some (V !! c) /\ 0 <= k < 2 ^ 63 /\ va <> 0 /\
  result (mp_int_mul_pow2 a k c) c st = Some (MP_OK, Some va) /\ va <> va * 2 ^ k.
Proof.
  exists exS, exV, world0, hE, (2 ^ 32), hC, 3. split; [apply ex_rep|]. split; [reflexivity|]. split; [by eexists|]. split; [lia|]. split; [lia|]. split; [by vm_compute|].
  assert (forall k, 0 < k -> 3 <> 3 * 2 ^ k) as G; [|by apply G].
  intros k Hk E. assert (2 ^ 1 <= 2 ^ k) by (apply Z.pow_le_mono_r; lia). change (2 ^ 1) with 2 in *. lia.
Qed.
Print Assumptions C07_mul_pow2_big_refuted.

Theorem C07_div_pow2 st V W a k q r va :
  Rep st V W -> V !! a = Some va -> live q V -> live r V -> q <> r -> 0 <= k < 2 ^ 32 ->
  (q = Some a -> r = None) -> (r <> None -> va < 0 -> Z.rem va (2 ^ k) <> 0) ->
  calls (mp_int_div_pow2 a k q r) st (fun res st' =>
    res = MP_OK /\ Rep st' (assign r (Z.rem va (2 ^ k)) (assign q (Z.quot va (2 ^ k)) V)) W).
Proof. intros H Ha Lq Lr Nqr Hk H1 H2. eapply by_rule; [done|]. intros st1 HV. eapply wpV_div_pow2; [done..|]. intros st' H'. split; [done|by apply RV_done]. Qed.
Example C07_div_pow2_ex : result (mp_int_div_pow2 hB 35 (Some hC) (Some hB)) hB exS = Some (MP_OK, Some (Z.rem vB (2 ^ 35))) /\
  result (mp_int_div_pow2 hB 35 (Some hC) (Some hB)) hC exS = Some (MP_OK, Some (Z.quot vB (2 ^ 35))).
Proof. by vm_compute. Qed.
Print Assumptions C07_div_pow2.
(** With [q] the same handle as [a], the remainder is taken from the quotient. *)
Theorem C07_div_pow2_alias_refuted : exists st V W a r va x,
  Rep st V W /\ V !! a = Some va /\ is_Some (V !! r) /\ a <> r /\
  result (mp_int_div_pow2 a 1 (Some a) (Some r)) r st = Some (MP_OK, Some x) /\ x <> Z.rem va (2 ^ 1).
Proof.
  exists (put (H 9) 6 exS), (<[H 9 := 6]> exV), world0, (H 9), hC, 6, 1.
  split; [apply Rep_put; [apply ex_rep|reflexivity|by vm_compute]|]. split; [done|]. split; [by eexists|]. split; [done|]. split; [by vm_compute|done].
Qed.
Print Assumptions C07_div_pow2_alias_refuted.
(** A negative multiple of 2^k leaves a negative zero as the remainder, which
    [mp_int_compare] then orders below zero. *)
Theorem C07_div_pow2_zero_refuted : exists st V W a r c va,
  Rep st V W /\ V !! a = Some va /\ is_Some (V !! r) /\ a <> r /\ V !! c = Some 0 /\ c <> r /\ Z.rem va (2 ^ 1) = 0 /\
  result (mp_int_div_pow2 a 1 None (Some r);; mp_int_compare r c)%prog r st = Some (-1, Some 0).
Proof.
  exists exS, exV, world0, hD, hE, hC, vD.
  split; [apply ex_rep|]. split; [done|]. split; [by eexists|]. do 4 (split; [done|]). by vm_compute.
Qed.
Print Assumptions C07_div_pow2_zero_refuted.

(** ** C08 Exponentiation is exact *)
Theorem C08_expt st V W a b c va :
  Rep st V W -> V !! a = Some va -> is_Some (V !! c) -> 0 <= b < 2 ^ 32 ->
  calls (mp_int_expt a b c) st (fun r st' => r = MP_OK /\ Rep st' (<[c := va ^ b]> V) W).
Proof.
  intros H Ha [vc Hc] Hb. eapply by_rule; [done|]. intros st1 HV. eapply wpV_expt; [done..|lia|]. intros _ st' H'. rewrite Z.mod_small in H' by done.
  split; [done|by apply RV_done].
Qed.
Example C08_expt_ex : result (mp_int_expt hB 5 hB) hB exS = Some (MP_OK, Some (vB ^ 5)) /\ result (mp_int_expt hC 0 hC) hC exS = Some (MP_OK, Some 1).
Proof. by vm_compute. Qed.
Print Assumptions C08_expt.
Theorem C08_expt_value st V W a b c :
  Rep st V W -> is_Some (V !! c) -> - 2 ^ 63 < a < 2 ^ 63 -> 0 <= b < 2 ^ 32 ->
  calls (mp_int_expt_value a b c) st (fun r st' => r = MP_OK /\ Rep st' (<[c := a ^ b]> V) W).
Proof.
  intros H [vc Hc] Ha Hb. eapply by_rule; [done|]. intros st1 HV. eapply wpV_expt_value; [done..|lia|]. intros _ st' H'. rewrite Z.mod_small in H' by done.
  split; [done|by apply RV_done].
Qed.
Example C08_expt_value_ex : result (mp_int_expt_value (-7) 33 hB) hB exS = Some (MP_OK, Some ((-7) ^ 33)).
Proof. by vm_compute. Qed.
Print Assumptions C08_expt_value.
Theorem C08_expt_full st V W a b c va vb :
  Rep st V W -> V !! a = Some va -> V !! b = Some vb -> 0 <= vb -> is_Some (V !! c) -> b <> c ->
  calls (mp_int_expt_full a b c) st (fun r st' => r = MP_OK /\ Rep st' (<[c := va ^ vb]> V) W).
Proof. intros H Ha Hb Hvb [vc Hc] N. eapply by_rule; [done|]. intros st1 HV. eapply wpV_expt_full; [done..|lia|]. intros _ st' H'. split; [done|by apply RV_done]. Qed.
Example C08_expt_full_ex : result (mp_int_expt_full hB hE hB) hB exS = Some (MP_OK, Some (vB ^ 3)).
Proof. by vm_compute. Qed.
Print Assumptions C08_expt_full.
Theorem C08_negative_exponent st V W a b (k : Z) c vb :
  Rep st V W -> is_Some (V !! a) -> V !! b = Some vb -> is_Some (V !! c) -> b <> c -> k < 0 -> vb < 0 ->
  calls (mp_int_expt a k c) st (fun r st' => r = MP_RANGE /\ st' = st) /\
  calls (mp_int_expt_full a b c) st (fun r st' => r = MP_RANGE /\ st' = st) /\
  (forall x, - 2 ^ 63 < x < 2 ^ 63 -> calls (mp_int_expt_value x k c) st (fun r st' => r = MP_RANGE /\ st' = st)).
Proof.
  intros H [va Ha] Hb [vc Hc] N Hk Hvb. apply Rep_RV in H. split; [|split].
  - apply wp_calls. eapply wpV_expt; [done..|]. lia.
  - apply wp_calls. eapply wpV_expt_full; [done..|]. lia.
  - intros x Hx. apply wp_calls. eapply wpV_expt_value; [done..|]. lia.
Qed.
Example C08_negative_exponent_ex : result (mp_int_expt hA (-1) hA) hA exS = Some (MP_RANGE, Some vA) /\ result (mp_int_expt_full hA hD hB) hB exS = Some (MP_RANGE, Some vB).
Proof. by vm_compute. Qed.
Print Assumptions C08_negative_exponent.
(** The exponent of [mp_int_expt] is cut to 32 bits: 3^(2^32) comes out as 1. *)
Theorem C08_expt_big_refuted : exists st V W a b c va,
  Rep st V W /\ V !! a = Some va /\ is_Some (V !! c) /\ 0 <= b < 2 ^ 63 /\ 1 < va /\ 0 < b /\
  result (mp_int_expt a b c) c st = Some (MP_OK, Some 1).
Proof. exists exS, exV, world0, hE, (2 ^ 32), hC, 3. split; [apply ex_rep|]. split; [done|]. split; [by eexists|]. do 3 (split; [done|]). by vm_compute. Qed.
Print Assumptions C08_expt_big_refuted.
(** [mp_int_expt_full(a,b,b)] reads the exponent while overwriting it. *)
Theorem C08_expt_full_alias_refuted : exists st V W a b va vb x,
  Rep st V W /\ V !! a = Some va /\ V !! b = Some vb /\ 0 <= vb /\ result (mp_int_expt_full a b b) b st = Some (MP_OK, Some x) /\ x <> va ^ vb.
Proof.
  exists exS, exV, world0, hD, hE, vD, 3. eexists. split; [apply ex_rep|]. split; [done|]. split; [done|]. split; [done|]. split; [by vm_compute|]. by vm_compute.
Qed.
Print Assumptions C08_expt_full_alias_refuted.

(** ** C09 Comparison is the order of the integers *)
Theorem C09_compare st V W a b va vb :
  Rep st V W -> V !! a = Some va -> V !! b = Some vb ->
  calls (mp_int_compare a b) st (fun r st' => ordered r va vb /\ st' = st).
Proof. intros H Ha Hb. apply wp_calls. apply Rep_RV in H. eapply wpV_compare; [done..|]. split; [apply ordered_sgn|done]. Qed.
Example C09_compare_ex : result (mp_int_compare hB hD) hB exS = Some (-1, Some vB).
Proof. by vm_compute. Qed.
Print Assumptions C09_compare.
Theorem C09_compare_unsigned st V W a b va vb :
  Rep st V W -> V !! a = Some va -> V !! b = Some vb ->
  calls (mp_int_compare_unsigned a b) st (fun r st' => ordered r (Z.abs va) (Z.abs vb) /\ st' = st).
Proof. intros H Ha Hb. apply wp_calls. apply Rep_RV in H. eapply wpV_compare_unsigned; [done..|]. split; [apply ordered_sgn|done]. Qed.
Example C09_compare_unsigned_ex : result (mp_int_compare_unsigned hB hD) hB exS = Some (1, Some vB).
Proof. by vm_compute. Qed.
Print Assumptions C09_compare_unsigned.
Theorem C09_compare_zero st V W a va :
  Rep st V W -> V !! a = Some va ->
  calls (mp_int_compare_zero a) st (fun r st' => ordered r va 0 /\ st' = st).
Proof. intros H Ha. apply wp_calls. apply Rep_RV in H. eapply wpV_compare_zero; [done..|]. split; [|done]. pose proof (ordered_sgn va 0) as E. by rewrite Z.sub_0_r in E. Qed.
Example C09_compare_zero_ex : result (mp_int_compare_zero hB) hB exS = Some (-1, Some vB).
Proof. by vm_compute. Qed.
Print Assumptions C09_compare_zero.
Theorem C09_compare_value st V W a va v :
  Rep st V W -> V !! a = Some va -> - 2 ^ 63 <= v < 2 ^ 63 ->
  calls (mp_int_compare_value a v) st (fun r st' => ordered r va v /\ Rep st' V W).
Proof. intros H Ha Hv. eapply by_rule; [done|]. intros st1 HV. eapply wpV_compare_value; [done..|]. intros st' H'. split; [apply ordered_sgn|by apply RV_done]. Qed.
Example C09_compare_value_ex : result (mp_int_compare_value hD (- 2 ^ 63)) hD exS = Some (1, Some vD).
Proof. by vm_compute. Qed.
Print Assumptions C09_compare_value.
Theorem C09_compare_uvalue st V W a va v :
  Rep st V W -> V !! a = Some va -> 0 <= v < 2 ^ 64 ->
  calls (mp_int_compare_uvalue a v) st (fun r st' => ordered r va v /\ Rep st' V W).
Proof. intros H Ha Hv. eapply by_rule; [done|]. intros st1 HV. eapply wpV_compare_uvalue; [done..|]. intros st' H'. split; [apply ordered_sgn|by apply RV_done]. Qed.
Example C09_compare_uvalue_ex : result (mp_int_compare_uvalue hA (2 ^ 64 - 1)) hA exS = Some (1, Some vA).
Proof. by vm_compute. Qed.
Print Assumptions C09_compare_uvalue.

(** ** C16 Small integer conversions *)
Theorem C16_set_value st V W c v :
  Rep st V W -> is_Some (V !! c) -> - 2 ^ 63 < v < 2 ^ 63 ->
  calls (mp_int_set_value c v) st (fun r st' => r = MP_OK /\ Rep st' (<[c := v]> V) W).
Proof. intros H [vc Hc] Hv. eapply by_rule; [done|]. intros st1 HV. eapply wpV_set_value; [done..|]. intros st' H'. split; [done|by apply RV_done]. Qed.
Example C16_set_value_ex : result (mp_int_set_value hA (- 2 ^ 63 + 1)) hA exS = Some (MP_OK, Some (- 2 ^ 63 + 1)).
Proof. by vm_compute. Qed.
Print Assumptions C16_set_value.
Theorem C16_set_uvalue st V W c v :
  Rep st V W -> is_Some (V !! c) -> 0 <= v < 2 ^ 64 ->
  calls (mp_int_set_uvalue c v) st (fun r st' => r = MP_OK /\ Rep st' (<[c := v]> V) W).
Proof. intros H [vc Hc] Hv. eapply by_rule; [done|]. intros st1 HV. eapply wpV_set_uvalue; [done..|]. intros st' H'. split; [done|by apply RV_done]. Qed.
Example C16_set_uvalue_ex : result (mp_int_set_uvalue hA (2 ^ 64 - 1)) hA exS = Some (MP_OK, Some (2 ^ 64 - 1)).
Proof. by vm_compute. Qed.
Print Assumptions C16_set_uvalue.
Theorem C16_to_int st V W a va :
  Rep st V W -> V !! a = Some va -> va <> - 2 ^ 63 ->
  calls (mp_int_to_int a) st (fun r st' => Rep st' V W /\
    ((- 2 ^ 63 <= va < 2 ^ 63 /\ r = (MP_OK, Some va)) \/ (~ (- 2 ^ 63 <= va < 2 ^ 63) /\ r = (MP_RANGE, None)))).
Proof.
  intros H Ha Hv. eapply by_rule; [done|]. intros st1 HV. eapply wpV_to_int; [done..| |].
  - intros Hr st' H'. split; [by apply RV_done|]. left. split; [lia|done].
  - intros Hr st' H'. split; [by apply RV_done|]. right. split; [lia|done].
Qed.
Example C16_to_int_ex : result (mp_int_to_int hD) hD exS = Some ((MP_OK, Some vD), Some vD) /\ result (mp_int_to_int hB) hB exS = Some ((MP_RANGE, None), Some vB).
Proof. by vm_compute. Qed.
Print Assumptions C16_to_int.
Theorem C16_to_uint st V W a va :
  Rep st V W -> V !! a = Some va ->
  calls (mp_int_to_uint a) st (fun r st' => Rep st' V W /\
    ((0 <= va < 2 ^ 64 /\ r = (MP_OK, Some va)) \/ (~ (0 <= va < 2 ^ 64) /\ r = (MP_RANGE, None)))).
Proof.
  intros H Ha. eapply by_rule; [done|]. intros st1 HV. eapply wpV_to_uint; [done..| |].
  - intros Hr st' H'. split; [by apply RV_done|]. left. split; [lia|done].
  - intros Hr st' H'. split; [by apply RV_done|]. right. split; [lia|done].
Qed.
Example C16_to_uint_ex : result (mp_int_to_uint hE) hE exS = Some ((MP_OK, Some 3), Some 3) /\ result (mp_int_to_uint hD) hD exS = Some ((MP_RANGE, None), Some vD).
Proof. by vm_compute. Qed.
Print Assumptions C16_to_uint.
(** Storing and reading back the smallest [mp_small] is undefined both ways. *)
Theorem C16_min_refuted : exists st V W a,
  Rep st V W /\ V !! a = Some (- 2 ^ 63) /\ exec (mp_int_set_value a (- 2 ^ 63)) st = UB /\ exec (mp_int_to_int a) st = UB.
Proof.
  exists (put (H 9) (- 2 ^ 63) exS), (<[H 9 := - 2 ^ 63]> exV), world0, (H 9).
  split; [apply Rep_put; [apply ex_rep|reflexivity|by vm_compute]|]. split; [done|]. by vm_compute.
Qed.
Print Assumptions C16_min_refuted.

(** ** C30 Copy, negate, absolute value, zero, swap *)
Theorem C30_copy st V W a c va :
  Rep st V W -> V !! a = Some va -> is_Some (V !! c) ->
  calls (mp_int_copy a c) st (fun r st' => r = MP_OK /\ Rep st' (<[c := va]> V) W).
Proof. pub wpV_copy. Qed.
Example C30_copy_ex : result (mp_int_copy hB hC) hC exS = Some (MP_OK, Some vB).
Proof. by vm_compute. Qed.
Print Assumptions C30_copy.
Theorem C30_neg st V W a c va :
  Rep st V W -> V !! a = Some va -> is_Some (V !! c) ->
  calls (mp_int_neg a c) st (fun r st' => r = MP_OK /\ Rep st' (<[c := - va]> V) W).
Proof. pub wpV_neg. Qed.
Example C30_neg_ex : result (mp_int_neg hB hB) hB exS = Some (MP_OK, Some (- vB)) /\ result (mp_int_neg hC hB) hB exS = Some (MP_OK, Some 0).
Proof. by vm_compute. Qed.
Print Assumptions C30_neg.
Theorem C30_abs st V W a c va :
  Rep st V W -> V !! a = Some va -> is_Some (V !! c) ->
  calls (mp_int_abs a c) st (fun r st' => r = MP_OK /\ Rep st' (<[c := Z.abs va]> V) W).
Proof. pub wpV_abs. Qed.
Example C30_abs_ex : result (mp_int_abs hB hE) hE exS = Some (MP_OK, Some (- vB)).
Proof. by vm_compute. Qed.
Print Assumptions C30_abs.
Theorem C30_zero st V W a :
  Rep st V W -> is_Some (V !! a) ->
  calls (mp_int_zero a) st (fun _ st' => Rep st' (<[a := 0]> V) W).
Proof. intros H [va Ha]. eapply by_rule; [done|]. intros st1 HV. eapply wpV_zero; [done..|]. intros st' H'. by apply RV_done. Qed.
Example C30_zero_ex : result (mp_int_zero hB) hB exS = Some (tt, Some 0).
Proof. by vm_compute. Qed.
Print Assumptions C30_zero.
Theorem C30_swap st V W a c va vc :
  Rep st V W -> V !! a = Some va -> V !! c = Some vc ->
  calls (mp_int_swap a c) st (fun _ st' => Rep st' (<[c := va]> (<[a := vc]> V)) W).
Proof. intros H Ha Hc. eapply by_rule; [done|]. intros st1 HV. eapply wpV_swap; [done..|]. intros st' H'. by apply RV_done. Qed.
Example C30_swap_ex : result (mp_int_swap hB hE) hB exS = Some (tt, Some 3) /\ result (mp_int_swap hB hE) hE exS = Some (tt, Some vB).
Proof. by vm_compute. Qed.
Print Assumptions C30_swap.

(** ** C31 Bit predicates *)
Theorem C31_parity st V W a va :
  Rep st V W -> V !! a = Some va ->
  calls (mp_int_is_odd a) st (fun r st' => r = Z.odd va /\ st' = st) /\
  calls (mp_int_is_even a) st (fun r st' => r = Z.even va /\ st' = st).
Proof. intros H Ha. apply Rep_RV in H. split; apply wp_calls; [by eapply wpV_is_odd|by eapply wpV_is_even]. Qed.
Example C31_parity_ex : result (mp_int_is_odd hB) hB exS = Some (true, Some vB) /\ result (mp_int_is_even hC) hC exS = Some (true, Some 0).
Proof. by vm_compute. Qed.
Print Assumptions C31_parity.
Theorem C31_is_pow2 st V W a va :
  Rep st V W -> V !! a = Some va -> 0 < va ->
  calls (mp_int_is_pow2 a) st (fun r st' => st' = st /\ ((0 <= r /\ va = 2 ^ r) \/ (r = -1 /\ forall k, 0 <= k -> va <> 2 ^ k))).
Proof.
  intros H Ha Hp. apply Rep_RV in H. apply wp_calls. eapply wpV_is_pow2; [done|done|lia| |]; rewrite Z.abs_eq by lia.
  - intros j Hj E. split; [done|]. by left.
  - intros E. split; [done|]. right. done.
Qed.
Example C31_is_pow2_ex : result (mp_int_is_pow2 hA) hA exS = Some (-1, Some vA) /\
  result (mp_int_is_pow2 (H 9)) hC (put (H 9) (2 ^ 77) exS) = Some (77, Some 0).
Proof. by vm_compute. Qed.
Print Assumptions C31_is_pow2.
(** Zero is reported to be 2^0, and the sign is ignored. *)
Theorem C31_is_pow2_refuted : exists st V W a b,
  Rep st V W /\ V !! a = Some 0 /\ result (mp_int_is_pow2 a) a st = Some (0, Some 0) /\
  V !! b = Some (-4) /\ result (mp_int_is_pow2 b) b st = Some (2, Some (-4)).
Proof.
  exists (put (H 9) (-4) exS), (<[H 9 := -4]> exV), world0, hC, (H 9).
  split; [apply Rep_put; [apply ex_rep|reflexivity|by vm_compute]|]. split; [done|]. split; [by vm_compute|]. split; [done|by vm_compute].
Qed.
Print Assumptions C31_is_pow2_refuted.

(** ** C32 Division by small values *)
Theorem C32_div_value st V W a v q va :
  Rep st V W -> V !! a = Some va -> live q V -> - 2 ^ 63 < v < 2 ^ 63 -> v <> 0 ->
  calls (mp_int_div_value a v q) st (fun r st' => r = (MP_OK, Some (Z.rem va v)) /\ Rep st' (assign q (Z.quot va v) V) W).
Proof. intros H Ha Lq Hv N. eapply by_rule; [done|]. intros st1 HV. eapply wpV_div_value; [done..| |]; [done|]. intros _ st' H'. split; [done|by apply RV_done]. Qed.
Example C32_div_value_ex : result (mp_int_div_value hB 10 (Some hB)) hB exS = Some ((MP_OK, Some (Z.rem vB 10)), Some (Z.quot vB 10)).
Proof. by vm_compute. Qed.
Print Assumptions C32_div_value.
Theorem C32_div_value_zero st V W a q :
  Rep st V W -> is_Some (V !! a) -> live q V ->
  calls (mp_int_div_value a 0 q) st (fun r st' => r = (MP_UNDEF, None) /\ Rep st' V W).
Proof. intros H [va Ha] Lq. eapply by_rule; [done|]. intros st1 HV. eapply wpV_div_value; [done..| |done]. intros _ st' H'. split; [done|by apply RV_done]. Qed.
Example C32_div_value_zero_ex : result (mp_int_div_value hB 0 (Some hB)) hB exS = Some ((MP_UNDEF, None), Some vB).
Proof. by vm_compute. Qed.
Print Assumptions C32_div_value_zero.
Theorem C32_divisible_value st V W a v va :
  Rep st V W -> V !! a = Some va -> - 2 ^ 63 < v < 2 ^ 63 -> v <> 0 ->
  calls (mp_int_divisible_value a v) st (fun r st' => (r = true <-> (v | va)) /\ Rep st' V W).
Proof.
  intros H Ha Hv N. eapply by_rule; [done|]. intros st1 HV. eapply wpV_divisible_value; [done..|]. intros st' H'. split; [|by apply RV_done].
  destruct (Z.eqb_spec v 0); [done|]. rewrite Z.eqb_eq. by apply Z.rem_divide.
Qed.
Example C32_divisible_value_ex : result (mp_int_divisible_value hD (-4)) hD exS = Some (true, Some vD) /\ result (mp_int_divisible_value hD 5) hD exS = Some (false, Some vD).
Proof. by vm_compute. Qed.
Print Assumptions C32_divisible_value.
Theorem C32_mod_value st V W a v va :
  Rep st V W -> V !! a = Some va -> 0 < v < 2 ^ 63 -> 0 <= va ->
  calls (mp_int_mod_value a v) st (fun r st' => r = (MP_OK, Some (va mod v)) /\ Rep st' V W).
Proof.
  intros H Ha Hv N. eapply by_rule; [done|]. intros st1 HV. unfold mp_int_mod_value. eapply wpV_div_value; [done|done|done|lia|lia|]. intros _ st' H'.
  rewrite Z.rem_mod_nonneg by lia. split; [done|by apply RV_done].
Qed.
Example C32_mod_value_ex : result (mp_int_mod_value hA 97) hA exS = Some ((MP_OK, Some (vA mod 97)), Some vA).
Proof. by vm_compute. Qed.
Print Assumptions C32_mod_value.
(** The documentation pins the remainder to 0 <= r < value; for negative
    dividends it is not. *)
Theorem C32_mod_value_negative_refuted : exists st V W a v x,
  Rep st V W /\ is_Some (V !! a) /\ 0 < v < 2 ^ 63 /\ (match exec (mp_int_mod_value a v) st with Done r _ _ => r = (MP_OK, Some x) | _ => False end) /\ x < 0.
Proof. exists exS, exV, world0, hD, 7, (-5). split; [apply ex_rep|]. split; [by eexists|]. split; [done|]. by vm_compute. Qed.
Print Assumptions C32_mod_value_negative_refuted.
