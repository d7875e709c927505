(** Properties of greatest common divisors, least common multiples, modular
    inverses and integer roots (C10-C13, C15).  See [Spec] for the vocabulary. *)
From Coq Require Import ZArith List Lia.
From stdpp Require Import gmap list.
From Verif Require Import Mem Prog Kern Imath Exec Spec Public Concrete Gcd Root.
Local Open Scope Z_scope.

(** ** C10 GCD *)
Theorem C10_gcd st V W a b c va vb :
  Rep st V W -> V !! a = Some va -> V !! b = Some vb -> is_Some (V !! c) -> va <> 0 \/ vb <> 0 ->
  calls (mp_int_gcd a b c) st (fun r st' => r = MP_OK /\ exists g,
    0 < g /\ (g | va) /\ (g | vb) /\ (forall d, (d | va) -> (d | vb) -> (d | g)) /\ Rep st' (<[c := g]> V) W).
Proof.
  intros H Ha Hb [vc Hc] Hn. eapply by_rule; [done|]. intros st1 HV. eapply wpV_gcd; [done..|lia|]. intros _ st' H'. split; [done|]. exists (Z.gcd va vb).
  split. { pose proof (Z.gcd_nonneg va vb). assert (Z.gcd va vb <> 0); [|lia]. intros E. apply Z.gcd_eq_0 in E. lia. }
  split; [apply Z.gcd_divide_l|]. split; [apply Z.gcd_divide_r|]. split; [intros; by apply Z.gcd_greatest|]. by apply RV_done.
Qed.
Example C10_gcd_ex : result (mp_int_gcd hA hE hA) hA exS = Some (MP_OK, Some 1) /\ result (mp_int_gcd hD hE hD) hD exS = Some (MP_OK, Some 3) /\
  result (mp_int_gcd hC hB hC) hC exS = Some (MP_OK, Some (- vB)).
Proof. by vm_compute. Qed.
Print Assumptions C10_gcd.
(** The same, with the standard library's [Z.gcd]. *)
Theorem C10_gcd_value st V W a b c va vb :
  Rep st V W -> V !! a = Some va -> V !! b = Some vb -> is_Some (V !! c) -> va <> 0 \/ vb <> 0 ->
  calls (mp_int_gcd a b c) st (fun r st' => r = MP_OK /\ Rep st' (<[c := Z.gcd va vb]> V) W).
Proof. intros H Ha Hb [vc Hc] Hn. eapply by_rule; [done|]. intros st1 HV. eapply wpV_gcd; [done..|lia|]. intros _ st' H'. split; [done|by apply RV_done]. Qed.
Print Assumptions C10_gcd_value.
Theorem C10_gcd_undefined st V W a b c :
  Rep st V W -> V !! a = Some 0 -> V !! b = Some 0 -> is_Some (V !! c) ->
  calls (mp_int_gcd a b c) st (fun r st' => r = MP_UNDEF /\ Rep st' V W).
Proof. intros H Ha Hb [vc Hc]. eapply by_rule; [done|]. intros st1 HV. eapply wpV_gcd; [done..| |lia]. intros _ _. split; [done|by apply RV_done]. Qed.
Example C10_gcd_undefined_ex : result (mp_int_gcd hC hC hA) hA exS = Some (MP_UNDEF, Some vA).
Proof. by vm_compute. Qed.
Print Assumptions C10_gcd_undefined.

(** ** C11 Extended GCD *)
(** Bezout's identity holds for positive operands; [x] or [y] may be NULL. *)
Theorem C11_egcd st V W a b c x y va vb :
  Rep st V W -> V !! a = Some va -> V !! b = Some vb -> is_Some (V !! c) -> live x V -> live y V -> x <> None \/ y <> None ->
  0 < va -> 0 < vb ->
  calls (mp_int_egcd a b c x y) st (fun r st' => r = MP_OK /\ exists s t,
    va * s + vb * t = Z.gcd va vb /\ Rep st' (<[c := Z.gcd va vb]> (assign y t (assign x s V))) W).
Proof.
  intros H Ha Hb [vc Hc] Lx Ly Hxy Pa Pb. eapply by_rule; [done|]. intros st1 HV. eapply wpV_egcd; [done..| |lia|lia|lia|lia|].
  { rewrite <- !not_eq_None_Some. done. }
  intros _ _ st' s t Bz H'. split; [done|]. exists s, t. split; [rewrite !Z.abs_eq in Bz by lia; lia|]. by apply RV_done.
Qed.
Example C11_egcd_ex : result (mp_int_egcd hA hE hC (Some hA) (Some hD)) hC exS = Some (MP_OK, Some 1) /\
  exists s t, result (mp_int_egcd hA hE hC (Some hA) (Some hD)) hA exS = Some (MP_OK, Some s) /\
    result (mp_int_egcd hA hE hC (Some hA) (Some hD)) hD exS = Some (MP_OK, Some t) /\ vA * s + 3 * t = 1.
Proof. split; [by vm_compute|]. exists 1, (-422550200076076467165567731010). split; [by vm_compute|]. split; by vm_compute. Qed.
Print Assumptions C11_egcd.
(** For any non-zero operands it holds of their absolute values. *)
Theorem C11_egcd_abs st V W a b c x y va vb :
  Rep st V W -> V !! a = Some va -> V !! b = Some vb -> is_Some (V !! c) -> live x V -> live y V -> x <> None \/ y <> None ->
  va <> 0 -> vb <> 0 ->
  calls (mp_int_egcd a b c x y) st (fun r st' => r = MP_OK /\ exists s t,
    Z.abs va * s + Z.abs vb * t = Z.gcd va vb /\ Rep st' (<[c := Z.gcd va vb]> (assign y t (assign x s V))) W).
Proof.
  intros H Ha Hb [vc Hc] Lx Ly Hxy Pa Pb. eapply by_rule; [done|]. intros st1 HV. eapply wpV_egcd; [done..| |lia|lia|lia|lia|].
  { rewrite <- !not_eq_None_Some. done. }
  intros _ _ st' s t Bz H'. split; [done|]. exists s, t. split; [lia|]. by apply RV_done.
Qed.
Example C11_egcd_abs_ex : result (mp_int_egcd hD hB hC None (Some hA)) hC exS = Some (MP_OK, Some 1).
Proof. by vm_compute. Qed.
Print Assumptions C11_egcd_abs.
(** With one operand zero, both coefficients must be asked for. *)
Theorem C11_egcd_zero st V W a b c x y va vb :
  Rep st V W -> V !! a = Some va -> V !! b = Some vb -> is_Some (V !! c) -> is_Some (V !! x) -> is_Some (V !! y) -> c <> x -> c <> y -> x <> y ->
  (va = 0 /\ vb <> 0) \/ (va <> 0 /\ vb = 0) ->
  calls (mp_int_egcd a b c (Some x) (Some y)) st (fun r st' => r = MP_OK /\ exists s t,
    Z.abs va * s + Z.abs vb * t = Z.gcd va vb /\ Rep st' (<[y := t]> (<[x := s]> (<[c := Z.gcd va vb]> V))) W).
Proof.
  intros H Ha Hb [vc Hc] Lx Ly N1 N2 N3 Hz. eapply by_rule; [done|]. intros st1 HV. eapply (wpV_egcd st1 V (ctx_of W) a b c (Some x) (Some y)); [done..|left; by eexists|split; by eexists|lia| | |lia].
  - intros -> Hb0 st' H'. split; [done|]. exists 0, 1. change (Z.gcd 0 vb) with (Z.abs vb). split; [lia|]. by apply RV_done.
  - intros Ha0 -> st' H'. split; [done|]. exists 1, 0. rewrite Z.gcd_0_r. split; [lia|]. by apply RV_done.
Qed.
Example C11_egcd_zero_ex : result (mp_int_egcd hC hB hA (Some hC) (Some hD)) hA exS = Some (MP_OK, Some (- vB)).
Proof. by vm_compute. Qed.
Print Assumptions C11_egcd_zero.
Theorem C11_egcd_undefined st V W a b c x y :
  Rep st V W -> V !! a = Some 0 -> V !! b = Some 0 -> is_Some (V !! c) -> is_Some (V !! x) -> is_Some (V !! y) ->
  calls (mp_int_egcd a b c (Some x) (Some y)) st (fun r st' => r = MP_UNDEF /\ Rep st' V W).
Proof.
  intros H Ha Hb [vc Hc] Lx Ly. eapply by_rule; [done|]. intros st1 HV. eapply (wpV_egcd st1 V (ctx_of W) a b c (Some x) (Some y)); [done..|left; by eexists|split; by eexists| |lia|lia|lia].
  intros _ _. split; [done|]. by apply RV_done.
Qed.
Print Assumptions C11_egcd_undefined.
(** The identity fails for negative operands. *)
Theorem C11_egcd_negative_refuted : exists st V W a b c x y va vb s t g,
  Rep st V W /\ V !! a = Some va /\ V !! b = Some vb /\ is_Some (V !! c) /\ is_Some (V !! x) /\ is_Some (V !! y) /\ c <> x /\ c <> y /\ x <> y /\
  result (mp_int_egcd a b c (Some x) (Some y)) c st = Some (MP_OK, Some g) /\
  result (mp_int_egcd a b c (Some x) (Some y)) x st = Some (MP_OK, Some s) /\
  result (mp_int_egcd a b c (Some x) (Some y)) y st = Some (MP_OK, Some t) /\ va * s + vb * t <> g.
Proof.
  exists (put (H 9) 5 exS), (<[H 9 := 5]> exV), world0, hD, (H 9), hA, hB, hC, vD, 5, (-2), 5, 1.
  split; [apply Rep_put; [apply ex_rep|reflexivity|by vm_compute]|]. do 2 (split; [done|]). do 3 (split; [by eexists|]). do 3 (split; [done|]).
  do 3 (split; [by vm_compute|]). by vm_compute.
Qed.
Print Assumptions C11_egcd_negative_refuted.
(** "x or y may be NULL" is false when an operand is zero: an assertion fails. *)
Theorem C11_egcd_null_refuted : exists st V W a b c x,
  Rep st V W /\ V !! a = Some 0 /\ is_Some (V !! b) /\ is_Some (V !! c) /\ is_Some (V !! x) /\ a <> b /\ exec (mp_int_egcd a b c (Some x) None) st = AssertFail.
Proof. exists exS, exV, world0, hC, hE, hA, hB. split; [apply ex_rep|]. split; [done|]. do 3 (split; [by eexists|]). split; [done|]. by vm_compute. Qed.
Print Assumptions C11_egcd_null_refuted.

(** ** C12 LCM *)
Theorem C12_lcm st V W a b c va vb :
  Rep st V W -> V !! a = Some va -> V !! b = Some vb -> is_Some (V !! c) -> va <> 0 \/ vb <> 0 -> 0 <= va * vb ->
  calls (mp_int_lcm a b c) st (fun r st' => r = MP_OK /\ Rep st' (<[c := Z.lcm va vb]> V) W).
Proof.
  intros H Ha Hb [vc Hc] Hn Hs. eapply by_rule; [done|]. intros st1 HV. eapply wpV_lcm; [done..|lia|]. intros _ st' H'. split; [done|]. apply RV_done.
  replace (Z.lcm va vb) with (va / Z.gcd va vb * vb); [done|]. unfold Z.lcm.
  destruct (Z.gcd_divide_l va vb) as [q1 E1]. destruct (Z.gcd_divide_r va vb) as [q2 E2]. set (g := Z.gcd va vb) in *.
  assert (0 < g) as Pg. { pose proof (Z.gcd_nonneg va vb). assert (g <> 0); [|unfold g in *; lia]. intros E. apply Z.gcd_eq_0 in E. lia. }
  rewrite E1, E2. rewrite !Z.div_mul by lia. rewrite E1, E2 in Hs. assert (0 <= q1 * q2) by nia. rewrite Z.abs_eq by nia. nia.
Qed.
Example C12_lcm_ex : result (mp_int_lcm hB hD hB) hB exS = Some (MP_OK, Some (Z.lcm vB vD)).
Proof. by vm_compute. Qed.
Print Assumptions C12_lcm.
(** In general, the least common multiple up to the sign of the product. *)
Theorem C12_lcm_abs st V W a b c va vb :
  Rep st V W -> V !! a = Some va -> V !! b = Some vb -> is_Some (V !! c) -> va <> 0 \/ vb <> 0 ->
  calls (mp_int_lcm a b c) st (fun r st' => r = MP_OK /\ Rep st' (<[c := Z.sgn va * Z.sgn vb * Z.lcm va vb]> V) W).
Proof.
  intros H Ha Hb [vc Hc] Hn. eapply by_rule; [done|]. intros st1 HV. eapply wpV_lcm; [done..|lia|]. intros _ st' H'. split; [done|]. apply RV_done.
  replace (Z.sgn va * Z.sgn vb * Z.lcm va vb) with (va / Z.gcd va vb * vb); [done|]. unfold Z.lcm.
  destruct (Z.gcd_divide_l va vb) as [q1 E1]. destruct (Z.gcd_divide_r va vb) as [q2 E2]. set (g := Z.gcd va vb) in *.
  assert (0 < g) as Pg. { pose proof (Z.gcd_nonneg va vb). assert (g <> 0); [|unfold g in *; lia]. intros E. apply Z.gcd_eq_0 in E. lia. }
  rewrite E1, E2. rewrite !Z.div_mul by lia. rewrite !Z.sgn_mul, (Z.sgn_pos g), !Z.mul_1_r, !Z.abs_mul, (Z.abs_eq g) by lia.
  transitivity ((Z.abs q1 * Z.sgn q1) * (Z.abs q2 * Z.sgn q2) * g); [by rewrite !Z.abs_sgn, Z.mul_assoc|ring].
Qed.
Print Assumptions C12_lcm_abs.
Theorem C12_lcm_undefined st V W a b c :
  Rep st V W -> V !! a = Some 0 -> V !! b = Some 0 -> is_Some (V !! c) ->
  calls (mp_int_lcm a b c) st (fun r st' => r = MP_UNDEF /\ Rep st' V W).
Proof. intros H Ha Hb [vc Hc]. eapply by_rule; [done|]. intros st1 HV. eapply wpV_lcm; [done..| |lia]. intros _ _ st' H'. split; [done|by apply RV_done]. Qed.
Print Assumptions C12_lcm_undefined.
(** A least common multiple is not negative, but the result may be. *)
Theorem C12_lcm_negative_refuted : exists st V W a b c x,
  Rep st V W /\ is_Some (V !! a) /\ is_Some (V !! b) /\ is_Some (V !! c) /\ result (mp_int_lcm a b c) c st = Some (MP_OK, Some x) /\ x < 0.
Proof. exists exS, exV, world0, hD, hE, hA, (-12). split; [apply ex_rep|]. do 3 (split; [by eexists|]). by vm_compute. Qed.
Print Assumptions C12_lcm_negative_refuted.

(** ** C13 Modular inverse *)
Theorem C13_invmod st V W a m c va vm :
  Rep st V W -> V !! a = Some va -> V !! m = Some vm -> is_Some (V !! c) -> va <> 0 -> 0 < vm -> Z.gcd va vm = 1 -> (0 < va \/ 1 < vm) ->
  calls (mp_int_invmod a m c) st (fun r st' => r = MP_OK /\ exists x,
    0 <= x < vm /\ (va * x) mod vm = 1 mod vm /\ Rep st' (<[c := x]> V) W).
Proof.
  intros H Ha Hm [vc Hc] Na Pm Hg Hs. eapply by_rule; [done|]. intros st1 HV. eapply wpV_invmod; [done..|lia|lia|].
  intros _ _ _ st' r Hr Hb Hlim H'. split; [done|]. exists r. split; [lia|]. split; [by rewrite Z.mul_comm|]. by apply RV_done.
Qed.
Example C13_invmod_ex : result (mp_int_invmod hB hE hB) hB exS = Some (MP_OK, Some 1) /\ (vB * 1) mod 3 = 1.
Proof. by vm_compute. Qed.
Print Assumptions C13_invmod.
(** Any inverse is that one. *)
Theorem C13_invmod_unique va vm x y : 0 < vm -> 0 <= x < vm -> 0 <= y < vm -> (va * x) mod vm = 1 mod vm -> (va * y) mod vm = 1 mod vm -> x = y.
Proof.
  intros Hm Hx Hy Ex Ey. rewrite <- (Z.mod_small x vm), <- (Z.mod_small y vm) by done.
  transitivity ((x * (va * y)) mod vm).
  - rewrite <- Z.mul_mod_idemp_r, Ey, Z.mul_mod_idemp_r by lia. f_equal. lia.
  - replace (x * (va * y)) with (y * (va * x)) by ring. rewrite <- Z.mul_mod_idemp_r, Ex, Z.mul_mod_idemp_r by lia. f_equal. lia.
Qed.
Print Assumptions C13_invmod_unique.
Theorem C13_invmod_undefined st V W a m c va vm :
  Rep st V W -> V !! a = Some va -> V !! m = Some vm -> is_Some (V !! c) -> va <> 0 -> 0 < vm -> (forall x, (va * x) mod vm <> 1 mod vm) ->
  calls (mp_int_invmod a m c) st (fun r st' => r = MP_UNDEF /\ Rep st' V W).
Proof.
  intros H Ha Hm [vc Hc] Na Pm Hno. eapply by_rule; [done|]. intros st1 HV. eapply wpV_invmod; [done..|lia| |].
  - intros _ _ _ st' H'. split; [done|by apply RV_done].
  - intros _ _ Hg st' r Hr. exfalso. apply (Hno r). by rewrite Z.mul_comm.
Qed.
Example C13_invmod_undefined_ex : result (mp_int_invmod hD hE hB) hB exS = Some (MP_UNDEF, Some vB).
Proof. by vm_compute. Qed.
Print Assumptions C13_invmod_undefined.
Theorem C13_invmod_range st V W a m c va vm :
  Rep st V W -> V !! a = Some va -> V !! m = Some vm -> is_Some (V !! c) -> va = 0 \/ vm <= 0 ->
  calls (mp_int_invmod a m c) st (fun r st' => r = MP_RANGE /\ Rep st' V W).
Proof. intros H Ha Hm [vc Hc] Hz. eapply by_rule; [done|]. intros st1 HV. eapply wpV_invmod; [done..| |lia|lia]. intros _. split; [done|by apply RV_done]. Qed.
Example C13_invmod_range_ex : result (mp_int_invmod hA hD hB) hB exS = Some (MP_RANGE, Some vB).
Proof. by vm_compute. Qed.
Print Assumptions C13_invmod_range.
(** For a < 0 and m = 1 the result is 1, which is not a residue mod 1. *)
Theorem C13_invmod_one_refuted : exists st V W a m c va vm x,
  Rep st V W /\ V !! a = Some va /\ V !! m = Some vm /\ is_Some (V !! c) /\ 0 < vm /\
  result (mp_int_invmod a m c) c st = Some (MP_OK, Some x) /\ ~ (0 <= x < vm).
Proof.
  exists (put (H 9) 1 exS), (<[H 9 := 1]> exV), world0, hD, (H 9), hC, vD, 1, 1.
  split; [apply Rep_put; [apply ex_rep|reflexivity|by vm_compute]|]. do 2 (split; [done|]). split; [by eexists|]. split; [done|]. split; [by vm_compute|lia].
Qed.
Print Assumptions C13_invmod_one_refuted.

(** ** C15 Integer roots *)
Theorem C15_root st V W a b c va :
  Rep st V W -> V !! a = Some va -> is_Some (V !! c) -> 1 <= b < 2 ^ 32 -> (0 <= va \/ Z.odd b = true) ->
  calls (mp_int_root a b c) st (fun r st' => r = MP_OK /\ exists x,
    0 <= x /\ x ^ b <= Z.abs va < (x + 1) ^ b /\ Rep st' (<[c := Z.sgn va * x]> V) W).
Proof.
  intros H Ha [vc Hc] Hb Hs. eapply by_rule; [done|]. intros st1 HV. eapply wpV_root; [done..| |].
  - intros Hn He. rewrite <- Z.negb_even, He in Hs. destruct Hs; [lia|done].
  - intros _ st' r Hr Hx H'. split; [done|]. exists r. split; [done|]. split; [done|]. by apply RV_done.
Qed.
Example C15_root_ex : result (mp_int_root hB 3 hB) hB exS = Some (MP_OK, Some (-2642245)) /\ 2642245 ^ 3 <= - vB < 2642246 ^ 3.
Proof. by vm_compute. Qed.
Print Assumptions C15_root.
Theorem C15_sqrt st V W a c va :
  Rep st V W -> V !! a = Some va -> is_Some (V !! c) -> 0 <= va ->
  calls (mp_int_sqrt a c) st (fun r st' => r = MP_OK /\ Rep st' (<[c := Z.sqrt va]> V) W).
Proof.
  intros H Ha [vc Hc] Hs. eapply by_rule; [done|]. intros st1 HV. eapply wpV_root; [done..|lia|lia|].
  intros _ st' r Hr Hx H'. split; [done|]. assert (Z.sqrt va = Z.sgn va * r) as ->; [|by apply RV_done].
  rewrite Z.abs_eq in Hx by done. replace (Z.sgn va * r) with r. { apply Z.sqrt_unique. rewrite !Z.pow_2_r in Hx. lia. }
  destruct (Z.eq_dec va 0) as [->|]; [nia|]. rewrite Z.sgn_pos by lia. lia.
Qed.
Example C15_sqrt_ex : result (mp_int_sqrt hA hC) hC exS = Some (MP_OK, Some (Z.sqrt vA)).
Proof. by vm_compute. Qed.
Print Assumptions C15_sqrt.
Theorem C15_root_undefined st V W a b c va :
  Rep st V W -> V !! a = Some va -> is_Some (V !! c) -> 1 <= b < 2 ^ 32 -> va < 0 -> Z.even b = true ->
  calls (mp_int_root a b c) st (fun r st' => r = MP_UNDEF /\ Rep st' V W).
Proof.
  intros H Ha [vc Hc] Hb Hs He. eapply by_rule; [done|]. intros st1 HV. eapply wpV_root; [done..| |].
  - intros _ _. split; [done|by apply RV_done].
  - intros Ho. rewrite <- Z.negb_even, He in Ho. destruct Ho; [lia|done].
Qed.
Example C15_root_undefined_ex : result (mp_int_root hB 2 hC) hC exS = Some (MP_UNDEF, Some 0).
Proof. by vm_compute. Qed.
Print Assumptions C15_root_undefined.
(** The degree is an [mp_small] cut to 32 bits inside: roots of degree 2^32 are wrong. *)
Theorem C15_root_big_refuted : exists st V W a b c va x,
  Rep st V W /\ V !! a = Some va /\ is_Some (V !! c) /\ 1 <= b < 2 ^ 63 /\ 0 <= va /\
  result (mp_int_root a b c) c st = Some (MP_OK, Some x) /\ va < x ^ b.
Proof.
  exists exS, exV, world0, hE, (2 ^ 32), hC, 3, 3. split; [apply ex_rep|]. split; [done|]. split; [by eexists|]. split; [done|]. split; [done|]. split; [by vm_compute|].
  assert (forall k, 1 < k -> 3 < 3 ^ k) as G; [|by apply G].
  intros k Hk. rewrite <- (Z.pow_1_r 3) at 1. apply Z.pow_lt_mono_r; lia.
Qed.
Print Assumptions C15_root_big_refuted.
