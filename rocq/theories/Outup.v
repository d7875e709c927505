(** The estimate of [s_outlen] from above: it is at most one digit too large, and
    exact if the radix is a power of two. *)
From Coq Require Import ZArith List Lia.
From stdpp Require Import list.
From Verif Require Import Spec Fp Inlen Outlen Text Read.
Local Open Scope Z_scope.

Definition slope_up (r : Z) : Z := f_num (s_log2 r) * (c53 + 1) ^ 3 * 10 ^ 18 / (f_den (s_log2 r) * c53 ^ 3) + 1.
Definition slack_up : Z := 10 ^ 18 - 10 ^ 12 + 10 ^ 6.
Lemma outlen_up n r : 2 <= r <= 36 -> 0 < n -> outlen n r * 10 ^ 18 <= n * slope_up r + slack_up.
Proof.
  intros Hr Hn. pose proof (upto_spec _ _ _ r log_all ltac:(lia)) as H. unfold log_ok in H. rewrite andb_true_iff in H. destruct H as [H1 H2]. apply Z.ltb_lt in H1, H2.
  unfold slope_up, outlen. set (Ln := f_num (s_log2 r)) in *. set (Ld := f_den (s_log2 r)) in *.
  assert (0 < c53) as Hc by (unfold c53; lia). assert (0 < c53 + 1) as Hc1 by (unfold c53; lia).
  set (A := f_of_int n). destruct (frac_bounds n 1 ltac:(lia) ltac:(lia)) as (A1 & A2 & _). fold (f_of_int n) in A1, A2. fold A in A1, A2.
  assert (fle A (n * (c53 + 1)) (1 * c53)) as GA by (apply frac_le; lia).
  set (B := f_mul A (s_log2 r)). assert (0 < f_num A * Ln) as PN by nia. assert (0 < f_den A * Ld) as PD by nia.
  destruct (frac_bounds _ _ PN PD) as (B1 & B2 & _). fold Ln Ld in B. change (f_of_frac (f_num A * Ln) (f_den A * Ld)) with B in B1, B2.
  assert (fle B (n * Ln * (c53 + 1) * (c53 + 1)) (c53 * Ld * c53)) as GB.
  { apply frac_le; [done|done|nia|]. unfold fle in GA. pose proof (Z.mul_le_mono_nonneg_r _ _ (Ln * Ld) ltac:(nia) GA). lia. }
  set (h := f_of_frac 999999 1000000). set (S := f_add B h). 
  assert (f_num h * (c53 + 1) * 10 ^ 18 <= slack_up * c53 * f_den h) as Hh by (by vm_compute).
  assert (0 < f_num h) as Hhn by (by vm_compute). assert (0 < f_den h) as Hhd by (by vm_compute).
  assert (0 < f_num B * f_den h + f_num h * f_den B) as SN by nia. assert (0 < f_den B * f_den h) as SD by nia.
  destruct (frac_bounds _ _ SN SD) as (S1 & S2 & _). change (f_of_frac (f_num B * f_den h + f_num h * f_den B) (f_den B * f_den h)) with S in S1, S2.
  set (hn := f_num h) in *. set (hd := f_den h) in *.
  set (P := n * Ln * (c53 + 1) * (c53 + 1)) in *. set (P' := c53 * Ld * c53) in *. assert (0 < P') as HP' by (unfold P'; nia).
  assert (fle S ((P * hd + hn * P') * (c53 + 1)) (P' * hd * c53)) as GS.
  { apply frac_le; [done|done|nia|]. fold hn hd. unfold fle in GB. set (fn := f_num B) in *. set (fd := f_den B) in *. clearbody P P' fn fd hn hd.
    assert (0 <= hd * hd) as Hq by nia. pose proof (Z.mul_le_mono_nonneg_r _ _ _ Hq GB). nia. }
  apply trunc_le in GS; [|done|nia]. set (N := f_trunc S) in *.
  assert (P' * c53 * (N * 10 ^ 18) <= P * (c53 + 1) * 10 ^ 18 + P' * c53 * slack_up) as HX.
  { clearbody P P' hn hd N. apply (Z.mul_le_mono_pos_r _ _ hd); [done|].
    assert (0 <= P') as HP0 by lia. pose proof (Z.mul_le_mono_nonneg_r _ _ _ HP0 Hh) as Hh'.
    assert (0 <= 10 ^ 18) as Pt by done. pose proof (Z.mul_le_mono_nonneg_r _ _ _ Pt GS) as GS'. lia. }
  pose proof (Z.div_mod (Ln * (c53 + 1) ^ 3 * 10 ^ 18) (Ld * c53 ^ 3) ltac:(nia)) as HS. pose proof (Z.mod_pos_bound (Ln * (c53 + 1) ^ 3 * 10 ^ 18) (Ld * c53 ^ 3) ltac:(nia)) as HM. set (sl := _ / _) in *.
  assert (Ln * (c53 + 1) ^ 3 * 10 ^ 18 <= Ld * c53 ^ 3 * (sl + 1)) as HS' by lia. clear HS HM.
  apply (Z.mul_le_mono_pos_l _ _ (Ld * c53 ^ 3)); [nia|].
  replace (Ld * c53 ^ 3 * (N * 10 ^ 18)) with (P' * c53 * (N * 10 ^ 18)) by (unfold P'; ring).
  eapply Z.le_trans; [exact HX|]. replace (P * (c53 + 1) * 10 ^ 18) with (Ln * (c53 + 1) ^ 3 * 10 ^ 18 * n) by (unfold P; ring). replace (P' * c53 * slack_up) with (Ld * c53 ^ 3 * slack_up) by (unfold P'; ring).
  assert (0 <= n) as Hn0 by lia. pose proof (Z.mul_le_mono_nonneg_r _ _ _ Hn0 HS') as HS''. lia.
Qed.
Definition up_ok (M T : Z) : bool := ((0 <? M) && (2 ^ 29 * Z.max 0 (M * T - 2 ^ 64 * 10 ^ 18) <=? M * (2 * 10 ^ 18 - slack_up) - 2 ^ 64 * 10 ^ 18))%bool.
Lemma up_ok_inv M T : up_ok M T = true -> 0 < M /\ 2 ^ 29 * Z.max 0 (M * T - 2 ^ 64 * 10 ^ 18) <= M * (2 * 10 ^ 18 - slack_up) - 2 ^ 64 * 10 ^ 18.
Proof. unfold up_ok. intros H. apply andb_true_iff in H as [H1 H2]. apply Z.ltb_lt in H1. apply Z.leb_le in H2. done. Qed.
Lemma up_all : upto 35 (fun r => up_ok (powup 64 r) (slope_up r)) 2 = true. Proof. vm_compute. reflexivity. Qed.
Lemma up_lin (M T G n N K t S R : Z) : 0 < M -> 0 < n <= 2 ^ 29 -> N * t <= n * T + S -> G = M * T - K * t -> 2 ^ 29 * Z.max 0 G <= M * (2 * t - S) - K * t -> 0 < t -> M * (N - 2) <= (n - 1) * K.
Proof.
  intros HM Hn HN EG HG Ht. assert (n * G <= M * (2 * t - S) - K * t) as H1 by (destruct (Z.max_spec 0 G) as [[? E]|[? E]]; rewrite E in HG; nia).
  assert (M * (N * t) <= M * (n * T + S)) as H2 by (apply Z.mul_le_mono_nonneg_l; lia). subst G. nia.
Qed.
Lemma powup_64 r : 0 < r -> r ^ (2 ^ 64) <= 2 ^ powup 64 r /\ 0 <= powup 64 r.
Proof. exact (powup_ok 64 r). Qed.
Lemma up_cert r : 2 <= r <= 36 -> 0 < powup 64 r /\ 2 ^ 29 * Z.max 0 (powup 64 r * slope_up r - 2 ^ 64 * 10 ^ 18) <= powup 64 r * (2 * 10 ^ 18 - slack_up) - 2 ^ 64 * 10 ^ 18.
Proof.
  intros Hr. assert (2 <= r < 2 + Z.of_nat 35) as Hr' by lia. apply up_ok_inv. exact (upto_spec 35 _ 2 r up_all Hr').
Qed.
Lemma outlen_prod_up n r : 2 <= r <= 36 -> 1 <= n <= 2 ^ 29 -> powup 64 r * (outlen n r - 2) <= (n - 1) * 2 ^ 64.
Proof.
  intros Hr Hn. destruct (up_cert r Hr) as [H1 H3]. assert (0 < n <= 2 ^ 29) as Hn0 by lia.
  exact (up_lin _ (slope_up r) _ n (outlen n r) (2 ^ 64) (10 ^ 18) slack_up 0 H1 Hn0 (outlen_up n r Hr (proj1 Hn0)) eq_refl H3 eq_refl).
Qed.
Lemma outlen_below n r : 2 <= r <= 36 -> 1 <= n <= 2 ^ 29 -> 2 <= outlen n r -> r ^ (outlen n r - 2) <= 2 ^ (n - 1).
Proof.
  intros Hr Hn HN. assert (0 < r) as A1 by lia. assert (0 <= n - 1) as A2 by lia. assert (0 <= outlen n r - 2) as A3 by lia.
  exact (pow_exchange r (outlen n r - 2) (n - 1) (powup 64 r) (2 ^ 64) A1 A2 A3 (proj2 (powup_64 r A1)) eq_refl (proj1 (powup_64 r A1)) (outlen_prod_up n r Hr Hn)).
Qed.
Definition pow2_slope (j : Z) : bool := (j * slope_up (2 ^ j) <=? 10 ^ 18 + 10 ^ 3).
Lemma pow2_slopes : upto 5 pow2_slope 1 = true. Proof. vm_compute. reflexivity. Qed.
Lemma outlen_pow2 n j : 1 <= j <= 5 -> 1 <= n <= 2 ^ 29 -> outlen n (2 ^ j) <= (n + j - 1) / j.
Proof.
  intros Hj Hn. assert (2 <= 2 ^ j <= 36) as Hr. { split; [exact (Z.pow_le_mono_r 2 1 j ltac:(lia) ltac:(lia))|]. pose proof (Z.pow_le_mono_r 2 j 5 ltac:(lia) ltac:(lia)). lia. }
  assert (1 <= j < 1 + Z.of_nat 5) as Hj' by lia. pose proof (upto_spec 5 _ 1 j pow2_slopes Hj') as H. unfold pow2_slope in H. apply Z.leb_le in H.
  pose proof (outlen_up n _ Hr ltac:(lia)) as HU. set (N := outlen n (2 ^ j)) in *. set (T := slope_up (2 ^ j)) in *. clearbody N T. clear Hr. apply Z.div_le_lower_bound; [lia|]. unfold slack_up in HU.
  assert (j * N * 10 ^ 18 <= n * (10 ^ 18 + 10 ^ 3) + j * (10 ^ 18 - 10 ^ 12 + 10 ^ 6)) as HX.
  { transitivity (j * (n * T + (10 ^ 18 - 10 ^ 12 + 10 ^ 6))); [rewrite <- Z.mul_assoc; apply Z.mul_le_mono_nonneg_l; lia|]. pose proof (Z.mul_le_mono_nonneg_l _ _ n ltac:(lia) H). lia. }
  set (y := j * N) in *. clearbody y. clear - HX Hj Hn. assert (j = 1 \/ j = 2 \/ j = 3 \/ j = 4 \/ j = 5) as [->|[->|[->|[->| ->]]]] by lia; lia.
Qed.
Lemma bitlen_low v : v <> 0 -> 2 ^ (bitlen v - 1) <= Z.abs v.
Proof. intros Hv. unfold bitlen. rewrite (proj2 (Z.eqb_neq v 0) Hv). rewrite Z.add_simpl_r. apply Z.log2_spec. lia. Qed.
Lemma horner_lt r ds : 0 < r -> Forall (fun d => 0 <= d < r) ds -> 0 <= horner r ds < r ^ Z.of_nat (length ds).
Proof.
  intros Hr. induction ds as [|d ds IH] using rev_ind; intros H; [cbn; lia|]. apply Forall_app in H as [H1 H2]. specialize (IH H1). apply Forall_cons in H2 as [H2 _].
  rewrite horner_snoc, app_length. cbn [length]. rewrite Nat2Z.inj_add, Z.pow_add_r by lia. change (Z.of_nat 1) with 1. rewrite Z.pow_1_r. nia.
Qed.
(** The number of digits of [v]. *)
Lemma numeral_digits r v s : 2 <= r -> numeral r v s -> let D := Z.of_nat (length s) - (if v <? 0 then 1 else 0) in 1 <= D /\ Z.abs v < r ^ D.
Proof.
  intros Hr (ds & H1 & H2 & H3 & _ & ->). cbv zeta. rewrite app_length, map_length. pose proof (horner_lt r ds ltac:(lia) H1) as H4. rewrite H2 in H4.
  replace (Z.of_nat (length (if v <? 0 then [45] else []) + length ds) - (if v <? 0 then 1 else 0)) with (Z.of_nat (length ds)) by (destruct (v <? 0); cbn [length]; lia).
  split; [|lia]. destruct ds; [done|]. cbn [length]. lia.
Qed.
Theorem outlen_tight r v s : 2 <= r <= 36 -> bitlen v <= 2 ^ 29 -> numeral r v s -> outlen (bitlen v) r <= Z.of_nat (length s) - (if v <? 0 then 1 else 0) + 1.
Proof.
  intros Hr Hv Hs. destruct (numeral_digits r v s (proj1 Hr) Hs) as [H1 H2]. cbv zeta in *. set (D := Z.of_nat (length s) - (if v <? 0 then 1 else 0)) in *. clearbody D.
  assert (1 <= bitlen v) as Hb by apply bitlen_pos. destruct (Z.le_gt_cases (outlen (bitlen v) r) 2) as [|HN]; [lia|].
  assert (2 <= outlen (bitlen v) r) as HN' by lia. pose proof (outlen_below (bitlen v) r Hr (conj Hb Hv) HN') as HB.
  set (N := outlen (bitlen v) r) in *. clearbody N. assert (0 <= D) as HD by lia. assert (0 <= N - 2) as HN2 by lia. assert (1 < r) as Hr1 by lia.
  assert (N - 2 < D) as HF; [|clear - HF; lia]. destruct (Z.eq_dec v 0) as [->|Hv0].
  - change (bitlen 0 - 1) with 0 in HB. rewrite Z.pow_0_r in HB. apply (Z.pow_lt_mono_r_iff r); [done|done|]. rewrite <- (Z.pow_0_r r) in HB. eapply Z.le_lt_trans; [exact HB|]. apply Z.pow_lt_mono_r; lia.
  - pose proof (bitlen_low v Hv0) as HL. apply (Z.pow_lt_mono_r_iff r); [done|done|]. eapply Z.le_lt_trans; [exact HB|]. eapply Z.le_lt_trans; [exact HL|exact H2].
Qed.
Theorem outlen_exact j v s : 1 <= j <= 5 -> bitlen v <= 2 ^ 29 -> numeral (2 ^ j) v s -> outlen (bitlen v) (2 ^ j) = Z.of_nat (length s) - (if v <? 0 then 1 else 0).
Proof.
  intros Hj Hv Hs. assert (2 <= 2 ^ j <= 36) as Hr. { split; [exact (Z.pow_le_mono_r 2 1 j ltac:(lia) ltac:(lia))|]. pose proof (Z.pow_le_mono_r 2 j 5 ltac:(lia) ltac:(lia)). lia. }
  assert (1 <= bitlen v) as Hb by apply bitlen_pos. pose proof (outlen_pow2 (bitlen v) j Hj (conj Hb Hv)) as HU.
  destruct (numeral_digits _ v s (proj1 Hr) Hs) as [H1 H2]. cbv zeta in *. set (D := Z.of_nat (length s) - (if v <? 0 then 1 else 0)) in *.
  assert (enough_bits (2 ^ j) >= 2 ^ 29) as He. { assert (j = 1 \/ j = 2 \/ j = 3 \/ j = 4 \/ j = 5) as [->|[->|[->|[->| ->]]]] by (clear - Hj; lia); by vm_compute. }
  assert (1 <= bitlen v <= enough_bits (2 ^ j)) as Hbe by lia. destruct (outlen_enough _ _ Hr Hbe) as [E1 E2].
  assert (0 < 2 ^ j) as Hr0 by lia. pose proof (bitlen_pow v) as BP. pose proof (numeral_len_le (2 ^ j) v s _ (proj1 Hr) Hs (Z.lt_le_trans _ _ _ BP E1) ltac:(lia)) as HLE.
  assert (D <= outlen (bitlen v) (2 ^ j)) as HD by (unfold D; lia).
  apply Z.le_antisymm; [|exact HD]. eapply Z.le_trans; [exact HU|]. clear - H1 H2 Hj Hr. clearbody D.
  destruct (Z.eq_dec v 0) as [->|Hv0]. { change (bitlen 0) with 1. replace (1 + j - 1) with (1 * j) by lia. rewrite Z.div_mul by lia. lia. }
  pose proof (bitlen_low v Hv0) as HL. rewrite <- Z.pow_mul_r in H2 by lia. assert (2 ^ (bitlen v - 1) < 2 ^ (j * D)) as HP by (eapply Z.le_lt_trans; [exact HL|exact H2]).
  apply Z.pow_lt_mono_r_iff in HP; [|lia|nia]. assert ((bitlen v + j - 1) / j < D + 1); [|lia]. apply Z.div_lt_upper_bound; lia.
Qed.
