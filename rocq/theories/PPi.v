(** Properties of examples/pi.c (C59).  The specification is the number [PI] and
    the function [atan] of the standard library. *)
From Coq Require Import ZArith List Lia Lra Reals Machin.
From stdpp Require Import gmap list.
From Verif Require Import Mem Prog Kern Imath Rsamath ExPi Exec Wp Spec SpecBin Public Concrete Buf Read Arctan ExPiR.
Local Open Scope Z_scope.

Lemma enough_more M x K : 2 <= x -> enough M x K -> M < x ^ (2 * Z.of_nat K + 1).
Proof. intros Hx (H1 & H2 & _). eapply Z.lt_le_trans; [exact H2|]. apply Z.pow_le_mono_r; lia. Qed.
Lemma enough_len M x b K : 2 <= x -> 0 < b -> 2 ^ b <= x * x -> enough M x K -> Z.of_nat K <= Z.log2 M / b + 2.
Proof. intros Hx Hb Hbx (H1 & _ & H2). by apply (terms_bound M x b K). Qed.

(** ** C59 *)
(** The function arctan: radix^prec * mul * atan(1/x), with an error of at most
    one unit and a fraction of the number of terms; the locals are released. *)
Theorem C59_arctan st V W r mul x p b sum :
  Rep st V W -> is_Some (V !! sum) -> 2 <= r < 2 ^ 63 -> 1 <= mul < 2 ^ 63 -> 2 <= x -> 0 < b -> 2 ^ b <= x * x < 2 ^ 63 -> 0 <= p < 2 ^ 32 - 1 ->
  calls (arctan r mul x p sum) st (fun res st' => res = MP_OK /\ exists v, Rep st' (<[sum := v]> V) W /\
    (Rabs (IZR v - IZR mul * IZR (r ^ p) * atan (/ IZR x)) <= IZR (Z.log2 (mul * r ^ (p + 1)) / b + 3) / IZR r + 1)%R).
Proof.
  intros H [vs Hs] Hr Hm Hx Hb Hxx Hp. eapply by_rule; [done|]. intros st1 HV. eapply wpV_arctan; [exact HV|exact Hs|lia..|]. intros K st' HK HV'. split; [done|].
  eexists. split; [by apply RV_done|]. eapply Rle_trans; [apply scaled_atan; [lia..|by apply enough_more]|].
  pose proof (enough_len _ x b K Hx Hb (proj1 Hxx) HK) as L. apply Rplus_le_compat_r. apply Rmult_le_compat_r; [left; apply Rinv_0_lt_compat, IZR_lt; lia|].
  rewrite INR_IZR_INZ. change 1%R with (IZR 1). rewrite <- plus_IZR. apply IZR_le. lia.
Qed.
Example C59_arctan_ex : result (arctan 10 16 5 5 hC) hC exS = Some (MP_OK, Some 315832) /\ 2 ^ 4 <= 5 * 5 < 2 ^ 63.
Proof. split; [by vm_compute|lia]. Qed.
Print Assumptions C59_arctan.

Lemma radix_bits r : 2 <= r <= 36 -> exists c, 0 < c /\ r <= 2 ^ c /\ 3 * c <= 2 * r.
Proof.
  intros Hr. destruct (Z.leb_spec r 2); [exists 1; lia|]. destruct (Z.leb_spec r 4); [exists 2; lia|]. destruct (Z.leb_spec r 8); [exists 3; lia|].
  destruct (Z.leb_spec r 16); [exists 4; lia|]. exists 6. lia.
Qed.
Lemma log2_scaled m r n c : 0 < m -> 2 <= r <= 2 ^ c -> 0 < c -> 0 <= n -> Z.log2 (2 ^ m * r ^ n) <= m + n * c.
Proof.
  intros Hm Hr Hc Hn. rewrite <- (Z.log2_pow2 (m + n * c)) by nia. apply Z.log2_le_mono. rewrite Z.pow_add_r by nia. apply Z.mul_le_mono_nonneg_l; [apply Z.pow_nonneg; lia|].
  rewrite Z.mul_comm, Z.pow_mul_r by lia. apply Z.pow_le_mono_l. lia.
Qed.
Lemma pi_near r nd K1 K2 : 2 <= r <= 36 -> 1 <= nd -> enough (16 * r ^ (nd + 1)) 5 K1 -> enough (4 * r ^ (nd + 1)) 239 K2 ->
  (Rabs (IZR (pi_value r nd K1 K2) - IZR (r ^ nd) * PI) <= IZR nd / 4 + 6)%R.
Proof.
  intros Hr Hn H1 H2.
  pose proof (scaled_atan r 16 5 nd K1 ltac:(lia) ltac:(lia) ltac:(lia) ltac:(lia) ltac:(by apply enough_more)) as A1.
  pose proof (scaled_atan r 4 239 nd K2 ltac:(lia) ltac:(lia) ltac:(lia) ltac:(lia) ltac:(by apply enough_more)) as A2.
  pose proof (enough_len _ 5 4 K1 ltac:(lia) ltac:(lia) ltac:(lia) H1) as L1. pose proof (enough_len _ 239 15 K2 ltac:(lia) ltac:(lia) ltac:(lia) H2) as L2.
  destruct (radix_bits r Hr) as (c & Hc & Hrc & Hc3).
  pose proof (log2_scaled 4 r (nd + 1) c ltac:(lia) ltac:(lia) Hc ltac:(lia)) as G1. pose proof (log2_scaled 2 r (nd + 1) c ltac:(lia) ltac:(lia) Hc ltac:(lia)) as G2.
  change (2 ^ 4) with 16 in G1. change (2 ^ 2) with 4 in G2.
  pose proof (Z.mul_div_le (Z.log2 (16 * r ^ (nd + 1))) 4 ltac:(lia)) as D1. pose proof (Z.mul_div_le (Z.log2 (4 * r ^ (nd + 1))) 15 ltac:(lia)) as D2.
  assert (180 * (Z.of_nat K1 + Z.of_nat K2 + 2) <= r * (642 + 38 * (nd + 1))) as B by nia.
  apply IZR_le in B. rewrite !mult_IZR, !plus_IZR, mult_IZR, plus_IZR, <- !INR_IZR_INZ in B.
  assert (2 <= IZR r)%R as Hr' by (apply IZR_le; lia). assert (1 <= IZR nd)%R as Hn' by (apply IZR_le; lia).
  assert ((INR K1 + 1) / IZR r + (INR K2 + 1) / IZR r <= (642 + 38 * (IZR nd + 1)) / 180)%R as C.
  { apply Rmult_le_reg_r with (IZR r); [lra|]. unfold Rdiv. rewrite Rmult_plus_distr_r, !Rmult_assoc, Rinv_l by lra. lra. }
  assert (PI = 16 * atan (/ 5) - 4 * atan (/ 239))%R as EPI by (pose proof Machin_4_5_239; lra).
  unfold pi_value. rewrite minus_IZR, EPI.
  match type of A1 with (Rabs ?x <= _)%R => match type of A2 with (Rabs ?y <= _)%R => match goal with |- (Rabs ?z <= _)%R => replace z with (x - y)%R by ring end end end.
  unfold Rminus at 1. eapply Rle_trans; [apply Rabs_triang|]. rewrite Rabs_Ropp. lra.
Qed.
(** Bounds for PI, from the same formula. *)
Lemma pi_20 : (Rabs (314159265358979323847 - IZR (10 ^ 20) * PI) <= 11)%R.
Proof.
  assert (enough (16 * 10 ^ (20 + 1)) 5 17) as H1 by (split; [lia|]; split; [by vm_compute|right; by vm_compute]).
  assert (enough (4 * 10 ^ (20 + 1)) 239 6) as H2 by (split; [lia|]; split; [by vm_compute|right; by vm_compute]).
  pose proof (pi_near 10 20 17 6 ltac:(lia) ltac:(lia) H1 H2) as A. replace (pi_value 10 20 17 6) with 314159265358979323847 in A by (by vm_compute). lra.
Qed.
Lemma PI_bounds : (3.1415926535897932 < PI < 3.1415926535897933)%R.
Proof. pose proof pi_20 as A. change (10 ^ 20) with 100000000000000000000 in A. assert (forall x a, Rabs x <= a -> - a <= x <= a)%R as R by (intros x a Hx; unfold Rabs in Hx; destruct (Rcase_abs x); lra). apply R in A. lra. Qed.
Lemma Rabs_inv x a : (Rabs x <= a -> - a <= x <= a)%R.
Proof. intros Hx. unfold Rabs in Hx. destruct (Rcase_abs x); lra. Qed.
Lemma pow_grows r n : 4 <= r -> 1 <= n -> 4 * n <= r ^ n.
Proof.
  intros Hr Hn. revert n Hn. apply Zlt_lower_bound_ind. intros n IH Hn. destruct (Z.eq_dec n 1) as [->|N1]; [rewrite Z.pow_1_r; lia|].
  specialize (IH (n - 1) ltac:(lia)). replace n with (Z.succ (n - 1)) at 2 by lia. rewrite Z.pow_succ_r by lia. nia.
Qed.
Lemma pi_digits r nd K1 K2 : 4 <= r <= 36 -> 1 <= nd -> enough (16 * r ^ (nd + 1)) 5 K1 -> enough (4 * r ^ (nd + 1)) 239 K2 -> r ^ nd <= pi_value r nd K1 K2 < r ^ (nd + 1).
Proof.
  intros Hr Hn H1 H2. destruct (decide (r = 4 /\ nd = 1)) as [[-> ->]|Hne].
  { (* a single case is computed *)
    pose proof (enough_len _ 5 4 K1 ltac:(lia) ltac:(lia) ltac:(lia) H1) as L1. pose proof (enough_len _ 239 15 K2 ltac:(lia) ltac:(lia) ltac:(lia) H2) as L2.
    change (Z.log2 (16 * 4 ^ (1 + 1)) / 4 + 2) with 4 in L1. change (Z.log2 (4 * 4 ^ (1 + 1)) / 15 + 2) with 2 in L2.
    assert (K1 = 0 \/ K1 = 1 \/ K1 = 2 \/ K1 = 3 \/ K1 = 4)%nat as C1 by lia. assert (K2 = 0 \/ K2 = 1 \/ K2 = 2)%nat as C2 by lia.
    destruct H1 as (_ & H1 & _), H2 as (P2 & _). destruct C1 as [->|[->|[->|[->| ->]]]]; destruct C2 as [->|[->| ->]]; first [by vm_compute | by vm_compute in H1 | lia]. }
  pose proof (pi_near r nd K1 K2 ltac:(lia) Hn H1 H2) as A. apply Rabs_inv in A. pose proof PI_bounds as B. set (v := pi_value r nd K1 K2) in *. clearbody v.
  pose proof (pow_grows r nd ltac:(lia) Hn) as G. rewrite Z.pow_add_r, Z.pow_1_r by lia. set (P := r ^ nd) in *.
  assert (16 <= P \/ (5 <= r /\ nd = 1 /\ P = r)) as HP.
  { destruct (Z.eq_dec nd 1) as [->|N1]; [right; split; [lia|]; split; [done|]; unfold P; by rewrite Z.pow_1_r|left]. unfold P. change 16 with (4 ^ 2). etransitivity; [apply (Z.pow_le_mono_l _ r); lia|apply Z.pow_le_mono_r; lia]. }
  clearbody P. apply IZR_le in G. rewrite mult_IZR in G. assert (4 <= IZR r)%R as Hr' by (apply IZR_le; lia).
  split.
  - apply le_IZR. destruct HP as [HP|(H5 & -> & ->)]; [apply IZR_le in HP; nra|apply IZR_le in H5; nra].
  - apply lt_IZR. rewrite mult_IZR. destruct HP as [HP|(H5 & -> & ->)]; [apply IZR_le in HP; nra|apply IZR_le in H5; nra].
Qed.
(** The program: for a radix from 4 to 36 and any number of digits it ends with
    status 0, the buffer holds one digit and [nd] further digits and the final
    NUL, and the number they write differs from PI * radix^nd by at most
    nd / 4 + 6 units of the last place.  Nothing is leaked. *)
Theorem C59_pi st V W r nd b l :
  Rep st V W -> bufs W !! b = Some l -> Z.of_nat (length l) = nd + 2 -> 4 <= r <= 36 -> 1 <= nd < 2 ^ 31 - 2 ->
  calls (pi_main r nd (b, 0)) st (fun status st' => status = 0 /\ exists v s, numeral r v s /\ Z.of_nat (length s) = nd + 1 /\
    Rep st' V (with_buf W b (Some <$> (s ++ [0]))) /\ (Rabs (IZR v - IZR (r ^ nd) * PI) <= IZR nd / 4 + 6)%R).
Proof.
  intros H Hb Hl Hr Hn. eapply by_rule; [done|]. intros st1 HV. eapply wpV_pi; [exact HV|exact Hb|lia|lia|exact Hl| |].
  - intros K1 K2 H1 H2. apply pi_digits; [lia|lia|done|done].
  - intros K1 K2 s st' H1 H2 Hs Ls HV'. split; [done|]. exists (pi_value r nd K1 K2), s. split; [done|]. split; [done|]. split; [by apply RV_done_buf|]. apply pi_near; [lia|lia|done|done].
Qed.
Example C59_pi_ex : result_buf (pi_main 10 5 (bX, 0)) (exB 7) = Some (0, Some (Some <$> [51; 49; 52; 49; 53; 57; 0])).
Proof. by vm_compute. Qed.
Print Assumptions C59_pi.
(** The last digits need not be those of PI: for eleven digits the program prints
    3.14159265360, more than one unit above PI = 3.141592653589... *)
Theorem C59_last_digits_refuted : exists st V W b l v s,
  Rep st V W /\ bufs W !! b = Some l /\ length l = 13%nat /\ numeral 10 v s /\
  (exists st' t', run true orc_yes (pi_main 10 11 (b, 0)) 0 st = Done 0 st' t' /\ mem st' !! b = Some (Some <$> (s ++ [0]))) /\
  (IZR v - IZR (10 ^ 11) * PI > 1)%R.
Proof.
  exists (exB 13), exV, (exW 13), bX, (replicate 13 None), 314159265360, [51; 49; 52; 49; 53; 57; 50; 54; 53; 51; 54; 48].
  split; [apply exB_rep|]. split; [by vm_compute|]. split; [done|]. split.
  { exists [3; 1; 4; 1; 5; 9; 2; 6; 5; 3; 6; 0]. split; [repeat constructor; lia|]. by vm_compute. }
  split; [|pose proof PI_bounds; change (10 ^ 11) with 100000000000; lra].
  assert (match run true orc_yes (pi_main 10 11 (bX, 0)) 0 (exB 13) with Done r st' _ => r = 0 /\ mem st' !! bX = Some (Some <$> ([51; 49; 52; 49; 53; 57; 50; 54; 53; 51; 54; 48] ++ [0])) | _ => False end) as E by (by vm_compute).
  destruct (run true orc_yes (pi_main 10 11 (bX, 0)) 0 (exB 13)) as [r st' t'| | | |]; try done. destruct E as [-> E]. by exists st', t'.
Qed.
Print Assumptions C59_last_digits_refuted.
(** In radix 2 and 3 PI has two digits before the point; the buffer is one byte
    too short for what mp_int_to_string stores, which writes past its end. *)
Theorem C59_radix_2_3_refuted : forall r dbg, r = 2 \/ r = 3 -> exists st V W b l nd,
  Rep st V W /\ bufs W !! b = Some l /\ Z.of_nat (length l) = nd + 2 /\ 1 <= nd /\ run dbg orc_yes (pi_main r nd (b, 0)) 0 st = UB.
Proof.
  intros r dbg Hr. exists (exB 5), exV, (exW 5), bX, (replicate 5 None), 3. split; [apply exB_rep|]. split; [by vm_compute|]. split; [done|]. split; [lia|].
  destruct Hr as [-> | ->], dbg; by vm_compute.
Qed.
Print Assumptions C59_radix_2_3_refuted.
