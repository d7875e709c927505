(** Properties of the GMP interface (C45-C48, C51).  See [Spec] and [SpecGmp]. *)
From Coq Require Import ZArith Znumtheory List Lia.
From stdpp Require Import gmap list.
From Verif Require Import Mem Prog Kern Fp Imath Imrat Gmp Exec Wp Spec SpecBin SpecGmp Public Gcd Concrete Buf Text Read Bin Outlen Gmpr Impexp.
Local Open Scope Z_scope.
Local Open Scope prog_scope.

(** ** C45 Divisions that round up, down and towards zero *)
(** [x / y] is the integer part of the quotient, rounded down. *)
Theorem C45_fdiv_q st V W q n d vn vd :
  Rep st V W -> is_Some (V !! q) -> V !! n = Some vn -> V !! d = Some vd -> vd <> 0 ->
  calls (mpz_fdiv_q q n d) st (fun _ st' => Rep st' (<[q := vn / vd]> V) W).
Proof.
  intros H [vq Hq] Hn Hd Hv. eapply by_rule; [done|]. intros st1 HV. eapply wpV_fdiv_q; [done..|]. intros st' H'. by apply RV_done.
Qed.
Example C45_fdiv_q_ex : result (mpz_fdiv_q hC hD hE) hC exS = Some (tt, Some (-4)) /\ result (mpz_fdiv_q hC hB hA) hC exS = Some (tt, Some (-1)).
Proof. by vm_compute. Qed.
Print Assumptions C45_fdiv_q.
(** Rounded up. *)
Theorem C45_cdiv_q st V W q n d vn vd :
  Rep st V W -> is_Some (V !! q) -> V !! n = Some vn -> V !! d = Some vd -> vd <> 0 ->
  calls (mpz_cdiv_q q n d) st (fun _ st' => Rep st' (<[q := - ((- vn) / vd)]> V) W).
Proof.
  intros H [vq Hq] Hn Hd Hv. eapply by_rule; [done|]. intros st1 HV. eapply wpV_cdiv_q; [done..|]. intros st' H'. by apply RV_done.
Qed.
Example C45_cdiv_q_ex : result (mpz_cdiv_q hD hE hD) hD exS = Some (tt, Some 0) /\ result (mpz_cdiv_q hC hA hE) hC exS = Some (tt, Some (- ((- vA) / 3))).
Proof. by vm_compute. Qed.
Print Assumptions C45_cdiv_q.
(** Rounded towards zero. *)
Theorem C45_tdiv_q st V W q n d vn vd :
  Rep st V W -> is_Some (V !! q) -> V !! n = Some vn -> V !! d = Some vd -> vd <> 0 ->
  calls (mpz_tdiv_q q n d) st (fun _ st' => Rep st' (<[q := Z.quot vn vd]> V) W).
Proof.
  intros H [vq Hq] Hn Hd Hv. eapply by_rule; [done|]. intros st1 HV. eapply wpV_tdiv_q; [done..|]. intros st' H'. by apply RV_done.
Qed.
Example C45_tdiv_q_ex : result (mpz_tdiv_q hC hB hD) hC exS = Some (tt, Some 1537228672809129301).
Proof. by vm_compute. Qed.
Print Assumptions C45_tdiv_q.
(** The remainder of the division that rounds down; it has the sign of the divisor. *)
Theorem C45_fdiv_r st V W r n d vn vd :
  Rep st V W -> is_Some (V !! r) -> V !! n = Some vn -> V !! d = Some vd -> vd <> 0 ->
  calls (mpz_fdiv_r r n d) st (fun _ st' => Rep st' (<[r := vn mod vd]> V) W).
Proof.
  intros H [vr Hr] Hn Hd Hv. eapply by_rule; [done|]. intros st1 HV. eapply wpV_fdiv_r; [done..|]. intros st' H'. by apply RV_done.
Qed.
Example C45_fdiv_r_ex : result (mpz_fdiv_r hE hE hD) hE exS = Some (tt, Some (-9)).
Proof. by vm_compute. Qed.
Print Assumptions C45_fdiv_r.
(** Both, for a divisor that is a machine word. *)
Theorem C45_fdiv_q_ui st V W q n (d : Z) vn :
  Rep st V W -> is_Some (V !! q) -> V !! n = Some vn -> 0 < d < 2 ^ 64 ->
  calls (mpz_fdiv_q_ui q n d) st (fun r st' => r = vn mod d /\ Rep st' (<[q := vn / d]> V) W).
Proof.
  intros H [vq Hq] Hn Hd. eapply by_rule; [done|]. intros st1 HV. eapply wpV_fdiv_q_ui; [done..|]. intros st' H'. split; [done|by apply RV_done].
Qed.
Example C45_fdiv_q_ui_ex : result (mpz_fdiv_q_ui hD hD 5) hD exS = Some (3, Some (-3)).
Proof. by vm_compute. Qed.
Print Assumptions C45_fdiv_q_ui.

(** ** C46 Export and import *)
(** Exporting a number writes its magnitude as the words the parameters ask for,
    and reports how many. *)
Theorem C46_export st V W z v b (off : nat) l size count order endian :
  Rep st V W -> V !! z = Some v -> bufs W !! b = Some l -> (0 < size)%nat -> valid_order order -> valid_endian endian ->
  word_count size v count -> (off + size * count <= length l)%nat -> Z.of_nat (size * count) < 2 ^ 63 ->
  calls (mpz_export (b, Z.of_nat off) order (Z.of_nat size) endian 0 z) st
    (fun r st' => r = Z.of_nat count /\ Rep st' V (with_buf W b (overwrite off (words order endian size count (Z.abs v)) l))).
Proof.
  intros H Hz Hb Hs Ho He Hc Hl Hf. eapply by_rule; [done|]. intros st1 HV. eapply wpV_export; [exact HV|exact Hz|exact Hb|done..|]. intros st' H'. split; [done|by apply RV_done_buf].
Qed.
Example C46_export_ex : result_buf (mpz_export (bX, 1) 1 2 (-1) 0 hB) (exB 12) = Some (5, Some (None :: (Some <$> words 1 (-1) 2 5 (2 ^ 64 + 7)) ++ [None])) /\
  words 1 (-1) 2 5 (2 ^ 64 + 7) = [1; 0; 0; 0; 0; 0; 0; 0; 7; 0] /\ words (-1) 1 3 3 (2 ^ 64 + 7) = [0; 0; 7; 0; 0; 0; 1; 0; 0] /\ word_count 2 vD 1.
Proof.
  split; [by vm_compute|]. split; [by vm_compute|]. split; [by vm_compute|]. split; [by vm_compute|]. intros c Hc. replace c with 0%nat by lia. by vm_compute.
Qed.
Print Assumptions C46_export.
(** Importing any sequence of words stores the one number in range whose words
    they are. *)
Theorem C46_import st V W z b (off : nat) l bs size count order endian :
  Rep st V W -> is_Some (V !! z) -> bufs W !! b = Some l -> (0 < size)%nat -> (0 < count)%nat -> valid_order order -> valid_endian endian ->
  has_bytes l off bs -> length bs = (size * count)%nat -> Z.of_nat (size * count) <= 2 ^ 34 - 8 ->
  exists v, 0 <= v < 256 ^ Z.of_nat (size * count) /\ words order endian size count v = bs /\
  calls (mpz_import z (Z.of_nat count) order (Z.of_nat size) endian 0 (Some (b, Z.of_nat off))) st (fun _ st' => Rep st' (<[z := v]> V) W).
Proof.
  intros H [v0 Hz] Hb Hs Hc Ho He HB Hl Hf. destruct (words_onto order endian size count bs Hs (proj1 HB) Hl) as (v & Hv & Hw). exists v. split; [done|]. split; [done|].
  eapply by_rule; [done|]. intros st1 HV. eapply wpV_import; [exact HV|exact Hz|exact Hb|done|done|done|done|exact Hv|by rewrite Hw|done|]. intros st' H'. by apply RV_done.
Qed.
Definition exI : state := put_buf bX (Some <$> [1; 2; 3; 4; 5; 6]) exS.
Example C46_import_ex : result (mpz_import hC 3 1 2 (-1) 0 (Some (bX, 0))) hC exI = Some (tt, Some 2203385529861) /\ words 1 (-1) 2 3 2203385529861 = [1; 2; 3; 4; 5; 6].
Proof. split; by vm_compute. Qed.
Print Assumptions C46_import.
(** The number is determined by the words. *)
Theorem C46_words_unique order endian size count v v' : (0 < size)%nat ->
  0 <= v < 256 ^ Z.of_nat (size * count) -> 0 <= v' < 256 ^ Z.of_nat (size * count) -> words order endian size count v = words order endian size count v' -> v = v'.
Proof. apply words_inj. Qed.
Example C46_words_unique_ex : words 1 1 2 2 258 <> words 1 1 2 2 513. Proof. by vm_compute. Qed.
Print Assumptions C46_words_unique.
(** What was exported reads back as the magnitude. *)
Theorem C46_round_trip st V W z y v b (off : nat) l size count order endian :
  Rep st V W -> V !! z = Some v -> is_Some (V !! y) -> bufs W !! b = Some l -> (0 < size)%nat -> valid_order order -> valid_endian endian ->
  v <> 0 -> word_count size v count -> (off + size * count <= length l)%nat -> Z.of_nat (size * count) <= 2 ^ 34 - 8 ->
  calls (n <- mpz_export (b, Z.of_nat off) order (Z.of_nat size) endian 0 z;
         mpz_import y n order (Z.of_nat size) endian 0 (Some (b, Z.of_nat off))) st
    (fun _ st' => Rep st' (<[y := Z.abs v]> V) (with_buf W b (overwrite off (words order endian size count (Z.abs v)) l))).
Proof.
  intros H Hz [vy Hy] Hb Hs Ho He Hv Hc Hl Hf. eapply by_rule; [done|]. intros st1 HV. apply wp_bind. eapply wpV_export; [exact HV|exact Hz|exact Hb|done|done|done|done|done|lia|]. intros st2 H2.
  assert (0 < count)%nat as C0. { destruct count; [|lia]. destruct Hc as [Hc _]. rewrite Nat.mul_0_r in Hc. change (256 ^ Z.of_nat 0) with 1 in Hc. lia. }
  eapply (wpV_import _ _ _ y _ (Z.abs v)); [exact H2|exact Hy|apply setb_lookup|done|done|done|done| | |done|].
  { split; [lia|]. apply Hc. } { apply has_overwrite; [apply words_byte|lia]. }
  intros st' H'. by apply RV_done_buf.
Qed.
Example C46_round_trip_ex : result (mpz_export (bX, 0) (-1) 8 1 0 hA;; mpz_import hC 2 (-1) 8 1 0 (Some (bX, 0))) hC (exB 16) = Some (tt, Some vA).
Proof. by vm_compute. Qed.
Print Assumptions C46_round_trip.
(** GMP's own import of no words stores zero; this one leaves its result alone. *)
Theorem C46_import_none_refuted : exists st V W z v b l,
  Rep st V W /\ V !! z = Some v /\ v <> 0 /\ bufs W !! b = Some l /\
  calls (mpz_import z 0 1 1 1 0 (Some (b, 0))) st (fun _ st' => Rep st' V W).
Proof.
  exists (exB 3), exV, (exW 3), hD, vD, bX, (replicate 3 None). split; [apply exB_rep|]. split; [by vm_compute|]. split; [done|]. split; [by vm_compute|].
  eapply by_rule; [apply exB_rep|]. intros st1 HV. cbn [mpz_import]. apply wp_ret. by apply RV_done.
Qed.
Print Assumptions C46_import_none_refuted.

(** ** C47 Conversion to machine words *)
(** The low 64 bits of the magnitude. *)
Theorem C47_get_ui st V W a va :
  Rep st V W -> V !! a = Some va ->
  calls (mpz_get_ui a) st (fun r st' => r = Z.abs va mod 2 ^ 64 /\ Rep st' V W).
Proof.
  intros H Ha. eapply by_rule; [done|]. intros st1 HV. eapply wpV_get_ui; [done..|]. intros st' H'. split; [done|by apply RV_done].
Qed.
Example C47_get_ui_ex : result (mpz_get_ui hB) hB exS = Some (7, Some (- (2 ^ 64 + 7))) /\ result (mpz_get_ui hA) hA exS = Some (2 ^ 64 - 12345, Some vA).
Proof. by vm_compute. Qed.
Print Assumptions C47_get_ui.
(** The low 63 bits of the magnitude, with the sign: the number itself if it fits.
    Excluded: -2^63, where the call is undefined (below). *)
Theorem C47_get_si st V W a va :
  Rep st V W -> V !! a = Some va -> va <> - 2 ^ 63 ->
  calls (mpz_get_si a) st (fun r st' => r = Z.sgn va * (Z.abs va mod 2 ^ 63) /\ (- 2 ^ 63 <= va < 2 ^ 63 -> r = va) /\ Rep st' V W).
Proof.
  intros H Ha Hne. eapply by_rule; [done|]. intros st1 HV. eapply wpV_get_si; [done..|]. intros st' H'. split; [done|]. split; [|by apply RV_done].
  intros Hr. rewrite Z.mod_small by lia. by rewrite Z.mul_comm, Z.abs_sgn.
Qed.
Example C47_get_si_ex : result (mpz_get_si hD) hD exS = Some (-12, Some vD) /\ result (mpz_get_si hB) hB exS = Some (-7, Some (- (2 ^ 64 + 7))).
Proof. by vm_compute. Qed.
Print Assumptions C47_get_si.
Theorem C47_get_si_min_refuted : exists st V W a,
  Rep st V W /\ V !! a = Some (- 2 ^ 63) /\ forall dbg, run dbg orc_yes (mpz_get_si a) 0 st = UB.
Proof.
  exists (put (H 1) (- 2 ^ 63) st0), (<[H 1 := - 2 ^ 63]> ∅), world0, (H 1). split; [apply Rep_put; [apply Rep_empty|done|by vm_compute]|]. split; [by vm_compute|]. intros []; by vm_compute.
Qed.
Print Assumptions C47_get_si_min_refuted.

(** ** C48 Operations GMP has and the library builds from its own *)
Theorem C48_addmul st V W c a b vc va vb :
  Rep st V W -> V !! c = Some vc -> V !! a = Some va -> V !! b = Some vb ->
  calls (mpz_addmul c a b) st (fun _ st' => Rep st' (<[c := vc + va * vb]> V) W).
Proof.
  intros H Hc Ha Hb. eapply by_rule; [done|]. intros st1 HV. eapply wpV_addmul; [done..|]. intros st' H'. by apply RV_done.
Qed.
Example C48_addmul_ex : result (mpz_addmul hD hE hE) hD exS = Some (tt, Some (-3)) /\ result (mpz_addmul hD hD hD) hD exS = Some (tt, Some 132).
Proof. by vm_compute. Qed.
Print Assumptions C48_addmul.
Theorem C48_submul st V W c a b vc va vb :
  Rep st V W -> V !! c = Some vc -> V !! a = Some va -> V !! b = Some vb ->
  calls (mpz_submul c a b) st (fun _ st' => Rep st' (<[c := vc - va * vb]> V) W).
Proof.
  intros H Hc Ha Hb. eapply by_rule; [done|]. intros st1 HV. eapply wpV_submul; [done..|]. intros st' H'. by apply RV_done.
Qed.
Example C48_submul_ex : result (mpz_submul hD hE hE) hD exS = Some (tt, Some (-21)).
Proof. by vm_compute. Qed.
Print Assumptions C48_submul.
Theorem C48_add_ui st V W c a v va :
  Rep st V W -> is_Some (V !! c) -> V !! a = Some va -> 0 <= v < 2 ^ 64 ->
  calls (mpz_add_ui c a v) st (fun _ st' => Rep st' (<[c := va + v]> V) W).
Proof.
  intros H [vc Hc] Ha Hv. eapply by_rule; [done|]. intros st1 HV. eapply wpV_add_ui; [done..|]. intros st' H'. by apply RV_done.
Qed.
Example C48_add_ui_ex : result (mpz_add_ui hD hD (2 ^ 64 - 1)) hD exS = Some (tt, Some (2 ^ 64 - 13)).
Proof. by vm_compute. Qed.
Print Assumptions C48_add_ui.
Theorem C48_sub_ui st V W c a v va :
  Rep st V W -> is_Some (V !! c) -> V !! a = Some va -> 0 <= v < 2 ^ 64 ->
  calls (mpz_sub_ui c a v) st (fun _ st' => Rep st' (<[c := va - v]> V) W).
Proof.
  intros H [vc Hc] Ha Hv. eapply by_rule; [done|]. intros st1 HV. eapply wpV_sub_ui; [done..|]. intros st' H'. by apply RV_done.
Qed.
Example C48_sub_ui_ex : result (mpz_sub_ui hC hE (2 ^ 64 - 1)) hC exS = Some (tt, Some (4 - 2 ^ 64)).
Proof. by vm_compute. Qed.
Print Assumptions C48_sub_ui.
Theorem C48_mul_ui st V W c a v va :
  Rep st V W -> is_Some (V !! c) -> V !! a = Some va -> 0 <= v < 2 ^ 64 ->
  calls (mpz_mul_ui c a v) st (fun _ st' => Rep st' (<[c := va * v]> V) W).
Proof.
  intros H [vc Hc] Ha Hv. eapply by_rule; [done|]. intros st1 HV. eapply wpV_mul_ui; [done..|]. intros st' H'. by apply RV_done.
Qed.
Example C48_mul_ui_ex : result (mpz_mul_ui hC hD (2 ^ 64 - 1)) hC exS = Some (tt, Some (-12 * (2 ^ 64 - 1))).
Proof. by vm_compute. Qed.
Print Assumptions C48_mul_ui.
(** 0 to the power 0 is 1. *)
Theorem C48_pow_ui st V W c a v va :
  Rep st V W -> is_Some (V !! c) -> V !! a = Some va -> 0 <= v < 2 ^ 64 ->
  calls (mpz_pow_ui c a v) st (fun _ st' => Rep st' (<[c := va ^ v]> V) W).
Proof.
  intros H [vc Hc] Ha Hv. eapply by_rule; [done|]. intros st1 HV. eapply wpV_pow_ui; [done..|]. intros st' H'. by apply RV_done.
Qed.
Example C48_pow_ui_ex : result (mpz_pow_ui hD hD 3) hD exS = Some (tt, Some (-1728)) /\ result (mpz_pow_ui hE hC 0) hE exS = Some (tt, Some 1).
Proof. by vm_compute. Qed.
Print Assumptions C48_pow_ui.
Theorem C48_divexact st V W q n d vn vd :
  Rep st V W -> is_Some (V !! q) -> V !! n = Some vn -> V !! d = Some vd -> vd <> 0 -> (vd | vn) ->
  calls (mpz_divexact q n d) st (fun _ st' => Rep st' (<[q := vn / vd]> V) W).
Proof.
  intros H [vq Hq] Hn Hd Hv [k ->]. eapply by_rule; [done|]. intros st1 HV. eapply (wpV_tdiv_q _ _ _ q n d); [done..|]. intros st' H'. rewrite Z.div_mul by done. rewrite Z.quot_mul in H' by done. by apply RV_done.
Qed.
Example C48_divexact_ex : result (mpz_divexact hC hD hE) hC exS = Some (tt, Some (-4)). Proof. by vm_compute. Qed.
Print Assumptions C48_divexact.
Theorem C48_divexact_ui st V W q n d vn :
  Rep st V W -> is_Some (V !! q) -> V !! n = Some vn -> 0 < d < 2 ^ 64 -> (d | vn) ->
  calls (mpz_divexact_ui q n d) st (fun _ st' => Rep st' (<[q := vn / d]> V) W).
Proof.
  intros H [vq Hq] Hn Hd [k ->]. eapply by_rule; [done|]. intros st1 HV. eapply (wpV_divexact_ui _ _ _ q n d); [done..|]. intros st' H'. rewrite Z.div_mul by lia. rewrite Z.quot_mul in H' by lia. by apply RV_done.
Qed.
Example C48_divexact_ui_ex : result (mpz_divexact_ui hD hD 4) hD exS = Some (tt, Some (-3)). Proof. by vm_compute. Qed.
Print Assumptions C48_divexact_ui.
(** Only 0 is divisible by 0. *)
Theorem C48_divisible_p st V W n d vn vd :
  Rep st V W -> V !! n = Some vn -> V !! d = Some vd ->
  calls (mpz_divisible_p n d) st (fun r st' => (r = true <-> (vd | vn)) /\ Rep st' V W).
Proof. intros H Hn Hd. eapply by_rule; [done|]. intros st1 HV. eapply wpV_divisible_p; [done..|]. intros st' r H' Hr. split; [done|by apply RV_done]. Qed.
Example C48_divisible_p_ex : result (mpz_divisible_p hD hE) hD exS = Some (true, Some vD) /\ result (mpz_divisible_p hD hC) hD exS = Some (false, Some vD).
Proof. split; by vm_compute. Qed.
Print Assumptions C48_divisible_p.
(** Defined for all arguments, and never negative. *)
Theorem C48_gcd st V W c a b va vb :
  Rep st V W -> is_Some (V !! c) -> V !! a = Some va -> V !! b = Some vb ->
  calls (mpz_gcd c a b) st (fun _ st' => Rep st' (<[c := Z.gcd va vb]> V) W).
Proof.
  intros H [vc Hc] Ha Hb. eapply by_rule; [done|]. intros st1 HV. eapply wpV_zgcd; [done..|]. intros st' H'. by apply RV_done.
Qed.
Example C48_gcd_ex : result (mpz_gcd hC hD hE) hC exS = Some (tt, Some 3) /\ result (mpz_gcd hE hC hC) hE exS = Some (tt, Some 0).
Proof. by vm_compute. Qed.
Print Assumptions C48_gcd.
Theorem C48_lcm st V W c a b va vb :
  Rep st V W -> is_Some (V !! c) -> V !! a = Some va -> V !! b = Some vb ->
  calls (mpz_lcm c a b) st (fun _ st' => Rep st' (<[c := Z.lcm va vb]> V) W).
Proof.
  intros H [vc Hc] Ha Hb. eapply by_rule; [done|]. intros st1 HV. eapply wpV_zlcm; [done..|]. intros st' H'. by apply RV_done.
Qed.
Example C48_lcm_ex : result (mpz_lcm hC hD hE) hC exS = Some (tt, Some 12) /\ result (mpz_lcm hE hC hC) hE exS = Some (tt, Some 0).
Proof. by vm_compute. Qed.
Print Assumptions C48_lcm.
(** Shifts of a non-zero number are below 2^32 bits; for longer ones see below. *)
Theorem C48_mul_2exp st V W c a k va :
  Rep st V W -> is_Some (V !! c) -> V !! a = Some va -> 0 <= k < 2 ^ 64 -> (va = 0 \/ k < 2 ^ 32) ->
  calls (mpz_mul_2exp c a k) st (fun _ st' => Rep st' (<[c := va * 2 ^ k]> V) W).
Proof.
  intros H [vc Hc] Ha Hk Hk2. eapply by_rule; [done|]. intros st1 HV. eapply wpV_mul_2exp; [done..|]. intros st' H'. by apply RV_done.
Qed.
Example C48_mul_2exp_ex : result (mpz_mul_2exp hC hD 70) hC exS = Some (tt, Some (-12 * 2 ^ 70)).
Proof. by vm_compute. Qed.
Print Assumptions C48_mul_2exp.
(** The number of bits is reduced modulo 2^32. *)
Theorem C48_mul_2exp_refuted : exists st V W c a k,
  Rep st V W /\ is_Some (V !! c) /\ V !! a = Some 3 /\ 0 <= k < 2 ^ 64 /\ result (mpz_mul_2exp c a k) c st = Some (tt, Some 3).
Proof.
  exists exS, exV, world0, hC, hE, (2 ^ 32). split; [apply ex_rep|]. split; [by vm_compute; eexists|]. split; [by vm_compute|]. split; [done|]. by vm_compute.
Qed.
Print Assumptions C48_mul_2exp_refuted.
(** From 2^63 on the conversion to a signed type makes it negative, and the
    assertion on the argument fails. *)
Theorem C48_mul_2exp_assert_refuted : exists st V W c a k,
  Rep st V W /\ is_Some (V !! c) /\ V !! a = Some 3 /\ 0 <= k < 2 ^ 64 /\ run true orc_yes (mpz_mul_2exp c a k) 0 st = AssertFail.
Proof.
  exists exS, exV, world0, hC, hE, (2 ^ 63). split; [apply ex_rep|]. split; [by vm_compute; eexists|]. split; [by vm_compute|]. split; [done|]. by vm_compute.
Qed.
Print Assumptions C48_mul_2exp_assert_refuted.
