(** Properties of the GMP interface (C51, C52), of the life of rationals (C53) and
    of the reported length of a text (C19).  See [Spec], [SpecRat], [SpecDec] and
    [SpecGstr]. *)
From Coq Require Import ZArith List Lia QArith.
From stdpp Require Import gmap list.
From Verif Require Import SpecHist.
From Verif Require Import Mem Prog Kern Fp Imath Imrat Gmp Exec Wp MemLem Dig KernLem Rel RelWp RelZ Life Basic Basic2 Mult Shift Knuth Divi Powr Spec Public Gcd SpecRat Rat Buf Text Read Outlen SpecDec Concrete ConcreteRat.
From Verif Require Import Inlen Bin Impexp Rsa RatText RatDec RatOut Gmpr SpecGstr Outup Gmpstr Hist.
Local Open Scope Z_scope.
Local Open Scope prog_scope.

Local Ltac chk rule :=
  intros; (eapply by_rule; [eassumption|]); intros; apply wp_check; (eapply rule; [eassumption..|]); intros; split; [done|]; by apply RV_done.

Lemma calls_mono {A} (p : prog A) st (Q Q' : A -> state -> Prop) : calls p st Q -> (forall a st', Q a st' -> Q' a st') -> calls p st Q'.
Proof. intros HC HQ orc t. specialize (HC orc t). destruct (run true orc p t st); auto. Qed.

(** ** C51 The functions of the GMP interface that correspond to one function of the
    library: the result goes to the first argument, which may be one of the others,
    and the assertion that the operation succeeds holds. *)
Theorem C51_add st V W c a b va vb :
  Rep st V W -> is_Some (V !! c) -> V !! a = Some va -> V !! b = Some vb ->
  calls (mpz_add c a b) st (fun _ st' => Rep st' (<[c := va + vb]> V) W).
Proof. intros H [vc Hc] Ha Hb. unfold mpz_add. chk wpV_add. Qed.
Example C51_add_ex : result (mpz_add hA hA hB) hA exS = Some (tt, Some (vA + vB)).
Proof. by vm_compute. Qed.
Print Assumptions C51_add.
Theorem C51_sub st V W c a b va vb :
  Rep st V W -> is_Some (V !! c) -> V !! a = Some va -> V !! b = Some vb ->
  calls (mpz_sub c a b) st (fun _ st' => Rep st' (<[c := va - vb]> V) W).
Proof. intros H [vc Hc] Ha Hb. unfold mpz_sub. chk wpV_sub. Qed.
Example C51_sub_ex : result (mpz_sub hB hA hB) hB exS = Some (tt, Some (vA - vB)).
Proof. by vm_compute. Qed.
Print Assumptions C51_sub.
Theorem C51_mul st V W c a b va vb :
  Rep st V W -> is_Some (V !! c) -> V !! a = Some va -> V !! b = Some vb ->
  calls (mpz_mul c a b) st (fun _ st' => Rep st' (<[c := va * vb]> V) W).
Proof. intros H [vc Hc] Ha Hb. unfold mpz_mul. chk wpV_mul. Qed.
Example C51_mul_ex : result (mpz_mul hB hB hB) hB exS = Some (tt, Some (vB * vB)).
Proof. by vm_compute. Qed.
Print Assumptions C51_mul.
Theorem C51_set st V W c a va :
  Rep st V W -> is_Some (V !! c) -> V !! a = Some va ->
  calls (mpz_set c a) st (fun _ st' => Rep st' (<[c := va]> V) W).
Proof. intros H [vc Hc] Ha. unfold mpz_set. chk wpV_copy. Qed.
Example C51_set_ex : result (mpz_set hC hB) hC exS = Some (tt, Some vB).
Proof. by vm_compute. Qed.
Print Assumptions C51_set.
Theorem C51_neg st V W c a va :
  Rep st V W -> is_Some (V !! c) -> V !! a = Some va ->
  calls (mpz_neg c a) st (fun _ st' => Rep st' (<[c := - va]> V) W).
Proof. intros H [vc Hc] Ha. unfold mpz_neg. chk wpV_neg. Qed.
Example C51_neg_ex : result (mpz_neg hB hB) hB exS = Some (tt, Some (- vB)).
Proof. by vm_compute. Qed.
Print Assumptions C51_neg.
Theorem C51_abs st V W c a va :
  Rep st V W -> is_Some (V !! c) -> V !! a = Some va ->
  calls (mpz_abs c a) st (fun _ st' => Rep st' (<[c := Z.abs va]> V) W).
Proof. intros H [vc Hc] Ha. unfold mpz_abs. chk wpV_abs. Qed.
Example C51_abs_ex : result (mpz_abs hE hB) hE exS = Some (tt, Some (2 ^ 64 + 7)).
Proof. by vm_compute. Qed.
Print Assumptions C51_abs.
(** The least [long] is left out, see C16. *)
Theorem C51_set_si st V W c v :
  Rep st V W -> is_Some (V !! c) -> - 2 ^ 63 < v < 2 ^ 63 ->
  calls (mpz_set_si c v) st (fun _ st' => Rep st' (<[c := v]> V) W).
Proof. intros H [vc Hc] Hv. unfold mpz_set_si. chk wpV_set_value. Qed.
Example C51_set_si_ex : result (mpz_set_si hA (- 2 ^ 63 + 1)) hA exS = Some (tt, Some (- 2 ^ 63 + 1)).
Proof. by vm_compute. Qed.
Print Assumptions C51_set_si.
Theorem C51_set_ui st V W c v :
  Rep st V W -> is_Some (V !! c) -> 0 <= v < 2 ^ 64 ->
  calls (mpz_set_ui c v) st (fun _ st' => Rep st' (<[c := v]> V) W).
Proof. intros H [vc Hc] Hv. unfold mpz_set_ui. chk wpV_set_uvalue. Qed.
Example C51_set_ui_ex : result (mpz_set_ui hA (2 ^ 64 - 1)) hA exS = Some (tt, Some (2 ^ 64 - 1)).
Proof. by vm_compute. Qed.
Print Assumptions C51_set_ui.
Theorem C51_swap st V W a c va vc :
  Rep st V W -> V !! a = Some va -> V !! c = Some vc ->
  calls (mpz_swap a c) st (fun _ st' => Rep st' (<[c := va]> (<[a := vc]> V)) W).
Proof. intros H Ha Hc. eapply by_rule; [done|]. intros st1 HV. eapply wpV_swap; [done..|]. intros st' H'. by apply RV_done. Qed.
Example C51_swap_ex : result (mpz_swap hB hE) hB exS = Some (tt, Some 3) /\ result (mpz_swap hB hE) hE exS = Some (tt, Some vB).
Proof. by vm_compute. Qed.
Print Assumptions C51_swap.
Theorem C51_cmp st V W a b va vb :
  Rep st V W -> V !! a = Some va -> V !! b = Some vb ->
  calls (mpz_cmp a b) st (fun r st' => ordered r va vb /\ st' = st).
Proof. intros H Ha Hb. apply wp_calls. apply Rep_RV in H. eapply wpV_compare; [done..|]. split; [apply ordered_sgn|done]. Qed.
Example C51_cmp_ex : result (mpz_cmp hB hD) hB exS = Some (-1, Some vB).
Proof. by vm_compute. Qed.
Print Assumptions C51_cmp.
Theorem C51_cmpabs st V W a b va vb :
  Rep st V W -> V !! a = Some va -> V !! b = Some vb ->
  calls (mpz_cmpabs a b) st (fun r st' => ordered r (Z.abs va) (Z.abs vb) /\ st' = st).
Proof. intros H Ha Hb. apply wp_calls. apply Rep_RV in H. eapply wpV_compare_unsigned; [done..|]. split; [apply ordered_sgn|done]. Qed.
Example C51_cmpabs_ex : result (mpz_cmpabs hB hD) hB exS = Some (1, Some vB).
Proof. by vm_compute. Qed.
Print Assumptions C51_cmpabs.
Theorem C51_cmp_si st V W a va v :
  Rep st V W -> V !! a = Some va -> - 2 ^ 63 <= v < 2 ^ 63 ->
  calls (mpz_cmp_si a v) st (fun r st' => ordered r va v /\ Rep st' V W).
Proof. intros H Ha Hv. eapply by_rule; [done|]. intros st1 HV. eapply wpV_compare_value; [done..|]. intros st' H'. split; [apply ordered_sgn|by apply RV_done]. Qed.
Example C51_cmp_si_ex : result (mpz_cmp_si hB (- 2 ^ 63)) hB exS = Some (-1, Some vB) /\ result (mpz_cmp_si hD (-12)) hD exS = Some (0, Some vD).
Proof. by vm_compute. Qed.
Print Assumptions C51_cmp_si.
Theorem C51_sgn st V W a va :
  Rep st V W -> V !! a = Some va ->
  calls (mpz_sgn a) st (fun r st' => ordered r va 0 /\ st' = st).
Proof. intros H Ha. apply wp_calls. apply Rep_RV in H. eapply wpV_compare_zero; [done..|]. split; [|done]. pose proof (ordered_sgn va 0) as E. by rewrite Z.sub_0_r in E. Qed.
Example C51_sgn_ex : result (mpz_sgn hB) hB exS = Some (-1, Some vB).
Proof. by vm_compute. Qed.
Print Assumptions C51_sgn.
(** A variable is zero after [mpz_init]; [mpz_clear] gives its storage back. *)
Theorem C51_init st V W o z :
  Rep st V W -> blanks W !! o = Some z ->
  calls (mpz_init o) st (fun _ st' => Rep st' (<[o := 0]> V) (World (bufs W) (delete o (blanks W)) (tunables W))).
Proof. intros H Ho. eapply by_rule; [done|]. intros st1 HV. unfold mpz_init. apply wp_check. eapply wpV_init; [exact HV|exact Ho|]. intros st' _ H'. split; [done|by apply RV_done]. Qed.
Example C51_init_ex : result (mpz_init (H 1)) (H 1) (declares [H 1; H 2]) = Some (tt, Some 0).
Proof. by vm_compute. Qed.
Print Assumptions C51_init.
Theorem C51_clear st V W o v :
  Rep st V W -> V !! o = Some v ->
  calls (mpz_clear o) st (fun _ st' => exists z, digits z = None /\ Rep st' (delete o V) (World (bufs W) (<[o := z]> (blanks W)) (tunables W))).
Proof. intros H Ho. eapply by_rule; [done|]. intros st1 HV. eapply wpV_clear; [exact HV|exact Ho|]. intros st' z D H'. exists z. split; [done|]. by apply RV_done. Qed.
Example C51_clear_ex : match exec (mpz_clear hA) exS with Done _ st' _ => size (mem st') = 9%nat | _ => False end /\ size (mem exS) = 10%nat.
Proof. by vm_compute. Qed.
Print Assumptions C51_clear.
(** Rationals. *)
Theorem C51_mpq_mul st V W a b c qa qb :
  Rep st V W -> structs [a; b; c] -> rat_at V a qa -> rat_at V b qb -> rat_live V c ->
  calls (mpq_mul c a b) st (fun _ st' => Rep st' (set_rat c (qa * qb) V) W).
Proof. unfold mpq_mul. chk wpV_rat_mul. Qed.
Example C51_mpq_mul_ex : result_rat (mpq_mul rA rB rA) rA exSq = Some (tt, Some (Qnum (Qred (qB * qA))), Some (Zpos (Qden (Qred (qB * qA))))).
Proof. by vm_compute. Qed.
Print Assumptions C51_mpq_mul.
Theorem C51_mpq_set st V W a c q :
  Rep st V W -> structs [a; c] -> rat_at V a q -> rat_live V c ->
  calls (mpq_set c a) st (fun _ st' => Rep st' (set_rat c q V) W).
Proof. unfold mpq_set. chk wpV_rat_copy. Qed.
Example C51_mpq_set_ex : result_rat (mpq_set rC rB) rC exSq = Some (tt, Some (-5), Some 12).
Proof. by vm_compute. Qed.
Print Assumptions C51_mpq_set.
Theorem C51_mpq_set_ui st V W r n d :
  Rep st V W -> structs [r] -> rat_live V r -> 0 <= n < 2 ^ 64 -> 0 < d < 2 ^ 64 ->
  calls (mpq_set_ui r n d) st (fun _ st' => Rep st' (set_rat r (frac n d) V) W).
Proof. intros H HS HL Hn Hd. eapply by_rule; [done|]. intros st1 HV. unfold mpq_set_ui. apply wp_check. eapply wpV_rat_set_uvalue; [exact HV|done|done|done|lia|lia|]. intros N st' HV'. split; [done|by apply RV_done]. Qed.
Example C51_mpq_set_ui_ex : result_rat (mpq_set_ui rA 84 63) rA exSq = Some (tt, Some 4, Some 3).
Proof. by vm_compute. Qed.
Print Assumptions C51_mpq_set_ui.
Theorem C51_mpq_canonicalize st V W r n d :
  Rep st V W -> structs [r] -> pair_at V r n d -> d <> 0 ->
  calls (mpq_canonicalize r) st (fun _ st' => Rep st' (set_rat r (frac n d) V) W).
Proof. intros H HS [Hn Hd] Hd0. eapply by_rule; [done|]. intros st1 HV. unfold mpq_canonicalize. apply wp_check. eapply wpV_rat_reduce; [exact HV|apply (HS r r); by left|exact Hn|exact Hd|done|by rewrite frac_eq|]. intros st' HV'. split; [done|by apply RV_done]. Qed.
Example C51_mpq_canonicalize_ex : result_rat (mpq_canonicalize (H 4, H 24)) (H 4, H 24) exSq = Some (tt, Some (-1), Some 1).
Proof. by vm_compute. Qed.
Print Assumptions C51_mpq_canonicalize.
Theorem C51_mpq_cmp st V W a b qa qb :
  Rep st V W -> rat_at V a qa -> rat_at V b qb ->
  calls (mpq_cmp a b) st (fun x st' => qordered x qa qb /\ Rep st' V W).
Proof. intros H Ha Hb. eapply by_rule; [done|]. intros st1 HV. eapply wpV_rat_compare; [done..|]. intros st' r HV' Hr _. split; [done|by apply RV_done]. Qed.
Example C51_mpq_cmp_ex : result (mpq_cmp rA rB) hA exSq = Some (1, Some vA) /\ result (mpq_cmp rB rC) hA exSq = Some (-1, Some vA).
Proof. by vm_compute. Qed.
Print Assumptions C51_mpq_cmp.
Theorem C51_mpq_sgn st V W a q :
  Rep st V W -> rat_at V a q ->
  calls (mpq_sgn a) st (fun x st' => qordered x q 0 /\ Rep st' V W).
Proof. intros H [Ha1 Ha2]. eapply by_rule; [done|]. intros st1 HV. eapply wpV_compare_zero; [exact HV|exact Ha1|]. split; [|by apply RV_done]. apply qordered_intro; change (Qnum (Qred 0)) with 0; change (Zpos (Qden (Qred 0))) with 1; lia. Qed.
Example C51_mpq_sgn_ex : result (mpq_sgn rB) hA exSq = Some (-1, Some vA).
Proof. by vm_compute. Qed.
Print Assumptions C51_mpq_sgn.
(** The numerator and the denominator, as integers one can use and change. *)
Theorem C51_mpq_refs V r q : rat_at V r q -> V !! mpq_numref r = Some (Qnum (Qred q)) /\ V !! mpq_denref r = Some (Zpos (Qden (Qred q))).
Proof. intros [H1 H2]. by split. Qed.
Example C51_mpq_refs_ex : result (mpz_add hC (mpq_numref rB) (mpq_denref rB)) hC exSq = Some (tt, Some 7).
Proof. by vm_compute. Qed.
Print Assumptions C51_mpq_refs.

(** ** C52 The text functions of the GMP interface *)
(** The text of a number, with lower case digits for a positive radix and upper case
    digits for a negative one, in a buffer that need not be longer than the text and
    its terminator.  For the restriction on the size see C19 (all numbers the
    library can hold in radix 10, and at least those below 2^20197 in every radix),
    and 2^29 bits, above which it is not shown here that the loop that changes the
    case stays within the text. *)
Theorem C52_get_str st V W z v radix b (off : nat) l s :
  Rep st V W -> V !! z = Some v -> bufs W !! b = Some l -> 2 <= Z.abs radix <= 36 ->
  Z.abs v < 2 ^ Z.min (enough_bits (Z.abs radix)) (2 ^ 29) ->
  gmp_numeral (radix <? 0) (Z.abs radix) v s -> (off + length s + 1 <= length l)%nat ->
  calls (mpz_get_str (b, Z.of_nat off) radix z) st (fun _ st' => Rep st' V (with_buf W b (overwrite off (s ++ [0]) l))).
Proof.
  intros H Hz Hb Hr Hv Hs Hl. eapply by_rule; [done|]. intros st1 HV. eapply wpV_get_str; [exact HV|exact Hz|exact Hb|exact Hr|exact Hv|exact Hs|exact Hl|]. intros st' H'. by apply RV_done_buf.
Qed.
(** -(2^64 + 7) in radix 16 and -16: a buffer of 19 bytes is enough. *)
Example C52_get_str_ex :
  gmp_numeral true 16 vB [45; 49; 48; 48; 48; 48; 48; 48; 48; 48; 48; 48; 48; 48; 48; 48; 48; 55] /\
  result_buf (mpz_get_str (bX, 0) (-16) hB) (exB 19) = Some (tt, Some (Some <$> [45; 49; 48; 48; 48; 48; 48; 48; 48; 48; 48; 48; 48; 48; 48; 48; 48; 55; 0])) /\
  result_buf (mpz_get_str (bX, 0) (-16) hD) (exB 3) = Some (tt, Some [Some 45; Some 67; Some 0]) /\ result_buf (mpz_get_str (bX, 0) 16 hD) (exB 3) = Some (tt, Some [Some 45; Some 99; Some 0]).
Proof. split; [|split; [by vm_compute|split; by vm_compute]]. exists [1; 0; 0; 0; 0; 0; 0; 0; 0; 0; 0; 0; 0; 0; 0; 0; 7]. split; [repeat constructor; lia|]. by repeat split. Qed.
Print Assumptions C52_get_str.
(** The text of a rational.  The function also reads, and may write back changed, up
    to two bytes behind the terminator; they have to be there and to hold ASCII
    characters. *)
Theorem C52_mpq_get_str st V W r q radix b (off : nat) l s :
  Rep st V W -> rat_at V r q -> bufs W !! b = Some l -> 2 <= Z.abs radix <= 36 ->
  Z.abs (Qnum (Qred q)) < 2 ^ Z.min (enough_bits (Z.abs radix)) (2 ^ 29) -> Zpos (Qden (Qred q)) < 2 ^ Z.min (enough_bits (Z.abs radix)) (2 ^ 29) ->
  gmp_ratio (radix <? 0) (Z.abs radix) q s -> (off + length s + 1 <= length l)%nat ->
  (Zpos (Qden (Qred q)) <> 1 -> forall i, (length s < i <= length s + 2)%nat -> exists c, l !! (off + i)%nat = Some (Some c) /\ 0 <= c < 128) ->
  calls (mpq_get_str (b, Z.of_nat off) radix r) st (fun _ st' => exists t, (length t <= 2)%nat /\ Rep st' V (with_buf W b (overwrite off (s ++ 0 :: t) l))).
Proof.
  intros H Hr Hb Hx Hn Hd Hs Hl Ho. eapply by_rule; [done|]. intros st1 HV. eapply wpV_get_ratio; [exact HV|exact Hr|exact Hb|exact Hx|exact Hn|exact Hd|exact Hs|exact Hl|exact Ho|]. intros st' t Ht H'. exists t. split; [done|]. by apply RV_done_buf.
Qed.
Example C52_mpq_get_str_ex :
  gmp_ratio false 10 qB [45; 53; 47; 49; 50] /\
  result_buf (mpq_get_str (bX, 0) 10 rB) (put_buf bX (replicate 8 (Some 32)) exSq) = Some (tt, Some (Some <$> [45; 53; 47; 49; 50; 0; 32; 32])).
Proof. split; [exists [45; 53], [49; 50]; split; [exists [5]; by repeat constructor|]; split; [exists [1; 2]; by repeat constructor|done]|by vm_compute]. Qed.
Print Assumptions C52_mpq_get_str.
(** An integer needs nothing behind its terminator. *)
Theorem C52_mpq_get_str_int st V W r q radix b (off : nat) l s :
  Rep st V W -> rat_at V r q -> bufs W !! b = Some l -> 2 <= Z.abs radix <= 36 -> Zpos (Qden (Qred q)) = 1 ->
  Z.abs (Qnum (Qred q)) < 2 ^ Z.min (enough_bits (Z.abs radix)) (2 ^ 29) ->
  gmp_numeral (radix <? 0) (Z.abs radix) (Qnum (Qred q)) s -> (off + length s + 1 <= length l)%nat ->
  calls (mpq_get_str (b, Z.of_nat off) radix r) st (fun _ st' => Rep st' V (with_buf W b (overwrite off (s ++ [0]) l))).
Proof.
  intros H [Hn Hd] Hb Hx Hd1 Bn Hs Hl. eapply by_rule; [done|]. intros st1 HV. unfold mpq_get_str, mp_rat_denom_ref, mp_rat_numer_ref. wb. rewrite Hd1 in Hd.
  eapply wpV_compare_value; [exact HV|exact Hd|lia|]. intros st2 HV2. change (Z.sgn (1 - 1) =? 0) with true. cbv iota.
  eapply wpV_get_str; [exact HV2|exact Hn|exact Hb|exact Hx|exact Bn|exact Hs|exact Hl|]. intros st' H'. by apply RV_done_buf.
Qed.
Example C52_mpq_get_str_int_ex : result_buf (mpq_get_str (bX, 0) 10 rC) (put_buf bX (replicate 2 None) exSq) = Some (tt, Some [Some 48; Some 0]) /\ Zpos (Qden (Qred 0)) = 1.
Proof. by vm_compute. Qed.
Print Assumptions C52_mpq_get_str_int.
(** 8/9 and a fresh buffer of 64 bytes: the case loop runs over [string_len] = 6
    bytes although the text and its terminator have 4, and reads bytes that nobody
    has written. *)
Theorem C52_mpq_get_str_refuted : exists st V W r q b l,
  Rep st V W /\ rat_at V r q /\ (q == 8 # 9)%Q /\ bufs W !! b = Some l /\ length l = 64%nat /\
  gmp_ratio false 10 q [56; 47; 57] /\ run false orc_yes (mpq_get_str (b, 0) 10 r) 0 st = UB.
Proof.
  exists (put_buf bX (replicate 64 None) (put (H 28) 9 (put (H 27) 8 exSq))), (<[H 28 := 9]> (<[H 27 := 8]> exVq)), (exW 64), (H 27, H 28), (8 # 9)%Q, bX, (replicate 64 None).
  split; [apply Rep_put_buf; [do 2 (apply Rep_put; [|reflexivity|by vm_compute]); apply exq_rep|by vm_compute|done]|].
  split; [by vm_compute|]. split; [done|]. split; [by vm_compute|]. split; [done|].
  split; [exists [56], [57]; split; [exists [8]; by repeat constructor|]; split; [exists [9]; by repeat constructor|done]|by vm_compute].
Qed.
Print Assumptions C52_mpq_get_str_refuted.
(** Reading: the value of the digits is stored; the result is 0 if the whole string
    was read, and -1 otherwise. *)
Theorem C52_set_str st V W z base s v rest :
  Rep st V W -> is_Some (V !! z) -> 2 <= base <= 36 -> Z.of_nat (length s) < 2 ^ 31 -> reads base s v rest ->
  calls (mpz_set_str z s base) st (fun x st' => x = (match rest with [] => 0 | _ => -1 end) /\ Rep st' (<[z := v]> V) W).
Proof.
  intros H [v0 Hz] Hb Hl Hs. eapply by_rule; [done|]. intros st1 HV. eapply wpV_set_str; [exact HV|exact Hz|done|exact Hs|done|]. intros st' H'. split; [done|by apply RV_done].
Qed.
(** "-1Az" in radix 16. *)
Example C52_set_str_ex : result (mpz_set_str hC [45; 49; 65] 16) hC exS = Some (0, Some (-26)) /\ result (mpz_set_str hC [45; 49; 65; 122] 16) hC exS = Some (-1, Some (-26)) /\
  reads 16 [45; 49; 65; 122] (-26) [122].
Proof. split; [by vm_compute|]. split; [by vm_compute|]. exists [], [45], [49; 65], [1; 10]. split; [|done]. split; [done|]. split; [constructor|]. split; [tauto|]. split; [by repeat constructor|]. split; [|done]. intros c x [= <-] [[= <-] ?]. lia. Qed.
Print Assumptions C52_set_str.
Theorem C52_mpq_set_str st V W r base s1 s2 n d rest1 rest2 :
  Rep st V W -> structs [r] -> rat_live V r -> 2 <= base <= 36 -> Z.of_nat (length s1) < 2 ^ 31 -> Z.of_nat (length s2) < 2 ^ 31 ->
  47 ∉ s1 -> reads base s1 n rest1 -> reads base s2 d rest2 ->
  calls (mpq_set_str r (s1 ++ 47 :: s2) base) st (fun x st' =>
    x = (match rest1, rest2 with [], [] => 0 | _, _ => -1 end) /\ Rep st' (<[snd r := d]> (<[fst r := n]> V)) W).
Proof.
  intros H HS [[v1 H1] [v2 H2]] Hb L1 L2 N47 R1 R2. assert (fst r <> snd r) as N by (apply (HS r r); by left).
  eapply by_rule; [done|]. intros st1 HV. unfold mpq_set_str, mp_rat_numer_ref, mp_rat_denom_ref, num, den. rewrite split_at_some by done. cbn [fst snd].
  wb. unfold mp_int_read_string. wb. eapply wpV_read_reads; [exact HV|exact H1|done|exact R1|done|]. intros st2 HV2. apply wp_ret.
  wb. wb. eapply wpV_read_reads; [exact HV2|rewrite lookup_insert_ne by done; exact H2|done|exact R2|done|]. intros st3 HV3. apply wp_ret. apply wp_ret.
  split; [by destruct rest1, rest2|by apply RV_done].
Qed.
(** "-6/4" and "3/04x" *)
Example C52_mpq_set_str_ex : result_rat (mpq_set_str rA [45; 54; 47; 52] 10) rA exSq = Some (0, Some (-6), Some 4) /\ result_rat (mpq_set_str rA [51; 47; 48; 52; 120] 10) rA exSq = Some (-1, Some 3, Some 4).
Proof. by vm_compute. Qed.
Print Assumptions C52_mpq_set_str.
Theorem C52_mpq_set_str_int st V W r base s n rest :
  Rep st V W -> structs [r] -> rat_live V r -> 2 <= base <= 36 -> Z.of_nat (length s) < 2 ^ 31 -> 47 ∉ s -> reads base s n rest ->
  calls (mpq_set_str r s base) st (fun x st' => x = (match rest with [] => 0 | _ => -1 end) /\ Rep st' (set_rat r (inject_Z n) V) W).
Proof.
  intros H HS [[v1 H1] [v2 H2]] Hb L1 N47 R1. assert (fst r <> snd r) as N by (apply (HS r r); by left).
  eapply by_rule; [done|]. intros st1 HV. unfold mpq_set_str, mp_rat_numer_ref, mp_rat_denom_ref, num, den. rewrite split_at_none by done. cbn [fst snd].
  wb. unfold mp_int_read_string. wb. eapply wpV_read_reads; [exact HV|exact H1|done|exact R1|done|]. intros st2 HV2. apply wp_ret.
  wb. eapply wpV_set_uvalue; [exact HV2|rewrite lookup_insert_ne by done; exact H2|lia|]. intros st3 HV3. apply wp_ret.
  split; [by destruct rest|apply RV_done]. eapply RV_eqV; [exact HV3|]. unfold set_rat. rewrite Qred_int. done.
Qed.
Example C52_mpq_set_str_int_ex : result_rat (mpq_set_str rA [45; 54] 10) rA exSq = Some (0, Some (-6), Some 1).
Proof. by vm_compute. Qed.
Print Assumptions C52_mpq_set_str_int.
(** What [mpz_get_str] writes, [mpz_set_str] reads back (a string that is read is given
    by its characters, so this is about any [s] that can be written). *)
Theorem C52_round_trip st V W z v radix up s y :
  Rep st V W -> V !! z = Some v -> is_Some (V !! y) -> 2 <= radix <= 36 -> gmp_numeral up radix v s -> Z.of_nat (length s) < 2 ^ 31 ->
  calls (mpz_set_str y s radix) st (fun x st' => x = 0 /\ Rep st' (<[y := v]> V) W).
Proof.
  intros H Hz [v0 Hy] Hr Hs Hl. eapply by_rule; [done|]. intros st1 HV. eapply (wpV_set_str _ _ _ _ _ _ _ v []); [exact HV|exact Hy|done|by apply gmp_numeral_reads in Hs|done|]. intros st' H'. split; [done|by apply RV_done].
Qed.
Example C52_round_trip_ex : result (mpz_set_str hC [45; 99] 16) hC exS = Some (0, Some vD) /\ gmp_numeral false 16 vD [45; 99].
Proof. split; [by vm_compute|]. exists [12]. by repeat constructor. Qed.
Print Assumptions C52_round_trip.
Theorem C52_mpq_round_trip st V W r q radix up s y :
  Rep st V W -> structs [r; y] -> rat_at V r q -> rat_live V y -> 2 <= radix <= 36 -> gmp_ratio up radix q s -> Z.of_nat (length s) < 2 ^ 31 ->
  calls (mpq_set_str y s radix) st (fun x st' => x = 0 /\ Rep st' (set_rat y q V) W).
Proof.
  intros H HS Hq HL Hr (n & d & Hn & Hd & E) Hl. assert (structs [y]) as HS1 by (intros a b [<-|[]] [<-|[]]; apply (HS y y); right; by left).
  pose proof (gmp_numeral_reads _ _ _ _ Hr Hn) as Rn. pose proof (gmp_numeral_reads _ _ _ _ Hr Hd) as Rd.
  pose proof (gmp_numeral_no47 _ _ _ _ Hr Hn) as N1.
  destruct (Z.eqb_spec (Zpos (Qden (Qred q))) 1) as [E1|E1]; subst s.
  - eapply calls_mono; [eapply C52_mpq_set_str_int; [done|exact HS1|done|done|done|exact N1|exact Rn]|]. intros x st' [-> HR]. split; [done|].
    unfold set_rat in *. rewrite Qred_int in HR. by rewrite E1.
  - rewrite app_length in Hl. cbn [length] in Hl. eapply calls_mono; [eapply (C52_mpq_set_str _ _ _ _ _ n d); [done|exact HS1|done|done|lia|lia|exact N1|exact Rn|exact Rd]|]. intros x st' [-> HR]. by split.
Qed.
Example C52_mpq_round_trip_ex : result_rat (mpq_set_str rC [45; 53; 47; 49; 50] 10) rC exSq = Some (0, Some (-5), Some 12).
Proof. by vm_compute. Qed.
Print Assumptions C52_mpq_round_trip.
(** The number of digits, or one more; exact for a power of two. *)
Theorem C52_sizeinbase st V W z v base D :
  Rep st V W -> V !! z = Some v -> 2 <= base <= 36 -> Z.abs v < 2 ^ Z.min (enough_bits base) (2 ^ 29) -> digit_count base v D ->
  calls (mpz_sizeinbase z base) st (fun x st' => D <= x <= D + 1 /\ ((exists j, base = 2 ^ j) -> x = D) /\ st' = st).
Proof.
  intros H Hz Hb Hv HD. apply wp_calls. apply Rep_RV in H. unfold mpz_sizeinbase. wb. eapply wpV_compare_zero; [exact H|exact Hz|].
  destruct (Z.eqb_spec (Z.sgn v) 0) as [E|E].
  { apply wp_ret. assert (v = 0) as -> by lia. destruct HD as (D1 & _ & D3). assert (D = 1) as ->; [|split; [lia|done]].
    destruct (Z.eq_dec D 1); [done|]. specialize (D3 ltac:(lia)). assert (0 < base ^ (D - 1)) by (apply Z.pow_pos_nonneg; lia). lia. }
  destruct (numeral_exists base v ltac:(lia)) as [s Hs]. pose proof (string_len_bounds base v s Hb Hv Hs) as HB. pose proof (digit_count_numeral _ _ _ _ (proj1 Hb) Hs HD) as EL.
  assert ((exists j, base = 2 ^ j) -> outlen (bitlen v) base = D) as HX.
  { intros [j ->]. assert (1 <= j <= 5) as Hj. { assert (0 <= j) by (destruct (Z.neg_nonneg_cases j); [rewrite Z.pow_neg_r in Hb by done; lia|done]). split; [destruct (Z.eq_dec j 0); [subst j; cbn in Hb; lia|lia]|]. destruct (Z.le_gt_cases j 5); [done|]. pose proof (Z.pow_le_mono_r 2 6 j ltac:(lia) ltac:(lia)). change (2 ^ 6) with 64 in *. lia. }
    rewrite (outlen_exact j v s Hj); [rewrite EL; lia| |done]. apply (bitlen_le v (Z.min (enough_bits (2 ^ j)) (2 ^ 29))) in Hv; [lia|]. pose proof (enough_bits_pos (2 ^ j)). lia. }
  assert (bitlen v <= 2 ^ 29) as HBL. { apply (bitlen_le v (Z.min (enough_bits base) (2 ^ 29))) in Hv; [lia|]. pose proof (enough_bits_pos base). lia. }
  pose proof (outlen_tight base v s Hb HBL Hs) as HT. clear Hv.
  wb. eapply wpV_string_len; [exact H|exact Hz|done|]. set (N := outlen (bitlen v) base) in *. destruct HD as [D1 _].
  assert (Z.of_nat (length s) < 2 ^ 31) as L31 by (eapply (numeral_short _ _ _ _ _ _ _ H Hz (proj1 Hb) Hs)).
  wb. apply wp_assert; [destruct (v <? 0); lia|]. wb. eapply wpV_compare_zero; [exact H|exact Hz|]. apply wp_ret.
  destruct (Z.ltb_spec v 0); (destruct (Z.ltb_spec (Z.sgn v) 0); [|lia]) || (destruct (Z.ltb_spec (Z.sgn v) 0); [lia|]).
  - unfold w64. rewrite Z.mod_small by lia. split; [lia|]. split; [intros J; specialize (HX J); lia|done].
  - unfold w64. rewrite Z.mod_small by lia. split; [lia|]. split; [intros J; specialize (HX J); lia|done].
Qed.
Example C52_sizeinbase_ex : result (mpz_sizeinbase hA 10) hA exS = Some (31, Some vA) /\ result (mpz_sizeinbase hB 16) hB exS = Some (17, Some vB) /\ digit_count 10 vA 31 /\ digit_count 16 vB 17 /\
  result (mpz_sizeinbase hE 10) hE exS = Some (1, Some 3).
Proof. split; [by vm_compute|]. split; [by vm_compute|]. split; [by vm_compute|]. split; by vm_compute. Qed.
Print Assumptions C52_sizeinbase.

(** ** C53 The life of a rational *)
(** After [mp_rat_init] a rational is 0/1, after [mp_rat_init_copy] it has the
    value of the other, and after [mp_rat_clear] its storage is back. *)
Theorem C53_init st V W r zn zd :
  Rep st V W -> fst r <> snd r -> blanks W !! fst r = Some zn -> blanks W !! snd r = Some zd ->
  calls (mp_rat_init r) st (fun x st' => x = MP_OK /\ Rep st' (set_rat r 0 V) (World (bufs W) (delete (snd r) (delete (fst r) (blanks W))) (tunables W))).
Proof.
  intros H N Hn Hd. eapply by_rule; [done|]. intros st1 HV. eapply wpV_rat_init; [exact HV|done|exact Hn|exact Hd|]. intros st' _ _ H'. split; [done|by apply RV_done].
Qed.
Example C53_init_ex : result_rat (mp_rat_init (H 1, H 2)) (H 1, H 2) (declares [H 1; H 2]) = Some (MP_OK, Some 0, Some 1). Proof. by vm_compute. Qed.
Print Assumptions C53_init.
Theorem C53_init_size st V W r zn zd pn pd :
  Rep st V W -> fst r <> snd r -> blanks W !! fst r = Some zn -> blanks W !! snd r = Some zd -> 0 <= pn < 2 ^ 32 - 1 -> 0 <= pd < 2 ^ 32 - 1 ->
  calls (mp_rat_init_size r pn pd) st (fun x st' => x = MP_OK /\ Rep st' (set_rat r 0 V) (World (bufs W) (delete (snd r) (delete (fst r) (blanks W))) (tunables W))).
Proof.
  intros H N Hn Hd Hpn Hpd. eapply by_rule; [done|]. intros st1 HV. eapply wpV_rat_init_size; [exact HV|done|exact Hn|exact Hd|done|done|]. intros st' _ _ H'. split; [done|by apply RV_done].
Qed.
Example C53_init_size_ex : result_rat (mp_rat_init_size (H 1, H 2) 0 9) (H 1, H 2) (declares [H 1; H 2]) = Some (MP_OK, Some 0, Some 1). Proof. by vm_compute. Qed.
Print Assumptions C53_init_size.
Theorem C53_init_copy st V W r a q zn zd :
  Rep st V W -> fst r <> snd r -> blanks W !! fst r = Some zn -> blanks W !! snd r = Some zd -> rat_at V a q ->
  calls (mp_rat_init_copy r a) st (fun x st' => x = MP_OK /\ Rep st' (set_rat r q V) (World (bufs W) (delete (snd r) (delete (fst r) (blanks W))) (tunables W))).
Proof.
  intros H N Hn Hd Ha. eapply by_rule; [done|]. intros st1 HV. eapply wpV_rat_init_copy; [exact HV|done|exact Hn|exact Hd|exact Ha|]. intros st' _ _ H'. split; [done|by apply RV_done].
Qed.
Example C53_init_copy_ex : result_rat (mp_rat_init (H 3, H 4);; mp_rat_set_value (H 3, H 4) 14 (-4);; mp_rat_init_copy (H 1, H 2) (H 3, H 4)) (H 1, H 2) (declares [H 1; H 2; H 3; H 4]) = Some (MP_OK, Some (-7), Some 2). Proof. by vm_compute. Qed.
Print Assumptions C53_init_copy.
Theorem C53_clear st V W r :
  Rep st V W -> fst r <> snd r -> rat_live V r ->
  calls (mp_rat_clear r) st (fun _ st' => exists zn zd, digits zn = None /\ digits zd = None /\
    Rep st' (delete (snd r) (delete (fst r) V)) (World (bufs W) (<[snd r := zd]> (<[fst r := zn]> (blanks W))) (tunables W))).
Proof.
  intros H N [[vn Hn] [vd Hd]]. eapply by_rule; [done|]. intros st1 HV. eapply wpV_rat_clear; [exact HV|done|exact Hn|exact Hd|]. intros st' zn zd D1 D2 H'. exists zn, zd. split; [done|]. split; [done|by apply RV_done].
Qed.
Example C53_clear_ex : match exec (mp_rat_clear rA) exSq with Done _ st' _ => size (mem st') = (size (mem exSq) - 2)%nat | _ => False end /\ rat_live exVq rA.
Proof. split; [by vm_compute|]. split; eexists; by vm_compute. Qed.
Print Assumptions C53_clear.
(** The same through the GMP interface. *)
Theorem C51_mpq_init st V W r zn zd :
  Rep st V W -> fst r <> snd r -> blanks W !! fst r = Some zn -> blanks W !! snd r = Some zd ->
  calls (mpq_init r) st (fun _ st' => Rep st' (set_rat r 0 V) (World (bufs W) (delete (snd r) (delete (fst r) (blanks W))) (tunables W))).
Proof.
  intros H N Hn Hd. eapply by_rule; [done|]. intros st1 HV. unfold mpq_init. apply wp_check. eapply wpV_rat_init; [exact HV|done|exact Hn|exact Hd|]. intros st' _ _ H'. split; [done|by apply RV_done].
Qed.
Example C51_mpq_init_ex : result_rat (mpq_init (H 1, H 2)) (H 1, H 2) (declares [H 1; H 2]) = Some (tt, Some 0, Some 1). Proof. by vm_compute. Qed.
Print Assumptions C51_mpq_init.
Theorem C51_mpq_clear st V W r :
  Rep st V W -> fst r <> snd r -> rat_live V r ->
  calls (mpq_clear r) st (fun _ st' => exists zn zd, digits zn = None /\ digits zd = None /\
    Rep st' (delete (snd r) (delete (fst r) V)) (World (bufs W) (<[snd r := zd]> (<[fst r := zn]> (blanks W))) (tunables W))).
Proof. apply C53_clear. Qed.
Example C51_mpq_clear_ex : match exec (mpq_clear rA) exSq with Done _ st' _ => size (mem st') = (size (mem exSq) - 2)%nat | _ => False end /\ rat_live exVq rA.
Proof. split; [by vm_compute|]. split; eexists; by vm_compute. Qed.
Print Assumptions C51_mpq_clear.
(** [mp_rat_alloc] gives a fresh rational 0/1 or NULL; [mp_rat_free] takes it back. *)
Theorem C53_alloc st V W :
  Rep st V W ->
  calls mp_rat_alloc st (fun x st' => match x with
    | Some r => fst r <> snd r /\ V !! fst r = None /\ V !! snd r = None /\ blanks W !! fst r = None /\ blanks W !! snd r = None /\ heap_made r /\ Rep st' (set_rat r 0 V) W
    | None => Rep st' V W
    end).
Proof.
  intros H. eapply by_rule; [done|]. intros st1 HV. eapply wpV_rat_alloc; [exact HV|intros st2 H2; by apply RV_done|].
  intros r st2 N V1 V2 B1 B2 M H2. split; [done|]. split; [done|]. split; [done|]. split; [done|]. split; [done|]. split; [done|by apply RV_done].
Qed.
Example C53_alloc_ex : match exec mp_rat_alloc exS with Done (Some r) st' _ => value_of st' (fst r) = Some 0 /\ value_of st' (snd r) = Some 1 | _ => False end.
Proof. by vm_compute. Qed.
Print Assumptions C53_alloc.
Theorem C53_free st V W r :
  Rep st V W -> fst r <> snd r -> rat_live V r -> heap_made r ->
  calls (mp_rat_free r) st (fun _ st' => Rep st' (delete (snd r) (delete (fst r) V)) W).
Proof.
  intros H N [[vn Hn] [vd Hd]] M. eapply by_rule; [done|]. intros st1 HV. eapply wpV_rat_free; [exact HV|done|exact Hn|exact Hd|exact M|]. intros st' H'. by apply RV_done.
Qed.
Example C53_free_ex : match exec (r <- mp_rat_alloc; match r with Some r => mp_rat_free r | None => Ret tt end) exS with Done _ st' _ => size (objs st') = size (objs exS) /\ size (mem st') = size (mem exS) | _ => False end /\ heap_made rA.
Proof. by vm_compute. Qed.
Print Assumptions C53_free.
(** The numerator and the denominator, copied out. *)
Theorem C53_numer st V W r q c :
  Rep st V W -> rat_at V r q -> is_Some (V !! c) ->
  calls (mp_rat_numer r c) st (fun x st' => x = MP_OK /\ Rep st' (<[c := Qnum (Qred q)]> V) W).
Proof. intros H [Hn Hd] [vc Hc]. eapply by_rule; [done|]. intros st1 HV. eapply wpV_copy; [exact HV|exact Hn|exact Hc|]. intros st' H'. split; [done|by apply RV_done]. Qed.
Example C53_numer_ex : result (mp_rat_numer rB hA) hA exSq = Some (MP_OK, Some (-5)). Proof. by vm_compute. Qed.
Print Assumptions C53_numer.
Theorem C53_denom st V W r q c :
  Rep st V W -> rat_at V r q -> is_Some (V !! c) ->
  calls (mp_rat_denom r c) st (fun x st' => x = MP_OK /\ Rep st' (<[c := Zpos (Qden (Qred q))]> V) W).
Proof. intros H [Hn Hd] [vc Hc]. eapply by_rule; [done|]. intros st1 HV. eapply wpV_copy; [exact HV|exact Hd|exact Hc|]. intros st' H'. split; [done|by apply RV_done]. Qed.
Example C53_denom_ex : result (mp_rat_denom rB hA) hA exSq = Some (MP_OK, Some 12). Proof. by vm_compute. Qed.
Print Assumptions C53_denom.

(** ** C19 The reported length is not much too long *)
(** It counts at most one character more than the text and its terminator, and none
    more in a radix that is a power of two (numbers up to 2^29 bits, under the
    restriction of [C19_string_len]). *)
Theorem C19_string_len_tight st V W z v r s :
  Rep st V W -> V !! z = Some v -> 2 <= r <= 36 -> Z.abs v < 2 ^ Z.min (enough_bits r) (2 ^ 29) -> numeral r v s ->
  calls (mp_int_string_len z r) st (fun n st' => st' = st /\ Z.of_nat (length s) + 1 <= n <= Z.of_nat (length s) + 2 /\ ((exists j, r = 2 ^ j) -> n = Z.of_nat (length s) + 1)).
Proof.
  intros H Hz Hr Hv Hs. apply wp_calls. apply Rep_RV in H. eapply wpV_string_len; [exact H|exact Hz|done|]. split; [done|]. split; [by apply string_len_bounds|].
  intros [j ->]. assert (1 <= j <= 5) as Hj by (apply pow2_radix; lia).
  rewrite (outlen_exact j v s Hj); [destruct (v <? 0); lia| |done]. apply (bitlen_le v (Z.min (enough_bits (2 ^ j)) (2 ^ 29))) in Hv; [lia|]. pose proof (enough_bits_pos (2 ^ j)). lia.
Qed.
Example C19_string_len_tight_ex : result (mp_int_string_len hD 10) hD exS = Some (4, Some vD) /\ result (mp_int_string_len hE 10) hE exS = Some (2, Some 3) /\ numeral 10 3 [51].
Proof. split; [by vm_compute|]. split; [by vm_compute|]. exists [3]. by repeat constructor. Qed.
Print Assumptions C19_string_len_tight.
