(** Properties of rational arithmetic (C35-C38).

    [rat_at V a q]: the structure [a] holds the rational [q] in lowest terms;
    [set_rat c q V]: the store with [q], in lowest terms, in [c].  Both are
    written with [Qred] of the standard library; C35 says what that means. *)
From Coq Require Import ZArith List Lia QArith Qabs Qpower.
From stdpp Require Import gmap list.
From Verif Require Import Mem Prog Kern Imath Imrat Exec Spec Public SpecRat Rat Concrete ConcreteRat.
Local Open Scope Z_scope.

Local Ltac pub rule :=
  intros; (eapply by_rule; [eassumption|]); intros; (eapply rule; [eassumption..|]); intros; split; [done|]; by apply RV_done.

(** ** C35 Rationals stay in lowest terms *)
(** What is stored for [q] has a positive denominator, no common factor, the
    value [q]; zero is 0/1. *)
Theorem C35_lowest_terms V r q : fst r <> snd r ->
  exists n d, set_rat r q V !! fst r = Some n /\ set_rat r q V !! snd r = Some (Zpos d) /\
    Z.gcd n (Zpos d) = 1 /\ (q == n # d)%Q /\ (n = 0 -> d = 1%positive).
Proof.
  intros N. destruct (rat_at_set V r q N) as [H1 H2]. exists (Qnum (Qred q)), (Qden (Qred q)). destruct (Qred_num_den q) as [_ G]. split_and!; [done|done|done| |].
  - rewrite <- (Qred_correct q) at 1. by destruct (Qred q).
  - intros E. rewrite E, Z.gcd_0_l in G. lia.
Qed.
Example C35_lowest_terms_ex : (set_rat rC (6 # 4) exVq !! fst rC = Some 3) /\ (set_rat rC (6 # 4) exVq !! snd rC = Some 2) /\ fst rC <> snd rC.
Proof. by vm_compute. Qed.
Print Assumptions C35_lowest_terms.
(** The representation is the only one with these properties. *)
Theorem C35_unique V r q n d : V !! fst r = Some n -> V !! snd r = Some (Zpos d) -> Z.gcd n (Zpos d) = 1 -> (q == n # d)%Q -> rat_at V r q.
Proof.
  intros Hn Hd G E. unfold Qeq in E. cbn [Qnum Qden] in E. destruct (red_unique n (Zpos d) q) as [E1 E2]; [lia|done|lia|]. split; congruence.
Qed.
Example C35_unique_ex : exVq !! fst rB = Some (-5) /\ exVq !! snd rB = Some 12 /\ Z.gcd (-5) 12 = 1 /\ (qB == -5 # 12)%Q.
Proof. by vm_compute. Qed.
Print Assumptions C35_unique.
(** [mp_rat_reduce] brings any quotient with a non-zero denominator to lowest
    terms. *)
Theorem C35_reduce st V W r n d :
  Rep st V W -> structs [r] -> pair_at V r n d -> d <> 0 ->
  calls (mp_rat_reduce r) st (fun x st' => x = MP_OK /\ Rep st' (set_rat r (frac n d) V) W).
Proof.
  intros H HS [Hn Hd] Hd0. eapply by_rule; [done|]. intros st1 HV. eapply wpV_rat_reduce; [exact HV|apply (HS r r); by left|exact Hn|exact Hd|done|by rewrite frac_eq|].
  intros st' HV'. split; [done|by apply RV_done].
Qed.
Example C35_reduce_ex : result_rat (mp_rat_reduce (H 4, H 24)) (H 4, H 24) exSq = Some (MP_OK, Some (-1), Some 1).
Proof. by vm_compute. Qed.
Print Assumptions C35_reduce.
Theorem C35_set_value st V W r n d :
  Rep st V W -> structs [r] -> rat_live V r -> - 2 ^ 63 < n < 2 ^ 63 -> - 2 ^ 63 < d < 2 ^ 63 ->
  calls (mp_rat_set_value r n d) st (fun x st' =>
    if d =? 0 then x = MP_UNDEF /\ Rep st' V W else x = MP_OK /\ Rep st' (set_rat r (frac n d) V) W).
Proof.
  intros H HS HL Hn Hd. eapply by_rule; [done|]. intros st1 HV. eapply wpV_rat_set_value; [exact HV|done|done|done|done| |].
  - intros ->. split; [done|by apply RV_done].
  - intros N st' HV'. destruct (Z.eqb_spec d 0); [done|]. split; [done|by apply RV_done].
Qed.
Example C35_set_value_ex : result_rat (mp_rat_set_value rA 84 (-63)) rA exSq = Some (MP_OK, Some (-4), Some 3).
Proof. by vm_compute. Qed.
Print Assumptions C35_set_value.
Theorem C35_set_uvalue st V W r n d :
  Rep st V W -> structs [r] -> rat_live V r -> 0 <= n < 2 ^ 64 -> 0 <= d < 2 ^ 64 ->
  calls (mp_rat_set_uvalue r n d) st (fun x st' =>
    if d =? 0 then x = MP_UNDEF /\ Rep st' V W else x = MP_OK /\ Rep st' (set_rat r (frac n d) V) W).
Proof.
  intros H HS HL Hn Hd. eapply by_rule; [done|]. intros st1 HV. eapply wpV_rat_set_uvalue; [exact HV|done|done|done|done| |].
  - intros ->. split; [done|by apply RV_done].
  - intros N st' HV'. destruct (Z.eqb_spec d 0); [done|]. split; [done|by apply RV_done].
Qed.
Example C35_set_uvalue_ex : result_rat (mp_rat_set_uvalue rA (2 ^ 64 - 1) (2 ^ 32 - 1)) rA exSq = Some (MP_OK, Some (2 ^ 32 + 1), Some 1).
Proof. by vm_compute. Qed.
Print Assumptions C35_set_uvalue.

(** ** C36 Rational arithmetic is exact *)
Theorem C36_add st V W a b c qa qb :
  Rep st V W -> structs [a; b; c] -> rat_at V a qa -> rat_at V b qb -> rat_live V c ->
  calls (mp_rat_add a b c) st (fun x st' => x = MP_OK /\ Rep st' (set_rat c (qa + qb) V) W).
Proof. pub wpV_rat_add. Qed.
Example C36_add_ex : result_rat (mp_rat_add rA rB rA) rA exSq = Some (MP_OK, Some (Qnum (Qred (qA + qB))), Some (Zpos (Qden (Qred (qA + qB))))).
Proof. by vm_compute. Qed.
Print Assumptions C36_add.
Theorem C36_sub st V W a b c qa qb :
  Rep st V W -> structs [a; b; c] -> rat_at V a qa -> rat_at V b qb -> rat_live V c ->
  calls (mp_rat_sub a b c) st (fun x st' => x = MP_OK /\ Rep st' (set_rat c (qa - qb) V) W).
Proof. pub wpV_rat_sub. Qed.
Example C36_sub_ex : result_rat (mp_rat_sub rA rB rB) rB exSq = Some (MP_OK, Some (Qnum (Qred (qA - qB))), Some (Zpos (Qden (Qred (qA - qB))))).
Proof. by vm_compute. Qed.
Print Assumptions C36_sub.
Theorem C36_mul st V W a b c qa qb :
  Rep st V W -> structs [a; b; c] -> rat_at V a qa -> rat_at V b qb -> rat_live V c ->
  calls (mp_rat_mul a b c) st (fun x st' => x = MP_OK /\ Rep st' (set_rat c (qa * qb) V) W).
Proof. pub wpV_rat_mul. Qed.
Example C36_mul_ex : result_rat (mp_rat_mul rA rB rC) rC exSq = Some (MP_OK, Some (Qnum (Qred (qA * qB))), Some (Zpos (Qden (Qred (qA * qB))))).
Proof. by vm_compute. Qed.
Print Assumptions C36_mul.
Theorem C36_div st V W a b c qa qb :
  Rep st V W -> structs [a; b; c] -> rat_at V a qa -> rat_at V b qb -> rat_live V c -> ~ (qb == 0)%Q ->
  calls (mp_rat_div a b c) st (fun x st' => x = MP_OK /\ Rep st' (set_rat c (qa / qb) V) W).
Proof.
  intros H HS Ha Hb Hc N. eapply by_rule; [done|]. intros st1 HV. eapply wpV_rat_div; [exact HV|exact HS|exact Ha|exact Hb|exact Hc|done|].
  intros _ st' HV'. split; [done|by apply RV_done].
Qed.
Example C36_div_ex : result_rat (mp_rat_div rA rB rB) rB exSq = Some (MP_OK, Some (Qnum (Qred (qA / qB))), Some (Zpos (Qden (Qred (qA / qB))))) /\ ~ (qB == 0)%Q.
Proof. by vm_compute. Qed.
Print Assumptions C36_div.
Theorem C36_div_by_zero st V W a b c qa qb :
  Rep st V W -> structs [a; b; c] -> rat_at V a qa -> rat_at V b qb -> rat_live V c -> (qb == 0)%Q ->
  calls (mp_rat_div a b c) st (fun x st' => x = MP_UNDEF /\ Rep st' V W).
Proof.
  intros H HS Ha Hb Hc E. eapply by_rule; [done|]. intros st1 HV. eapply wpV_rat_div; [exact HV|exact HS|exact Ha|exact Hb|exact Hc| |done].
  intros _. split; [done|by apply RV_done].
Qed.
Example C36_div_by_zero_ex : result_rat (mp_rat_div rA rC rB) rB exSq = Some (MP_UNDEF, Some (-5), Some 12).
Proof. by vm_compute. Qed.
Print Assumptions C36_div_by_zero.
Theorem C36_neg st V W a c q :
  Rep st V W -> structs [a; c] -> rat_at V a q -> rat_live V c ->
  calls (mp_rat_neg a c) st (fun x st' => x = MP_OK /\ Rep st' (set_rat c (- q) V) W).
Proof. pub wpV_rat_neg. Qed.
Example C36_neg_ex : result_rat (mp_rat_neg rB rC) rC exSq = Some (MP_OK, Some 5, Some 12).
Proof. by vm_compute. Qed.
Print Assumptions C36_neg.
Theorem C36_abs st V W a c q :
  Rep st V W -> structs [a; c] -> rat_at V a q -> rat_live V c ->
  calls (mp_rat_abs a c) st (fun x st' => x = MP_OK /\ Rep st' (set_rat c (Qabs q) V) W).
Proof. pub wpV_rat_abs. Qed.
Example C36_abs_ex : result_rat (mp_rat_abs rB rB) rB exSq = Some (MP_OK, Some 5, Some 12).
Proof. by vm_compute. Qed.
Print Assumptions C36_abs.
Theorem C36_copy st V W a c q :
  Rep st V W -> structs [a; c] -> rat_at V a q -> rat_live V c ->
  calls (mp_rat_copy a c) st (fun x st' => x = MP_OK /\ Rep st' (set_rat c q V) W).
Proof. pub wpV_rat_copy. Qed.
Example C36_copy_ex : result_rat (mp_rat_copy rB rC) rC exSq = Some (MP_OK, Some (-5), Some 12).
Proof. by vm_compute. Qed.
Print Assumptions C36_copy.
Theorem C36_zero st V W r :
  Rep st V W -> structs [r] -> rat_live V r ->
  calls (mp_rat_zero r) st (fun _ st' => Rep st' (set_rat r 0 V) W).
Proof. intros H HS HL. eapply by_rule; [done|]. intros st1 HV. eapply wpV_rat_zero; [done..|]. intros st' HV'. by apply RV_done. Qed.
Example C36_zero_ex : result_rat (mp_rat_zero rB) rB exSq = Some (tt, Some 0, Some 1).
Proof. by vm_compute. Qed.
Print Assumptions C36_zero.
Theorem C36_recip st V W a c q :
  Rep st V W -> structs [a; c] -> rat_at V a q -> rat_live V c -> ~ (q == 0)%Q ->
  calls (mp_rat_recip a c) st (fun x st' => x = MP_OK /\ Rep st' (set_rat c (/ q) V) W).
Proof.
  intros H HS Ha Hc N. eapply by_rule; [done|]. intros st1 HV. eapply wpV_rat_recip; [exact HV|exact HS|exact Ha|exact Hc|done|].
  intros _ st' HV'. split; [done|by apply RV_done].
Qed.
Example C36_recip_ex : result_rat (mp_rat_recip rB rB) rB exSq = Some (MP_OK, Some (-12), Some 5).
Proof. by vm_compute. Qed.
Print Assumptions C36_recip.
Theorem C36_recip_of_zero st V W a c q :
  Rep st V W -> structs [a; c] -> rat_at V a q -> rat_live V c -> (q == 0)%Q ->
  calls (mp_rat_recip a c) st (fun x st' => x = MP_UNDEF /\ Rep st' V W).
Proof.
  intros H HS Ha Hc N. eapply by_rule; [done|]. intros st1 HV. eapply wpV_rat_recip; [exact HV|exact HS|exact Ha|exact Hc| |done].
  intros _. split; [done|by apply RV_done].
Qed.
Example C36_recip_of_zero_ex : result_rat (mp_rat_recip rC rB) rB exSq = Some (MP_UNDEF, Some (-5), Some 12).
Proof. by vm_compute. Qed.
Print Assumptions C36_recip_of_zero.
(** The second operand is an integer; for the sum and the difference it may be
    any, also a member of [a] or [c]. *)
Theorem C36_add_int st V W a b c qa vb :
  Rep st V W -> structs [a; c] -> rat_at V a qa -> V !! b = Some vb -> rat_live V c ->
  calls (mp_rat_add_int a b c) st (fun x st' => x = MP_OK /\ Rep st' (set_rat c (qa + inject_Z vb) V) W).
Proof. pub wpV_rat_add_int. Qed.
Example C36_add_int_ex : result_rat (mp_rat_add_int rB (H 22) rC) rC exSq = Some (MP_OK, Some (700 * 12 - 5), Some 12).
Proof. by vm_compute. Qed.
Print Assumptions C36_add_int.
Theorem C36_sub_int st V W a b c qa vb :
  Rep st V W -> structs [a; c] -> rat_at V a qa -> V !! b = Some vb -> rat_live V c ->
  calls (mp_rat_sub_int a b c) st (fun x st' => x = MP_OK /\ Rep st' (set_rat c (qa - inject_Z vb) V) W).
Proof. pub wpV_rat_sub_int. Qed.
Example C36_sub_int_ex : result_rat (mp_rat_sub_int rB (fst rB) rB) rB exSq = Some (MP_OK, Some 55, Some 12).
Proof. by vm_compute. Qed.
Print Assumptions C36_sub_int.
(** For the product and the quotient it must not be a member of [c], unless
    [c] is [a]. *)
Theorem C36_mul_int st V W a b c qa vb :
  Rep st V W -> structs [a; c] -> rat_at V a qa -> V !! b = Some vb -> rat_live V c ->
  (a = c \/ b <> fst c /\ b <> snd c) ->
  calls (mp_rat_mul_int a b c) st (fun x st' => x = MP_OK /\ Rep st' (set_rat c (qa * inject_Z vb) V) W).
Proof. pub wpV_rat_mul_int. Qed.
Example C36_mul_int_ex : result_rat (mp_rat_mul_int rB hD rC) rC exSq = Some (MP_OK, Some 5, Some 1).
Proof. by vm_compute. Qed.
Print Assumptions C36_mul_int.
Theorem C36_mul_int_alias_refuted : exists st V W a b c qa vb n d,
  Rep st V W /\ structs [a; c] /\ rat_at V a qa /\ V !! b = Some vb /\ rat_live V c /\
  result_rat (mp_rat_mul_int a b c) c st = Some (MP_OK, Some n, Some (Zpos d)) /\ ~ (n # d == qa * inject_Z vb)%Q.
Proof.
  exists exSq, exVq, world0, rB, (fst rA), rA, qB, 12345678901234567890123, 25, 12%positive. split; [apply exq_rep|].
  split. { intros r s Hr Hs. simpl in Hr, Hs. destruct Hr as [<-|[<-|[]]], Hs as [<-|[<-|[]]]; by vm_compute. }
  split; [apply exq_B|]. split; [by vm_compute|]. split; [split; by eexists|]. split; by vm_compute.
Qed.
Print Assumptions C36_mul_int_alias_refuted.
Theorem C36_div_int st V W a b c qa vb :
  Rep st V W -> structs [a; c] -> rat_at V a qa -> V !! b = Some vb -> rat_live V c ->
  (a = c \/ b <> fst c /\ b <> snd c) ->
  calls (mp_rat_div_int a b c) st (fun x st' =>
    if vb =? 0 then x = MP_UNDEF /\ Rep st' V W else x = MP_OK /\ Rep st' (set_rat c (qa / inject_Z vb) V) W).
Proof.
  intros H HS Ha Hb Hc Hbc. eapply by_rule; [done|]. intros st1 HV. eapply wpV_rat_div_int; [exact HV|exact HS|exact Ha|exact Hb|exact Hc|exact Hbc| |].
  - intros ->. split; [done|by apply RV_done].
  - intros N st' HV'. destruct (Z.eqb_spec vb 0); [done|]. split; [done|by apply RV_done].
Qed.
Example C36_div_int_ex : result_rat (mp_rat_div_int rB hD rC) rC exSq = Some (MP_OK, Some 5, Some 144).
Proof. by vm_compute. Qed.
Print Assumptions C36_div_int.

(** ** C37 Rational comparison is the order of the rationals *)
Theorem C37_compare st V W a b qa qb :
  Rep st V W -> rat_at V a qa -> rat_at V b qb ->
  calls (mp_rat_compare a b) st (fun x st' => qordered x qa qb /\ Rep st' V W).
Proof. intros H Ha Hb. eapply by_rule; [done|]. intros st1 HV. eapply wpV_rat_compare; [done..|]. intros st' r HV' Hr _. split; [done|by apply RV_done]. Qed.
Example C37_compare_ex : result (mp_rat_compare rA rB) hA exSq = Some (1, Some vA) /\ result (mp_rat_compare rB rC) hA exSq = Some (-1, Some vA) /\ result (mp_rat_compare rB rB) hA exSq = Some (0, Some vA).
Proof. by vm_compute. Qed.
Print Assumptions C37_compare.
Theorem C37_compare_unsigned st V W a b qa qb :
  Rep st V W -> rat_at V a qa -> rat_at V b qb ->
  calls (mp_rat_compare_unsigned a b) st (fun x st' => qordered x (Qabs qa) (Qabs qb) /\ Rep st' V W).
Proof. intros H Ha Hb. eapply by_rule; [done|]. intros st1 HV. eapply wpV_rat_compare_unsigned; [done..|]. intros st' r HV' Hr. split; [done|by apply RV_done]. Qed.
Example C37_compare_unsigned_ex : result (mp_rat_compare_unsigned rC rB) hA exSq = Some (-1, Some vA).
Proof. by vm_compute. Qed.
Print Assumptions C37_compare_unsigned.
Theorem C37_compare_zero st V W a q :
  Rep st V W -> rat_at V a q ->
  calls (mp_rat_compare_zero a) st (fun x st' => qordered x q 0 /\ Rep st' V W).
Proof.
  intros H [Ha1 Ha2]. eapply by_rule; [done|]. intros st1 HV. eapply wpV_compare_zero; [exact HV|exact Ha1|]. split; [|by apply RV_done].
  apply qordered_intro; change (Qnum (Qred 0)) with 0; change (Zpos (Qden (Qred 0))) with 1; lia.
Qed.
Example C37_compare_zero_ex : result (mp_rat_compare_zero rB) hA exSq = Some (-1, Some vA).
Proof. by vm_compute. Qed.
Print Assumptions C37_compare_zero.
Theorem C37_compare_value st V W a q n d :
  Rep st V W -> rat_at V a q -> - 2 ^ 63 < n < 2 ^ 63 -> - 2 ^ 63 < d < 2 ^ 63 -> d <> 0 ->
  calls (mp_rat_compare_value a n d) st (fun x st' => qordered x q (frac n d) /\ Rep st' V W).
Proof. intros H Ha Hn Hd N. eapply by_rule; [done|]. intros st1 HV. eapply wpV_rat_compare_value; [done..|]. intros st' r HV' Hr. split; [done|by apply RV_done]. Qed.
Example C37_compare_value_ex : result (mp_rat_compare_value rB 10 (-24)) hA exSq = Some (0, Some vA).
Proof. by vm_compute. Qed.
Print Assumptions C37_compare_value.
(** With a zero denominator the answer is INT_MAX ("above"), not the MP_UNDEF
    of the documentation. *)
Theorem C37_compare_value_zero_refuted : exists st V W a q n x,
  Rep st V W /\ rat_at V a q /\ result (mp_rat_compare_value a n 0) hA st = Some (x, Some vA) /\ x <> MP_UNDEF.
Proof. exists exSq, exVq, world0, rB, qB, 1, INT_MAX. split; [apply exq_rep|]. split; [apply exq_B|]. by vm_compute. Qed.
Print Assumptions C37_compare_value_zero_refuted.
Theorem C37_is_integer st V W a q :
  Rep st V W -> rat_at V a q ->
  calls (mp_rat_is_integer a) st (fun b st' => (b = true <-> exists z, (q == inject_Z z)%Q) /\ Rep st' V W).
Proof. intros H Ha. eapply by_rule; [done|]. intros st1 HV. eapply wpV_rat_is_integer; [done..|]. intros st' b HV' Hb. split; [done|by apply RV_done]. Qed.
Example C37_is_integer_ex : result (mp_rat_is_integer rB) hA exSq = Some (false, Some vA) /\ result (mp_rat_is_integer rC) hA exSq = Some (true, Some vA).
Proof. by vm_compute. Qed.
Print Assumptions C37_is_integer.
(** The sign is that of the rational: MP_NEG exactly below zero. *)
Theorem C37_sign st V W a q :
  Rep st V W -> rat_at V a q ->
  calls (mp_rat_sign a) st (fun x st' => (x = MP_NEG <-> (q < 0)%Q) /\ (x = MP_ZPOS <-> ~ (q < 0)%Q) /\ Rep st' V W).
Proof.
  intros H [Ha1 Ha2]. eapply by_rule; [done|]. intros st1 HV. eapply Gcd.wpV_sign; [exact HV|exact Ha1|].
  assert ((q < 0)%Q <-> Qnum (Qred q) < 0) as E. { rewrite <- (Qred_correct q) at 1. unfold Qlt. cbn [Qnum Qden]. lia. }
  rewrite E. destruct (Z.ltb_spec (Qnum (Qred q)) 0); unfold MP_NEG, MP_ZPOS; split; [lia|split; [lia|by apply RV_done]|lia|split; [lia|by apply RV_done]].
Qed.
Example C37_sign_ex : result (mp_rat_sign rB) hA exSq = Some (MP_NEG, Some vA).
Proof. by vm_compute. Qed.
Print Assumptions C37_sign.
Theorem C37_to_ints st V W a q :
  Rep st V W -> rat_at V a q -> Qnum (Qred q) <> - 2 ^ 63 ->
  calls (mp_rat_to_ints a) st (fun x st' => Rep st' V W /\
    let n := Qnum (Qred q) in let d := Zpos (Qden (Qred q)) in
    ((- 2 ^ 63 < n < 2 ^ 63 /\ d < 2 ^ 63) /\ x = (MP_OK, Some n, Some d) \/
     ~ (- 2 ^ 63 < n < 2 ^ 63 /\ d < 2 ^ 63) /\ fst (fst x) = MP_RANGE)).
Proof.
  intros H Ha N. eapply by_rule; [done|]. intros st1 HV. eapply wpV_rat_to_ints; [exact HV|exact Ha|done|lia| |].
  - intros Hn Hd st' HV'. split; [by apply RV_done|]. left. split; [split; lia|done].
  - intros Hn st' x y HV'. split; [by apply RV_done|]. right. done.
Qed.
Example C37_to_ints_ex : result (mp_rat_to_ints rB) hA exSq = Some ((MP_OK, Some (-5), Some 12), Some vA).
Proof. by vm_compute. Qed.
Print Assumptions C37_to_ints.

(** ** C38 Rational powers *)
Theorem C38_expt st V W a k c q :
  Rep st V W -> structs [a; c] -> rat_at V a q -> rat_live V c -> 0 <= k < 2 ^ 32 ->
  calls (mp_rat_expt a k c) st (fun x st' => x = MP_OK /\ Rep st' (set_rat c (q ^ k) V) W).
Proof.
  intros H HS Ha Hc Hk. eapply by_rule; [done|]. intros st1 HV. eapply wpV_rat_expt; [exact HV|exact HS|exact Ha|exact Hc|lia|lia|].
  intros _ st' HV'. split; [done|by apply RV_done].
Qed.
Example C38_expt_ex : result_rat (mp_rat_expt rB 5 rB) rB exSq = Some (MP_OK, Some (-3125), Some 248832).
Proof. by vm_compute. Qed.
Print Assumptions C38_expt.
Theorem C38_negative_exponent st V W a k c q :
  Rep st V W -> structs [a; c] -> rat_at V a q -> rat_live V c -> k < 0 ->
  calls (mp_rat_expt a k c) st (fun x st' => x = MP_RANGE /\ Rep st' V W).
Proof.
  intros H HS Ha Hc Hk. eapply by_rule; [done|]. intros st1 HV. eapply wpV_rat_expt; [exact HV|exact HS|exact Ha|exact Hc|lia| |lia].
  intros _. split; [done|by apply RV_done].
Qed.
Example C38_negative_exponent_ex : result_rat (mp_rat_expt rB (-1) rC) rC exSq = Some (MP_RANGE, Some 0, Some 1).
Proof. by vm_compute. Qed.
Print Assumptions C38_negative_exponent.
(** A larger exponent is cut to 32 bits: zero to the power 2^32 comes out as 1. *)
Theorem C38_expt_big_refuted : exists st V W a c q k,
  Rep st V W /\ structs [a; c] /\ rat_at V a q /\ rat_live V c /\ 0 <= k < 2 ^ 63 /\
  (q ^ k == 0)%Q /\ result_rat (mp_rat_expt a k c) c st = Some (MP_OK, Some 1, Some 1).
Proof.
  exists exSq, exVq, world0, rC, rC, 0%Q, (2 ^ 32). split; [apply exq_rep|].
  split. { intros r s Hr Hs. simpl in Hr, Hs. destruct Hr as [<-|[<-|[]]], Hs as [<-|[<-|[]]]; by vm_compute. }
  split; [apply exq_C|]. split; [split; by eexists|]. split; [lia|]. split; [by apply Qpower_0|by vm_compute].
Qed.
Print Assumptions C38_expt_big_refuted.
