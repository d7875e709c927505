(** Properties of the conversion to and from text (C17-C20) and of the bit
    length (C31).  See [Spec] for the vocabulary.  A string that is read is given
    as the list of its characters without the terminator; a string that is written
    goes to a buffer in memory. *)
From Coq Require Import ZArith List Lia.
From stdpp Require Import gmap list.
From Verif Require Import Mem Prog Kern Fp Imath Exec Wp Spec Public Concrete Buf Text Inlen Outlen Read Short.
Local Open Scope Z_scope.
Local Open Scope prog_scope.

(** ** C17 Numerals *)
(** There is one numeral for each integer and radix. *)
Theorem C17_numeral r v : 2 <= r -> exists s, numeral r v s /\ forall s', numeral r v s' -> s' = s.
Proof. intros Hr. destruct (numeral_exists r v Hr) as [s Hs]. exists s. split; [done|]. intros s' H'. by eapply numeral_unique. Qed.
Example C17_numeral_ex : numeral 16 (-255) [45; 70; 70].
Proof. exists [15; 15]. split; [by repeat constructor|]. by vm_compute. Qed.
Print Assumptions C17_numeral.
(** With room for the numeral and its terminator, that is what is written. *)
Theorem C17_to_string st V W z v r b (off : nat) l limit s :
  Rep st V W -> V !! z = Some v -> bufs W !! b = Some l -> 2 <= r <= 36 -> numeral r v s ->
  Z.of_nat (length s) < limit -> (off + length s + 1 <= length l)%nat ->
  calls (mp_int_to_string z r (b, Z.of_nat off) limit) st
    (fun x st' => x = MP_OK /\ Rep st' V (with_buf W b (overwrite off (s ++ [0]) l))).
Proof.
  intros H Hz Hb Hr Hs Hl Ho. eapply by_rule; [done|]. intros st1 HV. destruct (numeral_short _ _ _ _ _ _ _ HV Hz (proj1 Hr) Hs) as [L1 _].
  eapply wpV_to_string; [done|done|exact Hb|done|lia|done|lia| |lia].
  intros st' _ H'. split; [done|by apply RV_done_buf].
Qed.
Example C17_to_string_ex : result_buf (mp_int_to_string hD 10 (bX, 0) 4) (exB 5) = Some (MP_OK, Some [Some 45; Some 49; Some 50; Some 0; None]).
Proof. by vm_compute. Qed.
Print Assumptions C17_to_string.
(** Writing and then reading back, possibly into the same integer. *)
Theorem C17_round_trip st V W z v y r b (off : nat) l limit s :
  Rep st V W -> V !! z = Some v -> is_Some (V !! y) -> bufs W !! b = Some l -> 2 <= r <= 36 -> numeral r v s ->
  Z.of_nat (length s) < limit -> (off + length s + 1 <= length l)%nat ->
  calls (x1 <- mp_int_to_string z r (b, Z.of_nat off) limit; x2 <- mp_int_read_string y r s; Ret (x1, x2)) st
    (fun x st' => x = (MP_OK, MP_OK) /\ Rep st' (<[y := v]> V) (with_buf W b (overwrite off (s ++ [0]) l))).
Proof.
  intros H Hz [vy Hy] Hb Hr Hs Hl Ho. eapply by_rule; [done|]. intros st1 HV. destruct (numeral_short _ _ _ _ _ _ _ HV Hz (proj1 Hr) Hs) as [L1 L2].
  apply wp_bind. eapply wpV_to_string; [done|done|exact Hb|done|lia|done|lia| |lia]. intros st2 _ H2.
  apply wp_bind. eapply wpV_read_numeral; [done|done|done|done|done|]. intros st3 H3. apply wp_ret. split; [done|by apply RV_done_buf].
Qed.
Example C17_round_trip_ex : result (x1 <- mp_int_to_string hB 36 (bX, 1) 20; x2 <- mp_int_read_string hA 36 [45;51;87;53;69;49;49;50;54;52;83;71;83;78]; Ret (x1, x2)) hA (exB 30)
  = Some ((MP_OK, MP_OK), Some vB).
Proof. by vm_compute. Qed.
Print Assumptions C17_round_trip.

(** ** C18 The limit *)
(** MP_OK is returned exactly when the numeral and the terminator fit into
    [limit] characters; and at most [limit + 1] characters are written.  That one
    character too many is [C18_overflow_refuted]. *)
Theorem C18_to_string_limit st V W z v r b (off : nat) l limit s :
  Rep st V W -> V !! z = Some v -> bufs W !! b = Some l -> 2 <= r <= 36 -> 2 <= limit -> numeral r v s ->
  (off + Z.to_nat limit + 1 <= length l)%nat ->
  calls (mp_int_to_string z r (b, Z.of_nat off) limit) st
    (fun x st' => x = (if Z.of_nat (length s) + 1 <=? limit then MP_OK else MP_TRUNC) /\
       exists t, Z.of_nat (length t) = (if Z.of_nat (length s) + 1 <=? limit then Z.of_nat (length s) + 1 else limit + 1) /\
         last t = Some 0 /\ Rep st' V (with_buf W b (overwrite off t l))).
Proof.
  intros H Hz Hb Hr Hlim Hs Hl. eapply by_rule; [done|]. intros st1 HV. eapply wpV_to_string; [done|done|exact Hb|done|lia|done|lia| |].
  - intros st' L H'. destruct (Z.leb_spec (Z.of_nat (length s) + 1) limit); [|lia]. split; [done|]. exists (s ++ [0]).
    split; [rewrite app_length; simpl; lia|]. split; [apply last_snoc|by apply RV_done_buf].
  - intros st' s' L L' H'. destruct (Z.leb_spec (Z.of_nat (length s) + 1) limit); [lia|]. split; [done|]. exists (s' ++ [0]).
    split; [rewrite app_length, L'; simpl; lia|]. split; [apply last_snoc|by apply RV_done_buf].
Qed.
Example C18_to_string_limit_ex : result_buf (mp_int_to_string hD 10 (bX, 0) 3) (exB 5) = Some (MP_TRUNC, Some [Some 45; Some 49; Some 50; Some 0; None]) /\
  result_buf (mp_int_to_string hA 10 (bX, 1) 2) (exB 5) = Some (MP_TRUNC, Some [None; Some 51; Some 49; Some 0; None]).
Proof. by vm_compute. Qed.
Print Assumptions C18_to_string_limit.
(** With a buffer of exactly [limit] characters and a longer numeral the
    terminator is stored behind the end of the buffer. *)
Theorem C18_overflow_refuted : exists st V W z b l limit,
  Rep st V W /\ is_Some (V !! z) /\ bufs W !! b = Some l /\ 2 <= limit /\ length l = Z.to_nat limit /\
  forall dbg, run dbg orc_yes (mp_int_to_string z 10 (b, 0) limit) 0 st = UB.
Proof.
  exists (exB 3), exV, (exW 3), hD, bX, (replicate 3 None), 3. split; [apply exB_rep|]. split; [by vm_compute; eexists|].
  split; [by vm_compute|]. split; [done|]. split; [done|]. intros []; by vm_compute.
Qed.
Print Assumptions C18_overflow_refuted.

(** ** C19 The reported length *)
(** Up to [enough_bits r] bits, a buffer of the reported length is enough.  For the
    radices 2, 3, 4, 9, 10, 12, 15, 16, 18, 21, 24, 26, 27, 28, 31, 32, 35 and 36
    this is every integer the machine can hold; for the others see
    [C19_string_len_refuted]. *)
Theorem C19_string_len st V W z v r :
  Rep st V W -> V !! z = Some v -> 2 <= r <= 36 -> Z.abs v < 2 ^ enough_bits r ->
  calls (mp_int_string_len z r) st (fun n st' => Rep st' V W /\ (forall s, numeral r v s -> Z.of_nat (length s) + 1 <= n) /\
    forall b (off : nat) l, bufs W !! b = Some l -> Z.of_nat off + n <= Z.of_nat (length l) ->
      calls (mp_int_to_string z r (b, Z.of_nat off) n) st' (fun x st'' => x = MP_OK)).
Proof.
  intros H Hz Hr Hv. eapply by_rule; [done|]. intros st1 HV. eapply wpV_string_len; [done..|].
  pose proof (enough_bits_pos r) as He.
  destruct (outlen_enough (bitlen v) r Hr) as [E1 E2]. { split; [apply bitlen_pos|by apply bitlen_le]. }
  set (N := outlen (bitlen v) r) in *.
  assert (forall s, numeral r v s -> Z.of_nat (length s) + 1 <= N + 1 + if v <? 0 then 1 else 0) as HN.
  { intros s Hs. pose proof (bitlen_pow v). pose proof (numeral_len_le r v s N ltac:(lia) Hs ltac:(lia) E2). lia. }
  split; [by apply RV_done|]. split; [done|]. intros b off l Hb Hl. destruct (numeral_exists r v ltac:(lia)) as [s Hs]. specialize (HN s Hs).
  eapply by_rule; [by apply RV_done|]. intros st2 HV2. destruct (numeral_short _ _ _ _ _ _ _ HV2 Hz (proj1 Hr) Hs) as [L1 _].
  eapply wpV_to_string; [done|done|exact Hb|done|lia|done|lia|done|lia].
Qed.
Example C19_string_len_ex : result (mp_int_string_len hA 10) hA exS = Some (32, Some vA) /\ result (mp_int_string_len hB 16) hB exS = Some (19, Some vB).
Proof. by vm_compute. Qed.
Print Assumptions C19_string_len.
Theorem C19_string_len_decimal st V W z v :
  Rep st V W -> V !! z = Some v ->
  calls (mp_int_string_len z 10) st (fun n st' => forall s, numeral 10 v s -> Z.of_nat (length s) + 1 <= n).
Proof.
  intros H Hz. eapply by_rule; [done|]. intros st1 HV. eapply wpV_string_len; [done|done|lia|].
  destruct (outlen_enough (bitlen v) 10 ltac:(lia)) as [E1 E2]. { by eapply bitlen_max. }
  set (N := outlen (bitlen v) 10) in *. intros s Hs. pose proof (bitlen_pow v). pose proof (numeral_len_le 10 v s N ltac:(lia) Hs ltac:(lia) E2). lia.
Qed.
Example C19_string_len_decimal_ex : result (mp_int_string_len hC 10) hC exS = Some (2, Some 0).
Proof. by vm_compute. Qed.
Print Assumptions C19_string_len_decimal.
(** 2^20197 - 1 in radix 13: the reported length is 5459, but there are 5459
    digits and the terminator; a buffer of the reported length leads to MP_TRUNC
    although the limit is the one the library itself reported. *)
Theorem C19_string_len_refuted : exists st V W z v b l n,
  Rep st V W /\ V !! z = Some v /\ bufs W !! b = Some l /\ n < Z.of_nat (length l) /\
  calls (mp_int_string_len z 13) st (fun x st' => x = n) /\
  calls (mp_int_to_string z 13 (b, 0) n) st (fun x st' => x = MP_TRUNC).
Proof.
  apply (short_report 13 20197 5458 6000); [lia|lia|lia|lia|by vm_compute|exact below_13].
Qed.
Print Assumptions C19_string_len_refuted.

(** ** C20 Parsing *)
(** A string is white space, a sign or none, digits of the radix (in either case),
    and a rest that does not begin with such a digit.  Whatever the digits are,
    and however many, their value is assigned and the rest is what is left. *)
Theorem C20_read_cstring st V W z r sp sg body ds rest :
  Rep st V W -> is_Some (V !! z) -> 2 <= r <= 36 ->
  Forall is_space sp -> (sg = [] \/ sg = [43] \/ sg = [45]) ->
  Forall2 (fun c d => digit_of c = Some d /\ d < r) body ds ->
  (forall c d, head rest = Some c -> ~ (digit_of c = Some d /\ d < r)) ->
  (sg = [] -> forall c, head (body ++ rest) = Some c -> ~ is_space c /\ c <> 43 /\ c <> 45) ->
  Z.of_nat (length (sp ++ sg ++ body ++ rest)) < 2 ^ 31 ->
  calls (mp_int_read_cstring z r (sp ++ sg ++ body ++ rest)) st
    (fun x st' => x = (match rest with [] => MP_OK | _ :: _ => MP_TRUNC end, rest) /\
       Rep st' (<[z := if decide (sg = [45]) then - horner r ds else horner r ds]> V) W).
Proof.
  intros H [vz Hz] Hr H1 H2 H3 H4 H5 Hl. eapply by_rule; [done|]. intros st1 HV. eapply wpV_read_cstring; [done..|].
  intros st' H'. split; [done|by apply RV_done].
Qed.
(** " -12xyz" in radix 10, "007fF" in radix 16, "+" in radix 2 *)
Example C20_read_cstring_ex :
  result (mp_int_read_cstring hA 10 [32; 45; 49; 50; 120; 121; 122]) hA exS = Some ((MP_TRUNC, [120; 121; 122]), Some (-12)) /\
  result (mp_int_read_cstring hA 16 [48; 48; 55; 102; 70]) hA exS = Some ((MP_OK, []), Some 2047) /\
  result (mp_int_read_cstring hA 2 [43]) hA exS = Some ((MP_OK, []), Some 0).
Proof. by vm_compute. Qed.
Print Assumptions C20_read_cstring.
(** Every string has this form, so the theorem says what happens on every string. *)
Theorem C20_every_string r (t : list Z) : exists sp sg body ds rest, t = sp ++ sg ++ body ++ rest /\
  Forall is_space sp /\ (sg = [] \/ sg = [43] \/ sg = [45]) /\
  Forall2 (fun c d => digit_of c = Some d /\ d < r) body ds /\
  (forall c d, head rest = Some c -> ~ (digit_of c = Some d /\ d < r)) /\
  (sg = [] -> forall c, head (body ++ rest) = Some c -> ~ is_space c /\ c <> 43 /\ c <> 45).
Proof. apply parse_shape. Qed.
Print Assumptions C20_every_string.
Theorem C20_read_string st V W z r sp sg body ds rest :
  Rep st V W -> is_Some (V !! z) -> 2 <= r <= 36 ->
  Forall is_space sp -> (sg = [] \/ sg = [43] \/ sg = [45]) ->
  Forall2 (fun c d => digit_of c = Some d /\ d < r) body ds ->
  (forall c d, head rest = Some c -> ~ (digit_of c = Some d /\ d < r)) ->
  (sg = [] -> forall c, head (body ++ rest) = Some c -> ~ is_space c /\ c <> 43 /\ c <> 45) ->
  Z.of_nat (length (sp ++ sg ++ body ++ rest)) < 2 ^ 31 ->
  calls (mp_int_read_string z r (sp ++ sg ++ body ++ rest)) st
    (fun x st' => x = (match rest with [] => MP_OK | _ :: _ => MP_TRUNC end) /\
       Rep st' (<[z := if decide (sg = [45]) then - horner r ds else horner r ds]> V) W).
Proof.
  intros H [vz Hz] Hr H1 H2 H3 H4 H5 Hl. eapply by_rule; [done|]. intros st1 HV. eapply wpV_read_string; [done..|].
  intros st' H'. split; [done|by apply RV_done].
Qed.
Example C20_read_string_ex : result (mp_int_read_string hB 8 [45; 55; 55; 56]) hB exS = Some (MP_TRUNC, Some (-63)).
Proof. by vm_compute. Qed.
Print Assumptions C20_read_string.

(** ** C31 The bit length *)
Theorem C31_count_bits st V W a va :
  Rep st V W -> V !! a = Some va ->
  calls (mp_int_count_bits a) st (fun n st' => Rep st' V W /\
    (if va =? 0 then n = 1 else 0 < n /\ 2 ^ (n - 1) <= Z.abs va < 2 ^ n)).
Proof.
  intros H Ha. eapply by_rule; [done|]. intros st1 HV. eapply wpV_count_bits; [done..|]. split; [by apply RV_done|].
  unfold bitlen. destruct (Z.eqb_spec va 0) as [E|E]; [done|]. pose proof (Z.log2_nonneg (Z.abs va)). pose proof (Z.log2_spec (Z.abs va) ltac:(lia)) as HL.
  split; [lia|]. by rewrite Z.add_simpl_r.
Qed.
Example C31_count_bits_ex : result (mp_int_count_bits hA) hA exS = Some (100, Some vA) /\ result (mp_int_count_bits hC) hC exS = Some (1, Some 0).
Proof. by vm_compute. Qed.
Print Assumptions C31_count_bits.
