(** Properties of examples/rsakey.c (C60). *)
From Coq Require Import ZArith Znumtheory List Lia.
From stdpp Require Import gmap list.
From Verif Require Import Mem Prog Kern Imath Rsamath GmpAlloc ExRsakey Exec Wp Spec SpecBin SpecPrime SpecKey Public Concrete Buf Read NumTh ExRsakeyR.
Local Open Scope Z_scope.

(** ** C60 *)
(** A random number: the bits are those of the bytes read, besides the lowest and
    the highest; when there is no memory or there are not enough bytes, nothing is
    changed; the buffer is released in every case. *)
Theorem C60_randomize st V W a n d :
  Rep st V W -> is_Some (V !! a) -> 1 <= n < 2 ^ 32 - 8 -> good_draw d ->
  calls (mp_int_randomize a n d) st (fun r st' =>
    (r = MP_OK /\ exists bs v, taken n d bs /\ seed_of n bs v /\ Rep st' (<[a := v]> V) W) \/
    ((r = MP_MEMORY \/ r = MP_TRUNC /\ short n d) /\ Rep st' V W)).
Proof.
  intros H [va Ha] Hn Hd. eapply by_rule; [done|]. intros st1 HV. eapply wpV_randomize; [exact HV|exact Ha|done|done| |].
  - intros r st' Hr HV'. right. split; [done|by apply RV_done].
  - intros bs v st' Ht Hs HV'. left. split; [done|]. exists bs, v. split; [done|]. split; [done|]. by apply RV_done.
Qed.
Example C60_randomize_ex : result (mp_int_randomize hC 12 (Some [255; 0])) hC exS = Some (MP_OK, Some 3841) /\
  result (mp_int_randomize hC 12 (Some [255])) hC exS = Some (MP_TRUNC, Some 0).
Proof. split; by vm_compute. Qed.
Print Assumptions C60_randomize.
(** Such a number is odd and has at most [n] bits, exactly [n] of them if [n] is no
    multiple of 8. *)
Theorem C60_seed n bs v : 1 <= n -> seed_of n bs v -> Z.odd v = true /\ 1 <= v < 2 ^ n /\ (n mod 8 <> 0 -> 2 ^ (n - 1) <= v).
Proof. apply seed_bounds. Qed.
Example C60_seed_ex : seed_of 12 [255; 0] 3841.
Proof.
  intros i Hi. destruct (Z.leb_spec 12 i) as [L|L].
  - apply Z.bits_above_log2; [done|]. eapply Z.lt_le_trans; [|exact L]. by vm_compute.
  - assert (i = 0 \/ i = 1 \/ i = 2 \/ i = 3 \/ i = 4 \/ i = 5 \/ i = 6 \/ i = 7 \/ i = 8 \/ i = 9 \/ i = 10 \/ i = 11) as Hc by lia.
    repeat (destruct Hc as [->|Hc]; [by vm_compute|]). subst i. by vm_compute.
Qed.
Print Assumptions C60_seed.

Lemma env_same k V p q n e d : distinct k -> V !! kp k = Some p -> V !! kq k = Some q -> V !! kn k = Some n -> V !! ke k = Some e -> V !! kd k = Some d -> env k p q n e d V = V.
Proof.
  intros Hk Hp Hq Hn He Hd. unfold env. rewrite (insert_id V (kp k)), (insert_id V (kq k)), (insert_id V (kn k)), (insert_id V (ke k)), (insert_id V (kd k)) by done. done.
Qed.
(** The key: two apparent primes and a pair of exponents from the draws, or the code
    for the reason why there is none.  Only the five numbers of the key change. *)
Theorem C60_make_key st V W k modbits expt ds :
  Rep st V W -> NoDup [kp k; kq k; kn k; ke k; kd k] -> Forall (fun o => is_Some (V !! o)) [kp k; kq k; kn k; ke k; kd k] ->
  8 <= modbits < 2 ^ 31 - 1 -> Forall good_draw ds -> (forall s, expt = Some s -> Z.of_nat (length s) < 2 ^ 31) ->
  let half := (modbits + 1) / 2 in
  calls (make_key k modbits expt ds) st (fun r st' => exists p q n e d,
    Rep st' (<[kd k := d]> (<[ke k := e]> (<[kn k := n]> (<[kq k := q]> (<[kp k := p]> V))))) W /\
    (r = MP_OK /\ key_made half expt ds p q e d /\ n = p * q \/ key_failed half expt ds r)).
Proof.
  intros H Hk HL Hm Hds Hex half. rewrite !Forall_cons in HL. destruct HL as ([p0 Hp] & [q0 Hq] & [n0 Hn] & [e0 He] & [d0 Hd] & _).
  eapply by_rule; [done|]. intros st1 HV. eapply (wpV_make_key k V _ Hk modbits expt ds p0 q0 n0 e0 d0); [by rewrite env_same|done|done|done| |].
  - intros r st' Hr (p & q & n & e & d & HV'). exists p, q, n, e, d. split; [by apply RV_done|by right].
  - intros p q e d st' Hmade HV'. exists p, q, (p * q), e, d. split; [by apply RV_done|by left].
Qed.
Definition exkey : rsa_key := Key (H 11) (H 12) (H 13) (H 14) (H 15).
Definition exK : state := put (H 15) 0 (put (H 14) 0 (put (H 13) 0 (put (H 12) 0 (put (H 11) 0 exS)))).
Lemma exK_rep : Rep exK (<[H 15 := 0]> (<[H 14 := 0]> (<[H 13 := 0]> (<[H 12 := 0]> (<[H 11 := 0]> exV))))) world0.
Proof. unfold exK. do 5 (apply Rep_put; [|reflexivity|by vm_compute]). apply ex_rep. Qed.
Definition exD : list (option (list Z)) := [Some [11]; Some [13]; Some [7]; Some [11]].
(** The draws 7 and 11 give 15, which has no inverse modulo 120, and 11, which has. *)
Example C60_make_key_ex : NoDup [H 11; H 12; H 13; H 14; H 15] /\ Forall good_draw exD /\
  map (fun o => result (make_key exkey 8 None exD) o exK) [H 11; H 12; H 13; H 14; H 15] =
    [Some (MP_OK, Some 11); Some (MP_OK, Some 13); Some (MP_OK, Some 143); Some (MP_OK, Some 11); Some (MP_OK, Some 11)].
Proof. split; [apply (bool_decide_unpack _); by vm_compute|]. split; [by repeat constructor|by vm_compute]. Qed.
Print Assumptions C60_make_key.

(** The exponents undo each other, if the apparent primes are two different primes. *)
Theorem C60_round_trip half expt ds p q e d m :
  1 <= half -> key_made half expt ds p q e d -> prime p -> prime q -> p <> q -> 0 <= e -> 0 <= m < p * q ->
  ((m ^ e) mod (p * q)) ^ d mod (p * q) = m.
Proof.
  intros Hh Hmade Hp Hq N He Hm. destruct (made_bounds _ _ _ _ _ _ _ Hh Hmade) as (B1 & B2 & B3). destruct Hmade as (_ & (_ & E) & _).
  apply rsa_exponents; [done|done|done|done|lia| |done]. set (φ := (p - 1) * (q - 1)) in *. assert (4 <= φ) by (unfold φ; nia).
  apply Z.divide_trans with φ.
  - apply Z.lcm_least; unfold φ; [apply Z.divide_mul_l|apply Z.divide_mul_r]; apply Z.divide_refl.
  - exists (e * d / φ). pose proof (Z.div_mod (e * d) φ ltac:(lia)). lia.
Qed.
Lemma seed_check n bs v : 0 <= v < 2 ^ n -> 0 <= n ->
  forallb (fun i => eqb (Z.testbit v (Z.of_nat i)) ((Z.of_nat i =? 0) || ((Z.of_nat i =? n - 1) && negb (n mod 8 =? 0)) || Z.testbit (horner 256 bs) (Z.of_nat i))%bool) (seq 0 (Z.to_nat n)) = true -> seed_of n bs v.
Proof.
  intros Hv Hn H i Hi. destruct (Z.leb_spec n i) as [L|L].
  - destruct (Z.eq_dec v 0) as [->|]; [apply Z.bits_0|]. apply Z.bits_above_log2; [lia|]. eapply Z.lt_le_trans; [|exact L]. apply Z.log2_lt_pow2; lia.
  - rewrite forallb_forall in H. specialize (H (Z.to_nat i)). rewrite Z2Nat.id in H by lia. apply eqb_prop, H. apply in_seq. lia.
Qed.
Lemma prime_check p : 2 <= p -> forallb (fun i => negb (Z.of_nat (2 + i) <? p) || negb (p mod Z.of_nat (2 + i) =? 0))%bool (seq 0 (Z.to_nat p)) = true -> prime p.
Proof.
  intros Hp H. apply prime_alt. split; [lia|]. intros n Hn D. apply Z.mod_divide in D; [|lia]. rewrite forallb_forall in H. specialize (H (Z.to_nat (n - 2))).
  replace (Z.of_nat (2 + Z.to_nat (n - 2))) with n in H by lia. rewrite D, (proj2 (Z.ltb_lt n p)) in H by lia. discriminate H. apply in_seq. lia.
Qed.
Lemma exD_made : key_made 4 None exD 11 13 11 11.
Proof.
  assert (forall x, seed_of 4 [x] x -> True) as _ by done.
  assert (prime 11 /\ prime 13) as [P11 P13] by (split; by apply prime_check).
  split; [split; [exists 11|exists 13]|].
  - split; [exists [11]; split; [by exists [11]|by apply seed_check]|]. split; [lia|]. split; [done|]. split; [by left|]. intros x Hx. lia.
  - split; [exists [13]; split; [by exists [13]|by apply seed_check]|]. split; [lia|]. split; [done|]. split; [by left|]. intros x Hx. lia.
  - split; [by split|]. exists 3%nat. split; [lia|]. split; [exists [11]; split; [by exists [11]|by apply seed_check]|].
    intros i Hi. assert (i = 2%nat) as -> by lia. exists 15. split; [exists [7]; split; [by exists [7]|by apply seed_check]|]. apply no_inverse; [lia|lia|right; by vm_compute].
Qed.
Example C60_round_trip_ex : key_made 4 None exD 11 13 11 11 /\ prime 11 /\ prime 13 /\ 2 ^ 11 mod 143 = 46 /\ 46 ^ 11 mod 143 = 2.
Proof. split; [apply exD_made|]. split; [by apply prime_check|]. split; [by apply prime_check|]. by vm_compute. Qed.
Print Assumptions C60_round_trip.

(** The length of the modulus: not below [2 * half - 1] bits, if [half] is no
    multiple of 8. *)
Theorem C60_size half expt ds p q e d : 1 <= half -> half mod 8 <> 0 -> key_made half expt ds p q e d -> 2 ^ (2 * half - 2) <= p * q.
Proof.
  intros Hh H8 (((s & (bs & _ & S1) & P1) & (s' & (bs' & _ & S2) & P2)) & _).
  destruct (seed_bounds half _ _ Hh S1) as (_ & _ & L1). destruct (seed_bounds half _ _ Hh S2) as (_ & _ & L2). specialize (L1 H8). specialize (L2 H8).
  destruct P1 as (P1 & _). destruct P2 as (P2 & _). replace (2 * half - 2) with ((half - 1) + (half - 1)) by lia. rewrite Z.pow_add_r by lia.
  assert (0 < 2 ^ (half - 1)) by (apply Z.pow_pos_nonneg; lia). apply Z.mul_le_mono_nonneg; lia.
Qed.
Example C60_size_ex : key_made 4 None exD 11 13 11 11 /\ 2 ^ (2 * 4 - 2) <= 11 * 13.
Proof. split; [apply exD_made|by vm_compute]. Qed.
Print Assumptions C60_size.

(** The program prints the key, and gives back all its memory, provided the
    exponent is not larger than the modulus. *)
Theorem C60_rsakey st V W modbits expt ds :
  Rep st V W -> 8 <= modbits < 2 ^ 31 - 1 -> Forall good_draw ds -> (forall s, expt = Some s -> Z.of_nat (length s) < 2 ^ 31) ->
  let half := (modbits + 1) / 2 in
  (forall p q e d, key_made half expt ds p q e d -> 0 <= e <= p * q) ->
  calls (rsakey_main modbits expt ds) st (fun x st' => Rep st' V W /\
    match x with
    | inl out => exists p q e d, key_made half expt ds p q e d /\ key_text p q e d out
    | inr r => key_failed half expt ds r
    end).
Proof.
  intros H Hm Hds Hex half Hfit. eapply by_rule; [done|]. intros st1 HV. eapply wpV_rsakey; [exact HV|done|done|done|exact Hfit| |].
  - intros r st' Hr HV'. split; [by apply RV_done|done].
  - intros p q e d out st' Hmade Ht HV'. split; [by apply RV_done|]. by exists p, q, e, d.
Qed.
Definition written {A} (p : prog A) (st : state) : option A := match exec p st with Done a _ _ => Some a | _ => None end.
Example C60_rsakey_ex : Forall good_draw exD /\ written (rsakey_main 8 None exD) exS = Some (inl [[49; 49]; [49; 51]; [49; 49]; [49; 49]; [49; 52; 51]]) /\
  written (rsakey_main 8 (Some [54]) exD) exS = Some (inr MP_UNDEF) /\ written (rsakey_main 8 (Some [54; 120]) exD) exS = Some (inr MP_TRUNC) /\
  (forall p q e d, key_made 4 None exD p q e d -> 0 <= e <= p * q).
Proof. split; [by repeat constructor|]. do 3 (split; [by vm_compute|]). intros p q e d. by apply made_big. Qed.
Print Assumptions C60_rsakey.
(** In particular for a random exponent, when half of the number of bits is no
    multiple of 8. *)
Theorem C60_rsakey_random st V W modbits ds :
  Rep st V W -> 8 <= modbits < 2 ^ 31 - 1 -> Forall good_draw ds ->
  let half := (modbits + 1) / 2 in half mod 8 <> 0 ->
  calls (rsakey_main modbits None ds) st (fun x st' => Rep st' V W /\
    match x with
    | inl out => exists p q e d, key_made half None ds p q e d /\ key_text p q e d out
    | inr r => key_failed half None ds r
    end).
Proof.
  intros H Hm Hds half H8. apply C60_rsakey; [done|done|done|done|]. intros p q e d. apply made_big; [|done]. apply Z.div_le_lower_bound; lia.
Qed.
Example C60_rsakey_random_ex : (9 + 1) / 2 = 5 /\ written (rsakey_main 9 None [Some [7]; Some [8]; Some [4]; Some [6]]) exS = Some (inl [[50; 51]; [50; 57]; [50; 51]; [51; 55; 53]; [54; 54; 55]]).
Proof. split; by vm_compute. Qed.
Print Assumptions C60_rsakey_random.

(** ** What does not hold *)
(** The two primes may be equal, and then the key does not decrypt. *)
Theorem C60_equal_primes_refuted : exists ds m, Forall good_draw ds /\ 0 <= m < 121 /\
  written (rsakey_main 8 None ds) exS = Some (inl [[49; 49]; [49; 49]; [57]; [56; 57]; [49; 50; 49]]) /\ ((m ^ 9) mod 121) ^ 89 mod 121 <> m.
Proof.
  exists [Some [11]; Some [11]; Some [9]], 2. split; [by repeat constructor|]. split; [lia|]. split; [by vm_compute|]. intros E. by vm_compute in E.
Qed.
Print Assumptions C60_equal_primes_refuted.
(** The modulus has not always the number of bits asked for: 4 instead of 16, and 9
    instead of 8. *)
Theorem C60_short_key_refuted : exists ds, Forall good_draw ds /\ written (rsakey_main 16 None ds) exS = Some (inl [[51]; [51]; [49]; [49]; [57]]).
Proof. exists [Some [0]; Some [0]; Some [0]]. split; [by repeat constructor|by vm_compute]. Qed.
Print Assumptions C60_short_key_refuted.
Theorem C60_long_key_refuted : exists ds, Forall good_draw ds /\ written (rsakey_main 8 None ds) exS = Some (inl [[49; 55]; [49; 55]; [49; 49]; [49; 54; 51]; [50; 56; 57]]).
Proof. exists [Some [15]; Some [15]; Some [11]]. split; [by repeat constructor|by vm_compute]. Qed.
Print Assumptions C60_long_key_refuted.
(** The buffer for the numerals has the length of the modulus: a longer exponent is
    written past its end, both a given one and a random one. *)
Theorem C60_buffer_refuted : exists text ds1 ds2, Forall good_draw ds1 /\ Forall good_draw ds2 /\
  exec (rsakey_main 8 (Some text) ds1) exS = UB /\ exec (rsakey_main 16 None ds2) exS = UB.
Proof.
  exists [54; 53; 53; 51; 55], [Some [11]; Some [13]], [Some [0]; Some [0]; Some [255]]. do 2 (split; [by repeat constructor|]). split; by vm_compute.
Qed.
Print Assumptions C60_buffer_refuted.
