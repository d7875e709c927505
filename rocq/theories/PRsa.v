(** Properties of the RSA primitives (C42-C44).  See [Spec] and [SpecBin]. *)
From Coq Require Import ZArith Znumtheory List Lia.
From stdpp Require Import gmap list.
From Verif Require Import Mem Prog Kern Fp Imath Imrat Rsamath Exec Wp Spec SpecBin Public Gcd Concrete Buf Read Bin NumTh Rsa.
Local Open Scope Z_scope.
Local Open Scope prog_scope.

(** ** C42 PKCS#1 v1.5 padding *)
(** A message at the front of a buffer of [n] bytes is replaced by 0, the tag,
    the filler's bytes, 0 and the message, provided it is at least 11 bytes
    shorter; otherwise nothing changes. *)
Theorem C42_encode st V W b (off : nat) l msg n tag filler :
  Rep st V W -> bufs W !! b = Some l -> has_bytes l off msg -> (off + n <= length l)%nat -> Z.of_nat n < 2 ^ 31 ->
  (length msg + 11 <= n)%nat -> let pad := filler (Z.of_nat n - Z.of_nat (length msg) - 3) in length pad = (n - length msg - 3)%nat ->
  calls (rsa_pkcs1v15_encode (b, Z.of_nat off) (Z.of_nat (length msg)) (Z.of_nat n) tag filler) st
    (fun r st' => r = MP_OK /\ Rep st' V (with_buf W b (overwrite off ([0; tag mod 256] ++ pad ++ [0] ++ msg) l))).
Proof.
  intros H Hb [_ HB] Hl Hn Hm pad Hp. eapply by_rule; [done|]. intros st1 HV. eapply wpV_encode; [exact HV|exact Hb|done|done|exact HB|lia|].
  intros _. split; [done|]. intros st' HV'. split; [done|by apply RV_done_buf].
Qed.
Definition exM : state := put_buf bX ((Some <$> [7; 0; 9]) ++ replicate 12 None) exS.
Lemma exM_rep : Rep exM exV (with_buf world0 bX ((Some <$> [7; 0; 9]) ++ replicate 12 None)).
Proof. apply Rep_put_buf; [apply ex_rep|by vm_compute|done]. Qed.
Example C42_encode_ex : result_buf (rsa_pkcs1v15_encode (bX, 0) 3 15 2 (fun n => map Z.of_nat (seq 1 (Z.to_nat n)))) exM =
  Some (MP_OK, Some (Some <$> [0; 2; 1; 2; 3; 4; 5; 6; 7; 8; 9; 0; 7; 0; 9])).
Proof. by vm_compute. Qed.
Print Assumptions C42_encode.
Theorem C42_encode_too_long st V W b (off : nat) l msg n tag filler :
  Rep st V W -> bufs W !! b = Some l -> has_bytes l off msg -> (off + n <= length l)%nat -> Z.of_nat n < 2 ^ 31 -> (n < length msg + 11)%nat ->
  calls (rsa_pkcs1v15_encode (b, Z.of_nat off) (Z.of_nat (length msg)) (Z.of_nat n) tag filler) st (fun r st' => r = MP_RANGE /\ Rep st' V W).
Proof.
  intros H Hb [_ HB] Hl Hn Hm. eapply by_rule; [done|]. intros st1 HV. eapply wpV_encode; [exact HV|exact Hb|done|done|exact HB| |lia].
  intros _. split; [done|by apply RV_done].
Qed.
Example C42_encode_too_long_ex : result_buf (rsa_pkcs1v15_encode (bX, 0) 3 13 2 (fun _ => [])) exM = Some (MP_RANGE, Some ((Some <$> [7; 0; 9]) ++ replicate 12 None)).
Proof. by vm_compute. Qed.
Print Assumptions C42_encode_too_long.
(** Decoding any buffer that starts with 0 and the tag and has a zero byte
    later: what follows the first such zero is moved to the front, the rest of
    the buffer is cleared, and its length is reported. *)
Theorem C42_decode st V W b (off : nat) l pad msg tag :
  let bs := [0; tag mod 256] ++ pad ++ [0] ++ msg in
  Rep st V W -> bufs W !! b = Some l -> has_bytes l off bs -> (11 <= length bs)%nat -> Z.of_nat (length bs) < 2 ^ 31 -> Forall (fun c => c <> 0) pad ->
  calls (rsa_pkcs1v15_decode (b, Z.of_nat off) (Z.of_nat (length bs)) tag) st
    (fun r st' => r = (MP_OK, Some (Z.of_nat (length msg))) /\ Rep st' V (with_buf W b (overwrite off (msg ++ replicate (length pad + 3) 0) l))).
Proof.
  intros bs H Hb HB H11 Hn Hpad. eapply by_rule; [done|]. intros st1 HV.
  assert (off + length bs <= length l)%nat as Hl by (apply has_bytes_len; [done|unfold bs; done]). destruct HB as [_ HB].
  eapply wpV_decode; [exact HV|exact Hb|done|done|exact HB|done| |].
  - intros [?|[?|?]]; [fold bs in H0; lia|done|done].
  - intros _ _ _ st' HV'. split; [done|by apply RV_done_buf].
Qed.
Definition exD : state := put_buf bX (Some <$> [0; 2; 1; 2; 3; 4; 5; 6; 7; 8; 9; 0; 7; 0; 9]) exS.
Example C42_decode_ex : result_buf (rsa_pkcs1v15_decode (bX, 0) 15 2) exD = Some ((MP_OK, Some 3), Some (Some <$> [7; 0; 9; 0; 0; 0; 0; 0; 0; 0; 0; 0; 0; 0; 0])).
Proof. by vm_compute. Qed.
Print Assumptions C42_decode.
(** A buffer that is too short or does not start with 0 and the tag is rejected
    and left alone. *)
Theorem C42_decode_reject st V W b (off : nat) l bs tag :
  Rep st V W -> bufs W !! b = Some l -> has_bytes l off bs -> ((length bs < 11)%nat \/ bs !! 0%nat <> Some 0 \/ bs !! 1%nat <> Some (tag mod 256)) ->
  calls (rsa_pkcs1v15_decode (b, Z.of_nat off) (Z.of_nat (length bs)) tag) st (fun r st' => r = (MP_UNDEF, None) /\ Rep st' V W).
Proof.
  intros H Hb [_ HB] Hc. eapply by_rule; [done|]. intros st1 HV. unfold rsa_pkcs1v15_decode.
  destruct (Z.ltb_spec (Z.of_nat (length bs)) 11). { apply wp_ret. split; [done|by apply RV_done]. }
  destruct bs as [|c0 [|c1 bs]]; [simpl in *; lia..|]. assert (c0 <> 0 \/ c1 <> tag mod 256) as Hc'.
  { destruct Hc as [?|[Hc|Hc]]; [lia|left; intros ->; by apply Hc|right; intros ->; by apply Hc]. } clear Hc.
  apply wp_bind. eapply wpV_loadb; [exact HV|exact Hb|lia|rewrite Nat2Z.id, <- (Nat.add_0_r off); by apply (HB 0%nat)|].
  destruct (Z.eqb_spec c0 0) as [E0|E0]; cbn [negb]; [|apply wp_ret; split; [done|by apply RV_done]].
  apply wp_bind. rewrite padd_1. eapply wpV_loadb; [exact HV|exact Hb|lia|rewrite Nat2Z.id; replace (S off) with (off + 1)%nat by lia; by apply (HB 1%nat)|].
  destruct (Z.eqb_spec c1 (tag mod 256)) as [E1|E1]; cbn [negb]; [lia|apply wp_ret; split; [done|by apply RV_done]].
Qed.
Example C42_decode_reject_ex : result_buf (rsa_pkcs1v15_decode (bX, 0) 15 1) exD = Some ((MP_UNDEF, None), Some (Some <$> [0; 2; 1; 2; 3; 4; 5; 6; 7; 8; 9; 0; 7; 0; 9])).
Proof. by vm_compute. Qed.
Print Assumptions C42_decode_reject.
(** The round trip: every message, every non-zero filler. *)
Theorem C42_round_trip st V W b (off : nat) l msg n tag filler :
  Rep st V W -> bufs W !! b = Some l -> has_bytes l off msg -> (off + n <= length l)%nat -> Z.of_nat n < 2 ^ 31 ->
  (length msg + 11 <= n)%nat -> let pad := filler (Z.of_nat n - Z.of_nat (length msg) - 3) in
  length pad = (n - length msg - 3)%nat -> Forall (fun c => 0 < c < 256) pad ->
  calls (r1 <- rsa_pkcs1v15_encode (b, Z.of_nat off) (Z.of_nat (length msg)) (Z.of_nat n) tag filler;
         r2 <- rsa_pkcs1v15_decode (b, Z.of_nat off) (Z.of_nat n) tag; Ret (r1, r2)) st
    (fun r st' => r = (MP_OK, (MP_OK, Some (Z.of_nat (length msg)))) /\
       Rep st' V (with_buf W b (overwrite off (msg ++ replicate (n - length msg) 0) l))).
Proof.
  intros H Hb HB Hl Hn Hm pad Hp Hpad. eapply by_rule; [done|]. intros st1 HV. apply wp_bind. eapply wpV_encode; [exact HV|exact Hb|done|done|apply HB|lia|].
  intros _. split; [done|]. fold pad. intros st2 HV2. apply wp_bind.
  set (bs := [0; tag mod 256] ++ pad ++ [0] ++ msg) in *. assert (length bs = n) as Lb by (unfold bs; rewrite !app_length; simpl; lia).
  assert (length (overwrite off bs l) = length l) as Lo by (apply overwrite_length; rewrite Lb; lia).
  rewrite <- Lb at 1. eapply (wpV_decode _ _ _ _ _ _ pad msg); fold bs; [exact HV2|apply setb_lookup|rewrite Lo, Lb; lia|rewrite Lb; done| | | |].
  - intros i c Hi. apply overwrite_lookup; [exact Hi|lia].
  - eapply Forall_impl; [exact Hpad|]. intros c Hc. simpl in Hc. lia.
  - fold bs. rewrite Lb. intros [?|[?|?]]; [lia|done|done].
  - intros _ _ _ st3 HV3. apply wp_ret. split; [done|]. apply RV_done_buf. rewrite setb_setb in HV3.
    rewrite overwrite_overwrite in HV3 by (unfold bs; rewrite !app_length, ?replicate_length; simpl; lia). replace (length pad + 3)%nat with (n - length msg)%nat in HV3 by lia. done.
Qed.
Example C42_round_trip_ex : result_buf (r1 <- rsa_pkcs1v15_encode (bX, 0) 3 15 258 (fun n => map Z.of_nat (seq 1 (Z.to_nat n)));
   r2 <- rsa_pkcs1v15_decode (bX, 0) 15 2; Ret (r1, r2)) exM = Some ((MP_OK, (MP_OK, Some 3)), Some (Some <$> [7; 0; 9; 0; 0; 0; 0; 0; 0; 0; 0; 0; 0; 0; 0])).
Proof. by vm_compute. Qed.
Print Assumptions C42_round_trip.
(** Decoding does not stay inside the buffer: without a zero byte the scan runs
    past its end. *)
Theorem C42_decode_overrun_refuted : exists st V W b l,
  Rep st V W /\ bufs W !! b = Some l /\ has_bytes l 0 [0; 2; 1; 1; 1; 1; 1; 1; 1; 1; 1; 1] /\ length l = 12%nat /\
  forall dbg, run dbg orc_yes (rsa_pkcs1v15_decode (b, 0) 12 2) 0 st = UB.
Proof.
  set (l := Some <$> [0; 2; 1; 1; 1; 1; 1; 1; 1; 1; 1; 1] : list cell). exists (put_buf bX l exS), exV, (with_buf world0 bX l), bX, l.
  split; [apply Rep_put_buf; [apply ex_rep|by vm_compute|done]|]. split; [apply lookup_insert|]. split.
  - split; [repeat constructor; lia|]. intros i c Hi. unfold l. change (0 + i)%nat with i; by rewrite list_lookup_fmap, Hi.
  - split; [done|]. intros []; by vm_compute.
Qed.
Print Assumptions C42_decode_overrun_refuted.
(** A message of at most the reported length, padded to the number of whole bytes
    of the modulus, is a number below the modulus. *)
Theorem C42_max_message_len st V W n v bits :
  Rep st V W -> V !! n = Some v -> 2 ^ (bits - 1) <= v < 2 ^ bits -> 1 <= bits ->
  calls (rsa_max_message_len n) st (fun r st' => Rep st' V W /\ r = Z.max 0 (bits / 8 - 11) /\
    forall tag pad msg, let bs := [0; tag mod 256] ++ pad ++ [0] ++ msg in
      Forall is_byte bs -> Z.of_nat (length msg) <= r -> Z.of_nat (length bs) = bits / 8 -> 0 <= horner 256 bs < v).
Proof.
  intros H Hn Hv Hb. eapply by_rule; [done|]. intros st1 HV. eapply wpV_max_message_len; [exact HV|exact Hn|]. split; [by apply RV_done|].
  assert (bitlen v = bits) as ->.
  { pose proof (Z.pow_pos_nonneg 2 (bits - 1) ltac:(lia) ltac:(lia)). unfold bitlen. destruct (Z.eqb_spec v 0); [lia|]. rewrite Z.abs_eq by lia. rewrite (Z.log2_unique v (bits - 1)); [lia|lia|].
    replace (Z.succ (bits - 1)) with bits by lia. done. }
  split; [done|]. intros tag pad msg bs HF Hm HL.
  assert (horner 256 bs = horner 256 (tail bs)) as -> by done.
  assert (Forall is_byte (tail bs)) as HF' by (unfold bs in *; simpl in *; by inversion HF). pose proof (horner_bounds _ HF') as HB.
  assert (Z.of_nat (length (tail bs)) = bits / 8 - 1) as HL' by (unfold bs in *; simpl in *; lia). split; [lia|]. eapply Z.lt_le_trans; [apply HB|]. etransitivity; [|apply Hv].
  rewrite pow256. apply Z.pow_le_mono_r; [lia|]. rewrite HL'. pose proof (Z.mul_div_le bits 8 ltac:(lia)). lia.
Qed.
Example C42_max_message_len_ex : result (rsa_max_message_len hA) hA exS = Some (1, Some vA).
Proof. by vm_compute. Qed.
Print Assumptions C42_max_message_len.

(** ** C43 The RSA primitives *)
Definition primitives : list (oid -> oid -> oid -> oid -> prog Z) := [rsa_rsaep; rsa_rsadp; rsa_rsasp; rsa_rsavp].
Lemma all_transform f : In f primitives -> f = s_rsa_transform.
Proof. intros [<-|[<-|[<-|[<-|[]]]]]; done. Qed.
Theorem C43_transform f st V W m e n c vm ve vn : In f primitives ->
  Rep st V W -> V !! m = Some vm -> V !! e = Some ve -> V !! n = Some vn -> is_Some (V !! c) -> 0 <= vm < vn -> 0 < ve ->
  calls (f m e n c) st (fun r st' => r = MP_OK /\ Rep st' (<[c := vm ^ ve mod vn]> V) W).
Proof.
  intros Hf H Hm He Hn Hc Hr He0. rewrite (all_transform _ Hf). eapply by_rule; [done|]. intros st1 HV. eapply wpV_transform; [exact HV|exact Hm|exact He|exact Hn|exact Hc|lia|].
  intros _ _ st' HV'. destruct (Z.eqb_spec ve 0); [lia|]. split; [done|by apply RV_done].
Qed.
Example C43_transform_ex : result (rsa_rsaep hE hE hA hC) hC exS = Some (MP_OK, Some 27).
Proof. by vm_compute. Qed.
Print Assumptions C43_transform.
Theorem C43_range f st V W m e n c vm ve vn : In f primitives ->
  Rep st V W -> V !! m = Some vm -> V !! e = Some ve -> V !! n = Some vn -> is_Some (V !! c) -> (vm < 0 \/ vn <= vm \/ ve < 0) ->
  calls (f m e n c) st (fun r st' => r = MP_RANGE /\ Rep st' V W).
Proof.
  intros Hf H Hm He Hn Hc Hr. rewrite (all_transform _ Hf). eapply by_rule; [done|]. intros st1 HV. eapply wpV_transform; [exact HV|exact Hm|exact He|exact Hn|exact Hc| |lia].
  intros _. split; [done|by apply RV_done].
Qed.
Example C43_range_ex : result (rsa_rsadp hA hE hE hC) hC exS = Some (MP_RANGE, Some 0).
Proof. by vm_compute. Qed.
Print Assumptions C43_range.
(** Encryption and decryption (and signing and verification) undo each other. *)
Theorem C43_round_trip f g st V W m e d n c x vm ve vd vn p q :
  In f primitives -> In g primitives ->
  Rep st V W -> V !! m = Some vm -> V !! e = Some ve -> V !! d = Some vd -> V !! n = Some vn -> is_Some (V !! c) -> is_Some (V !! x) ->
  c <> d -> c <> n ->
  prime p -> prime q -> p <> q -> vn = p * q -> 0 < ve -> 0 < vd -> (Z.lcm (p - 1) (q - 1) | ve * vd - 1) -> 0 <= vm < vn ->
  calls (r1 <- f m e n c; r2 <- g c d n x; Ret (r1, r2)) st
    (fun r st' => r = (MP_OK, MP_OK) /\ Rep st' (<[x := vm]> (<[c := vm ^ ve mod vn]> V)) W).
Proof.
  intros Hf Hg H Hm He Hd Hn Hc Hx N1 N2 Hp Hq Npq En He0 Hd0 HL Hr. rewrite (all_transform _ Hf), (all_transform _ Hg). eapply by_rule; [done|]. intros st1 HV.
  pose proof (prime_ge_2 _ Hp). pose proof (prime_ge_2 _ Hq).
  apply wp_bind. eapply wpV_transform; [exact HV|exact Hm|exact He|exact Hn|exact Hc|lia|]. intros _ _ st2 HV2. destruct (Z.eqb_spec ve 0); [lia|].
  pose proof (Z.mod_pos_bound (vm ^ ve) vn ltac:(lia)).
  apply wp_bind. eapply wpV_transform; [exact HV2|apply lookup_insert|by rewrite lookup_insert_ne|by rewrite lookup_insert_ne| |lia|].
  { destruct (decide (x = c)) as [->|]; [by rewrite lookup_insert|by rewrite lookup_insert_ne]. }
  intros _ _ st3 HV3. destruct (Z.eqb_spec vd 0); [lia|]. apply wp_ret. split; [done|]. apply RV_done. subst vn.
  rewrite (rsa_exponents Hp Hq Npq) in HV3; [done|lia|lia|done|lia].
Qed.
Definition exK : state := put (H 14) 65 (put (H 13) 413 (put (H 12) 17 (put (H 11) 3233 exS))).
Lemma exK_rep : Rep exK (<[H 14 := 65]> (<[H 13 := 413]> (<[H 12 := 17]> (<[H 11 := 3233]> exV)))) world0.
Proof. unfold exK. do 4 (apply Rep_put; [|reflexivity|by vm_compute]). apply ex_rep. Qed.
Example C43_round_trip_ex : 3233 = 61 * 53 /\ (Z.lcm (61 - 1) (53 - 1) | 17 * 413 - 1) /\ 0 <= 65 < 3233 /\
  result (rsa_rsaep (H 14) (H 12) (H 11) hC) hC exK = Some (MP_OK, Some 2790) /\
  result (r1 <- rsa_rsaep (H 14) (H 12) (H 11) hC; r2 <- rsa_rsadp hC (H 13) (H 11) hC; Ret (r1, r2)) hC exK = Some ((MP_OK, MP_OK), Some 65).
Proof. split; [done|]. split; [exists 9; by vm_compute|]. split; [lia|]. by vm_compute. Qed.
Print Assumptions C43_round_trip.

(** ** C44 Octet strings *)
(** Correct when [len] is exactly the length the library reports (the leading
    bit is then free for a sign). *)
Theorem C44_i2osp st V W z v b (off : nat) l len :
  Rep st V W -> V !! z = Some v -> bufs W !! b = Some l -> (off + len <= length l)%nat -> signed_size v len ->
  calls (rsa_i2osp z (b, Z.of_nat off) (Z.of_nat len)) st
    (fun r st' => r = MP_OK /\ Rep st' V (with_buf W b (overwrite off (be_bytes len v) l))).
Proof.
  intros H Hz Hb Hl Hs. eapply by_rule; [done|]. intros st1 HV. eapply wpV_i2osp; [exact HV|exact Hz|exact Hb|done|done|]. intros st' HV'. split; [done|by apply RV_done_buf].
Qed.
Example C44_i2osp_ex : result_buf (rsa_i2osp hE (bX, 1) 1) (exB 3) = Some (MP_OK, Some [None; Some 3; None]).
Proof. by vm_compute. Qed.
Print Assumptions C44_i2osp.
(** A longer buffer is refused although the number fits ... *)
Theorem C44_i2osp_longer_refuted : exists st V W z b l,
  Rep st V W /\ V !! z = Some 3 /\ bufs W !! b = Some l /\ length l = 4%nat /\ result_buf (rsa_i2osp z (b, 0) 4) st = Some (MP_RANGE, Some l).
Proof. exists (exB 4), exV, (exW 4), hE, bX, (replicate 4 None). split; [apply exB_rep|]. split; [done|]. split; [by vm_compute|]. split; [done|by vm_compute]. Qed.
Print Assumptions C44_i2osp_longer_refuted.
(** ... and a shorter one is accepted and overrun. *)
Theorem C44_i2osp_shorter_refuted : exists st V W z v b l,
  Rep st V W /\ V !! z = Some v /\ 256 ^ 2 <= v /\ bufs W !! b = Some l /\ length l = 2%nat /\ forall dbg, run dbg orc_yes (rsa_i2osp z (b, 0) 2) 0 st = UB.
Proof.
  exists (exB 2), exV, (exW 2), hA, (2 ^ 100 - 12345), bX, (replicate 2 None). split; [apply exB_rep|]. split; [by vm_compute|]. split; [by vm_compute|]. split; [by vm_compute|]. split; [done|]. intros []; by vm_compute.
Qed.
Print Assumptions C44_i2osp_shorter_refuted.
(** Reading: the value is that of the bytes when the first is below 128. *)
Theorem C44_os2ip st V W z b (off : nat) l bs c bs' :
  Rep st V W -> is_Some (V !! z) -> bufs W !! b = Some l -> has_bytes l off bs -> bs = c :: bs' -> c < 128 -> Z.of_nat (length bs) < 2 ^ 28 ->
  calls (rsa_os2ip z (b, Z.of_nat off) (Z.of_nat (length bs))) st (fun x st' => x = MP_OK /\ Rep st' (<[z := horner 256 bs]> V) W).
Proof.
  intros H Hz Hb HB Ebs Hc Hn. eapply by_rule; [done|]. intros st1 HV. eapply wpV_read_binary; [done|done|exact Hb|done|by subst bs|lia|].
  intros st' HV'. split; [done|]. apply RV_done. unfold signed_value in HV'. subst bs. destruct (Z.leb_spec 128 c); [lia|]. by rewrite Z.sub_0_r in HV'.
Qed.
Example C44_os2ip_ex : result (rsa_os2ip hC (bX, 0) 2) hC (put_buf bX [Some 1; Some 2; None] exS) = Some (MP_OK, Some 258).
Proof. by vm_compute. Qed.
Print Assumptions C44_os2ip.
(** Otherwise a negative number is stored. *)
Theorem C44_os2ip_high_refuted : exists st V W z b l,
  Rep st V W /\ is_Some (V !! z) /\ bufs W !! b = Some l /\ has_bytes l 0 [128] /\ horner 256 [128] = 128 /\ result (rsa_os2ip z (b, 0) 1) z st = Some (MP_OK, Some (-128)).
Proof.
  set (l := [Some 128] : list cell). exists (put_buf bX l exS), exV, (with_buf world0 bX l), hC, bX, l.
  split; [apply Rep_put_buf; [apply ex_rep|by vm_compute|done]|]. split; [by eexists|]. split; [apply lookup_insert|]. split; [|split; [done|by vm_compute]].
  split; [repeat constructor; lia|]. intros [|i] c Hi; [by injection Hi as <-|done].
Qed.
Print Assumptions C44_os2ip_high_refuted.
