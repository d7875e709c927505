(** Properties of the binary formats (C21, C22).  See [Spec] and [SpecBin]. *)
From Coq Require Import ZArith List Lia.
From stdpp Require Import gmap list.
From Verif Require Import Mem Prog Kern Fp Imath Exec Wp Spec SpecBin Public Concrete Buf Read Bin.
Local Open Scope Z_scope.
Local Open Scope prog_scope.

(** ** C21 Two's complement *)
(** The size is determined, and it is what is reported. *)
Theorem C21_size v : exists n, signed_size v n /\ forall n', signed_size v n' -> n' = n.
Proof. eexists. split; [apply signed_bitlen|]. intros n' H. by eapply signed_unique, signed_bitlen. Qed.
Example C21_size_ex : signed_size (-128) 2.
Proof. split; [lia|]. split; [done|]. intros m Hm. by assert (m = 1%nat) as -> by lia. Qed.
Print Assumptions C21_size.
Theorem C21_binary_len st V W z v n :
  Rep st V W -> V !! z = Some v -> signed_size v n ->
  calls (mp_int_binary_len z) st (fun x st' => x = Z.of_nat n /\ Rep st' V W).
Proof. intros H Hz Hn. eapply by_rule; [done|]. intros st1 HV. eapply wpV_binary_len; [done..|]. split; [done|by apply RV_done]. Qed.
Example C21_binary_len_ex : result (mp_int_binary_len hA) hA exS = Some (13, Some (2 ^ 100 - 12345)).
Proof. by vm_compute. Qed.
Print Assumptions C21_binary_len.
(** With room for [n] bytes, exactly the two's complement form is written.  With
    less room (but at least one byte) the result is MP_TRUNC, and the low-order
    bytes that fit are written, nothing else. *)
Theorem C21_to_binary st V W z v b (off : nat) l limit n :
  Rep st V W -> V !! z = Some v -> bufs W !! b = Some l -> signed_size v n ->
  (1 <= limit)%nat -> (off + limit <= length l)%nat ->
  calls (mp_int_to_binary z (b, Z.of_nat off) (Z.of_nat limit)) st
    (fun x st' => if (n <=? limit)%nat
                  then x = MP_OK /\ Rep st' V (with_buf W b (overwrite off (be_bytes n v) l))
                  else x = MP_TRUNC /\ Rep st' V (with_buf W b (overwrite off (be_bytes limit v) l))).
Proof.
  intros H Hz Hb Hn H1 Hl. eapply by_rule; [done|]. intros st1 HV. eapply wpV_to_binary; [done|done|exact Hb|done|done|done|]. intros st' H'.
  destruct (Nat.leb_spec n limit); (split; [done|]); [rewrite Nat.min_r in H' by lia|rewrite Nat.min_l in H' by lia]; by apply RV_done_buf.
Qed.
Example C21_to_binary_ex : result_buf (mp_int_to_binary hB (bX, 1) 9) (exB 11) =
  Some (MP_OK, Some [None; Some 254; Some 255; Some 255; Some 255; Some 255; Some 255; Some 255; Some 255; Some 249; None]).
Proof. by vm_compute. Qed.
Example C21_to_binary_ex2 : result_buf (mp_int_to_binary hB (bX, 1) 2) (exB 4) = Some (MP_TRUNC, Some [None; Some 255; Some 249; None]).
Proof. by vm_compute. Qed.
Print Assumptions C21_to_binary.
(** With a limit of 0 the byte before the buffer is read. *)
Theorem C21_no_room_refuted : exists st V W z v b l,
  Rep st V W /\ V !! z = Some v /\ bufs W !! b = Some l /\ forall dbg, run dbg orc_yes (mp_int_to_binary z (b, 0) 0) 0 st = UB.
Proof.
  exists (exB 4), exV, (exW 4), hA, (2 ^ 100 - 12345), bX, (replicate 4 None). split; [apply exB_rep|]. split; [by vm_compute|]. split; [by vm_compute|]. intros []; by vm_compute.
Qed.
Print Assumptions C21_no_room_refuted.
(** Reading: any byte string of fewer than 2^28 bytes gives its two's complement
    value, and the buffer, which is changed on the way, is restored. *)
Theorem C21_read_binary st V W z b (off : nat) l bs :
  Rep st V W -> is_Some (V !! z) -> bufs W !! b = Some l -> has_bytes l off bs -> bs <> [] -> Z.of_nat (length bs) < 2 ^ 28 ->
  calls (mp_int_read_binary z (b, Z.of_nat off) (Z.of_nat (length bs))) st
    (fun x st' => x = MP_OK /\ Rep st' (<[z := signed_value bs]> V) W).
Proof.
  intros H Hz Hb HB N Hn. eapply by_rule; [done|]. intros st1 HV. eapply wpV_read_binary; [done|done|exact Hb|done|done|lia|].
  intros st' H'. split; [done|by apply RV_done].
Qed.
Definition exB2 : state := put_buf bX [Some 255; Some 0; Some 0; Some 3; None] exS.
Example C21_read_binary_ex : result (mp_int_read_binary hC (bX, 1) 3) hC exB2 = Some (MP_OK, Some 3) /\
  result (mp_int_read_binary hC (bX, 0) 4) hC exB2 = Some (MP_OK, Some (-16777213)) /\
  result_buf (mp_int_read_binary hC (bX, 0) 4) exB2 = Some (MP_OK, Some [Some 255; Some 0; Some 0; Some 3; None]) /\
  has_bytes [Some 255; Some 0; Some 0; Some 3; None] 0 [255; 0; 0; 3].
Proof.
  split; [by vm_compute|]. split; [by vm_compute|]. split; [by vm_compute|]. split; [by repeat constructor|].
  intros i c Hi. destruct i as [|[|[|[|i]]]]; cbn in *; by simplify_eq.
Qed.
Print Assumptions C21_read_binary.
(** From 2^28 bytes on, the bit count overflows an [int]. *)
Local Transparent Prog.assert.
Theorem C21_read_binary_refuted st z buf len orc dbg : 2 ^ 28 <= len ->
  run dbg orc (mp_int_read_binary z buf len) 0 st = UB /\ run dbg orc (mp_int_read_unsigned z buf len) 0 st = UB.
Proof.
  intros H. unfold mp_int_read_binary, mp_int_read_unsigned, bytes_need, Prog.assert. destruct (Z.ltb_spec 0 len); [|lia]. destruct (Z.gtb_spec (len * 8) (2 ^ 31 - 1)); [|lia].
  split; by destruct dbg.
Qed.
Print Assumptions C21_read_binary_refuted.
(** Writing and reading back. *)
Theorem C21_round_trip st V W z v y b (off : nat) l limit n :
  Rep st V W -> V !! z = Some v -> is_Some (V !! y) -> bufs W !! b = Some l -> signed_size v n -> (n <= limit)%nat -> (off + limit <= length l)%nat ->
  calls (x1 <- mp_int_to_binary z (b, Z.of_nat off) (Z.of_nat limit);
         x2 <- mp_int_binary_len z;
         x3 <- mp_int_read_binary y (b, Z.of_nat off) x2; Ret (x1, x3)) st
    (fun x st' => x = (MP_OK, MP_OK) /\ Rep st' (<[y := v]> V) (with_buf W b (overwrite off (be_bytes n v) l))).
Proof.
  intros H Hz Hy Hb Hn Hl Ho. eapply by_rule; [done|]. intros st1 HV. destruct (size_small _ _ _ _ _ n HV Hz ltac:(by left)) as [N1 N2].
  apply wp_bind. eapply wpV_to_binary; [done|done|exact Hb|done|lia|done|]. intros st2 H2. rewrite Nat.min_r in H2 by lia. rewrite (proj2 (Nat.leb_le n limit)) by lia.
  apply wp_bind. eapply wpV_binary_len; [done..|]. apply wp_bind. rewrite <- (be_bytes_length n v) at 1.
  eapply wpV_read_binary; [exact H2|done|apply setb_lookup|apply has_overwrite; [apply be_bytes_byte|lia]| |by rewrite be_bytes_length|].
  { intros E. apply (f_equal length) in E. rewrite be_bytes_length in E. simpl in E. lia. }
  intros st3 H3. rewrite signed_be in H3 by done. apply wp_ret. split; [done|]. by apply RV_done_buf.
Qed.
Example C21_round_trip_ex : result (x1 <- mp_int_to_binary hB (bX, 1) 9; x2 <- mp_int_binary_len hB; x3 <- mp_int_read_binary hC (bX, 1) x2; Ret (x1 + x3)) hC (exB 11) = Some (MP_OK, Some (- (2 ^ 64 + 7))).
Proof. by vm_compute. Qed.
Print Assumptions C21_round_trip.

(** ** C22 Unsigned *)
Theorem C22_size v : exists n, unsigned_size v n /\ forall n', unsigned_size v n' -> n' = n.
Proof. eexists. split; [apply unsigned_bitlen|]. intros n' H. by eapply unsigned_unique, unsigned_bitlen. Qed.
Example C22_size_ex : unsigned_size (-255) 1 /\ unsigned_size 256 2.
Proof. split; (split; [lia|]); (split; [done|]); intros m Hm; [lia|]. by assert (m = 1%nat) as -> by lia. Qed.
Print Assumptions C22_size.
Theorem C22_unsigned_len st V W z v n :
  Rep st V W -> V !! z = Some v -> unsigned_size v n ->
  calls (mp_int_unsigned_len z) st (fun x st' => x = Z.of_nat n /\ Rep st' V W).
Proof. intros H Hz Hn. eapply by_rule; [done|]. intros st1 HV. eapply wpV_unsigned_len; [done..|]. split; [done|by apply RV_done]. Qed.
Example C22_unsigned_len_ex : result (mp_int_unsigned_len hB) hB exS = Some (9, Some (- (2 ^ 64 + 7))).
Proof. by vm_compute. Qed.
Print Assumptions C22_unsigned_len.
Theorem C22_to_unsigned st V W z v b (off : nat) l limit n :
  Rep st V W -> V !! z = Some v -> bufs W !! b = Some l -> unsigned_size v n -> (off + limit <= length l)%nat ->
  calls (mp_int_to_unsigned z (b, Z.of_nat off) (Z.of_nat limit)) st
    (fun x st' => if (n <=? limit)%nat
                  then x = MP_OK /\ Rep st' V (with_buf W b (overwrite off (be_bytes n (Z.abs v)) l))
                  else x = MP_TRUNC /\ Rep st' V (with_buf W b (overwrite off (be_bytes limit (Z.abs v)) l))).
Proof.
  intros H Hz Hb Hn Hl. eapply by_rule; [done|]. intros st1 HV. eapply wpV_to_unsigned; [done|done|exact Hb|done|done|]. intros st' H'.
  destruct (Nat.leb_spec n limit); (split; [done|]); [rewrite Nat.min_r in H' by lia|rewrite Nat.min_l in H' by lia]; by apply RV_done_buf.
Qed.
Example C22_to_unsigned_ex : result_buf (mp_int_to_unsigned hB (bX, 1) 9) (exB 11) =
  Some (MP_OK, Some [None; Some 1; Some 0; Some 0; Some 0; Some 0; Some 0; Some 0; Some 0; Some 7; None]).
Proof. by vm_compute. Qed.
Print Assumptions C22_to_unsigned.
Theorem C22_read_unsigned st V W z b (off : nat) l bs :
  Rep st V W -> is_Some (V !! z) -> bufs W !! b = Some l -> has_bytes l off bs -> bs <> [] -> Z.of_nat (length bs) < 2 ^ 28 ->
  calls (mp_int_read_unsigned z (b, Z.of_nat off) (Z.of_nat (length bs))) st
    (fun x st' => x = MP_OK /\ Rep st' (<[z := horner 256 bs]> V) W).
Proof.
  intros H Hz Hb HB N Hn. eapply by_rule; [done|]. intros st1 HV. eapply wpV_read_unsigned; [done|done|exact Hb|done|done|lia|].
  intros st' H'. split; [done|by apply RV_done].
Qed.
Example C22_read_unsigned_ex : result (mp_int_read_unsigned hC (bX, 0) 4) hC exB2 = Some (MP_OK, Some 4278190083).
Proof. by vm_compute. Qed.
Print Assumptions C22_read_unsigned.
Theorem C22_round_trip st V W z v y b (off : nat) l limit n :
  Rep st V W -> V !! z = Some v -> is_Some (V !! y) -> bufs W !! b = Some l -> unsigned_size v n -> (n <= limit)%nat -> (off + limit <= length l)%nat ->
  calls (x1 <- mp_int_to_unsigned z (b, Z.of_nat off) (Z.of_nat limit);
         x2 <- mp_int_unsigned_len z;
         x3 <- mp_int_read_unsigned y (b, Z.of_nat off) x2; Ret (x1, x3)) st
    (fun x st' => x = (MP_OK, MP_OK) /\ Rep st' (<[y := Z.abs v]> V) (with_buf W b (overwrite off (be_bytes n (Z.abs v)) l))).
Proof.
  intros H Hz Hy Hb Hn Hl Ho. eapply by_rule; [done|]. intros st1 HV. destruct (size_small _ _ _ _ _ n HV Hz ltac:(by right)) as [N1 N2].
  apply wp_bind. eapply wpV_to_unsigned; [done|done|exact Hb|done|done|]. intros st2 H2. rewrite Nat.min_r in H2 by lia. rewrite (proj2 (Nat.leb_le n limit)) by lia.
  apply wp_bind. eapply wpV_unsigned_len; [done..|]. apply wp_bind. rewrite <- (be_bytes_length n (Z.abs v)) at 1.
  eapply wpV_read_unsigned; [exact H2|done|apply setb_lookup|apply has_overwrite; [apply be_bytes_byte|lia]| |by rewrite be_bytes_length|].
  { intros E. apply (f_equal length) in E. rewrite be_bytes_length in E. simpl in E. lia. }
  intros st3 H3. rewrite unsigned_be in H3 by done. apply wp_ret. split; [done|]. by apply RV_done_buf.
Qed.
Example C22_round_trip_ex : result (x1 <- mp_int_to_unsigned hB (bX, 1) 9; x2 <- mp_int_unsigned_len hB; x3 <- mp_int_read_unsigned hC (bX, 1) x2; Ret (x1 + x3)) hC (exB 11) = Some (MP_OK, Some (2 ^ 64 + 7)).
Proof. by vm_compute. Qed.
Print Assumptions C22_round_trip.
