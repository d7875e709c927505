(** Digit lists and the numbers they denote. *)
From Coq Require Import ZArith List Lia.
From stdpp Require Import gmap list.
From Verif Require Import Mem Prog Kern.
Local Open Scope Z_scope.

Lemma RADIX_val : RADIX = 4294967296. Proof. reflexivity. Qed.
Lemma RADIX_pos : 0 < RADIX. Proof. reflexivity. Qed.
Lemma pow32 : 2 ^ 32 = RADIX. Proof. reflexivity. Qed.
Global Opaque RADIX.

Definition dig (d : Z) : Prop := 0 <= d < RADIX.
Notation digs := (Forall dig).

(** The number denoted by a list of digits, least significant first. *)
Fixpoint val (l : list Z) : Z :=
  match l with [] => 0 | d :: l' => d + RADIX * val l' end.
(** [RADIX ^ n] *)
Definition Bn (n : nat) : Z := RADIX ^ Z.of_nat n.

Lemma Bn_0 : Bn 0 = 1. Proof. done. Qed.
Lemma Bn_S n : Bn (S n) = RADIX * Bn n.
Proof. unfold Bn. rewrite Nat2Z.inj_succ, Z.pow_succ_r; lia. Qed.
Lemma Bn_add n k : Bn (n + k) = Bn n * Bn k.
Proof. unfold Bn. rewrite Nat2Z.inj_add, Z.pow_add_r; lia. Qed.
Lemma Bn_pos n : 0 < Bn n.
Proof. unfold Bn. apply Z.pow_pos_nonneg; [apply RADIX_pos|lia]. Qed.
Lemma Bn_1 : Bn 1 = RADIX. Proof. rewrite Bn_S, Bn_0. lia. Qed.
Lemma Bn_le n k : (n <= k)%nat -> Bn n <= Bn k.
Proof. intros. unfold Bn. apply Z.pow_le_mono_r; [apply RADIX_pos|lia]. Qed.
Lemma Bn_lt n k : (n < k)%nat -> Bn n < Bn k.
Proof. intros. unfold Bn. apply Z.pow_lt_mono_r; [rewrite RADIX_val; lia|lia|lia]. Qed.
Lemma Bn_pow2 n : Bn n = 2 ^ (32 * Z.of_nat n).
Proof. unfold Bn. rewrite <- pow32, <- Z.pow_mul_r by lia. done. Qed.
Lemma Bn_lt_inv n k : Bn n < Bn k -> (n < k)%nat.
Proof. intros. destruct (Nat.lt_ge_cases n k) as [|Hge]; [done|]. apply Bn_le in Hge. lia. Qed.

Lemma val_app l1 l2 : val (l1 ++ l2) = val l1 + Bn (length l1) * val l2.
Proof.
  induction l1 as [|d l1 IH]; simpl; [rewrite Bn_0; lia|]. rewrite IH, Bn_S. ring.
Qed.
Lemma val_bounds l : digs l -> 0 <= val l < Bn (length l).
Proof.
  induction 1 as [|d l Hd Hl IH]; simpl; [rewrite Bn_0; lia|].
  rewrite Bn_S. unfold dig in Hd. pose proof RADIX_pos. nia.
Qed.
Lemma val_snoc l d : val (l ++ [d]) = val l + Bn (length l) * d.
Proof. rewrite val_app. simpl. f_equal. f_equal. lia. Qed.
Lemma val_zeros n : val (replicate n 0) = 0.
Proof. induction n; simpl; lia. Qed.
Lemma digs_zeros n : digs (replicate n 0).
Proof. apply Forall_replicate. split; [lia|apply RADIX_pos]. Qed.
Lemma digs_app l1 l2 : digs (l1 ++ l2) <-> digs l1 /\ digs l2.
Proof. apply Forall_app. Qed.
Lemma digs_1 d : digs [d] -> dig d.
Proof. intros H. by apply Forall_cons in H as [? _]. Qed.
Lemma dig_0 : dig 0. Proof. split; [lia|apply RADIX_pos]. Qed.
Lemma dig_1 : dig 1. Proof. split; [lia|rewrite RADIX_val; lia]. Qed.

Lemma val_inj l1 l2 : digs l1 -> digs l2 -> length l1 = length l2 -> val l1 = val l2 -> l1 = l2.
Proof.
  intros H1. revert l2. induction H1 as [|d1 l1 Hd1 Hl1 IH]; intros l2 H2 Hlen Hv.
  - by destruct l2.
  - destruct l2 as [|d2 l2]; [done|]. simpl in *. apply Forall_cons in H2 as [Hd2 Hl2].
    unfold dig in *. pose proof RADIX_pos.
    assert (d1 = d2 /\ val l1 = val l2) as [-> ?].
    { assert (val l1 - val l2 = 0 \/ val l1 - val l2 <= -1 \/ 1 <= val l1 - val l2) by lia. nia. }
    f_equal. apply IH; auto with lia.
Qed.

(** Canonical form: at least one digit, and no leading zero except for zero. *)
Definition canon (l : list Z) : Prop :=
  (1 <= length l)%nat /\ ((1 < length l)%nat -> Bn (length l - 1) <= val l).

Lemma canon_snoc l d : digs l -> dig d -> d <> 0 -> canon (l ++ [d]).
Proof.
  intros Hl Hd Hn. split; rewrite app_length; simpl; [lia|]. intros _.
  rewrite val_snoc. replace (length l + 1 - 1)%nat with (length l) by lia.
  apply val_bounds in Hl. unfold dig in Hd. pose proof (Bn_pos (length l)). nia.
Qed.
Lemma canon_sing d : canon [d].
Proof. split; simpl; lia. Qed.
Lemma canon_last l d : digs l -> dig d -> canon (l ++ [d]) -> l <> [] -> d <> 0.
Proof.
  intros Hl Hd [_ Hc] Hne ->. rewrite app_length, val_snoc in Hc. simpl in Hc.
  destruct l as [|x l]; [done|]. apply val_bounds in Hl.
  replace (length (x :: l) + 1 - 1)%nat with (length (x :: l)) in Hc by lia.
  simpl in *. lia.
Qed.
Lemma canon_len l n : canon l -> val l < Bn n -> (length l <= Nat.max 1 n)%nat.
Proof.
  intros [H1 H2] Hv. destruct (decide (1 < length l)%nat); [|lia].
  assert (Bn (length l - 1) < Bn n) as Hlt%Bn_lt_inv by lia. lia.
Qed.
Lemma canon_inj l1 l2 : digs l1 -> digs l2 -> canon l1 -> canon l2 -> val l1 = val l2 -> l1 = l2.
Proof.
  intros H1 H2 C1 C2 Hv. apply val_inj; try done.
  pose proof (val_bounds _ H1). pose proof (val_bounds _ H2).
  apply (canon_len _ (length l2)) in C1 as ?; [|lia].
  apply (canon_len _ (length l1)) in C2 as ?; [|lia].
  destruct C1, C2. lia.
Qed.
Lemma canon_val_0 l : digs l -> canon l -> val l = 0 <-> l = [0].
Proof.
  intros Hd Hc. split; [|by intros ->].
  intros Hv. apply canon_inj; auto using canon_sing. apply Forall_singleton, dig_0.
Qed.
(* comparing lengths first *)
Lemma canon_len_lt l1 l2 : digs l1 -> canon l2 -> (length l1 < length l2)%nat -> (1 <= length l1)%nat ->
  val l1 < val l2.
Proof.
  intros H1 [_ C2] Hl Hn. specialize (C2 ltac:(lia)). apply val_bounds in H1.
  pose proof (Bn_le (length l1) (length l2 - 1) ltac:(lia)). lia.
Qed.

(** word arithmetic *)
Lemma w64_id x : 0 <= x < RADIX * RADIX -> w64 x = x.
Proof. intros. unfold w64. apply Z.mod_small. rewrite RADIX_val in *. lia. Qed.
Lemma u32_id x : 0 <= x < RADIX -> u32 x = x.
Proof. intros. unfold u32. rewrite pow32. by apply Z.mod_small. Qed.
Lemma u32_dig x : dig (u32 x).
Proof. unfold u32, dig. rewrite pow32. apply Z.mod_pos_bound, RADIX_pos. Qed.
Lemma lower_dig x : dig (LOWER_HALF x).
Proof. apply u32_dig. Qed.
Lemma halves x : x = LOWER_HALF x + RADIX * UPPER_HALF x.
Proof.
  unfold LOWER_HALF, UPPER_HALF. rewrite pow32.
  rewrite Z.add_comm. apply Z.div_mod. pose proof RADIX_pos. lia.
Qed.
Lemma upper_bound x k : 0 <= x < RADIX * k -> 0 <= UPPER_HALF x < k.
Proof.
  intros [H1 H2]. unfold UPPER_HALF. rewrite pow32. split.
  - apply Z.div_pos; [done|apply RADIX_pos].
  - apply Z.div_lt_upper_bound; [apply RADIX_pos|done].
Qed.
Lemma upper_le x k : 0 <= x < RADIX * (k + 1) -> 0 <= UPPER_HALF x <= k.
Proof. intros H%upper_bound. lia. Qed.
Lemma upper_small x : 0 <= x < RADIX -> UPPER_HALF x = 0.
Proof. intros. unfold UPPER_HALF. rewrite pow32. by apply Z.div_small. Qed.
Lemma halves_unique lo hi : dig lo -> LOWER_HALF (lo + RADIX * hi) = lo /\ UPPER_HALF (lo + RADIX * hi) = hi.
Proof.
  intros Hd. unfold LOWER_HALF, UPPER_HALF. rewrite pow32. unfold dig in Hd.
  pose proof RADIX_pos. rewrite (Z.mul_comm RADIX hi). split.
  - rewrite Z.mod_add by lia. by apply Z.mod_small.
  - rewrite Z.div_add by lia. rewrite Z.div_small by done. lia.
Qed.
Lemma lor_shl hi lo n : 0 <= n -> 0 <= lo < 2 ^ n -> Z.lor (Z.shiftl hi n) lo = hi * 2 ^ n + lo.
Proof.
  intros Hn Hlo. rewrite Z.shiftl_mul_pow2 by done.
  assert (Z.land (hi * 2 ^ n) lo = 0) as H0.
  { apply Z.bits_inj'. intros i Hi. rewrite Z.land_spec, Z.bits_0.
    destruct (Z.lt_ge_cases i n).
    - by rewrite Z.mul_pow2_bits_low.
    - destruct (decide (lo = 0)) as [->|]; [by rewrite Z.bits_0, andb_false_r|].
      rewrite (Z.bits_above_log2 lo); [apply andb_false_r|lia|].
      apply Z.lt_le_trans with n; [|done]. apply Z.log2_lt_pow2; lia. }
  by rewrite Z.add_nocarry_lxor, Z.lxor_lor.
Qed.
