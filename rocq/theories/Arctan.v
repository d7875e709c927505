(** Real analysis for examples/pi.c: truncated integer sums and the arctangent. *)
From Coq Require Import ZArith Lia Lra Reals Machin Ratan.
Local Open Scope Z_scope.

(** The integer terms and their alternating sum. *)
Definition aterm (M x : Z) (k : nat) : Z := M / x ^ (2 * Z.of_nat k + 1) / (2 * Z.of_nat k + 1).
Fixpoint asum (M x : Z) (n : nat) : Z :=
  match n with O => 0 | S k => asum M x k + (if Nat.even k then aterm M x k else - aterm M x k) end.

Local Open Scope R_scope.
Lemma atan_lim (x : R) : 0 < x < 1 -> Un_cv (fun N => sum_f_R0 (tg_alt (Ratan_seq x)) N) (atan x).
Proof.
  intros Hx. rewrite atan_eq_ps_atan by exact Hx. unfold ps_atan. destruct (Ratan.in_int x) as [h|h]; [|exfalso; apply h; lra].
  destruct (ps_atan_exists_1 x h) as [v Hv]. exact Hv.
Qed.
Lemma atan_near (x : R) n : 0 < x < 1 -> Rabs (sum_f_R0 (tg_alt (Ratan_seq x)) n - atan x) <= Ratan_seq x (S n).
Proof.
  intros Hx. assert (0 <= x <= 1) as Hx' by lra.
  pose proof (fun N => alternated_series_ineq _ _ N (Ratan_seq_decreasing x Hx') (Ratan_seq_converging x Hx') (atan_lim x Hx)) as H.
  assert (forall m, 0 <= Ratan_seq x m) as Hpos.
  { intros m. unfold Ratan_seq. apply Rmult_le_pos; [apply pow_le; lra|]. left. apply Rinv_0_lt_compat. apply lt_0_INR. lia. }
  destruct (Nat.even n) eqn:E.
  - apply Nat.even_spec in E as [N ->]. specialize (H N). cbn [sum_f_R0] in H. unfold tg_alt in H at 2. rewrite pow_1_odd in H.
    pose proof (Hpos (S (2 * N))). apply Rabs_le. lra.
  - assert (Nat.odd n = true) as O by (rewrite <- Nat.negb_even, E; reflexivity). apply Nat.odd_spec in O as [N ->]. replace (2 * N + 1)%nat with (S (2 * N)) by lia.
    pose proof (H N) as H1. pose proof (H (S N)) as H2. replace (2 * S N)%nat with (S (S (2 * N))) in H2 by lia. destruct H2 as [_ H2]. rewrite (tech5 (tg_alt (Ratan_seq x)) (S (2 * N))) in H2.
    unfold tg_alt at 2 in H2. replace (S (S (2 * N))) with (2 * S N)%nat in H2 at 1 by lia. rewrite pow_1_even in H2.
    pose proof (Hpos (S (S (2 * N)))). apply Rabs_le. lra.
Qed.
Lemma div_near (a b : Z) : (0 < b)%Z -> IZR (a / b) <= IZR a / IZR b < IZR (a / b) + 1.
Proof.
  intros Hb. pose proof (Z.div_mod a b ltac:(lia)) as E. pose proof (Z.mod_pos_bound a b Hb) as B. apply IZR_lt in Hb as Hb'. apply (f_equal IZR) in E. rewrite plus_IZR, mult_IZR in E.
  destruct B as [B1 B2]. apply IZR_le in B1. apply IZR_lt in B2. split.
  - apply Rmult_le_reg_r with (IZR b); [lra|]. unfold Rdiv. rewrite Rmult_assoc, Rinv_l by lra. lra.
  - apply Rmult_lt_reg_r with (IZR b); [lra|]. unfold Rdiv. rewrite Rmult_assoc, Rinv_l by lra. lra.
Qed.
Lemma ratan_term (M x : Z) k : (0 < x)%Z -> IZR M * Ratan_seq (/ IZR x) k = IZR M / IZR (x ^ (2 * Z.of_nat k + 1) * (2 * Z.of_nat k + 1)).
Proof.
  intros Hx. apply IZR_lt in Hx as Hx'. unfold Ratan_seq. rewrite mult_IZR. replace (2 * Z.of_nat k + 1)%Z with (Z.of_nat (2 * k + 1)) by lia.
  rewrite <- pow_IZR, <- INR_IZR_INZ. rewrite pow_inv. unfold Rdiv. rewrite Rinv_mult. ring.
Qed.
Lemma aterm_near (M x : Z) k : (0 < x)%Z -> IZR (aterm M x k) <= IZR M * Ratan_seq (/ IZR x) k < IZR (aterm M x k) + 1.
Proof.
  intros Hx. rewrite ratan_term by exact Hx. assert (0 < x ^ (2 * Z.of_nat k + 1))%Z by (apply Z.pow_pos_nonneg; lia).
  unfold aterm. rewrite Z.div_div by lia. apply div_near. nia.
Qed.
Lemma asum_near (M x : Z) n : (0 < x)%Z -> Rabs (IZR (asum M x (S n)) - IZR M * sum_f_R0 (tg_alt (Ratan_seq (/ IZR x))) n) <= INR (S n).
Proof.
  intros Hx.
  assert (forall k, Rabs (IZR (if Nat.even k then aterm M x k else - aterm M x k) - IZR M * tg_alt (Ratan_seq (/ IZR x)) k) <= 1) as Ht.
  { intros k. pose proof (aterm_near M x k Hx) as A. unfold tg_alt. destruct (Nat.even k) eqn:E.
    - apply Nat.even_spec in E as [m ->]. rewrite pow_1_even. apply Rabs_le. lra.
    - assert (Nat.odd k = true) as O by (rewrite <- Nat.negb_even, E; reflexivity). apply Nat.odd_spec in O as [m ->]. replace (2 * m + 1)%nat with (S (2 * m)) in * by lia. rewrite pow_1_odd, opp_IZR. apply Rabs_le. lra. }
  induction n as [|n IH].
  - cbn [asum sum_f_R0]. rewrite Z.add_0_l. apply (Ht 0%nat).
  - cbn [sum_f_R0]. change (asum M x (S (S n))) with (asum M x (S n) + (if Nat.even (S n) then aterm M x (S n) else - aterm M x (S n)))%Z.
    rewrite plus_IZR, (S_INR (S n)). specialize (Ht (S n)).
    match goal with |- Rabs (?a + ?b - ?c * (?d + ?e)) <= _ => replace (a + b - c * (d + e)) with ((a - c * d) + (b - c * e)) by ring end.
    eapply Rle_trans; [apply Rabs_triang|]. lra.
Qed.
Lemma asum_atan (M x : Z) K : (2 <= x)%Z -> (0 <= M)%Z -> (M < x ^ (2 * Z.of_nat K + 1))%Z -> Rabs (IZR (asum M x K) - IZR M * atan (/ IZR x)) <= INR K + 1.
Proof.
  intros Hx HM HK. assert (2 <= IZR x) as Hx' by (apply IZR_le; lia). assert (0 < / IZR x < 1) as Hr.
  { split; [apply Rinv_0_lt_compat; lra|]. rewrite <- Rinv_1. apply Rinv_lt_contravar; lra. }
  assert (forall k, (K <= k)%nat -> IZR M * Ratan_seq (/ IZR x) k <= 1) as Htail.
  { intros k Hk. rewrite ratan_term by lia. assert (x ^ (2 * Z.of_nat K + 1) <= x ^ (2 * Z.of_nat k + 1))%Z by (apply Z.pow_le_mono_r; lia).
    assert (0 < x ^ (2 * Z.of_nat k + 1) * (2 * Z.of_nat k + 1))%Z as P by nia. assert (M <= x ^ (2 * Z.of_nat k + 1) * (2 * Z.of_nat k + 1))%Z as L by nia.
    apply IZR_lt in P. apply IZR_le in L. apply Rmult_le_reg_r with (IZR (x ^ (2 * Z.of_nat k + 1) * (2 * Z.of_nat k + 1))); [lra|]. unfold Rdiv. rewrite Rmult_assoc, Rinv_l by lra. lra. }
  apply IZR_le in HM as HM'.
  destruct K as [|n].
  - change (Rabs (0 - IZR M * atan (/ IZR x)) <= 0 + 1). pose proof (Htail 0%nat ltac:(lia)) as T0. 
    assert (0 < atan (/ IZR x)) by (rewrite <- atan_0; apply atan_increasing; lra).
    assert (atan (/ IZR x) <= Ratan_seq (/ IZR x) 0).
    { pose proof (alternated_series_ineq _ _ 0 (Ratan_seq_decreasing (/ IZR x) ltac:(lra)) (Ratan_seq_converging (/ IZR x) ltac:(lra)) (atan_lim _ Hr)) as [_ A]. change (2 * 0)%nat with 0%nat in A. cbn [sum_f_R0] in A. unfold tg_alt in A. cbn [pow] in A. lra. }
    assert (IZR M * atan (/ IZR x) <= IZR M * Ratan_seq (/ IZR x) 0) by (apply Rmult_le_compat_l; lra).
    assert (0 <= IZR M * atan (/ IZR x)) by (apply Rmult_le_pos; lra). apply Rabs_le. lra.
  - pose proof (asum_near M x n ltac:(lia)) as A. pose proof (atan_near _ n Hr) as B. specialize (Htail (S n) ltac:(lia)).
    assert (Rabs (IZR M * sum_f_R0 (tg_alt (Ratan_seq (/ IZR x))) n - IZR M * atan (/ IZR x)) <= 1) as C.
    { rewrite <- Rmult_minus_distr_l, Rabs_mult, (Rabs_right (IZR M)) by lra. eapply Rle_trans; [apply Rmult_le_compat_l; [lra|exact B]|exact Htail]. }
    match goal with |- Rabs (?a - ?c) <= _ => match type of A with Rabs (_ - ?b) <= _ => replace (a - c) with ((a - b) + (b - c)) by ring end end.
    eapply Rle_trans; [apply Rabs_triang|]. lra.
Qed.
Lemma quot_near (a b : Z) : (0 < b)%Z -> Rabs (IZR (Z.quot a b) - IZR a / IZR b) <= 1.
Proof.
  intros Hb. pose proof (Z.quot_rem a b ltac:(lia)) as E. pose proof (Z.rem_bound_abs a b ltac:(lia)) as B. apply IZR_lt in Hb as Hb'. apply (f_equal IZR) in E. rewrite plus_IZR, mult_IZR in E.
  assert (- b < Z.rem a b < b)%Z as [B1 B2] by lia. apply IZR_lt in B1, B2. rewrite opp_IZR in B1.
  rewrite E. replace (IZR (Z.quot a b) - (IZR b * IZR (Z.quot a b) + IZR (Z.rem a b)) / IZR b) with (- (IZR (Z.rem a b) / IZR b)) by (field; lra).
  apply Rabs_le. split.
  - apply Ropp_le_contravar. apply Rmult_le_reg_r with (IZR b); [lra|]. unfold Rdiv. rewrite Rmult_assoc, Rinv_l by lra. lra.
  - rewrite <- (Ropp_involutive 1). apply Ropp_le_contravar. apply Rmult_le_reg_r with (IZR b); [lra|]. unfold Rdiv. rewrite Rmult_assoc, Rinv_l by lra. lra.
Qed.
(** What examples/pi.c computes for mul * atan(1/x), from [K] terms. *)
Lemma scaled_atan (r mul x p : Z) K : (0 < r)%Z -> (0 <= mul)%Z -> (2 <= x)%Z -> (0 <= p)%Z -> (mul * r ^ (p + 1) < x ^ (2 * Z.of_nat K + 1))%Z ->
  Rabs (IZR (Z.quot (asum (mul * r ^ (p + 1)) x K) r) - IZR mul * IZR (r ^ p) * atan (/ IZR x)) <= (INR K + 1) / IZR r + 1.
Proof.
  intros Hr Hm Hx Hp HK. set (M := (mul * r ^ (p + 1))%Z) in *. assert (0 < r ^ (p + 1))%Z by (apply Z.pow_pos_nonneg; lia).
  pose proof (asum_atan M x K Hx ltac:(nia) HK) as A. pose proof (quot_near (asum M x K) r Hr) as B. apply IZR_lt in Hr as Hr'.
  assert (IZR M = IZR r * (IZR mul * IZR (r ^ p))) as EM. { unfold M. rewrite Z.pow_add_r, Z.pow_1_r, !mult_IZR by lia. ring. }
  assert (Rabs (IZR (asum M x K) / IZR r - IZR mul * IZR (r ^ p) * atan (/ IZR x)) <= (INR K + 1) / IZR r) as C.
  { rewrite EM in A. match goal with |- Rabs ?e <= _ => replace e with ((IZR (asum M x K) - IZR r * (IZR mul * IZR (r ^ p)) * atan (/ IZR x)) * / IZR r) by (field; lra) end.
    rewrite Rabs_mult, (Rabs_right (/ IZR r)) by (apply Rle_ge; left; apply Rinv_0_lt_compat; lra). apply Rmult_le_compat_r; [left; apply Rinv_0_lt_compat; lra|exact A]. }
  match goal with |- Rabs (?a - ?c) <= _ => replace (a - c) with ((a - IZR (asum M x K) / IZR r) + (IZR (asum M x K) / IZR r - c)) by ring end.
  eapply Rle_trans; [apply Rabs_triang|]. lra.
Qed.
Local Open Scope Z_scope.
(** The number of terms. *)
Lemma terms_bound (M x : Z) b K : 2 <= x -> 0 < b -> 2 ^ b <= x * x -> (1 <= K)%nat -> (K = 1%nat \/ x ^ (2 * Z.of_nat (K - 2) + 1) <= M) -> Z.of_nat K <= Z.log2 M / b + 2.
Proof.
  intros Hx Hb Hbx HK [->|HM]; [assert (0 <= Z.log2 M / b) by (apply Z.div_pos; [apply Z.log2_nonneg|lia]); lia|].
  destruct (Z.leb_spec (Z.of_nat K) 2) as [L|L]; [assert (0 <= Z.log2 M / b) by (apply Z.div_pos; [apply Z.log2_nonneg|lia]); lia|].
  set (n := Z.of_nat (K - 2)) in *. assert (0 < n) by lia. assert (n <= Z.log2 M / b); [|lia].
  apply Z.div_le_lower_bound; [lia|]. apply Z.log2_le_pow2.
  - apply Z.lt_le_trans with (x ^ (2 * n + 1)); [apply Z.pow_pos_nonneg; lia|exact HM].
  - etransitivity; [|exact HM]. rewrite Z.pow_mul_r by lia. rewrite Z.pow_add_r, Z.pow_1_r, Z.pow_mul_r by lia.
    assert ((2 ^ b) ^ n <= (x ^ 2) ^ n) by (apply Z.pow_le_mono_l; split; [apply Z.pow_nonneg; lia|rewrite Z.pow_2_r; exact Hbx]).
    assert (0 <= (x ^ 2) ^ n) by (apply Z.pow_nonneg; apply Z.pow_nonneg; lia). nia.
Qed.
