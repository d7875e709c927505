(** Bounds for the numbers a string writes. *)
From Coq Require Import ZArith Znumtheory List Lia QArith.
From stdpp Require Import gmap list.
From Verif Require Import Mem Spec SpecRat Rat SpecHist SpecDec RatDec Read Outlen Hist SpecConv ExRsakeyR ExConvR.
Local Open Scope Z_scope.

Lemma red_le n d : d <> 0 -> Z.abs (Qnum (Qred (frac n d))) <= Z.abs n /\ Zpos (Qden (Qred (frac n d))) <= Z.abs d.
Proof.
  intros Hd. pose proof (Qred_num_den (frac n d)) as [Pb Hg]. pose proof (Qred_eq (frac n d)) as E1. pose proof (frac_eq n d Hd) as E2.
  set (a := Qnum (Qred (frac n d))) in *. set (b := Zpos (Qden (Qred (frac n d)))) in *. set (u := Qnum (frac n d)) in *. assert (0 < Zpos (Qden (frac n d))) as Pw by done. set (w := Zpos (Qden (frac n d))) in *. clearbody a b u w.
  assert (a * d = n * b) as E. { apply (Z.mul_cancel_r _ _ w); [lia|]. transitivity (u * d * b); [|rewrite E2; ring]. transitivity (a * w * d); [ring|]. rewrite E1. ring. }
  assert (b | d) as D1. { apply (Z.gauss b a d); [exists n; lia|by rewrite Z.gcd_comm]. }
  assert (a | n) as D2. { apply (Z.gauss a b n); [exists d; lia|done]. }
  split.
  - destruct (Z.eq_dec n 0) as [->|Nn]; [|by apply Z.divide_abs_l, Z.divide_abs_r, Z.divide_pos_le in D2; [|lia]]. rewrite Z.mul_0_l in E. apply Z.mul_eq_0 in E. destruct E as [->|]; [done|lia].
  - apply Z.divide_abs_r, Z.divide_pos_le in D1; lia.
Qed.
Lemma digit_range c d : digit_of c = Some d -> 0 <= d.
Proof. unfold digit_of. intros H. repeat case_match; try done; injection H as <-; repeat match goal with E : (_ && _) = true |- _ => apply andb_true_iff in E as [E ?] end; lia. Qed.
Lemma digits_range r body ds : Forall2 (digit_in r) body ds -> Forall (fun d => 0 <= d < r) ds /\ length ds = length body.
Proof.
  intros H. split; [|by symmetry; apply Forall2_length in H]. induction H as [|c d body ds [H1 H2] _ IH]; constructor; [|done]. apply digit_range in H1. lia.
Qed.
Lemma pow_le r a b : 2 <= r -> (a <= b)%nat -> r ^ Z.of_nat a <= r ^ Z.of_nat b.
Proof. intros Hr H. apply Z.pow_le_mono_r; lia. Qed.
Lemma reads_bound r s v rest : 2 <= r -> reads r s v rest -> Z.abs v < r ^ Z.of_nat (length s).
Proof.
  intros Hr (sp & sg & body & ds & (-> & _ & _ & HF & _) & ->). destruct (digits_range _ _ _ HF) as [H1 H2]. destruct (horner_bounds r ds ltac:(lia) H1) as [B0 B1].
  assert (r ^ Z.of_nat (length ds) <= r ^ Z.of_nat (length (sp ++ sg ++ body ++ rest))) as B2 by (apply pow_le; [lia|]; rewrite !app_length; lia). destruct (decide _); lia.
Qed.
Lemma red_int n : Qnum (Qred (inject_Z n)) = n /\ Zpos (Qden (Qred (inject_Z n))) = 1.
Proof. destruct (red_unique n 1 (inject_Z n)) as [<- <-]; [lia|apply Z.gcd_1_r|done|done]. Qed.
Lemma point_bound r s q rest : 2 <= r -> reads_point r s q rest -> Z.abs (Qnum (Qred q)) < r ^ Z.of_nat (length s) /\ Zpos (Qden (Qred q)) <= r ^ Z.of_nat (length s).
Proof.
  intros Hr (sp & sg & ib & ids & fb & fds & -> & _ & _ & H1 & H2 & _ & _ & ->). destruct (digits_range _ _ _ H1) as [R1 L1]. destruct (digits_range _ _ _ H2) as [R2 L2].
  destruct (horner_bounds r (ids ++ fds) ltac:(lia) ltac:(by apply Forall_app)) as [B0 B1]. rewrite app_length, L1, L2 in B1.
  assert (r ^ Z.of_nat (length fds) <> 0) as Hd by (apply Z.pow_nonzero; lia). destruct (red_le ((if decide (sg = [45]) then -1 else 1) * horner r (ids ++ fds)) (r ^ Z.of_nat (length fds)) Hd) as [A1 A2].
  set (t := sp ++ sg ++ ib ++ 46 :: fb ++ rest). assert (length t = (length sp + (length sg + (length ib + S (length fb + length rest))))%nat) as Lt by (unfold t; rewrite !app_length; cbn [length]; rewrite app_length; lia).
  pose proof (pow_le r (length ib + length fb) (length t) ltac:(lia) ltac:(lia)) as P1. pose proof (pow_le r (length fds) (length t) ltac:(lia) ltac:(lia)) as P2. rewrite (Z.abs_eq (r ^ _)) in A2 by (apply Z.pow_nonneg; lia).
  split; [|lia]. destruct (decide _); lia.
Qed.
Lemma writes_bound r s q : 2 <= r -> writes_rat r s q -> Z.abs (Qnum (Qred q)) < r ^ Z.of_nat (length s) /\ Zpos (Qden (Qred q)) <= r ^ Z.of_nat (length s).
Proof.
  intros Hr [(n & Hn & ->)|[(n & d & (sp & s2 & H1 & _ & H2) & Hd & ->)|Hq]].
  - destruct (red_int n) as [-> ->]. split; [by eapply reads_bound|]. assert (0 < r ^ Z.of_nat (length s)) by (apply Z.pow_pos_nonneg; lia). lia.
  - destruct (red_le n d Hd) as [A1 A2]. pose proof (reads_bound _ _ _ _ Hr H1) as B1. pose proof (reads_bound _ _ _ _ Hr H2) as B2. destruct (reads_suffix _ _ _ _ H1) as [u E].
    assert (r ^ Z.of_nat (length s2) <= r ^ Z.of_nat (length s)) as B3 by (apply pow_le; [lia|]; rewrite E, !app_length; cbn [length]; lia). lia.
  - by eapply point_bound.
Qed.
Lemma decimal_bound r s q : 2 <= r -> writes_decimal r s q -> Z.abs (Qnum (Qred q)) < r ^ Z.of_nat (length s).
Proof. intros Hr [H|H]; eapply writes_bound; eauto; [by left|by right; right]. Qed.
Lemma pow_20000 r s n : 2 <= r <= 36 -> Z.of_nat (length s) <= 3000 -> n <= r ^ Z.of_nat (length (s : list Z)) -> n < 2 ^ 20000.
Proof.
  intros Hr Hs Hn. eapply Z.le_lt_trans; [exact Hn|]. eapply (Z.le_lt_trans _ (64 ^ Z.of_nat (length s))); [apply Z.pow_le_mono_l; lia|].
  change 64 with (2 ^ 6). rewrite <- Z.pow_mul_r by lia. apply Z.pow_lt_mono_r; lia.
Qed.
Lemma below_enough o n a : 2 <= o <= 36 -> 20000 <= a -> n < 2 ^ 20000 -> n < 2 ^ Z.min (enough_bits o) a.
Proof. intros Ho Ha Hn. eapply Z.lt_le_trans; [exact Hn|]. clear Hn. pose proof (enough_bits_20000 o Ho). apply Z.pow_le_mono_r; lia. Qed.
Lemma short_fits i o s q : 2 <= i <= 36 -> 2 <= o <= 36 -> Z.of_nat (length s) <= 3000 -> writes_rat i s q -> fits o q.
Proof.
  intros Hi Ho Hs Hq. destruct (writes_bound i s q (proj1 Hi) Hq) as [B1 B2]. split.
  - apply below_enough; [done|lia|]. apply (pow_20000 i s); [done|done|]. set (x := i ^ _) in *. clearbody x. lia.
  - apply below_enough; [done|lia|]. by apply (pow_20000 i s).
Qed.
(** Rounding always has a result. *)
Lemma rounds_exists m n d : 0 <= n -> 0 < d -> exists N, rounds m n d N.
Proof.
  intros Hn Hd. destruct m; cbn [rounds].
  - exists (n / d). pose proof (Z.div_mod n d ltac:(lia)). pose proof (Z.mod_pos_bound n d Hd). nia.
  - exists ((2 * n + d) / (2 * d)). pose proof (Z.div_mod (2 * n + d) (2 * d) ltac:(lia)). pose proof (Z.mod_pos_bound (2 * n + d) (2 * d) ltac:(lia)). nia.
  - exists (- ((- n) / d)). pose proof (Z.div_mod (- n) d ltac:(lia)). pose proof (Z.mod_pos_bound (- n) d Hd). nia.
  - exists (- ((d - 2 * n) / (2 * d))). pose proof (Z.div_mod (d - 2 * n) (2 * d) ltac:(lia)). pose proof (Z.mod_pos_bound (d - 2 * n) (2 * d) ltac:(lia)). nia.
Qed.
