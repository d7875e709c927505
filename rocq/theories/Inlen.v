(** The floating-point estimates of [s_inlen] and [s_outlen]: error bounds. *)
From Coq Require Import ZArith List Lia.
From stdpp Require Import list.
From Verif Require Import Fp.
Local Open Scope Z_scope.

(** ** Rounding *)
Lemma rne_bounds n d : 0 < d -> 0 <= n -> 2 * n - d <= 2 * d * rne n d <= 2 * n + d.
Proof.
  intros Hd Hn. unfold rne. pose proof (Z.div_mod n d ltac:(lia)) as E. pose proof (Z.mod_pos_bound n d Hd) as B.
  set (q := n / d) in *. set (r := n mod d) in *. destruct (Z.ltb_spec (2 * r) d); [nia|]. rewrite Z.gtb_ltb. destruct (Z.ltb_spec d (2 * r)); [nia|].
  destruct (Z.even q); nia.
Qed.
Lemma scale_pos n e : 0 < n -> 0 < scale_num n e.
Proof. intros. unfold scale_num. destruct (Z.ltb_spec e 0); [|done]. pose proof (Z.pow_pos_nonneg 2 (- e)). nia. Qed.
Lemma scale_den_pos n e : 0 < n -> 0 < scale_den n e.
Proof. intros. unfold scale_den. destruct (Z.ltb_spec e 0); [done|]. pose proof (Z.pow_pos_nonneg 2 e). nia. Qed.
Lemma scale_bits n d e : 0 < n -> 0 < d -> 2 ^ (Z.log2 n) * 2 ^ 52 * scale_den d e <= scale_num n e * 2 ^ (Z.log2 n) * 1 -> 2 ^ 52 * scale_den d e <= scale_num n e.
Proof. intros Hn Hd H. pose proof (Z.pow_pos_nonneg 2 (Z.log2 n) ltac:(lia) (Z.log2_nonneg n)). nia. Qed.
(** With the exponent chosen by [rnd53] the scaled fraction is at least 2^52. *)
Lemma rnd53_scaled n d : 0 < n -> 0 < d ->
  let e0 := Z.log2 n - Z.log2 d - 52 in
  let e := if scale_num n e0 <? 2 ^ 52 * scale_den d e0 then e0 - 1 else e0 in
  2 ^ 52 * scale_den d e <= scale_num n e.
Proof.
  intros Hn Hd e0 e. unfold e. destruct (Z.ltb_spec (scale_num n e0) (2 ^ 52 * scale_den d e0)) as [H|H]; [|done]. clear H.
  pose proof (Z.log2_spec n Hn) as [Ln _]. pose proof (Z.log2_spec d Hd) as [_ Ld]. pose proof (Z.log2_nonneg n). pose proof (Z.log2_nonneg d).
  unfold scale_den, scale_num. destruct (Z.ltb_spec (e0 - 1) 0).
  - assert (2 ^ 52 * 2 ^ Z.succ (Z.log2 d) = 2 ^ Z.log2 n * 2 ^ (- (e0 - 1))) as E. { rewrite <- !Z.pow_add_r by lia. f_equal. unfold e0. lia. }
    pose proof (Z.pow_pos_nonneg 2 (- (e0 - 1)) ltac:(lia) ltac:(lia)). nia.
  - assert (2 ^ 52 * 2 ^ Z.succ (Z.log2 d) * 2 ^ (e0 - 1) = 2 ^ Z.log2 n) as E. { rewrite <- !Z.pow_add_r by lia. f_equal. unfold e0. lia. }
    pose proof (Z.pow_pos_nonneg 2 (e0 - 1) ltac:(lia) ltac:(lia)). nia.
Qed.
Definition c53 : Z := 2 ^ 53.
Lemma frac_bounds n d : 0 < n -> 0 < d ->
  let x := f_of_frac n d in
  0 < f_num x /\ 0 < f_den x /\ n * f_den x * (c53 - 1) <= f_num x * d * c53 /\ f_num x * d * c53 <= n * f_den x * (c53 + 1).
Proof.
  intros Hn Hd x. unfold x, f_of_frac. destruct (Z.leb_spec n 0); [lia|]. unfold rnd53. pose proof (rnd53_scaled n d Hn Hd) as HS. cbv zeta in *.
  set (e := if _ : bool then _ else _) in *. pose proof (scale_pos n e Hn) as HN. pose proof (scale_den_pos d e Hd) as HD.
  pose proof (rne_bounds _ _ HD (Z.lt_le_incl _ _ HN)) as HB. set (m := rne _ _) in *. unfold f_num, f_den. cbn [fst snd].
  assert (0 < m) as Hm by nia. unfold c53. change (2 ^ 53) with (2 * 2 ^ 52). set (k := 2 ^ 52) in *. assert (0 < k) as Hk by (unfold k; lia). clearbody k m.
  unfold scale_num, scale_den in *. destruct (Z.ltb_spec e 0) as [He|He].
  - pose proof (Z.pow_pos_nonneg 2 (- e) ltac:(lia) ltac:(lia)) as Hp. set (p := 2 ^ (- e)) in *. clearbody p. split; [done|]. split; [done|]. nia.
  - pose proof (Z.pow_pos_nonneg 2 e ltac:(lia) ltac:(lia)) as Hp. set (p := 2 ^ e) in *. clearbody p. split; [nia|]. split; [done|]. nia.
Qed.

(** [x] is at least, at most n/d *)
Definition fge (x : f64) (n d : Z) : Prop := n * f_den x <= f_num x * d.
Definition fle (x : f64) (n d : Z) : Prop := f_num x * d <= n * f_den x.
Lemma frac_ge N D n d : 0 < N -> 0 < D -> 0 < d -> n * D <= N * d -> fge (f_of_frac N D) (n * (c53 - 1)) (d * c53).
Proof.
  intros HN HD Hd H. destruct (frac_bounds N D HN HD) as (P1 & P2 & B & _). unfold fge. set (fn := f_num _) in *. set (fd := f_den _) in *.
  assert (0 < c53 - 1) as Hc by (unfold c53; lia). set (c := c53 - 1) in *. clearbody c fn fd.
  apply (Z.mul_le_mono_pos_r _ _ D HD).
  apply Z.le_trans with (N * fd * c * d); [|pose proof (Z.mul_le_mono_nonneg_r _ _ d ltac:(lia) B); nia].
  assert (0 <= fd * c) by nia. nia.
Qed.
Lemma frac_le N D n d : 0 < N -> 0 < D -> 0 < d -> N * d <= n * D -> fle (f_of_frac N D) (n * (c53 + 1)) (d * c53).
Proof.
  intros HN HD Hd H. destruct (frac_bounds N D HN HD) as (P1 & P2 & _ & B). unfold fle. set (fn := f_num _) in *. set (fd := f_den _) in *.
  assert (0 < c53 + 1) as Hc by (unfold c53; lia). set (c := c53 + 1) in *. clearbody c fn fd.
  apply (Z.mul_le_mono_pos_r _ _ D HD).
  apply Z.le_trans with (N * fd * c * d); [pose proof (Z.mul_le_mono_nonneg_r _ _ d ltac:(lia) B); nia|].
  assert (0 <= fd * c) by nia. nia.
Qed.
Lemma trunc_ge x n d : 0 < f_den x -> 0 < d -> fge x n d -> n < (f_trunc x + 1) * d.
Proof.
  unfold fge, f_trunc. intros Hf Hd H. pose proof (Z.div_mod (f_num x) (f_den x) ltac:(lia)). pose proof (Z.mod_pos_bound (f_num x) (f_den x) Hf). nia.
Qed.
Lemma trunc_le x n d : 0 < f_den x -> 0 < d -> fle x n d -> f_trunc x * d <= n.
Proof.
  unfold fle, f_trunc. intros Hf Hd H. pose proof (Z.div_mod (f_num x) (f_den x) ltac:(lia)). pose proof (Z.mod_pos_bound (f_num x) (f_den x) Hf). nia.
Qed.

(** ** An upper bound for a power *)
Fixpoint sq_up (k : nat) (me : Z * Z) : Z * Z :=
  match k with
  | O => me
  | S k' => let m := fst me * fst me in
            let s := Z.max 0 (Z.log2 m - 100) in
            sq_up k' (if s =? 0 then m else m / 2 ^ s + 1, 2 * snd me + s)
  end.
Lemma sq_up_ok k : forall x m e, 0 < x -> 0 < m -> 0 <= e -> x <= m * 2 ^ e ->
  let me := sq_up k (m, e) in 0 < fst me /\ 0 <= snd me /\ x ^ (2 ^ Z.of_nat k) <= fst me * 2 ^ snd me.
Proof.
  induction k as [|k IH]; intros x m e Hx Hm He H; cbn [sq_up fst snd].
  - change (2 ^ Z.of_nat 0) with 1. rewrite Z.pow_1_r. lia.
  - set (s := Z.max 0 (Z.log2 (m * m) - 100)). assert (0 <= s) as Hs by lia. clearbody s.
    assert (0 < 2 ^ s) as Ps by (apply Z.pow_pos_nonneg; lia).
    assert (0 < (if s =? 0 then m * m else m * m / 2 ^ s + 1) /\ m * m <= (if s =? 0 then m * m else m * m / 2 ^ s + 1) * 2 ^ s) as [Hm' HM1].
    { destruct (Z.eqb_spec s 0) as [->|]; [rewrite Z.pow_0_r; nia|].
      pose proof (Z.div_mod (m * m) (2 ^ s) ltac:(lia)). pose proof (Z.mod_pos_bound (m * m) (2 ^ s) Ps). pose proof (Z.div_pos (m * m) (2 ^ s)). split; nia. }
    set (m' := if s =? 0 then _ else _) in *. clearbody m'. specialize (IH (x * x) m' (2 * e + s)). cbv zeta in IH.
    replace (x ^ (2 ^ Z.of_nat (S k))) with ((x * x) ^ (2 ^ Z.of_nat k)).
    + apply IH; [nia|done|lia|].
      replace (2 * e + s) with (e + e + s) by lia. rewrite !Z.pow_add_r by lia.
      assert (0 < 2 ^ e) as Pe by (apply Z.pow_pos_nonneg; lia).
      apply Z.le_trans with (m * m * (2 ^ e * 2 ^ e)); [nia|]. rewrite (Z.mul_comm (2 ^ e * 2 ^ e) (2 ^ s)), (Z.mul_assoc _ (2 ^ s)). apply Z.mul_le_mono_nonneg_r; nia.
    + rewrite Nat2Z.inj_succ, Z.pow_succ_r, <- Z.pow_2_r, <- Z.pow_mul_r by (try apply Z.pow_nonneg; lia). done.
Qed.
(** r ^ (2^k) <= 2 ^ powup k r *)
Definition powup (k : nat) (r : Z) : Z := let me := sq_up k (r, 0) in Z.log2_up (fst me) + snd me.
Lemma powup_ok k r : 0 < r -> r ^ (2 ^ Z.of_nat k) <= 2 ^ powup k r /\ 0 <= powup k r.
Proof.
  intros Hr. unfold powup. destruct (sq_up_ok k r r 0 Hr Hr ltac:(lia) ltac:(rewrite Z.pow_0_r; lia)) as (P1 & P2 & H). set (me := sq_up k (r, 0)) in *. clearbody me.
  pose proof (Z.log2_up_nonneg (fst me)). split; [|lia]. rewrite Z.pow_add_r by lia.
  eapply Z.le_trans; [exact H|]. apply Z.mul_le_mono_nonneg_r; [apply Z.pow_nonneg; lia|].
  destruct (Z.eq_dec (fst me) 1) as [->|]; [done|]. apply Z.log2_up_spec. lia.
Qed.
Lemma pow_exchange x n y m k : 0 < x -> 0 <= y -> 0 <= n -> 0 <= m -> 0 < k -> x ^ k <= 2 ^ m -> m * n <= y * k -> x ^ n <= 2 ^ y.
Proof.
  intros Hx Hy Hn Hm Hk H E. assert (0 <= k) as Hk' by lia. assert (0 <= x) as Hx' by lia. apply Z.le_ngt. intros Hlt.
  assert ((2 ^ y) ^ k < (x ^ n) ^ k) as H1. { apply Z.pow_lt_mono_l; [done|]. split; [by apply Z.pow_nonneg|done]. }
  assert ((x ^ k) ^ n <= (2 ^ m) ^ n) as H2. { apply Z.pow_le_mono_l. split; [by apply Z.pow_nonneg|done]. }
  rewrite <- !Z.pow_mul_r in H1, H2 by done. rewrite (Z.mul_comm k n) in H2.
  assert (2 ^ (m * n) <= 2 ^ (y * k)) as H3 by (by apply Z.pow_le_mono_r).
  exact (Z.lt_irrefl _ (Z.lt_le_trans _ _ _ H1 (Z.le_trans _ _ _ H2 H3))).
Qed.

(** ** [s_inlen] is large enough *)
Definition inlen_ok (r : Z) : bool :=
  let Ln := f_num (s_log2 r) in let Ld := f_den (s_log2 r) in
  ((0 <? Ln) && (0 <? Ld) && (Ln <=? Ld) && (Ld <=? 8 * Ln) &&
   (2 ^ 31 * (powup 30 r * Ln * c53 ^ 3 - 2 ^ 30 * Ld * (c53 - 1) ^ 3) <=? 31 * 2 ^ 30 * Ln * c53 ^ 3))%bool.
Fixpoint upto (n : nat) (f : Z -> bool) (z : Z) : bool := match n with O => true | S n' => (f z && upto n' f (z + 1))%bool end.
Lemma upto_spec n f : forall z x, upto n f z = true -> z <= x < z + Z.of_nat n -> f x = true.
Proof.
  induction n as [|n IH]; intros z x H Hx; [lia|]. cbn [upto] in H. apply andb_prop in H as [H1 H2]. destruct (Z.eq_dec x z) as [->|]; [done|].
  apply (IH (z + 1)); [done|lia].
Qed.
Lemma inlen_all : upto 35 inlen_ok 2 = true. Proof. vm_compute. reflexivity. Qed.
Lemma inlen_bits len r : 2 <= r <= 36 -> 0 < len < 2 ^ 31 ->
  let bits := f_trunc (f_add (f_div (f_of_int len) (s_log2 r)) (f_of_frac 1 2)) in
  len * f_den (s_log2 r) * (c53 - 1) ^ 3 < (bits + 1) * (f_num (s_log2 r) * c53 ^ 3) /\ 0 <= bits < 2 ^ 36.
Proof.
  intros Hr Hlen bits. pose proof (upto_spec _ _ _ r inlen_all ltac:(lia)) as H. unfold inlen_ok in H. rewrite !andb_true_iff in H.
  destruct H as [[[[H1 H2] H3] H4] _]. apply Z.ltb_lt in H1, H2. apply Z.leb_le in H3, H4. unfold bits. clear bits.
  set (Ln := f_num (s_log2 r)) in *. set (Ld := f_den (s_log2 r)) in *.
  assert (0 < c53) as Hc by (unfold c53; lia). assert (c53 - 1 < c53) by lia. assert (0 < c53 - 1) as Hc1 by (unfold c53; lia).
  set (A := f_of_int len). destruct (frac_bounds len 1 ltac:(lia) ltac:(lia)) as (A1 & A2 & _). fold (f_of_int len) in A1, A2. fold A in A1, A2.
  assert (fge A (len * (c53 - 1)) (1 * c53)) as GA by (apply frac_ge; lia).
  assert (fle A (len * (c53 + 1)) (1 * c53)) as LA by (apply frac_le; lia).
  set (B := f_div A (s_log2 r)). assert (0 < f_num A * Ld) as PN by nia. assert (0 < f_den A * Ln) as PD by nia.
  destruct (frac_bounds _ _ PN PD) as (B1 & B2 & _). fold Ln Ld in B. change (f_of_frac (f_num A * Ld) (f_den A * Ln)) with B in B1, B2.
  assert (fge B (len * Ld * (c53 - 1) * (c53 - 1)) (c53 * Ln * c53)) as GB.
  { apply frac_ge; [done|done|nia|]. unfold fge in GA. pose proof (Z.mul_le_mono_nonneg_r _ _ (Ld * Ln) ltac:(nia) GA). lia. }
  assert (fle B (len * Ld * (c53 + 1) * (c53 + 1)) (c53 * Ln * c53)) as LB.
  { apply frac_le; [done|done|nia|]. unfold fle in LA. pose proof (Z.mul_le_mono_nonneg_r _ _ (Ld * Ln) ltac:(nia) LA). lia. }
  set (S := f_add B (f_of_frac 1 2)). set (hn := f_num (f_of_frac 1 2)). set (hd := f_den (f_of_frac 1 2)).
  assert (0 < hn) as Hhn by (by vm_compute). assert (hd = 2 * hn) as Hh by (by vm_compute).
  assert (0 < f_num B * hd + hn * f_den B) as SN by nia. assert (0 < f_den B * hd) as SD by nia.
  destruct (frac_bounds _ _ SN SD) as (S1 & S2 & _). change (f_of_frac (f_num B * hd + hn * f_den B) (f_den B * hd)) with S in S1, S2.
  assert (fge S (len * Ld * (c53 - 1) * (c53 - 1) * (c53 - 1)) (c53 * Ln * c53 * c53)) as GS.
  { apply frac_ge; [done|done|nia|]. fold hn hd. unfold fge in GB. set (fn := f_num B) in *. set (fd := f_den B) in *. set (P := len * Ld * (c53 - 1) * (c53 - 1)) in *. set (P' := c53 * Ln * c53) in *.
    assert (0 < P') by (unfold P'; nia). clearbody P P' fn fd hn hd.
    pose proof (Z.mul_le_mono_nonneg_r _ _ hd ltac:(lia) GB). assert (0 <= hn * fd * P') by (apply Z.mul_nonneg_nonneg; nia). lia. }
  split.
  - apply trunc_ge in GS; [|done|nia]. replace (len * Ld * (c53 - 1) ^ 3) with (len * Ld * (c53 - 1) * (c53 - 1) * (c53 - 1)) by ring.
    replace (Ln * c53 ^ 3) with (c53 * Ln * c53 * c53) by ring. exact GS.
  - split; [unfold f_trunc; apply Z.div_pos; lia|]. 
    assert (fle B (2 ^ 35) 1) as LB'.
    { unfold fle in *. set (fn := f_num B) in *. set (fd := f_den B) in *. assert (len * Ld * (c53 + 1) * (c53 + 1) <= 2 ^ 35 * (c53 * Ln * c53)) as Hb.
      { assert (len * Ld <= (2 ^ 31 - 1) * (8 * Ln)) by nia. unfold c53. nia. }
      assert (0 < c53 * Ln * c53) as Hq by nia. apply (Z.mul_le_mono_pos_r _ _ _ Hq). pose proof (Z.mul_le_mono_nonneg_r _ _ fd ltac:(lia) Hb). lia. }
    assert (fle S ((2 ^ 35 + 1) * (c53 + 1)) (1 * c53)) as LS.
    { apply frac_le; [done|done|lia|]. fold hn hd. unfold fle in LB'. set (fn := f_num B) in *. set (fd := f_den B) in *. clearbody fn fd hn hd. nia. }
    apply trunc_le in LS; [|done|lia]. unfold c53 in LS. lia.
Qed.
Theorem inlen_enough len r : 2 <= r <= 36 -> 0 <= len < 2 ^ 31 -> 1 <= s_inlen len r < 2 ^ 32 - 1 /\ r ^ len <= 2 ^ (32 * s_inlen len r).
Proof.
  intros Hr Hlen. destruct (Z.eq_dec len 0) as [->|Hne].
  - assert (s_inlen 0 r = 1) as ->; [|done]. unfold s_inlen. unfold f_of_int, f_of_frac at 2. cbn [Z.leb Z.compare].
    unfold f_div, f_num at 1. cbn. unfold f_of_frac at 1. cbn. done.
  - destruct (inlen_bits len r Hr ltac:(lia)) as [HL HU]. unfold s_inlen. set (bits := f_trunc _) in *.
    assert ((bits + 31) mod 2 ^ 64 = bits + 31) as -> by (apply Z.mod_small; lia). pose proof (Z.div_mod (bits + 31) 32 ltac:(lia)). pose proof (Z.mod_pos_bound (bits + 31) 32 ltac:(lia)).
    set (q := (bits + 31) / 32) in *. rewrite Z.mod_small by lia. split; [lia|].
    pose proof (upto_spec _ _ _ r inlen_all ltac:(lia)) as H1. unfold inlen_ok in H1. rewrite !andb_true_iff in H1. destruct H1 as [[[[P1 P2] _] _] H1].
    apply Z.ltb_lt in P1, P2. apply Z.leb_le in H1. 
    assert (powup 30 r * len <= 32 * (q + 1) * 2 ^ 30) as HM.
    { set (M := powup 30 r) in *. clearbody M.
    set (Ln := f_num (s_log2 r)) in *. set (Ld := f_den (s_log2 r)) in *. clearbody Ln Ld bits.
    set (C := c53 ^ 3) in *. set (c := (c53 - 1) ^ 3) in *. assert (0 < C) by (by vm_compute). assert (0 < c) by (by vm_compute). clearbody C c.
    apply (Z.mul_le_mono_pos_r _ _ (Ln * C)); [nia|].
    apply Z.le_trans with ((bits + 1 + 31) * 2 ^ 30 * (Ln * C)); [|nia].
    assert (len * (M * Ln * C - 2 ^ 30 * Ld * c) <= 31 * 2 ^ 30 * Ln * C) as HX.
    { destruct (Z.le_gt_cases (M * Ln * C - 2 ^ 30 * Ld * c) 0); [nia|]. nia. }
    nia. }
    assert (0 < r) as Pr by lia. assert (0 <= 32 * (q + 1)) as Py by lia. destruct (powup_ok 30 r Pr) as [HP HP0].
    exact (pow_exchange r len (32 * (q + 1)) (powup 30 r) (2 ^ 30) Pr Py (proj1 Hlen) HP0 eq_refl HP HM).
Qed.
