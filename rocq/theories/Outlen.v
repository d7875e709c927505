(** The estimate of [s_outlen]: for how many bits it is an upper bound. *)
From Coq Require Import ZArith List Lia.
From stdpp Require Import list.
From Verif Require Import Fp Inlen.
Local Open Scope Z_scope.

(** The largest bit length up to which [s_outlen] gives enough digits in radix
    [r]; the other radices have no exception among the sizes a program can hold
    (2^30 bits). *)
Definition enough_bits (r : Z) : Z :=
  match r with
  | 5 => 49470
  | 6 => 40327
  | 7 => 256347
  | 8 => 999996693
  | 11 => 73889
  | 13 => 20196
  | 14 => 347660
  | 17 => 116880
  | 19 => 93772
  | 20 => 92082
  | 22 => 95248
  | 23 => 26973
  | 25 => 49470
  | 29 => 52164
  | 30 => 176176
  | 33 => 95787
  | 34 => 104409
  | _ => 2 ^ 30
  end.

(** ** A lower bound for a power *)
Fixpoint sq_down (k : nat) (me : Z * Z) : Z * Z :=
  match k with
  | O => me
  | S k' => let m := fst me * fst me in
            let s := Z.max 0 (Z.log2 m - 100) in
            sq_down k' (m / 2 ^ s, 2 * snd me + s)
  end.
Lemma sq_down_ok k : forall x m e, 0 < m -> 0 <= e -> m * 2 ^ e <= x ->
  let me := sq_down k (m, e) in 0 < fst me /\ 0 <= snd me /\ fst me * 2 ^ snd me <= x ^ (2 ^ Z.of_nat k).
Proof.
  induction k as [|k IH]; intros x m e Hm He H; cbn [sq_down fst snd].
  - change (2 ^ Z.of_nat 0) with 1. rewrite Z.pow_1_r. lia.
  - set (s := Z.max 0 (Z.log2 (m * m) - 100)). assert (0 <= s <= Z.log2 (m * m)) as Hs by (pose proof (Z.log2_nonneg (m * m)); lia).
    assert (2 ^ s <= m * m) as Hs2. { pose proof (Z.log2_spec (m * m) ltac:(nia)) as [? _]. pose proof (Z.pow_le_mono_r 2 s _ ltac:(lia) (proj2 Hs)). lia. }
    assert (0 < 2 ^ s) as Ps by (apply Z.pow_pos_nonneg; lia). clearbody s.
    assert (0 < m * m / 2 ^ s /\ m * m / 2 ^ s * 2 ^ s <= m * m) as [Hm' HM1].
    { split; [by apply Z.div_str_pos|]. pose proof (Z.div_mod (m * m) (2 ^ s) ltac:(lia)). pose proof (Z.mod_pos_bound (m * m) (2 ^ s) Ps). lia. }
    set (m' := m * m / 2 ^ s) in *. clearbody m'. specialize (IH (x * x) m' (2 * e + s)). cbv zeta in IH.
    assert (0 < 2 ^ e) as Pe by (apply Z.pow_pos_nonneg; lia).
    replace (x ^ (2 ^ Z.of_nat (S k))) with ((x * x) ^ (2 ^ Z.of_nat k)).
    + apply IH; [done|lia|]. replace (2 * e + s) with (e + e + s) by lia. rewrite !Z.pow_add_r by lia.
      apply Z.le_trans with (m * m * (2 ^ e * 2 ^ e)); [|nia]. rewrite (Z.mul_comm (2 ^ e * 2 ^ e) (2 ^ s)), (Z.mul_assoc _ (2 ^ s)). apply Z.mul_le_mono_nonneg_r; nia.
    + rewrite Nat2Z.inj_succ, Z.pow_succ_r, <- Z.pow_2_r, <- Z.pow_mul_r by (try apply Z.pow_nonneg; lia). done.
Qed.
(** 2 ^ powdown k r <= r ^ (2^k) *)
Definition powdown (k : nat) (r : Z) : Z := let me := sq_down k (r, 0) in Z.log2 (fst me) + snd me.
Lemma powdown_ok k r : 0 < r -> 2 ^ powdown k r <= r ^ (2 ^ Z.of_nat k) /\ 0 <= powdown k r.
Proof.
  intros Hr. unfold powdown. destruct (sq_down_ok k r r 0 Hr ltac:(lia) ltac:(rewrite Z.pow_0_r; lia)) as (P1 & P2 & H). set (me := sq_down k (r, 0)) in *. clearbody me.
  pose proof (Z.log2_nonneg (fst me)). split; [|lia]. rewrite Z.pow_add_r by lia.
  eapply Z.le_trans; [|exact H]. apply Z.mul_le_mono_nonneg_r; [apply Z.pow_nonneg; lia|]. by apply Z.log2_spec.
Qed.
Lemma pow_exchange_ge x n y m k : 0 < x -> 0 <= y -> 0 <= n -> 0 <= m -> 0 < k -> 2 ^ m <= x ^ k -> y * k <= m * n -> 2 ^ y <= x ^ n.
Proof.
  intros Hx Hy Hn Hm Hk H E. assert (0 <= k) as Hk' by lia. assert (0 <= x) as Hx' by lia. apply Z.le_ngt. intros Hlt.
  assert ((x ^ n) ^ k < (2 ^ y) ^ k) as H1. { apply Z.pow_lt_mono_l; [done|]. split; [by apply Z.pow_nonneg|done]. }
  assert ((2 ^ m) ^ n <= (x ^ k) ^ n) as H2. { apply Z.pow_le_mono_l. split; [by apply Z.pow_nonneg|done]. }
  rewrite <- !Z.pow_mul_r in H1, H2 by done. rewrite (Z.mul_comm k n) in H2.
  assert (2 ^ (y * k) <= 2 ^ (m * n)) as H3 by (by apply Z.pow_le_mono_r).
  exact (Z.lt_irrefl _ (Z.lt_le_trans _ _ _ H1 (Z.le_trans _ _ _ H3 H2))).
Qed.

(** ** The estimate from below *)
(** The slope of the estimate, after all roundings, times 10^18. *)
Definition slope (r : Z) : Z := f_num (s_log2 r) * (c53 - 1) ^ 3 * 10 ^ 18 / (f_den (s_log2 r) * c53 ^ 3).
Definition slack : Z := 10 ^ 12 + 10 ^ 6.
Definition log_ok (r : Z) : bool := ((0 <? f_num (s_log2 r)) && (0 <? f_den (s_log2 r)))%bool.
Lemma log_all : upto 35 log_ok 2 = true. Proof. vm_compute. reflexivity. Qed.
Lemma outlen_ge n r : 2 <= r <= 36 -> 0 < n -> n * slope r < outlen n r * 10 ^ 18 + slack.
Proof.
  intros Hr Hn. pose proof (upto_spec _ _ _ r log_all ltac:(lia)) as H. unfold log_ok in H. rewrite andb_true_iff in H. destruct H as [H1 H2]. apply Z.ltb_lt in H1, H2.
  unfold slope, outlen. set (Ln := f_num (s_log2 r)) in *. set (Ld := f_den (s_log2 r)) in *.
  assert (0 < c53) as Hc by (unfold c53; lia). assert (0 < c53 - 1) as Hc1 by (unfold c53; lia).
  set (A := f_of_int n). destruct (frac_bounds n 1 ltac:(lia) ltac:(lia)) as (A1 & A2 & _). fold (f_of_int n) in A1, A2. fold A in A1, A2.
  assert (fge A (n * (c53 - 1)) (1 * c53)) as GA by (apply frac_ge; lia).
  set (B := f_mul A (s_log2 r)). assert (0 < f_num A * Ln) as PN by nia. assert (0 < f_den A * Ld) as PD by nia.
  destruct (frac_bounds _ _ PN PD) as (B1 & B2 & _). fold Ln Ld in B. change (f_of_frac (f_num A * Ln) (f_den A * Ld)) with B in B1, B2.
  assert (fge B (n * Ln * (c53 - 1) * (c53 - 1)) (c53 * Ld * c53)) as GB.
  { apply frac_ge; [done|done|nia|]. unfold fge in GA. pose proof (Z.mul_le_mono_nonneg_r _ _ (Ln * Ld) ltac:(nia) GA). lia. }
  set (h := f_of_frac 999999 1000000). set (S := f_add B h). 
  assert (f_num h * (c53 - 1) * 10 ^ 18 >= (10 ^ 18 - slack) * c53 * f_den h) as Hh by (by vm_compute).
  assert (0 < f_num h) as Hhn by (by vm_compute). assert (0 < f_den h) as Hhd by (by vm_compute).
  assert (0 < f_num B * f_den h + f_num h * f_den B) as SN by nia. assert (0 < f_den B * f_den h) as SD by nia.
  destruct (frac_bounds _ _ SN SD) as (S1 & S2 & _). change (f_of_frac (f_num B * f_den h + f_num h * f_den B) (f_den B * f_den h)) with S in S1, S2.
  set (hn := f_num h) in *. set (hd := f_den h) in *.
  set (P := n * Ln * (c53 - 1) * (c53 - 1)) in *. set (P' := c53 * Ld * c53) in *. assert (0 < P') as HP' by (unfold P'; nia).
  assert (fge S ((P * hd + hn * P') * (c53 - 1)) (P' * hd * c53)) as GS.
  { apply frac_ge; [done|done|nia|]. fold hn hd. unfold fge in GB. set (fn := f_num B) in *. set (fd := f_den B) in *. clearbody P P' fn fd hn hd.
    assert (0 <= hd * hd) as Hq by nia. pose proof (Z.mul_le_mono_nonneg_r _ _ _ Hq GB). nia. }
  apply trunc_ge in GS; [|done|nia]. set (N := f_trunc S) in *.
  assert (P * (c53 - 1) * 10 ^ 18 < P' * c53 * (N * 10 ^ 18 + slack)) as HX.
  { clearbody P P' hn hd N. apply (Z.mul_lt_mono_pos_r hd); [done|].
    assert (0 <= P') as HP0 by lia. pose proof (Z.mul_le_mono_nonneg_r _ _ _ HP0 (Z.ge_le _ _ Hh)) as Hh'.
    assert (0 < 10 ^ 18) as Pt by done. pose proof (proj1 (Z.mul_lt_mono_pos_r _ _ _ Pt) GS) as GS'. lia. }
  pose proof (Z.mul_div_le (Ln * (c53 - 1) ^ 3 * 10 ^ 18) (Ld * c53 ^ 3) ltac:(nia)) as HS. set (sl := _ / _) in *.
  apply (Z.mul_lt_mono_pos_l (Ld * c53 ^ 3)); [nia|].
  replace (Ld * c53 ^ 3 * (N * 10 ^ 18 + slack)) with (P' * c53 * (N * 10 ^ 18 + slack)) by (unfold P'; ring).
  eapply Z.le_lt_trans; [|exact HX]. replace (P * (c53 - 1) * 10 ^ 18) with (Ln * (c53 - 1) ^ 3 * 10 ^ 18 * n) by (unfold P; ring).
  assert (0 <= n) as Hn0 by lia. pose proof (Z.mul_le_mono_nonneg_r _ _ _ Hn0 HS) as HS'. lia.
Qed.

(** ** Certificates
    A shortfall at [n] bits is a fraction N/n below log_r 2 and above the
    estimate's slope.  Two fractions a/b < c/d with b c - a d = 1 around that
    gap force b + d <= n. *)
Record seg : Type := Seg { s_from : Z; s_a : Z; s_b : Z; s_c : Z; s_d : Z }.
Definition top : Z := 2 ^ 30 + 1.
Definition seg_end (s : seg) : Z := if s_b s =? 0 then top else s_b s + s_d s.
Definition seg_ok (T M : Z) (s : seg) : bool :=
  ((0 <? s_d s) && (s_d s * 2 ^ 64 <=? s_c s * M) &&
   if s_b s =? 0 then slack * s_d s <=? s_from s * (T * s_d s - s_c s * 10 ^ 18)
   else (0 <? s_b s) && (s_b s * s_c s - s_a s * s_d s =? 1) && (slack * s_b s <=? s_from s * (T * s_b s - s_a s * 10 ^ 18)))%bool.
Lemma seg_sound T M s n N : 0 < M -> 0 < s_from s -> seg_ok T M s = true -> s_from s <= n < seg_end s -> 0 < n -> n * T < N * 10 ^ 18 + slack -> n * 2 ^ 64 <= N * M.
Proof.
  destruct s as [B a b c d]. unfold seg_ok, seg_end. cbn [s_from s_a s_b s_c s_d]. intros HM HB H Hn P HN. rewrite !andb_true_iff in H. destruct H as [[H1 H2] H3].
  apply Z.ltb_lt in H1. apply Z.leb_le in H2. apply Z.le_ngt. intros Hlt.
  assert (0 < slack) as Hs by done. set (S := slack) in *. clearbody S. set (t := 10 ^ 18) in *. assert (0 < t) as Ht by done. clearbody t. set (K := 2 ^ 64) in *. assert (0 < K) as HK by done. clearbody K.
  assert (N * d < n * c) as L1.
  { apply (Z.mul_lt_mono_pos_r M); [done|]. pose proof (proj1 (Z.mul_lt_mono_pos_r d _ _ H1) Hlt). pose proof (Z.mul_le_mono_nonneg_l _ _ n ltac:(lia) H2). lia. }
  destruct (Z.eqb_spec b 0) as [E|E].
  - apply Z.leb_le in H3. assert (0 < T * d - c * t) as P1 by nia. assert (B * (T * d - c * t) <= n * (T * d - c * t)) as P2 by nia.
    pose proof (proj1 (Z.mul_lt_mono_pos_r d _ _ H1) HN). assert (N * d * t < n * c * t) by nia. lia.
  - rewrite !andb_true_iff in H3. destruct H3 as [[H3 H4] H5]. apply Z.ltb_lt in H3. apply Z.eqb_eq in H4. apply Z.leb_le in H5.
    assert (0 < T * b - a * t) as P1 by nia. assert (B * (T * b - a * t) <= n * (T * b - a * t)) as P2 by nia.
    pose proof (proj1 (Z.mul_lt_mono_pos_r b _ _ H3) HN). assert (n * a < N * b) as L2 by nia.
    assert (n = d * (N * b - n * a) + b * (n * c - N * d)) as En. { replace (d * (N * b - n * a) + b * (n * c - N * d)) with (n * (b * c - a * d)) by ring. rewrite H4. lia. }
    assert (1 <= N * b - n * a) by lia. assert (1 <= n * c - N * d) by lia. nia.
Qed.
Fixpoint segs_ok (T M : Z) (from upper : Z) (l : list seg) : bool :=
  match l with
  | [] => upper <? from
  | s :: l' => ((0 <? s_from s) && (s_from s <=? from) && seg_ok T M s && segs_ok T M (seg_end s) upper l')%bool
  end.
Lemma segs_sound T M upper n N : 0 < M -> 0 < n -> n <= upper -> n * T < N * 10 ^ 18 + slack ->
  forall l from, segs_ok T M from upper l = true -> from <= n -> n * 2 ^ 64 <= N * M.
Proof.
  intros HM Hn Hu HN. induction l as [|s l IH]; intros from H Hf; cbn [segs_ok] in H.
  - apply Z.ltb_lt in H. lia.
  - rewrite !andb_true_iff in H. destruct H as [[[H1 H2] H3] H4]. apply Z.ltb_lt in H1. apply Z.leb_le in H2.
    destruct (Z.lt_ge_cases n (seg_end s)); [|by eapply IH]. eapply seg_sound; try done. lia.
Qed.
Definition certs (r : Z) : list seg :=
  match r with
  | 2 => [Seg 1 999997 999998 1 1; Seg 999999 999664112855 999664112856 1 1]
  | 3 => [Seg 1 306 485 665 1054; Seg 1539 15601 24727 31867 50508; Seg 75235 0 0 31867 50508]
  | 4 => [Seg 1 249999 499999 1 2; Seg 500001 124989688349 249979376699 1 2]
  | 5 => [Seg 1 351 815 146 339; Seg 1154 8651 20087 12655 29384]
  | 6 => [Seg 1 253 654 53 137; Seg 791 14271 36890 665 1719; Seg 38609 14936 38609 665 1719]
  | 7 => [Seg 1 353 991 109 306; Seg 1297 571 1603 2393 6718; Seg 8321 2964 8321 88349 248027]
  | 8 => [Seg 1 111073 333220 1 3; Seg 333223 330359013 991077040 1 3; Seg 991077043 333332221 999996664 1 3; Seg 999996667 333332230 999996691 1 3]
  | 9 => [Seg 1 100 317 53 168; Seg 485 6803 21565 665 2108; Seg 23673 0 0 31867 101016]
  | 10 => [Seg 1 205 681 146 485; Seg 1166 8651 28738 12655 42039; Seg 70777 0 0 12655 42039]
  | 11 => [Seg 1 37 128 949 3283; Seg 3411 4856 16799 16503 57091]
  | 12 => [Seg 1 253 907 53 190; Seg 1097 14271 51161 665 2384; Seg 53545 0 0 16266 58313]
  | 13 => [Seg 1 217 803 10 37; Seg 840 227 840 5231 19357]
  | 14 => [Seg 1 244 929 109 415; Seg 1344 571 2174 2393 9111; Seg 11285 2964 11285 88349 336376]
  | 15 => [Seg 1 43 168 247 965; Seg 1133 11610 45359 4049 15819; Seg 61178 0 0 48051 187730]
  | 16 => [Seg 1 62499 249997 1 4; Seg 250001 15624718754 62498875017 1 4]
  | 17 => [Seg 1 80 327 263 1075; Seg 1402 8415 34396 4036 16497; Seg 50893 24559 100384 4036 16497]
  | 18 => [Seg 1 100 417 53 221; Seg 638 6803 28368 665 2773; Seg 31141 0 0 8133 33914]
  | 19 => [Seg 1 4 17 117 497; Seg 514 1327 5637 5187 22034; Seg 27671 16888 71739 5187 22034]
  | 20 => [Seg 1 205 886 146 631; Seg 1517 4647 20084 4004 17305; Seg 37389 8651 37389 12655 54694]
  | 21 => [Seg 1 209 918 130 571; Seg 1489 11845 52027 1588 6975; Seg 59002 0 0 15021 65977]
  | 22 => [Seg 1 37 165 949 4232; Seg 4397 4856 21655 16503 73594]
  | 23 => [Seg 1 212 959 191 864; Seg 1823 2886 13055 3077 13919]
  | 24 => [Seg 1 200 917 53 243; Seg 1160 12941 59334 665 3049; Seg 62383 79335 363748 111202 509857; Seg 873605 0 0 111202 509857]
  | 25 => [Seg 1 278 1291 73 339; Seg 1630 6649 30877 2002 9297; Seg 40174 8651 40174 2002 9297]
  | 26 => [Seg 1 207 973 10 47; Seg 1020 227 1067 5231 24588; Seg 25655 0 0 16147 75898]
  | 27 => [Seg 1 49 233 53 252; Seg 485 4092 19457 665 3162; Seg 22619 0 0 31867 151524]
  | 28 => [Seg 1 135 649 109 524; Seg 1173 571 2745 2393 11504; Seg 14249 0 0 37961 182492]
  | 29 => [Seg 1 162 787 7 34; Seg 821 852 4139 4943 24013; Seg 28152 5795 28152 4943 24013]
  | 30 => [Seg 1 43 211 247 1212; Seg 1423 7561 37101 4049 19868; Seg 56969 27806 136441 4049 19868; Seg 156309 31855 156309 4049 19868]
  | 31 => [Seg 1 22 109 109 540; Seg 649 7161 35477 3515 17414; Seg 52891 0 0 3515 17414]
  | 32 => [Seg 1 39999 199996 1 5; Seg 200001 7999942400 39999712001 1 5]
  | 33 => [Seg 1 45 227 428 2159; Seg 2386 5744 28975 4415 22271; Seg 51246 14574 73517 4415 22271]
  | 34 => [Seg 1 80 407 263 1338; Seg 1745 8415 42811 4036 20533; Seg 63344 16487 83877 4036 20533]
  | 35 => [Seg 1 116 595 263 1349; Seg 1944 3473 17814 9777 50149; Seg 67963 0 0 23027 118112]
  | 36 => [Seg 1 100 517 53 274; Seg 791 6803 35171 665 3438; Seg 38609 0 0 8133 42047]
  | _ => []
  end.
Definition outlen_ok (M T r : Z) : bool := ((0 <? M) && (segs_ok T M 1 (enough_bits r) (certs r)))%bool.
Lemma outlen_ok_inv M T r : outlen_ok M T r = true -> 0 < M /\ segs_ok T M 1 (enough_bits r) (certs r) = true.
Proof. unfold outlen_ok. intros H. apply andb_true_iff in H as [H1 H2]. apply Z.ltb_lt in H1. done. Qed.
Lemma outlen_all : upto 35 (fun r => outlen_ok (powdown 64 r) (slope r) r) 2 = true. Proof. vm_compute. reflexivity. Qed.
Lemma outlen_cert r : 2 <= r <= 36 -> 0 < powdown 64 r /\ segs_ok (slope r) (powdown 64 r) 1 (enough_bits r) (certs r) = true.
Proof.
  intros Hr. assert (2 <= r < 2 + Z.of_nat 35) as Hr' by lia. apply outlen_ok_inv. exact (upto_spec 35 _ 2 r outlen_all Hr').
Qed.
Lemma outlen_prod n r : 2 <= r <= 36 -> 1 <= n <= enough_bits r -> n * 2 ^ 64 <= outlen n r * powdown 64 r.
Proof.
  intros Hr [Hn1 Hn2]. assert (0 < n) as Hn by (clear Hn2; lia). destruct (outlen_cert r Hr) as [H1 H2].
  exact (segs_sound (slope r) (powdown 64 r) (enough_bits r) n (outlen n r) H1 Hn Hn2 (outlen_ge n r Hr Hn) (certs r) 1 H2 Hn1).
Qed.
Lemma powdown_64 r : 0 < r -> 2 ^ powdown 64 r <= r ^ (2 ^ 64) /\ 0 <= powdown 64 r.
Proof. exact (powdown_ok 64 r). Qed.
Lemma outlen_fin n N r M K : 2 <= r -> 1 <= n -> 0 < K -> 0 <= M -> 2 ^ M <= r ^ K -> n * K <= N * M -> 2 ^ n <= r ^ N /\ 1 <= N.
Proof.
  intros Hr Hn HK HM HP HX. assert (1 <= N) as HN1. { clear HP. assert (0 < n * K) by nia. nia. }
  split; [|done]. rewrite (Z.mul_comm N) in HX. apply (pow_exchange_ge r N n M K); try done; clear HP; lia.
Qed.
Theorem outlen_enough n r : 2 <= r <= 36 -> 1 <= n <= enough_bits r -> 2 ^ n <= r ^ outlen n r /\ 1 <= outlen n r.
Proof.
  intros Hr Hn. assert (0 < r) as Pr by lia. pose proof (powdown_64 r Pr) as [H1 H2].
  exact (outlen_fin n (outlen n r) r (powdown 64 r) (2 ^ 64) (proj1 Hr) (proj1 Hn) eq_refl H2 H1 (outlen_prod n r Hr Hn)).
Qed.
Lemma enough_bits_pos r : 1 <= enough_bits r.
Proof. unfold enough_bits. destruct r as [|p|p]; try done. do 6 (destruct p as [p|p|]; try done). Qed.
