(** Number theory that the library's correctness rests on: Fermat's little
    theorem, the exponents of RSA, and a bound for the next prime.  Proved with
    mathcomp for natural numbers and exported for integers. *)
From Coq Require Import ZArith Znumtheory Zpow_facts Lia.
From mathcomp Require Import all_ssreflect cyclic zify.
Set Implicit Arguments.
Unset Strict Implicit.
Unset Printing Implicit Defensive.

Local Open Scope nat_scope.

(** ** A prime between m and 2 m^2 *)
Lemma cbin_ge n : 2 ^ n <= 'C(n.*2, n).
Proof.
elim: n => [|n IH]; first by rewrite bin0.
rewrite doubleS binS expnS mul2n -addnn. apply: leq_add.
- rewrite binS. apply: leq_trans IH _. exact: leq_addl.
- case: n IH => [|n] IH; first by rewrite bin0.
  rewrite binS. apply: leq_trans IH _. exact: leq_addr.
Qed.
Lemma logn_cbin p n : prime p -> 0 < n -> p ^ logn p 'C(n.*2, n) <= n.*2.
Proof.
move=> pp n0. have p1 := prime_gt1 pp.
have Hn : n <= n.*2 by rewrite -addnn leq_addr.
have := bin_fact Hn. rewrite -addnn addnK addnn => E.
have E2 : logn p 'C(n.*2, n) + (logn p n`! + logn p n`!) = logn p (n.*2)`!.
  rewrite -E lognM ?lognM ?fact_gt0 ?muln_gt0 ?fact_gt0 ?bin_gt0 //.
have W : \sum_(1 <= k < n.+1) n %/ p ^ k = \sum_(1 <= k < n.*2.+1) n %/ p ^ k.
  rewrite (@big_cat_nat _ _ _ n.+1 1 n.*2.+1) //=.
  rewrite [X in _ = _ + X]big_nat_cond [X in _ = _ + X]big1 ?addn0 // => k /andP[/andP[k1 _] _].
  apply: divn_small. apply: ltn_trans k1 _. exact: ltn_expl.
set L := trunc_log p n.*2.
suff: logn p 'C(n.*2, n) <= L.
  move=> HL. apply: leq_trans (trunc_logP p1 _); last by rewrite double_gt0.
  by rewrite leq_exp2l.
rewrite !logn_fact // W in E2.
have: logn p 'C(n.*2, n) + (\sum_(1 <= k < n.*2.+1) n %/ p ^ k + \sum_(1 <= k < n.*2.+1) n %/ p ^ k) <= L + (\sum_(1 <= k < n.*2.+1) n %/ p ^ k + \sum_(1 <= k < n.*2.+1) n %/ p ^ k); last by rewrite leq_add2r.
rewrite E2.
have LL : L <= n.*2.
  rewrite /L. have := trunc_logP p1 (_ : 0 < n.*2). rewrite double_gt0 => /(_ n0) H.
  apply: leq_trans H. exact/ltnW/ltn_expl.
have -> : L = \sum_(1 <= k < n.*2.+1) (k <= L).
  rewrite (@big_cat_nat _ _ _ L.+1 1 n.*2.+1) //=.
  rewrite [X in _ = _ + X]big_nat_cond [X in _ = _ + X]big1 ?addn0; last first.
    by move=> k /andP[/andP[k1 _] _]; rewrite leqNgt k1.
  rewrite (eq_big_nat _ _ (F2 := fun _ => 1)); last by move=> k /andP[_]; rewrite ltnS => ->.
  by rewrite sum_nat_const_nat subn1 muln1.
rewrite -!big_split /=. apply: leq_sum => k _.
have pk : 0 < p ^ k by rewrite expn_gt0 prime_gt0.
case: (leqP k L) => kL.
- have := divn_eq n (p ^ k). have := ltn_pmod n pk. set q := n %/ _. set r := n %% _ => Hr En.
  rewrite {1}En -addnn. rewrite addnACA -mulnDl divnMDl // addnC leq_add2r.
  have : (r + r) %/ p ^ k < 2 by rewrite ltn_divLR // mul2n -addnn; lia. lia.
- rewrite divn_small //. apply: leq_trans (trunc_log_ltn n.*2 p1) _. by rewrite leq_exp2l.
Qed.
Lemma prime_dvd_fact p n : prime p -> p %| n`! -> p <= n.
Proof.
move=> pp. elim: n => [|n IH]; first by rewrite fact0 dvdn1 => /eqP E; move: pp; rewrite E.
rewrite factS Euclid_dvdM // => /orP[/dvdn_leq-> //|/IH H]. exact: leq_trans H _.
Qed.
Lemma next_prime m : 0 < m -> exists2 p, prime p & m < p <= 2 * m ^ 2.
Proof.
move=> m0. case: (leqP m 6) => m6.
  have: (m == 1) || (m == 2) || (m == 3) || (m == 4) || (m == 5) || (m == 6) by lia.
  by do 5 (case/orP; last by move=> /eqP->; (exists 7 || exists 5 || exists 3)); move=> /eqP->; exists 2.
case: (boolP (has (fun p => prime p && (m < p)) (iota 0 (2 * m ^ 2).+1))) => [/hasP[p]|/hasPn NP].
  rewrite mem_iota add0n ltnS => /andP[_ H1] /andP[H2 H3]. by exists p => //; rewrite H3.
exfalso. set n := m ^ 2.
have n0 : 0 < n by rewrite expn_gt0 m0.
have C0 : 0 < 'C(n.*2, n) by rewrite bin_gt0 -addnn leq_addr.
have small p : p \in primes 'C(n.*2, n) -> 0 < p <= m.
  rewrite mem_primes => /and3P[pp _ dv]. rewrite prime_gt0 //=.
  have : p %| (n.*2)`!.
    apply: dvdn_trans dv _. have Hn : n <= n.*2 by rewrite -addnn leq_addr. rewrite -(bin_fact Hn). exact: dvdn_mulr.
  move=> /(prime_dvd_fact pp) pn.
  have := NP p. rewrite mem_iota add0n ltnS leq0n -/n mul2n pp /= -leqNgt. exact.
have sz : size (primes 'C(n.*2, n)) <= m.
  rewrite -(size_iota 1 m). apply: uniq_leq_size; first exact: primes_uniq.
  move=> p /small. by rewrite mem_iota add1n ltnS.
have : 'C(n.*2, n) <= n.*2 ^ m.
  rewrite {1}(prod_prime_decomp C0) prime_decompE big_map /=.
  apply: (@leq_trans (\prod_(p <- primes 'C(n.*2, n)) n.*2)).
    rewrite big_seq_cond [leqRHS]big_seq_cond. apply: leq_prod => p /andP[Hp _]. apply: logn_cbin => //.
    by move: Hp; rewrite mem_primes => /and3P[].
  rewrite big_const_seq count_predT iter_muln_1. by rewrite leq_exp2l //; lia.
move=> H. have := leq_trans (cbin_ge n) H. rewrite /n expnM leq_exp2r // leqNgt => /negP; apply.
clear - m6. elim: m m6 => // m IH. rewrite ltnS leq_eqVlt => /orP[/eqP<-//|Hm].
have := IH Hm. rewrite [2 ^ m.+1]expnS -!mul2n -!mulnn. move: (2 ^ m) => X. nia.
Qed.

(** ** Fermat's little theorem *)
Lemma fermat_nat p a : prime p -> a ^ p = a %[mod p].
Proof.
move=> pp. have p0 := prime_gt0 pp. case: (boolP (p %| a)) => dv.
- have : p %| a ^ p by rewrite (dvdn_trans dv) // -{1}(prednK p0) expnS dvdn_mulr.
  by move: dv; rewrite /dvdn => /eqP-> /eqP->.
- have := @Euler_exp_totient a p. rewrite totient_prime // coprime_sym prime_coprime // => /(_ dv) E.
  by rewrite -{1}(prednK p0) expnS -modnMmr E modnMmr muln1.
Qed.

(** ** The same for integers *)
Local Open Scope Z_scope.
Lemma Z_dvd d n : (Z.of_nat d | Z.of_nat n)%Z <-> (d %| n)%N.
Proof.
split=> [[k E]|/dvdnP[k ->]].
- apply/dvdnP. exists (Z.to_nat k). have [H|H] : k < 0 \/ 0 <= k by lia.
  + have -> : n = 0%N by nia. have H0 : (Z.to_nat k = 0)%N by lia. by rewrite H0.
  + apply: Nat2Z.inj. rewrite Nat2Z.inj_mul Z2Nat.id //.
- exists (Z.of_nat k). by rewrite -Nat2Z.inj_mul.
Qed.
Lemma prime_Z n : Znumtheory.prime (Z.of_nat n) <-> prime n.
Proof.
split=> H.
- apply/primeP. split; first by have := prime_ge_2 _ H; lia.
  move=> d /Z_dvd D. have := prime_divisors _ H _ D. lia.
- apply prime_alt. split; first by have := prime_gt1 H; lia.
  move=> k [k1 k2] D. have := Z_dvd (Z.to_nat k) n. rewrite Z2Nat.id; last lia.
  move=> [/(_ D)]. have := proj2 (primeP H). move=> P /P /orP[/eqP|/eqP]; lia.
Qed.
Lemma Z_pow a k : Z.of_nat (a ^ k)%N = Z.of_nat a ^ Z.of_nat k.
Proof.
elim: k => [|k IH] //. rewrite expnS Nat2Z.inj_mul IH -Z.pow_succ_r; last lia. by rewrite -Nat2Z.inj_succ.
Qed.
Lemma Z_mod a b : (0 < b)%N -> Z.of_nat (a %% b)%N = Z.of_nat a mod Z.of_nat b.
Proof.
move=> b0. have := divn_eq a b. have := ltn_pmod a b0. set q := (a %/ b)%N. set r := (a %% b)%N => Hr E.
apply: (Zmod_unique _ _ (Z.of_nat q)); [lia|]. rewrite {1}E. lia.
Qed.
Theorem fermat p a : Znumtheory.prime p -> 0 <= a -> (a ^ p) mod p = a mod p.
Proof.
move=> Hp Ha. have H2 := prime_ge_2 _ Hp.
have Ep : p = Z.of_nat (Z.to_nat p) by lia. have Ea : a = Z.of_nat (Z.to_nat a) by lia.
rewrite Ep in Hp. move: Hp => /prime_Z Hp. have := fermat_nat (Z.to_nat a) Hp. move=> /(congr1 Z.of_nat). rewrite !Z_mod ?prime_gt0 // Z_pow -Ep -Ea. done.
Qed.
Theorem prime_after m : 0 < m -> exists p, Znumtheory.prime p /\ m < p <= 2 * m ^ 2.
Proof.
move=> Hm. have := @next_prime (Z.to_nat m). case; first lia. move=> p /prime_Z Hp H. exists (Z.of_nat p). split; first done.
have -> : m ^ 2 = m * m by lia. move: H. rewrite -mulnn. nia.
Qed.

(** ** RSA *)
Lemma fermat_iter p m k : Znumtheory.prime p -> 0 <= m -> 0 <= k -> (m ^ (1 + k * (p - 1))) mod p = m mod p.
Proof.
move=> Hp Hm Hk. have H2 := prime_ge_2 _ Hp. move: k Hk. apply: natlike_ind => [|k Hk IH].
- by rewrite Z.mul_0_l Z.add_0_r Z.pow_1_r.
- have -> : 1 + Z.succ k * (p - 1) = k * (p - 1) + p by lia. rewrite Z.pow_add_r; [|nia|lia].
  rewrite Z.mul_mod; last lia. rewrite (fermat Hp Hm) -Z.mul_mod; last lia.
  rewrite -[in X in X mod p = _](Z.pow_1_r m) in IH |- *. rewrite Z.pow_1_r in IH.
  rewrite -{2}(Z.pow_1_r m) -Z.pow_add_r; [|nia|lia]. by rewrite Z.add_comm.
Qed.
Theorem rsa_exponents p q e d m : Znumtheory.prime p -> Znumtheory.prime q -> p <> q -> 0 <= e -> 0 <= d ->
  (Z.lcm (p - 1) (q - 1) | e * d - 1) -> 0 <= m < p * q -> ((m ^ e) mod (p * q)) ^ d mod (p * q) = m.
Proof.
move=> Hp Hq N He Hd [k D] Hm. have P2 := prime_ge_2 _ Hp. have Q2 := prime_ge_2 _ Hq.
have L0 : 0 < Z.lcm (p - 1) (q - 1).
  have := Z.lcm_nonneg (p - 1) (q - 1). have := Z.lcm_eq_0 (p - 1) (q - 1). lia.
move: (Z.divide_lcm_l (p - 1) (q - 1)) (Z.divide_lcm_r (p - 1) (q - 1)) D L0. set L := Z.lcm _ _ => [[x Ex]] [y Ey] D L0.
have ed0 : 0 <= e * d by nia.
have X1 : 0 < x by nia. have Y1 : 0 < y by nia.
have K0 : 0 <= k.
  have [K|K] : k <= -1 \/ 0 <= k by lia. 2: done.
  have L1 : L = 1 by nia. exfalso. apply: N.
  have A : p - 1 <= x * (p - 1) by nia. have B : q - 1 <= y * (q - 1) by nia. lia.
have M p' x' : Znumtheory.prime p' -> L = x' * (p' - 1) -> 0 < x' -> (p' | (m ^ e) ^ d - m).
  move=> Hp' E' X'. have P2' := prime_ge_2 _ Hp'. apply/Z.mod_divide; first lia. rewrite -Z.pow_mul_r //.
  have E1 : e * d = 1 + (k * x') * (p' - 1) by rewrite -Z.mul_assoc -E'; lia.
  rewrite Zminus_mod E1 fermat_iter //; [|lia|nia]. by rewrite Z.sub_diag Z.mod_0_l; lia.
have [z Ez] := M p x Hp Ex X1. have D2 := M q y Hq Ey Y1.
have : (p * q | (m ^ e) ^ d - m).
  have R : rel_prime q p.
    apply: prime_rel_prime => // dv. have := prime_divisors _ Hp _ dv. lia.
  rewrite Ez Z.mul_comm in D2. have [w Ew] := Gauss _ _ _ D2 R. exists w. rewrite Ez Ew. lia.
case=> w Ew. rewrite -Zpower_mod; last nia.
have -> : (m ^ e) ^ d = m + w * (p * q) by lia. rewrite Z.mod_add; last nia. by rewrite Z.mod_small.
Qed.
