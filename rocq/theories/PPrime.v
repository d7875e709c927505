(** Properties of the primality test (C33, C34).  [prime] is that of the
    standard library. *)
From Coq Require Import ZArith Znumtheory List Lia.
From stdpp Require Import gmap list.
From Verif Require Import Mem Prog Kern Imath Iprime Exec Spec Public SpecPrime Prime Concrete.
Local Open Scope Z_scope.

(** ** C33 The primality test *)
(** The answer for every value: MP_TRUE exactly for the apparent primes. *)
Theorem C33_is_prime st V W z v : Rep st V W -> V !! z = Some v ->
  calls (mp_int_is_prime z) st (fun r st' => Rep st' V W /\ (r = MP_TRUE \/ r = MP_FALSE) /\ (r = MP_TRUE <-> apparent_prime v)).
Proof.
  intros H Hz. eapply by_rule; [done|]. intros st1 HV. eapply wpV_is_prime; [done..|]. intros st' x HV' Hx. split; [by apply RV_done|].
  unfold MP_TRUE, MP_FALSE in *. destruct Hx as [[-> ?]|[-> ?]]; (split; [lia|]); split; try done.
Qed.
Example C33_is_prime_ex : exV !! hE = Some 3 /\ result (mp_int_is_prime hE) hE exS = Some (MP_TRUE, Some 3) /\ result (mp_int_is_prime hA) hA exS = Some (MP_FALSE, Some vA).
Proof. by vm_compute. Qed.
Print Assumptions C33_is_prime.
(** No prime is rejected: MP_FALSE means composite (or less than two). *)
Theorem C33_primes_accepted st V W z v : Rep st V W -> V !! z = Some v -> prime v ->
  calls (mp_int_is_prime z) st (fun r st' => r = MP_TRUE /\ Rep st' V W).
Proof.
  intros H Hz Hp. eapply by_rule; [done|]. intros st1 HV. eapply wpV_is_prime; [done..|]. intros st' x HV' Hx. split; [|by apply RV_done].
  destruct Hx as [[-> ?]|[-> []]]; [done|]. by apply prime_apparent.
Qed.
(** 1009 is the least prime beyond the table, so Fermat's test decides. *)
Example C33_primes_accepted_ex : Rep (put (H 9) 1009 exS) (<[H 9 := 1009]> exV) world0 /\ prime 1009 /\
  result (mp_int_is_prime (H 9)) (H 9) (put (H 9) 1009 exS) = Some (MP_TRUE, Some 1009).
Proof. split; [apply Rep_put; [apply ex_rep|reflexivity|by vm_compute]|]. split; [apply small_prime_spec; [lia|by vm_compute]|by vm_compute]. Qed.
Print Assumptions C33_primes_accepted.
(** Below 997^2 the test is exact. *)
Theorem C33_exact_below st V W z v : Rep st V W -> V !! z = Some v -> v < 997 ^ 2 ->
  calls (mp_int_is_prime z) st (fun r st' => Rep st' V W /\ (r = MP_TRUE \/ r = MP_FALSE) /\ (r = MP_TRUE <-> prime v)).
Proof.
  intros H Hz Hv. eapply by_rule; [done|]. intros st1 HV. eapply wpV_is_prime; [done..|]. intros st' x HV' Hx. split; [by apply RV_done|].
  unfold MP_TRUE, MP_FALSE in *. destruct Hx as [[-> Ha]|[-> Ha]]; (split; [lia|]); split; try done.
  - intros _. by apply apparent_small.
  - intros Hp. by destruct Ha; apply prime_apparent.
Qed.
Example C33_exact_below_ex : exV !! hD = Some (-12) /\ -12 < 997 ^ 2 /\ result (mp_int_is_prime hD) hD exS = Some (MP_FALSE, Some (-12)) /\
  result (mp_int_is_prime (H 9)) (H 9) (put (H 9) (31 * 37) exS) = Some (MP_FALSE, Some (31 * 37)).
Proof. by vm_compute. Qed.
Print Assumptions C33_exact_below.
(** Not beyond: there are composite numbers that pass (this one is a product of
    three primes). *)
Theorem C33_composite_accepted_refuted : exists st V W z v,
  Rep st V W /\ V !! z = Some v /\ result (mp_int_is_prime z) z st = Some (MP_TRUE, Some v) /\ ~ prime v.
Proof.
  exists (put (H 9) 9624742921 exS), (<[H 9 := 9624742921]> exV), world0, (H 9), 9624742921.
  split; [apply Rep_put; [apply ex_rep|reflexivity|by vm_compute]|]. split; [done|]. split; [by vm_compute|].
  intros Hp. assert (1171 | 9624742921) as D by (exists 8219251; lia). apply prime_divisors in D; [lia|done].
Qed.
Print Assumptions C33_composite_accepted_refuted.

(** ** C34 The search for a prime *)
(** It ends, and at the first odd apparent prime from [v] on. *)
Theorem C34_find_prime st V W z v : Rep st V W -> V !! z = Some v ->
  calls (mp_int_find_prime z) st (fun r st' => r = MP_TRUE /\ exists w, Rep st' (<[z := w]> V) W /\
    v <= w /\ Z.odd w = true /\ apparent_prime w /\ (forall x, v <= x < w -> Z.odd x = true -> ~ apparent_prime x)).
Proof.
  intros H Hz. eapply by_rule; [done|]. intros st1 HV. eapply wpV_find_prime; [done..|]. intros st' w HV' H1 H2 H3 H4. split; [done|]. exists w. split; [by apply RV_done|done].
Qed.
Example C34_find_prime_ex : result (mp_int_find_prime hD) hD exS = Some (MP_TRUE, Some 3) /\
  result (mp_int_find_prime (H 9)) (H 9) (put (H 9) 1014 exS) = Some (MP_TRUE, Some 1019).
Proof. by vm_compute. Qed.
Print Assumptions C34_find_prime.
(** No prime is passed over, except 2. *)
Theorem C34_no_prime_missed st V W z v : Rep st V W -> V !! z = Some v ->
  calls (mp_int_find_prime z) st (fun r st' => r = MP_TRUE /\ exists w, Rep st' (<[z := w]> V) W /\ v <= w /\
    (forall x, v <= x < w -> x <> 2 -> ~ prime x) /\ (w < 997 ^ 2 -> prime w)).
Proof.
  intros H Hz. eapply by_rule; [done|]. intros st1 HV. eapply wpV_find_prime; [done..|]. intros st' w HV' H1 H2 H3 H4. split; [done|]. exists w. split; [by apply RV_done|]. split; [done|].
  split; [|intros Hw; by apply apparent_small]. intros x Hx N Hp. apply (H4 x); [done| |by apply prime_apparent].
  rewrite <- Z.negb_even. destruct (Z.even x) eqn:E; [|done]. apply Z.even_spec in E as [k E]. assert (2 | x) as D by (exists k; lia). apply prime_divisors in D; [|done]. pose proof (prime_ge_2 _ Hp). lia.
Qed.
Example C34_no_prime_missed_ex : result (mp_int_find_prime (H 9)) (H 9) (put (H 9) 90 exS) = Some (MP_TRUE, Some 97).
Proof. by vm_compute. Qed.
Print Assumptions C34_no_prime_missed.
(** "The first apparent prime in ascending order" is not found from 2. *)
Theorem C34_from_two_refuted : exists st V W z,
  Rep st V W /\ V !! z = Some 2 /\ apparent_prime 2 /\ result (mp_int_find_prime z) z st = Some (MP_TRUE, Some 3).
Proof.
  exists (put (H 9) 2 exS), (<[H 9 := 2]> exV), world0, (H 9).
  split; [apply Rep_put; [apply ex_rep|reflexivity|by vm_compute]|]. split; [done|]. split; [apply prime_apparent, prime_2|by vm_compute].
Qed.
Print Assumptions C34_from_two_refuted.
