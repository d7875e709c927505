(** What the primality test decides ([prime] is that of the standard library). *)
From Coq Require Import ZArith Znumtheory.
Local Open Scope Z_scope.

(** A small prime, or a number without small prime factors that passes Fermat's
    test for the primes up to 29. *)
Definition apparent_prime (z : Z) : Prop :=
  (prime z /\ z <= 997) \/
  (2 <= z /\ (forall p, prime p -> p <= 997 -> ~ (p | z)) /\
   (forall p, prime p -> p <= 29 -> p ^ z mod z = p)).
