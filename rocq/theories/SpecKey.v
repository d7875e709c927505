(** What examples/rsakey.c computes.  Independent of the code. *)
From Coq Require Import ZArith List Bool.
From Verif Require Import Kern Spec SpecBin SpecPrime.
Local Open Scope Z_scope.

(** [v] is the number of [n] bits made from the random bytes [bs]: the lowest bit
    is set, the highest one too unless [n] is a multiple of 8, the other bits are
    those of the bytes. *)
Definition seed_of (n : Z) (bs : list Z) (v : Z) : Prop :=
  forall i, 0 <= i -> Z.testbit v i =
    (if n <=? i then false
     else (i =? 0) || ((i =? n - 1) && negb (n mod 8 =? 0)) || Z.testbit (horner 256 bs) i).
(** The least odd apparent prime from [v] on. *)
Definition next_prime (v p : Z) : Prop :=
  v <= p /\ Z.odd p = true /\ apparent_prime p /\ forall x, v <= x < p -> Z.odd x = true -> ~ apparent_prime x.
(** A pair of exponents for the primes [p] and [q]. *)
Definition exponents (p q e d : Z) : Prop :=
  0 < d < (p - 1) * (q - 1) /\ (e * d) mod ((p - 1) * (q - 1)) = 1.
(** The whole of [s] is white space, an optional sign and digits of [r] that write [v]. *)
Definition writes (r : Z) (s : list Z) (v : Z) : Prop :=
  exists sp sg body ds, s = sp ++ sg ++ body /\ Forall is_space sp /\ Forall2 (fun c d => digit_of c = Some d /\ d < r) body ds /\
    ((sg = nil \/ sg = 43 :: nil) /\ v = horner r ds \/ sg = 45 :: nil /\ v = - horner r ds).
(** The bytes a request for [n] bits takes from what the source of randomness
    delivers, if that is enough. *)
Definition taken (n : Z) (d : option (list Z)) (bs : list Z) : Prop :=
  exists all, d = Some all /\ bs = firstn (Z.to_nat ((n + 7) / 8)) all /\ Z.of_nat (length bs) = (n + 7) / 8.
(** What is read is bytes. *)
Definition good_draw (d : option (list Z)) : Prop := match d with Some bs => Forall is_byte bs | None => True end.
Definition short (n : Z) (d : option (list Z)) : Prop := forall bs, ~ taken n d bs.
(** The numerals of the key, in the order of the file. *)
Definition key_text (p q e d : Z) (out : list (list Z)) : Prop :=
  Forall2 (numeral 10) (p :: q :: e :: d :: p * q :: nil) out.
(** Draw number [i] (from 0) is long enough and makes the number [v] of [n] bits. *)
Definition drawn (n : Z) (ds : list (option (list Z))) (i : nat) (v : Z) : Prop :=
  exists bs, taken n (nth i ds None) bs /\ seed_of n bs v.
(** The first two draws give the primes. *)
Definition primes_made (half : Z) (ds : list (option (list Z))) (p q : Z) : Prop :=
  (exists s, drawn half ds 0 s /\ next_prime s p) /\ (exists s, drawn half ds 1 s /\ next_prime s q).
Definition no_exponents (p q e : Z) : Prop := forall d, ~ exponents p q e d.
(** The draws from number [a] up to and without number [n] give numbers that are
    no exponents. *)
Definition rejected (half : Z) (ds : list (option (list Z))) (p q : Z) (a n : nat) : Prop :=
  forall i, (a <= i < n)%nat -> exists e, drawn half ds i e /\ no_exponents p q e.
(** The key made from the draws [ds] with primes of [half] bits: the first two give
    the primes; the exponent [e] is the given one, or the first of the later draws
    that has an inverse. *)
Definition key_made (half : Z) (expt : option (list Z)) (ds : list (option (list Z))) (p q e d : Z) : Prop :=
  primes_made half ds p q /\ exponents p q e d /\
  match expt with
  | Some text => writes 10 text e
  | None => exists n, (2 <= n)%nat /\ drawn half ds n e /\ rejected half ds p q 2 n
  end.
(** Why no key is made, and the code reported: memory was refused, the given
    exponent is not a numeral, or has no inverse, or a draw is too short. *)
Definition key_failed (half : Z) (expt : option (list Z)) (ds : list (option (list Z))) (r : Z) : Prop :=
  r = MP_MEMORY \/
  (r = MP_TRUNC /\ exists text, expt = Some text /\ ~ exists e, writes 10 text e) \/
  (r = MP_TRUNC /\ (short half (nth 0 ds None) \/ short half (nth 1 ds None))) \/
  exists p q, primes_made half ds p q /\
    match expt with
    | Some text => exists e, writes 10 text e /\ no_exponents p q e /\ r = (if e =? 0 then MP_RANGE else MP_UNDEF)
    | None => r = MP_TRUNC /\ exists n, (2 <= n)%nat /\ short half (nth n ds None) /\ rejected half ds p q 2 n
    end.
