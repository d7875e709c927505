(** What the small example programs are supposed to do.  Independent of the code. *)
From Coq Require Import ZArith List QArith.
From stdpp Require Import gmap list.
From Verif Require Import Mem Spec SpecPrime SpecRat SpecHist SpecDec SpecKey.
Local Open Scope Z_scope.

(** ** Numbers as text *)
(** [s] as a whole writes the rational [q] in radix [r]: an integer, two integers
    with a slash between them, or digits with a radix point. *)
Definition writes_integer (r : Z) (s : list Z) (q : Q) : Prop := exists n, reads r s n [] /\ q = inject_Z n.
Definition writes_fraction (r : Z) (s : list Z) (n d : Z) : Prop :=
  exists sp s2, reads r s n (sp ++ 47 :: s2) /\ Forall is_space sp /\ reads r s2 d [].
Definition writes_rat (r : Z) (s : list Z) (q : Q) : Prop :=
  writes_integer r s q \/ (exists n d, writes_fraction r s n d /\ d <> 0 /\ q = frac n d) \/ reads_point r s q [].
(** A fraction with denominator zero. *)
Definition over_zero (r : Z) (s : list Z) : Prop := exists n, writes_fraction r s n 0.
(** Neither. *)
Definition no_number (r : Z) (s : list Z) : Prop := ~ over_zero r s /\ forall q, ~ writes_rat r s q.
(** The text of [q]: an integer without a denominator, any other one in lowest terms. *)
Definition shown (r : Z) (q : Q) (t : list Z) : Prop :=
  exists n, numeral r (Qnum (Qred q)) n /\
    if Zpos (Qden (Qred q)) =? 1 then t = n else exists d, numeral r (Zpos (Qden (Qred q))) d /\ t = n ++ 47 :: d.

(** ** The base converter *)
(** What it says, in order: the text of a number on the standard output; on the
    other one that an argument is no number, with the part that is not understood,
    that one cannot be read at all, or that memory is short. *)
Inductive said : Type := Line (t : list Z) | Junk (e : list Z) | Unreadable | No_memory | Not_converted.
(** [session i o c args out r]: from radix [i] to radix [o], started with the code
    [c], it says [out] for the arguments and ends with the code [r].  An argument
    that is no number is skipped, a fraction over zero ends the session, and so
    does a lack of memory. *)
Inductive session (i o : Z) : bool -> list (list Z) -> list said -> bool -> Prop :=
| S_end c : session i o c [] [] c
| S_number c s q t args out r : writes_rat i s q -> shown o q t -> session i o true args out r -> session i o c (s :: args) (Line t :: out) r
| S_junk c s e args out r : no_number i s -> e <> [] -> (exists u, s = u ++ e) -> session i o false args out r -> session i o c (s :: args) (Junk e :: out) r
| S_over_zero c s args : over_zero i s -> session i o c (s :: args) [Unreadable] false
| S_memory c s q args : writes_rat i s q -> session i o c (s :: args) [No_memory] true.

(** ** Primes *)
(** [p] is the first odd apparent prime from [v] on for which twice [p] and one is
    an apparent prime too. *)
Definition next_strong (v p : Z) : Prop :=
  v <= p /\ Z.odd p = true /\ apparent_prime p /\ apparent_prime (2 * p + 1) /\
  forall x, v <= x < p -> Z.odd x = true -> apparent_prime x -> ~ apparent_prime (2 * x + 1).

(** ** Rounding *)
(** [s] as a whole writes [q] as an integer or with a radix point. *)
Definition writes_decimal (r : Z) (s : list Z) (q : Q) : Prop := writes_integer r s q \/ reads_point r s q [].
