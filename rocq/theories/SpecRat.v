(** Rational numbers in the specification: [Q] and its reduction to lowest
    terms [Qred] are those of Coq's standard library. *)
From Coq Require Import ZArith List QArith.
From stdpp Require Import gmap list.
From Verif Require Import Mem.
Local Open Scope Z_scope.

(** A rational is a structure with two integers: the handles of its numerator
    and of its denominator.  [structs rs]: the handles in [rs] come from such
    structures, that is, a numerator is not also a denominator, and two of them
    are the same structure or have nothing in common. *)
Definition structs (rs : list (oid * oid)) : Prop :=
  forall r s, In r rs -> In s rs -> fst r <> snd s /\ (fst r = fst s <-> snd r = snd s).

(** [r] holds the rational [q], in lowest terms and with a positive denominator
    (this is what [Qred] means). *)
Definition rat_at (V : gmap oid Z) (r : oid * oid) (q : Q) : Prop :=
  V !! fst r = Some (Qnum (Qred q)) /\ V !! snd r = Some (Zpos (Qden (Qred q))).
(** The store in which [r] holds [q] in lowest terms, the rest as it was. *)
Definition set_rat (r : oid * oid) (q : Q) (V : gmap oid Z) : gmap oid Z :=
  <[snd r := Zpos (Qden (Qred q))]> (<[fst r := Qnum (Qred q)]> V).
(** [r] is initialised, whatever it holds. *)
Definition rat_live (V : gmap oid Z) (r : oid * oid) : Prop :=
  is_Some (V !! fst r) /\ is_Some (V !! snd r).
(** [r] holds the quotient of [n] by [d], not necessarily in lowest terms. *)
Definition pair_at (V : gmap oid Z) (r : oid * oid) (n d : Z) : Prop :=
  V !! fst r = Some n /\ V !! snd r = Some d.

(** The quotient of two integers, the second not zero. *)
Definition frac (n d : Z) : Q := (inject_Z n / inject_Z d)%Q.

(** [r] is negative, zero or positive as [x] is below, equal to or above [y]. *)
Definition qordered (r : Z) (x y : Q) : Prop :=
  (r < 0 <-> (x < y)%Q) /\ (r = 0 <-> (x == y)%Q) /\ (r > 0 <-> (y < x)%Q).
