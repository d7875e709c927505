(** Vocabulary for binary formats.  Like [Spec], independent of the library. *)
From Coq Require Import ZArith List.
From stdpp Require Import gmap list.
From Verif Require Import Mem Prog Spec.
Local Open Scope Z_scope.

Definition is_byte (c : Z) : Prop := 0 <= c < 256.
(** The [n] low-order bytes of [x], most significant first; for negative [x] this
    is the two's complement form. *)
Definition be_bytes (n : nat) (x : Z) : list Z :=
  map (fun i => (x / 256 ^ Z.of_nat (n - 1 - i)) mod 256) (seq 0 n).
(** The number a string of bytes stands for, most significant first: unsigned
    ([horner 256]), and in two's complement. *)
Definition signed_value (bs : list Z) : Z :=
  horner 256 bs - (match bs with c :: _ => if 128 <=? c then 256 ^ Z.of_nat (length bs) else 0 | [] => 0 end).
(** Offset [off] of buffer [l] holds the bytes [bs]. *)
Definition has_bytes (l : list cell) (off : nat) (bs : list Z) : Prop :=
  Forall is_byte bs /\ forall i c, bs !! i = Some c -> l !! (off + i)%nat = Some (Some c).
(** The number of bytes the library uses for [v]: for the unsigned format the
    least [n >= 1] with [|v| < 256^n], for the signed one the least [n >= 1] with
    [|v| < 2^(8n-1)]. *)
Definition unsigned_size (v : Z) (n : nat) : Prop :=
  (1 <= n)%nat /\ Z.abs v < 256 ^ Z.of_nat n /\ forall m, (1 <= m < n)%nat -> 256 ^ Z.of_nat m <= Z.abs v.
Definition signed_size (v : Z) (n : nat) : Prop :=
  (1 <= n)%nat /\ Z.abs v < 2 ^ (8 * Z.of_nat n - 1) /\ forall m, (1 <= m < n)%nat -> 2 ^ (8 * Z.of_nat m - 1) <= Z.abs v.
