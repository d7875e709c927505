(** Vocabulary for the raw format of GMP's import and export.  Independent of the
    library. *)
From Coq Require Import ZArith List.
From stdpp Require Import gmap list.
From Verif Require Import Mem Prog Spec SpecBin.
Local Open Scope Z_scope.

(** One word of [size] bytes: most significant byte first if [endian] is 1, least
    significant byte first if it is -1 or 0 (the host's order, little-endian). *)
Definition word_bytes (endian : Z) (size : nat) (w : Z) : list Z :=
  if endian =? 1 then be_bytes size w else rev (be_bytes size w).
(** Word [i] of [v], counted from the least significant one. *)
Definition word (size : nat) (v : Z) (i : nat) : Z :=
  v / 256 ^ Z.of_nat (size * i) mod 256 ^ Z.of_nat size.
(** [count] words, most significant word first if [order] is 1, least significant
    first if it is -1. *)
Definition words (order endian : Z) (size count : nat) (v : Z) : list Z :=
  concat (map (fun i => word_bytes endian size (word size v i))
              (if order =? 1 then rev (seq 0 count) else seq 0 count)).
(** The number of words [v] needs. *)
Definition word_count (size : nat) (v : Z) (count : nat) : Prop :=
  Z.abs v < 256 ^ Z.of_nat (size * count) /\
  forall c, (c < count)%nat -> 256 ^ Z.of_nat (size * c) <= Z.abs v.
Definition valid_order (order : Z) : Prop := order = 1 \/ order = -1.
Definition valid_endian (endian : Z) : Prop := endian = 1 \/ endian = 0 \/ endian = -1.
