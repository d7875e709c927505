(** The text of numbers in GMP's interface: lower case digits for a positive radix,
    upper case for a negative one.  Independent of the library. *)
From Coq Require Import ZArith List QArith.
From stdpp Require Import gmap list.
From Verif Require Import Mem Spec SpecRat.
Local Open Scope Z_scope.

Definition gmp_digit (upper : bool) (d : Z) : Z := if d <? 10 then 48 + d else (if upper then 55 else 87) + d.
(** A minus sign if [v] is negative, and the digits of [|v|] without leading zeros. *)
Definition gmp_numeral (upper : bool) (r v : Z) (s : list Z) : Prop :=
  exists ds, Forall (fun d => 0 <= d < r) ds /\ horner r ds = Z.abs v /\ ds <> [] /\ (head ds = Some 0 -> ds = [0]) /\
    s = (if v <? 0 then [45] else []) ++ map (gmp_digit upper) ds.
(** The numerator and, unless it is 1, a slash and the denominator. *)
Definition gmp_ratio (upper : bool) (r : Z) (q : Q) (s : list Z) : Prop :=
  exists n d, gmp_numeral upper r (Qnum (Qred q)) n /\ gmp_numeral upper r (Zpos (Qden (Qred q))) d /\
    s = if Zpos (Qden (Qred q)) =? 1 then n else n ++ 47 :: d.
(** [D] digits are needed for [v]. *)
Definition digit_count (r v D : Z) : Prop := 1 <= D /\ Z.abs v < r ^ D /\ (2 <= D -> r ^ (D - 1) <= Z.abs v).
(** Both parts of the structure are in memory obtained from [malloc]. *)
Definition heap_made (r : oid * oid) : Prop := fst (fst r) = true /\ fst (snd r) = true.
