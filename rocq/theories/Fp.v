(** IEEE 754 binary64 arithmetic, round to nearest even, on positive numbers,
    as used by [s_inlen] and [s_outlen] (/repo/imath.c 2675-2689).  A double is
    a pair (m, e) standing for m * 2^e; results are rounded to 53 significant
    bits.  Subnormals and overflow cannot occur for the operands in question
    (values between 2^-3 and 2^40). *)
From Coq Require Import ZArith.
Local Open Scope Z_scope.

Definition f64 : Type := (Z * Z)%type.

(** n/d scaled by 2^(-e), as a fraction. *)
Definition scale_num (n e : Z) : Z := if e <? 0 then n * 2 ^ (- e) else n.
Definition scale_den (d e : Z) : Z := if e <? 0 then d else d * 2 ^ e.

(** Nearest integer to n/d (d > 0), ties to even. *)
Definition rne (n d : Z) : Z :=
  let q := n / d in
  let r := n mod d in
  if 2 * r <? d then q
  else if 2 * r >? d then q + 1
  else if Z.even q then q else q + 1.

(** The double nearest to n/d, for n, d > 0. *)
Definition rnd53 (n d : Z) : f64 :=
  let e0 := Z.log2 n - Z.log2 d - 52 in
  let e := if scale_num n e0 <? 2 ^ 52 * scale_den d e0 then e0 - 1 else e0 in
  (rne (scale_num n e) (scale_den d e), e).

Definition f_of_frac (n d : Z) : f64 := if n <=? 0 then (0, 0) else rnd53 n d.
(** numerator and denominator of a double *)
Definition f_num (x : f64) : Z := if snd x <? 0 then fst x else fst x * 2 ^ snd x.
Definition f_den (x : f64) : Z := if snd x <? 0 then 2 ^ (- snd x) else 1.

Definition f_of_int (n : Z) : f64 := f_of_frac n 1.
Definition f_mul (x y : f64) : f64 := f_of_frac (f_num x * f_num y) (f_den x * f_den y).
Definition f_div (x y : f64) : f64 := f_of_frac (f_num x * f_den y) (f_den x * f_num y).
Definition f_add (x y : f64) : f64 :=
  f_of_frac (f_num x * f_den y + f_num y * f_den x) (f_den x * f_den y).
(** conversion to an integer type truncates *)
Definition f_trunc (x : f64) : Z := f_num x / f_den x.

(** imath.c 68-80: the table [s_log2], in units of 10^-9. *)
Definition s_log2_nano (r : Z) : Z :=
  match r with
  | 2 => 1000000000 | 3 => 630929754
  | 4 => 500000000 | 5 => 430676558 | 6 => 386852807 | 7 => 356207187
  | 8 => 333333333 | 9 => 315464877 | 10 => 301029996 | 11 => 289064826
  | 12 => 278942946 | 13 => 270238154 | 14 => 262649535 | 15 => 255958025
  | 16 => 250000000 | 17 => 244650542 | 18 => 239812467 | 19 => 235408913
  | 20 => 231378213 | 21 => 227670249 | 22 => 224243824 | 23 => 221064729
  | 24 => 218104292 | 25 => 215338279 | 26 => 212746054 | 27 => 210309918
  | 28 => 208014598 | 29 => 205846832 | 30 => 203795047 | 31 => 201849087
  | 32 => 200000000 | 33 => 198239863 | 34 => 196561632 | 35 => 194959022
  | 36 => 193426404 | _ => 0
  end.
Definition s_log2 (r : Z) : f64 := f_of_frac (s_log2_nano r) 1000000000.

(** imath.c 2675-2682: the arithmetic of [s_outlen], given the bit count. *)
Definition outlen (bits r : Z) : Z :=
  let raw := f_mul (f_of_int bits) (s_log2 r) in
  f_trunc (f_add raw (f_of_frac 999999 1000000)).

(** imath.c 2684-2689; a non-positive length gives raw = 0 here ([len] comes
    from [strlen] and is never negative for strings shorter than 2^31). *)
Definition s_inlen (len r : Z) : Z :=
  let raw := f_div (f_of_int len) (s_log2 r) in
  let bits := f_trunc (f_add raw (f_of_frac 1 2)) in
  ((bits + 31) mod 2 ^ 64 / 32 + 1) mod 2 ^ 32.
