(** Model of examples/pi.c. *)
From Coq Require Import ZArith List Lia.
From stdpp Require Import gmap list.
From Verif Require Import Mem Prog Kern Imath Imrat Gmp Rsamath.
Local Open Scope Z_scope.
Local Open Scope prog_scope.

(** examples/pi.c 153-168: one round of the loop; [x2] is the square of [x], the
    loop variables are [sign] and [coeff]. *)
Definition arctan_body (x2 : Z) (t v sum : oid) (s : Z * Z) : prog (Z * Z + Z) :=
  let '(sign, coeff) := s in
  r <- mp_int_div_value t x2 (Some t);
  if negb (r.1 =? MP_OK) then Ret (inr r.1) else
  r <- mp_int_div_value t coeff (Some v);
  if negb (r.1 =? MP_OK) then Ret (inr r.1) else
  REQUIREL (if sign >? 0 then mp_int_add sum v sum else mp_int_sub sum v sum);;
  c <- mp_int_compare_zero t;
  if negb (c =? 0) then Ret (inl (- sign, coeff + 2)) else Ret (inr MP_OK).

(** examples/pi.c 131-177.  [local_int] (Gmp.v) is the life of the locals [t] and
    [v]; the results of mp_int_init are ignored, as in the code.  x *= x is
    undefined when it overflows.  The loop is bounded by 2^40 rounds; theorem
    [C59_arctan] shows that this never runs out. *)
Definition arctan (radix mul x prec : Z) (sum : oid) : prog Z :=
  local_int (fun t => mp_int_init t;; Ret tt) (fun t =>
  local_int (fun v => mp_int_init v;; Ret tt) (fun v =>
    let prec := prec + 1 in
    REQUIRE mp_int_expt_value radix prec t;;
    REQUIRE mp_int_mul_value t mul t;;
    REQUIRE mp_int_mul_value t x t;;
    if negb (x * x <? 2 ^ 63) then Undef else
    mp_int_zero sum;;
    REQUIRE loop 40 (arctan_body (x * x) t v sum) (1, 1);;
    r <- mp_int_div_value sum radix (Some sum);
    Ret r.1)).

(** examples/pi.c 73, 80-106, 112-117: from the request for the buffer to the end.
    [buf] is the block that malloc returned; the digits asked for and the radix
    have passed the checks of lines 48-71.  [ndigits + 2] is computed in type
    int.  Not modelled: messages, time measurement, printf (which prints the
    first character, a point, and the rest of [buf]).  The result is the exit
    status.  The code clears sum1 before sum2, the model sum2 before sum1. *)
Definition pi_main (radix ndigits : Z) (buf : ptr) : prog Z :=
  if negb (in_int (ndigits + 2)) then Undef else
  local_int (fun s => mp_int_init s;; Ret tt) (fun sum1 =>
  local_int (fun s => mp_int_init s;; Ret tt) (fun sum2 =>
    res <- arctan radix 16 5 ndigits sum1;
    if negb (res =? MP_OK) then Ret 1 else
    res <- arctan radix 4 239 ndigits sum2;
    if negb (res =? MP_OK) then Ret 1 else
    res <- mp_int_sub sum1 sum2 sum1;
    if negb (res =? MP_OK) then Ret 1 else
    mp_int_to_string sum1 radix buf (ndigits + 2);;
    Ret 0)).
