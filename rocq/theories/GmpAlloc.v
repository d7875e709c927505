(** The functions of gmp_compat.c that allocate a buffer themselves: [mpz_get_str],
    [mpq_get_str] and [mpz_export] called with a NULL buffer, and the copy
    [mpq_set_str] makes of its argument.  Simplified: a block of [n] bytes is a block
    of [n] cells, and like every other request one for more than [MAXD] cells is
    refused (see [Prog]). *)
From Coq Require Import ZArith List.
From stdpp Require Import gmap list.
From Verif Require Import Mem Prog Kern Imath Imrat Gmp.
Local Open Scope Z_scope.
Local Open Scope prog_scope.

(** gmp_compat.c 299-301 and 331-333, with the use of the buffer that follows: a NULL
    result of [malloc] goes to [mp_int_to_string], which asserts that its buffer is
    not NULL (imath.c, and imrat.c through it) and writes to it otherwise. *)
Definition malloc_text {A} (len : Z) (k : ptr -> prog A) : prog A :=
  Malloc len (fun q => Assert (ANull len) (bool_decide (is_Some q)) (match q with Some p => k p | None => Undef end)).
(** gmp_compat.c 697-699 and 365-366: a NULL result of [malloc] is written to. *)
Definition malloc_raw {A} (len : Z) (k : ptr -> prog A) : prog A :=
  Malloc len (fun q => match q with Some p => k p | None => Undef end).

(** gmp_compat.c 289-315; the result is the buffer. *)
Definition mpz_get_str_any (str : option ptr) (radix : Z) (op : oid) : prog ptr :=
  let r := if radix <? 0 then - radix else radix in
  len <- mp_int_string_len op r;
  let rest str :=
    (CHECK (mp_int_to_string op r str len);;
     case_loop (Z.to_nat (len - 1)) radix str);;
    Ret str in
  match str with Some str => rest str | None => malloc_text len rest end.
(** gmp_compat.c 317-348; the result is the buffer. *)
Definition mpq_get_str_any (str : option ptr) (radix : Z) (op : rat) : prog ptr :=
  c <- mp_int_compare_value (mp_rat_denom_ref op) 1;
  if c =? 0 then mpz_get_str_any str radix (mp_rat_numer_ref op) else
  let r := if radix <? 0 then - radix else radix in
  len <- mp_rat_string_len op r;
  let rest str :=
    (CHECK (mp_rat_to_string op r str len);;
     case_loop (Z.to_nat len) radix str);;
    Ret str in
  match str with Some str => rest str | None => malloc_text len rest end.

(** gmp_compat.c 655-732; the result is the buffer (NULL if there is none and the
    number is zero) and [*countp]. *)
Definition mpz_export_any (rop : option ptr) (order size endian nails : Z) (op : oid) : prog (option ptr * Z) :=
  assert (nails =? 0);;
  assert ((endian =? 1) || (endian =? 0) || (endian =? -1))%bool;;
  assert ((order =? 1) || (order =? -1))%bool;;
  c <- mp_int_compare_zero op;
  if c =? 0 then Ret (rop, 0) else
  num_used_bytes <- mp_int_unsigned_len op;
  if size =? 0 then Undef else
  let num_words := w64 (num_used_bytes + w64 (size - 1)) / size in
  assert (num_used_bytes >? 0);;
  let num_missing_bytes := w64 (w64 (size * num_words) - num_used_bytes) in
  assert (num_missing_bytes <? size);;
  let rest rop :=
    let endian := if endian =? 0 then HOST_ENDIAN else endian in
    let dst := rop +p ((if order >=? 0 then (num_words - 1) * size else 0) + (if endian >=? 0 then size - 1 else 0)) in
    src <- get_digits op;
    let word_offset := (if endian >=? 0 then size else - size) + (if order <? 0 then size else - size) in
    export_words (Z.to_nat num_words) 0 size num_used_bytes endian word_offset dst src 32;;
    Ret (Some rop, num_words) in
  match rop with Some rop => rest rop | None => malloc_raw (w64 (num_words * size)) rest end.

(** string.h: [strcpy] of the string [s] (without its terminator). *)
Fixpoint strcpy_loop (s : list Z) (p : ptr) : prog unit :=
  match s with
  | [] => Store p 0
  | c :: s' => Store p c;; strcpy_loop s' (p +p 1)
  end.
(** string.h: [strchr] with '/', as the offset of the character; [n] bounds the
    length of the string. *)
Fixpoint strchr_loop (n : nat) (i : Z) (p : ptr) : prog (option Z) :=
  match n with
  | O => NoFuel
  | S n' =>
      c <- Load (p +p i);
      if c =? 47 then Ret (Some i) else if c =? 0 then Ret None else strchr_loop n' (i + 1) p
  end.
(** The string at [p], as the model of the reading functions takes it: the characters
    before the terminator. *)
Fixpoint cstring (n : nat) (p : ptr) : prog (list Z) :=
  match n with
  | O => NoFuel
  | S n' => c <- Load p; if c =? 0 then Ret [] else s <- cstring n' (p +p 1); Ret (c :: s)
  end.
(** gmp_compat.c 356-389, with the copy. *)
Definition mpq_set_str_copy (rop : rat) (s : list Z) (base : Z) : prog Z :=
  let n := S (length s) in
  malloc_raw (Z.of_nat (length s) + 1) (fun str =>
    strcpy_loop s str;;
    slash <- strchr_loop n 0 str;
    match slash with Some i => Store (str +p i) 0 | None => Ret tt end;;
    sN <- cstring n str;
    resN <- mp_int_read_string (mp_rat_numer_ref rop) base sN;
    resD <- match slash with
            | Some i => sD <- cstring n (str +p (i + 1)); mp_int_read_string (mp_rat_denom_ref rop) base sD
            | None => mp_int_set_uvalue (mp_rat_denom_ref rop) 1
            end;
    let res := if (negb (resN =? MP_OK) || negb (resD =? MP_OK))%bool then -1 else 0 in
    Free str (Ret res)).
