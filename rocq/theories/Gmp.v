(** Model of gmp_compat.c.  Names: [mpz_f] is [GMPZAPI(f)], [mpq_f] is
    [GMPQAPI(f)].  Strings that are only read are lists of characters, as in
    [Imath].  Here [get_str] and [export] have the caller's buffer and [mpq_set_str]
    makes no copy; [GmpAlloc] has the same functions with their allocations. *)
From Coq Require Import ZArith List Lia.
From stdpp Require Import gmap list.
From Verif Require Import Mem Prog Kern Imath Imrat.
Local Open Scope Z_scope.
Local Open Scope prog_scope.

(** gmp_compat.c 41-45 *)
Definition CHECK (e : prog Z) : prog unit := r <- e; assert (r =? MP_OK).
(** gmp_compat.c 50-51, on a little-endian host. *)
Definition HOST_ENDIAN : Z := -1.
(** A local [mpz_t] that is initialised at the beginning and cleared at the end of
    a function.  Nested uses clear in the opposite order. *)
Definition local_int {A} (init : oid -> prog unit) (f : oid -> prog A) : prog A :=
  NewO (fun t => init t;; r <- f t; mp_int_clear t;; DelO t (Ret r)).
Definition init0 (t : oid) : prog unit := CHECK (mp_int_init t).
Definition initu (v : Z) (t : oid) : prog unit := CHECK (mp_int_init_uvalue t v).
Definition initc (a : oid) (t : oid) : prog unit := CHECK (mp_int_init_copy t a).

(** gmp_compat.c 58-148: direct translations. *)
Definition mpq_clear (x : rat) : prog unit := mp_rat_clear x.
Definition mpq_cmp (op1 op2 : rat) : prog Z := mp_rat_compare op1 op2.
Definition mpq_init (x : rat) : prog unit := CHECK (mp_rat_init x).
Definition mpq_mul (product multiplier multiplicand : rat) : prog unit := CHECK (mp_rat_mul multiplier multiplicand product).
Definition mpq_set (rop op : rat) : prog unit := CHECK (mp_rat_copy op rop).
Definition mpz_abs (rop op : oid) : prog unit := CHECK (mp_int_abs op rop).
Definition mpz_add (rop op1 op2 : oid) : prog unit := CHECK (mp_int_add op1 op2 rop).
Definition mpz_clear (x : oid) : prog unit := mp_int_clear x.
Definition mpz_cmp_si (op1 : oid) (op2 : Z) : prog Z := mp_int_compare_value op1 op2.
Definition mpz_cmpabs (op1 op2 : oid) : prog Z := mp_int_compare_unsigned op1 op2.
Definition mpz_cmp (op1 op2 : oid) : prog Z := mp_int_compare op1 op2.
Definition mpz_init (x : oid) : prog unit := CHECK (mp_int_init x).
Definition mpz_mul (rop op1 op2 : oid) : prog unit := CHECK (mp_int_mul op1 op2 rop).
Definition mpz_neg (rop op : oid) : prog unit := CHECK (mp_int_neg op rop).
Definition mpz_set_si (rop : oid) (op : Z) : prog unit := CHECK (mp_int_set_value rop op).
Definition mpz_set (rop op : oid) : prog unit := CHECK (mp_int_copy op rop).
Definition mpz_sub (rop op1 op2 : oid) : prog unit := CHECK (mp_int_sub op1 op2 rop).
Definition mpz_swap (rop1 rop2 : oid) : prog unit := mp_int_swap rop1 rop2.
Definition mpq_sgn (op : rat) : prog Z := mp_rat_compare_zero op.
Definition mpz_sgn (op : oid) : prog Z := mp_int_compare_zero op.
Definition mpq_set_ui (rop : rat) (op1 op2 : Z) : prog unit := CHECK (mp_rat_set_uvalue rop op1 op2).
Definition mpz_set_ui (rop : oid) (op : Z) : prog unit := CHECK (mp_int_set_uvalue rop op).
Definition mpq_denref (op : rat) : oid := mp_rat_denom_ref op.
Definition mpq_numref (op : rat) : oid := mp_rat_numer_ref op.
Definition mpq_canonicalize (op : rat) : prog unit := CHECK (mp_rat_reduce op).

(** gmp_compat.c 153-163 *)
Definition mpz_addmul (rop op1 op2 : oid) : prog unit :=
  local_int (fun t => mp_int_init t;; Ret tt) (fun temp =>
    CHECK (mp_int_mul op1 op2 temp);;
    CHECK (mp_int_add rop temp rop)).
(** gmp_compat.c 165-169 *)
Definition mpz_divexact (q n d : oid) : prog unit := CHECK (mp_int_div n d (Some q) None).
(** gmp_compat.c 171-192 *)
Definition mpz_divisible_p (n d : oid) : prog bool :=
  cn <- mp_int_compare_zero n;
  cd <- mp_int_compare_zero d;
  if cd =? 0 then Ret (cn =? 0) else
  local_int init0 (fun r =>
    CHECK (mp_int_div n d None (Some r));;
    c <- mp_int_compare_zero r;
    Ret (c =? 0)).
(** gmp_compat.c 194-205 *)
Definition mpz_submul (rop op1 op2 : oid) : prog unit :=
  local_int (fun t => mp_int_init t;; Ret tt) (fun temp =>
    CHECK (mp_int_mul op1 op2 temp);;
    CHECK (mp_int_sub rop temp rop)).
(** gmp_compat.c 207-216 *)
Definition mpz_add_ui (rop op1 : oid) (op2 : Z) : prog unit :=
  local_int (initu op2) (fun temp => CHECK (mp_int_add op1 temp rop)).
(** gmp_compat.c 218-228 *)
Definition mpz_divexact_ui (q n : oid) (d : Z) : prog unit :=
  local_int (initu d) (fun temp => CHECK (mp_int_div n temp (Some q) None)).
(** gmp_compat.c 230-239 *)
Definition mpz_mul_ui (rop op1 : oid) (op2 : Z) : prog unit :=
  local_int (initu op2) (fun temp => CHECK (mp_int_mul op1 temp rop)).
(** gmp_compat.c 241-257 *)
Definition mpz_pow_ui (rop base : oid) (exp : Z) : prog unit :=
  z <- (if exp =? 0 then c <- mp_int_compare_zero base; Ret (c =? 0) else Ret false);
  if z : bool then CHECK (mp_int_set_value rop 1) else
  local_int (initu exp) (fun temp => CHECK (mp_int_expt_full base temp rop)).
(** gmp_compat.c 259-268 *)
Definition mpz_sub_ui (rop op1 : oid) (op2 : Z) : prog unit :=
  local_int (initu op2) (fun temp => CHECK (mp_int_sub op1 temp rop)).

(** gmp_compat.c 276-287 *)
Definition mpz_gcd (rop op1 op2 : oid) : prog unit :=
  c1 <- mp_int_compare_zero op1;
  c2 <- mp_int_compare_zero op2;
  if ((c1 =? 0) && (c2 =? 0))%bool then mp_int_zero rop
  else CHECK (mp_int_gcd op1 op2 rop).

(** ctype.h in the C locale; the argument must be a character code (or EOF). *)
Definition tolower (c : Z) : Z := if ((65 <=? c) && (c <=? 90))%bool then c + 32 else c.
(** gmp_compat.c 307-313, 339-345: the loop over the first [n] characters.  A
    [char] above 127 is negative, which is not a valid argument of [toupper]. *)
Fixpoint case_loop (n : nat) (radix : Z) (p : ptr) : prog unit :=
  match n with
  | O => Ret tt
  | S n' =>
      c <- Load p;
      (if 128 <=? c then Undef else Store p (if radix <? 0 then toupper c else tolower c));;
      case_loop n' radix (p +p 1)
  end.
(** gmp_compat.c 289-315, with a buffer. *)
Definition mpz_get_str (str : ptr) (radix : Z) (op : oid) : prog unit :=
  let r := if radix <? 0 then - radix else radix in
  len <- mp_int_string_len op r;
  CHECK (mp_int_to_string op r str len);;
  case_loop (Z.to_nat (len - 1)) radix str.
(** gmp_compat.c 317-348, with a buffer. *)
Definition mpq_get_str (str : ptr) (radix : Z) (op : rat) : prog unit :=
  c <- mp_int_compare_value (mp_rat_denom_ref op) 1;
  if c =? 0 then mpz_get_str str radix (mp_rat_numer_ref op) else
  let r := if radix <? 0 then - radix else radix in
  len <- mp_rat_string_len op r;
  CHECK (mp_rat_to_string op r str len);;
  case_loop (Z.to_nat len) radix str.

(** gmp_compat.c 350-354 *)
Definition mpz_set_str (rop : oid) (str : list Z) (base : Z) : prog Z :=
  res <- mp_int_read_string rop base str;
  Ret (if res =? MP_OK then 0 else -1).
(** string.h: [strchr], as the parts before and after the first [c]. *)
Fixpoint split_at (c : Z) (s : list Z) : list Z * option (list Z) :=
  match s with
  | [] => ([], None)
  | x :: s' => if x =? c then ([], Some s') else let y := split_at c s' in (x :: fst y, snd y)
  end.
(** gmp_compat.c 356-389; for the copy of the string see [GmpAlloc]. *)
Definition mpq_set_str (rop : rat) (s : list Z) (base : Z) : prog Z :=
  let x := split_at 47 s in
  resN <- mp_int_read_string (mp_rat_numer_ref rop) base (fst x);
  resD <- match snd x with
          | Some s' => mp_int_read_string (mp_rat_denom_ref rop) base s'
          | None => mp_int_set_uvalue (mp_rat_denom_ref rop) 1
          end;
  Ret (if ((resN =? MP_OK) && (resD =? MP_OK))%bool then 0 else -1).

(** gmp_compat.c 391-417; the loop is that of [mp_int_to_uint]. *)
Definition get_long_bits (op : oid) : prog Z :=
  u <- get_used op;
  let digits_to_copy := if 2 >? u then u else 2 in
  d <- get_digits op;
  to_uint_loop (Z.to_nat digits_to_copy) (d +p (digits_to_copy - 1)) 0.
(** gmp_compat.c 419-433 *)
Definition mpz_get_ui (op : oid) : prog Z :=
  x <- mp_int_to_uint op;
  if fst x =? MP_OK then match snd x with Some out => Ret out | None => Undef end else
  assert (fst x =? MP_RANGE);;
  if negb (fst x =? MP_RANGE) then Ret 0 else get_long_bits op.
(** gmp_compat.c 435-464; the conversion to [long] of a value above its range, as
    every common compiler does it. *)
Definition mpz_get_si (op : oid) : prog Z :=
  x <- mp_int_to_int op;
  if fst x =? MP_OK then match snd x with Some out => Ret out | None => Undef end else
  assert (fst x =? MP_RANGE);;
  if negb (fst x =? MP_RANGE) then Ret 0 else
  uout <- get_long_bits op;
  let uout := Z.land uout (2 ^ 63 - 1) in
  s <- get_sign op;
  let uout := if s =? MP_NEG then w64 (0 - uout) else uout in
  Ret (if uout <? 2 ^ 63 then uout else uout - 2 ^ 64).

(** gmp_compat.c 466-478 *)
Definition mpz_lcm (rop op1 op2 : oid) : prog unit :=
  c1 <- mp_int_compare_zero op1;
  c2 <- mp_int_compare_zero op2;
  if ((c1 =? 0) || (c2 =? 0))%bool then mp_int_zero rop else
  CHECK (mp_int_lcm op1 op2 rop);;
  CHECK (mp_int_abs rop rop).
(** gmp_compat.c 480-487; the argument is converted from [unsigned long] to
    [mp_small]. *)
Definition mpz_mul_2exp (rop op1 : oid) (op2 : Z) : prog unit :=
  c <- mp_int_compare_zero op1;
  if c =? 0 then mp_int_zero rop
  else CHECK (mp_int_mul_pow2 op1 (if op2 <? 2 ^ 63 then op2 else op2 - 2 ^ 64) rop).

(** gmp_compat.c 531-560 *)
Definition mpz_cdiv_q (q n d : oid) : prog unit :=
  local_int init0 (fun r =>
    nsign <- mp_int_compare_zero n;
    dsign <- mp_int_compare_zero d;
    CHECK (mp_int_div n d (Some q) (Some r));;
    qsign <- mp_int_compare_zero q;
    rsign <- mp_int_compare_zero r;
    if qsign >? 0 then
      if negb (rsign =? 0) then CHECK (mp_int_add_value q 1 q) else Ret tt
    else if qsign =? 0 then
      if negb (rsign =? 0) then
        if (((nsign >? 0) && (dsign >? 0)) || ((nsign <? 0) && (dsign <? 0)))%bool
        then CHECK (mp_int_set_value q 1) else Ret tt
      else Ret tt
    else Ret tt).
(** gmp_compat.c 562-591 *)
Definition mpz_fdiv_q (q n d : oid) : prog unit :=
  local_int init0 (fun r =>
    nsign <- mp_int_compare_zero n;
    dsign <- mp_int_compare_zero d;
    CHECK (mp_int_div n d (Some q) (Some r));;
    qsign <- mp_int_compare_zero q;
    rsign <- mp_int_compare_zero r;
    if qsign <? 0 then
      if negb (rsign =? 0) then CHECK (mp_int_sub_value q 1 q) else Ret tt
    else if qsign =? 0 then
      if negb (rsign =? 0) then
        if (((nsign <? 0) && (dsign >? 0)) || ((nsign >? 0) && (dsign <? 0)))%bool
        then CHECK (mp_int_set_value q (-1)) else Ret tt
      else Ret tt
    else Ret tt).
(** gmp_compat.c 593-621 *)
Definition mpz_fdiv_r (r n d : oid) : prog unit :=
  local_int init0 (fun q => local_int init0 (fun temp =>
  local_int (initc d) (fun orig_d => local_int (initc n) (fun orig_n =>
    mpz_fdiv_q q n d;;
    mp_int_mul q orig_d temp;;
    mp_int_sub orig_n temp r;;
    Ret tt)))).
(** gmp_compat.c 623-627 *)
Definition mpz_tdiv_q (q n d : oid) : prog unit := CHECK (mp_int_div n d (Some q) None).
(** gmp_compat.c 629-653 *)
Definition mpz_fdiv_q_ui (q n : oid) (d : Z) : prog Z :=
  local_int (initu d) (fun temp => local_int init0 (fun r => local_int (initc n) (fun orig_n =>
    mpz_fdiv_q q n temp;;
    mpz_fdiv_r r orig_n temp;;
    x <- mp_int_to_uint r;
    assert (fst x =? MP_OK);;
    match snd x with Some rl => Ret rl | None => Undef end))).

(** gmp_compat.c 714-726: the bytes of one word, [j] of them written; the two
    loops over [j] are one here, the condition of the first never becoming true
    again.  The result is the new [dst], [src] and [src_bits]. *)
Fixpoint export_word (n : nat) (k used endian : Z) (dst src : ptr) (src_bits : Z) : prog (ptr * ptr * Z) :=
  match n with
  | O => Ret (dst, src, src_bits)
  | S n' =>
      if k <? used then
        let next := src_bits =? 0 in
        let src := if next : bool then src +p 1 else src in
        let src_bits := if next : bool then 32 else src_bits in
        d <- Load src;
        Store dst (Z.land (Z.shiftr d (32 - src_bits)) 255);;
        export_word n' (k + 1) used endian (dst +p (- endian)) src (src_bits - 8)
      else
        Store dst 0;;
        export_word n' (k + 1) used endian (dst +p (- endian)) src src_bits
  end.
(** gmp_compat.c 713-728 *)
Fixpoint export_words (n : nat) (i size used endian word_offset : Z) (dst src : ptr) (src_bits : Z) : prog unit :=
  match n with
  | O => Ret tt
  | S n' =>
      x <- export_word (Z.to_nat size) (i * size) used endian dst src src_bits;
      export_words n' (i + 1) size used endian word_offset (fst (fst x) +p word_offset) (snd (fst x)) (snd x)
  end.
(** gmp_compat.c 655-732, with a buffer; the result is [*countp].  A pointer past
    the ends of the buffer is only computed, not used. *)
Definition mpz_export (rop : ptr) (order size endian nails : Z) (op : oid) : prog Z :=
  assert (nails =? 0);;
  assert ((endian =? 1) || (endian =? 0) || (endian =? -1))%bool;;
  assert ((order =? 1) || (order =? -1))%bool;;
  c <- mp_int_compare_zero op;
  if c =? 0 then Ret 0 else
  num_used_bytes <- mp_int_unsigned_len op;
  if size =? 0 then Undef else
  let num_words := w64 (num_used_bytes + w64 (size - 1)) / size in
  assert (num_used_bytes >? 0);;
  let num_missing_bytes := w64 (w64 (size * num_words) - num_used_bytes) in
  assert (num_missing_bytes <? size);;
  let endian := if endian =? 0 then HOST_ENDIAN else endian in
  let dst := rop +p ((if order >=? 0 then (num_words - 1) * size else 0) + (if endian >=? 0 then size - 1 else 0)) in
  src <- get_digits op;
  let word_offset := (if endian >=? 0 then size else - size) + (if order <? 0 then size else - size) in
  export_words (Z.to_nat num_words) 0 size num_used_bytes endian word_offset dst src 32;;
  Ret num_words.

(** gmp_compat.c 764 *)
Fixpoint zero_loop (n : nat) (p : ptr) : prog unit :=
  match n with
  | O => Ret tt
  | S n' => Store p 0;; zero_loop n' (p +p 1)
  end.
(** gmp_compat.c 775-783: the bytes of one word. *)
Fixpoint import_word (n : nat) (endian : Z) (src dst : ptr) (dst_bits : Z) : prog (ptr * ptr * Z) :=
  match n with
  | O => Ret (src, dst, dst_bits)
  | S n' =>
      let next := dst_bits =? 32 in
      let dst := if next : bool then dst +p 1 else dst in
      let dst_bits := if next : bool then 0 else dst_bits in
      v <- Load dst; b <- Load src;
      Store dst (Z.lor v (u32 (Z.shiftl b dst_bits)));;
      import_word n' endian (src +p (- endian)) dst (dst_bits + 8)
  end.
(** gmp_compat.c 774-785 *)
Fixpoint import_words (n : nat) (size endian word_offset : Z) (src dst : ptr) (dst_bits : Z) : prog unit :=
  match n with
  | O => Ret tt
  | S n' =>
      x <- import_word (Z.to_nat size) endian src dst dst_bits;
      import_words n' size endian word_offset (fst (fst x) +p word_offset) (snd (fst x)) (snd x)
  end.
(** gmp_compat.c 734-800; the removal of leading zeros is the code of [CLAMP]. *)
Definition mpz_import (rop : oid) (count order size endian nails : Z) (op : option ptr) : prog unit :=
  match op with
  | None => Ret tt
  | Some op =>
      if count =? 0 then Ret tt else
      assert (nails =? 0);;
      assert ((endian =? 1) || (endian =? 0) || (endian =? -1))%bool;;
      assert ((order =? 1) || (order =? -1))%bool;;
      let endian := if endian =? 0 then HOST_ENDIAN else endian in
      let total_size := w64 (count * size) in
      let num_digits := w64 (total_size + 4 - 1) / 4 in
      local_int (fun tmp => mp_int_init_size tmp (u32 num_digits);; Ret tt) (fun tmp =>
        d <- get_digits tmp;
        zero_loop (Z.to_nat num_digits) d;;
        let src := op +p ((if order >=? 0 then (count - 1) * size else 0) + (if endian >=? 0 then size - 1 else 0)) in
        let word_offset := (if endian >=? 0 then size else - size) + (if order <? 0 then size else - size) in
        import_words (Z.to_nat count) size endian word_offset src d 0;;
        set_used tmp (u32 num_digits);;
        CLAMP tmp;;
        mp_int_copy tmp rop;;
        Ret tt)
  end.

(** gmp_compat.c 802-824: [CHECK((res > 0) == MP_OK)] holds exactly when
    [res > 0], [MP_OK] being 0. *)
Definition mpz_sizeinbase (op : oid) (base : Z) : prog Z :=
  c <- mp_int_compare_zero op;
  if c =? 0 then Ret 1 else
  res <- mp_int_string_len op base;
  assert (res >? 0);;
  c <- mp_int_compare_zero op;
  Ret (if c <? 0 then w64 (res - 1 - 1) else w64 (res - 1)).
