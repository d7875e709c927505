(** Model of imrat.c, the rational numbers.

    A C [mpq_t] is a structure with two [mpz_t] members.  Here a rational is the
    pair of the handles of its members; two [mp_rat] pointers are equal when the
    handles of the numerators are. *)
From Coq Require Import ZArith List Lia.
From stdpp Require Import gmap list.
From Verif Require Import Mem Prog Kern Fp Imath.
Local Open Scope Z_scope.
Local Open Scope prog_scope.

(** imrat.h 38-47 ([mpq_t], [mp_rat], [MP_NUMER_P], [MP_DENOM_P]) *)
Definition rat : Type := oid * oid.
Definition num (r : rat) : oid := fst r.
Definition den (r : rat) : oid := snd r.

(** imrat.h 49-55 ([mp_round_mode]) *)
Definition MP_ROUND_DOWN : Z := 0.
Definition MP_ROUND_HALF_UP : Z := 1.
Definition MP_ROUND_UP : Z := 2.
Definition MP_ROUND_HALF_DOWN : Z := 3.
(** limits.h *)
Definition INT_MAX : Z := 2 ^ 31 - 1.
(** The conversion [(int)x] of an [unsigned], as every common compiler does it. *)
Definition to_int32 (x : Z) : Z := if x <? 2 ^ 31 then x else x - 2 ^ 32.

(** imrat.c 41-51 ([TEMP], [SETUP]) and the [CLEANUP] code: a local [mpz_t],
    initialised with [init]; [fail] is what the function returns when that does
    not succeed, [f] the rest, whose return is the jump to the cleanup code.
    [keep] tells the results for which the function returns without it. *)
Definition with_init {A} (keep : A -> bool) (init : oid -> prog Z) (fail : Z -> A) (f : oid -> prog A) : prog A :=
  NewO (fun t =>
    res <- init t;
    if negb (res =? MP_OK) then DelO t (Ret (fail res)) else
    r <- f t;
    (if keep r then Ret tt else mp_int_clear t);;
    DelO t (Ret r)).
Definition with_copy (old : oid) (f : oid -> prog Z) : prog Z :=
  with_init (fun _ => false) (fun t => mp_int_init_copy t old) (fun res => res) f.
Definition with_zero (f : oid -> prog Z) : prog Z :=
  with_init (fun _ => false) mp_int_init (fun res => res) f.

(** imrat.c 856-894 *)
Definition s_rat_reduce (r : rat) : prog Z :=
  cz <- mp_int_compare_zero (num r);
  if cz =? 0 then mp_int_set_value (den r) 1;; Ret MP_OK else
  with_zero (fun gcd =>
    REQUIRE mp_int_gcd (num r) (den r) gcd;;
    c1 <- mp_int_compare_value gcd 1;
    REQUIRE (if negb (c1 =? 0) then
               REQUIRE mp_int_div (num r) gcd (Some (num r)) None;;
               mp_int_div (den r) gcd (Some (den r)) None
             else Ret MP_OK);;
    sn <- get_sign (num r); sd <- get_sign (den r);
    (if sn =? sd then set_sign (den r) MP_ZPOS;; set_sign (num r) MP_ZPOS
     else set_sign (num r) MP_NEG;; set_sign (den r) MP_ZPOS);;
    Ret MP_OK).

(** imrat.c 53-63 *)
Definition mp_rat_init (r : rat) : prog Z :=
  REQUIRE mp_int_init (num r);;
  res <- mp_int_init (den r);
  if negb (res =? MP_OK) then mp_int_clear (num r);; Ret res else
  mp_int_set_value (den r) 1.

(** imrat.c 136-139 *)
Definition mp_rat_clear (r : rat) : prog unit :=
  mp_int_clear (num r);; mp_int_clear (den r).

(** imrat.c 65-76.  The one [malloc] of the structure with both members is
    modelled as the allocation of the two members one after the other. *)
Definition mp_rat_alloc : prog (option rat) :=
  MallocO (fun n =>
    match n with
    | None => Ret None
    | Some n =>
        MallocO (fun d =>
          match d with
          | None => FreeO n (Ret None)
          | Some d =>
              res <- mp_rat_init (n, d);
              if negb (res =? MP_OK) then FreeO d (FreeO n (Ret None))
              else Ret (Some (n, d))
          end)
    end).

(** imrat.c 141-147 *)
Definition mp_rat_free (r : rat) : prog unit :=
  z <- getO (num r);
  (match digits z with Some _ => mp_rat_clear r | None => Ret tt end);;
  FreeO (den r) (FreeO (num r) (Ret tt)).

(** imrat.c 78 *)
Definition mp_rat_reduce (r : rat) : prog Z := s_rat_reduce r.

(** imrat.c 80-92 *)
Definition mp_rat_init_size (r : rat) (n_prec d_prec : Z) : prog Z :=
  REQUIRE mp_int_init_size (num r) n_prec;;
  res <- mp_int_init_size (den r) d_prec;
  if negb (res =? MP_OK) then mp_int_clear (num r);; Ret res else
  mp_int_set_value (den r) 1.

(** imrat.c 94-104 *)
Definition mp_rat_init_copy (r old : rat) : prog Z :=
  REQUIRE mp_int_init_copy (num r) (num old);;
  res <- mp_int_init_copy (den r) (den old);
  if negb (res =? MP_OK) then mp_int_clear (num r);; Ret res else Ret res.

(** imrat.c 106-119 *)
Definition mp_rat_set_value (r : rat) (numer denom : Z) : prog Z :=
  if denom =? 0 then Ret MP_UNDEF else
  REQUIRE mp_int_set_value (num r) numer;;
  REQUIRE mp_int_set_value (den r) denom;;
  s_rat_reduce r.
(** imrat.c 121-134 *)
Definition mp_rat_set_uvalue (r : rat) (numer denom : Z) : prog Z :=
  if denom =? 0 then Ret MP_UNDEF else
  REQUIRE mp_int_set_uvalue (num r) numer;;
  REQUIRE mp_int_set_uvalue (den r) denom;;
  s_rat_reduce r.

(** imrat.c 149-161 *)
Definition mp_rat_numer (r : rat) (z : oid) : prog Z := mp_int_copy (num r) z.
Definition mp_rat_numer_ref (r : rat) : oid := num r.
Definition mp_rat_denom (r : rat) (z : oid) : prog Z := mp_int_copy (den r) z.
Definition mp_rat_denom_ref (r : rat) : oid := den r.
Definition mp_rat_sign (r : rat) : prog Z := get_sign (num r).

(** imrat.c 163-172 *)
Definition mp_rat_copy (a c : rat) : prog Z :=
  REQUIRE mp_int_copy (num a) (num c);;
  mp_int_copy (den a) (den c).

(** imrat.c 174-177 *)
Definition mp_rat_zero (r : rat) : prog unit :=
  mp_int_zero (num r);; mp_int_set_value (den r) 1;; Ret tt.

(** imrat.c 179-188 *)
Definition mp_rat_abs (a c : rat) : prog Z :=
  REQUIRE mp_int_abs (num a) (num c);;
  mp_int_abs (den a) (den c).

(** imrat.c 190-199 *)
Definition mp_rat_neg (a c : rat) : prog Z :=
  REQUIRE mp_int_neg (num a) (num c);;
  mp_int_copy (den a) (den c).

(** imrat.c 433 *)
Definition mp_rat_compare_zero (r : rat) : prog Z := mp_int_compare_zero (num r).

(** imrat.c 201-219 *)
Definition mp_rat_recip (a c : rat) : prog Z :=
  cz <- mp_rat_compare_zero a;
  if cz =? 0 then Ret MP_UNDEF else
  REQUIRE mp_rat_copy a c;;
  mp_int_swap (num c) (den c);;
  tmp <- get_sign (num c);
  sd <- get_sign (den c);
  set_sign (num c) sd;;
  set_sign (den c) tmp;;
  Ret MP_OK.

(** imrat.c 896-941 *)
Definition s_rat_combine (a b c : rat) (comb_f : oid -> oid -> oid -> prog Z) : prog Z :=
  cmp <- mp_int_compare (den a) (den b);
  if cmp =? 0 then
    REQUIRE comb_f (num a) (num b) (num c);;
    REQUIRE mp_int_copy (den a) (den c);;
    s_rat_reduce c
  else
    REQUIRE with_copy (num a) (fun t0 =>
      with_copy (num b) (fun t1 =>
        REQUIRE mp_int_mul t0 (den b) t0;;
        REQUIRE mp_int_mul t1 (den a) t1;;
        REQUIRE comb_f t0 t1 (num c);;
        mp_int_mul (den a) (den b) (den c)));;
    s_rat_reduce c.
(** imrat.c 221-227 *)
Definition mp_rat_add (a b c : rat) : prog Z := s_rat_combine a b c mp_int_add.
Definition mp_rat_sub (a b c : rat) : prog Z := s_rat_combine a b c mp_int_sub.

(** imrat.c 229-243 *)
Definition mp_rat_mul (a b c : rat) : prog Z :=
  REQUIRE mp_int_mul (num a) (num b) (num c);;
  cz <- mp_int_compare_zero (num c);
  REQUIRE (if negb (cz =? 0) then mp_int_mul (den a) (den b) (den c) else Ret MP_OK);;
  s_rat_reduce c.

(** imrat.c 245-281 *)
Definition mp_rat_div (a b c : rat) : prog Z :=
  cz <- mp_rat_compare_zero b;
  if cz =? 0 then Ret MP_UNDEF else
  REQUIRE (if bool_decide (num c = num a) || bool_decide (num c = num b) then
             with_zero (fun tmp =>
               REQUIRE mp_int_mul (num a) (den b) tmp;;
               REQUIRE mp_int_mul (den a) (num b) (den c);;
               mp_int_copy tmp (num c))
           else
             REQUIRE mp_int_mul (num a) (den b) (num c);;
             mp_int_mul (den a) (num b) (den c));;
  s_rat_reduce c.

(** imrat.c 283-305 *)
Definition mp_rat_add_int (a : rat) (b : oid) (c : rat) : prog Z :=
  with_copy b (fun tmp =>
    REQUIRE mp_int_mul tmp (den a) tmp;;
    REQUIRE mp_rat_copy a c;;
    REQUIRE mp_int_add (num c) tmp (num c);;
    s_rat_reduce c).
(** imrat.c 307-329 *)
Definition mp_rat_sub_int (a : rat) (b : oid) (c : rat) : prog Z :=
  with_copy b (fun tmp =>
    REQUIRE mp_int_mul tmp (den a) tmp;;
    REQUIRE mp_rat_copy a c;;
    REQUIRE mp_int_sub (num c) tmp (num c);;
    s_rat_reduce c).
(** imrat.c 331-342 *)
Definition mp_rat_mul_int (a : rat) (b : oid) (c : rat) : prog Z :=
  REQUIRE mp_rat_copy a c;;
  REQUIRE mp_int_mul (num c) b (num c);;
  s_rat_reduce c.
(** imrat.c 344-358 *)
Definition mp_rat_div_int (a : rat) (b : oid) (c : rat) : prog Z :=
  cz <- mp_int_compare_zero b;
  if cz =? 0 then Ret MP_UNDEF else
  REQUIRE mp_rat_copy a c;;
  REQUIRE mp_int_mul (den c) b (den c);;
  s_rat_reduce c.

(** imrat.c 360-377 *)
Definition mp_rat_expt (a : rat) (b : Z) (c : rat) : prog Z :=
  if b =? 0 then mp_rat_set_value c 1 1
  else if b =? 1 then mp_rat_copy a c
  else
    REQUIRE mp_int_expt (num a) b (num c);;
    mp_int_expt (den a) b (den c).

(** imrat.c 401-431 *)
Definition mp_rat_compare_unsigned (a b : rat) : prog Z :=
  dc <- mp_int_compare_unsigned (den a) (den b);
  if dc =? 0 then mp_int_compare_unsigned (num a) (num b)
  else
    with_init (fun _ => false) (fun t => mp_int_init_copy t (num a)) (fun _ => INT_MAX) (fun t0 =>
      with_init (fun _ => false) (fun t => mp_int_init_copy t (num b)) (fun _ => INT_MAX) (fun t1 =>
        r0 <- mp_int_mul t0 (den b) t0;
        if negb (r0 =? MP_OK) then Ret INT_MAX else
        r1 <- mp_int_mul t1 (den a) t1;
        if negb (r1 =? MP_OK) then Ret INT_MAX else
        mp_int_compare_unsigned t0 t1)).
(** imrat.c 379-399 *)
Definition mp_rat_compare (a b : rat) : prog Z :=
  sa <- get_sign (num a); sb <- get_sign (num b);
  if negb (sa =? sb) then Ret (if sa =? MP_ZPOS then 1 else -1)
  else
    cmp <- mp_rat_compare_unsigned a b;
    Ret (if sa =? MP_ZPOS then cmp else - cmp).
(** imrat.c 435-452; the local [mpq_t] is two local [mpz_t]. *)
Definition mp_rat_compare_value (r : rat) (n d : Z) : prog Z :=
  NewO (fun tn => NewO (fun td =>
    let tmp : rat := (tn, td) in
    res <- mp_rat_init tmp;
    if negb (res =? MP_OK) then DelO td (DelO tn (Ret INT_MAX)) else
    res <- mp_rat_set_value tmp n d;
    out <- (if negb (res =? MP_OK) then Ret INT_MAX else mp_rat_compare r tmp);
    mp_rat_clear tmp;;
    DelO td (DelO tn (Ret out)))).

(** imrat.c 454-456 *)
Definition mp_rat_is_integer (r : rat) : prog bool :=
  c <- mp_int_compare_value (den r) 1; Ret (c =? 0).

(** imrat.c 458-467: the result code and the two outputs, [None] when not
    stored. *)
Definition mp_rat_to_ints (r : rat) : prog (Z * option Z * option Z) :=
  rn <- mp_int_to_int (num r);
  if negb (fst rn =? MP_OK) then Ret (fst rn, snd rn, None) else
  rd <- mp_int_to_int (den r);
  Ret (fst rd, snd rn, snd rd).

(** string.h: [strlen]; [n] bounds the number of characters looked at (the
    caller's buffer). *)
Fixpoint strlen_loop (n : nat) (p : ptr) (len : Z) : prog Z :=
  match n with
  | O => NoFuel
  | S n' => c <- Load p; if c =? 0 then Ret len else strlen_loop n' (p +p 1) (len + 1)
  end.
(** string.h: [memset(p, c, n)]; a negative [n] is converted to a huge size. *)
Fixpoint memset_loop (n : nat) (p : ptr) (c : Z) : prog unit :=
  match n with
  | O => Ret tt
  | S n' => Store p c;; memset_loop n' (p +p 1) c
  end.
Definition memset (p : ptr) (c n : Z) : prog unit :=
  if n <? 0 then Undef else memset_loop (Z.to_nat n) p c.

(** imrat.c 469-493.  The integer written to [str] with success has its
    terminator within [limit]. *)
Definition mp_rat_to_string (r : rat) (radix : Z) (str : ptr) (limit : Z) : prog Z :=
  REQUIRE mp_int_to_string (num r) radix str limit;;
  cz <- mp_int_compare_zero (num r);
  if cz =? 0 then Ret MP_OK else
  len <- strlen_loop (Z.to_nat limit) str 0;
  let limit := limit - len in
  if limit =? 0 then Ret MP_TRUNC else
  Store (str +p len) 47;;
  mp_int_to_string (den r) radix (str +p (len + 1)) (limit - 1).

(** imrat.c 518-523, the count of leading zeros; [n] is the number of rounds
    left. *)
Fixpoint lead_loop (n : nat) (t1 d : oid) (radix lead_0 : Z) : prog (Z * Z) :=
  match n with
  | O => Ret (MP_OK, lead_0)
  | S n' =>
      cmp <- mp_int_compare t1 d;
      if cmp <? 0 then
        res <- mp_int_mul_value t1 radix t1;
        if negb (res =? MP_OK) then Ret (res, lead_0)
        else lead_loop n' t1 d radix (lead_0 + 1)
      else Ret (MP_OK, lead_0)
  end.
(** imrat.c 495-626.  A result with [true] is the [return] of the [default]
    case, which skips the cleanup. *)
Definition round_up (prec : Z) (t0 t1 : oid) : prog Z :=
  if prec =? 0 then mp_int_add_value t0 1 t0 else mp_int_add_value t1 1 t1.
Definition mp_rat_to_decimal (r : rat) (radix prec round : Z) (str : ptr) (limit : Z) : prog Z :=
  let fail (res : Z) := (res, false) in
  out <-
  with_init snd (fun t => mp_int_init_copy t (num r)) fail (fun t0 =>
  with_init snd mp_int_init fail (fun t1 =>
  with_init snd mp_int_init fail (fun t2 =>
    mp_int_abs t0 t0;;
    res <- mp_int_div t0 (den r) (Some t0) (Some t1);
    if negb (res =? MP_OK) then Ret (fail res) else
    let zprec := to_int32 prec in
    lz <- lead_loop (Z.to_nat zprec) t1 (den r) radix 0;
    if negb (fst lz =? MP_OK) then Ret (fail (fst lz)) else
    let lead_0 := snd lz in
    res <- (if lead_0 <? zprec then
              REQUIRE mp_int_expt_value radix (zprec - lead_0) t2;;
              mp_int_mul t1 t2 t1
            else Ret MP_OK);
    if negb (res =? MP_OK) then Ret (fail res) else
    res <- mp_int_div t1 (den r) (Some t1) (Some t2);
    if negb (res =? MP_OK) then Ret (fail res) else
    res <- (if round =? MP_ROUND_UP then
              cz <- mp_int_compare_zero t2;
              res <- (if negb (cz =? 0) then round_up prec t0 t1 else Ret MP_OK);
              Ret (res, false)
            else if (round =? MP_ROUND_HALF_UP) || (round =? MP_ROUND_HALF_DOWN) then
              res <- mp_int_mul_pow2 t2 1 t2;
              if negb (res =? MP_OK) then Ret (fail res) else
              cmp <- mp_int_compare t2 (den r);
              let cmp := if round =? MP_ROUND_HALF_UP then cmp + 1 else cmp in
              res <- (if cmp >? 0 then round_up prec t0 t1 else Ret MP_OK);
              Ret (res, false)
            else if round =? MP_ROUND_DOWN then Ret (MP_OK, false)
            else Ret (MP_BADARG, true));
    if negb (fst res =? MP_OK) then Ret res else
    sg <- get_sign (num r);
    minus <- (if sg =? MP_NEG then
                c0 <- mp_int_compare_zero t0;
                if negb (c0 =? 0) then Ret true else
                c1 <- mp_int_compare_zero t1; Ret (negb (c1 =? 0))
              else Ret false);
    (if minus : bool then Store str 45 else Ret tt);;
    let start := if minus : bool then str +p 1 else str in
    let left := if minus : bool then limit - 1 else limit in
    res <- mp_int_to_string t0 radix start left;
    if negb (res =? MP_OK) then Ret (fail res) else
    len <- strlen_loop (Z.to_nat left) start 0;
    let start := start +p len in
    let left := left - len in
    if prec =? 0 then Ret (MP_OK, false) else
    Store start 46;;
    let start := start +p 1 in
    let left := left - 1 in
    if zprec =? INT_MAX then Undef else
    if left <? zprec + 1 then Ret (fail MP_TRUNC) else
    memset start 48 (lead_0 - 1);;
    res <- mp_int_to_string t1 radix (start +p (lead_0 - 1)) (left - lead_0);
    Ret (res, false))));
  Ret (fst out).

(** imrat.c 628-642; the sum of two [int]s. *)
Definition mp_rat_string_len (r : rat) (radix : Z) : prog Z :=
  n_len <- mp_int_string_len (num r) radix;
  cz <- mp_int_compare_zero (num r);
  d_len <- (if negb (cz =? 0) then mp_int_string_len (den r) radix else Ret 0);
  if n_len + d_len >? INT_MAX then Undef else Ret (n_len + d_len).
(** imrat.c 644-655; [1 + prec + 1] is unsigned and is converted to [int]. *)
Definition mp_rat_decimal_len (r : rat) (radix prec : Z) : prog Z :=
  z_len <- mp_int_string_len (num r) radix;
  let f_len := if prec =? 0 then 1 else to_int32 (u32 (1 + prec + 1)) in
  if z_len + f_len >? INT_MAX then Undef else Ret (z_len + f_len).

(** imrat.c 661-697: the result code and the rest of the string [*end] points
    at ([None]: [*end] is not set). *)
Definition mp_rat_read_cstring (r : rat) (radix : Z) (s : list Z) : prog (Z * option (list Z)) :=
  rn <- mp_int_read_cstring (num r) radix s;
  let res := fst rn in let endp := snd rn in
  if negb (res =? MP_OK) && negb (res =? MP_TRUNC) then Ret (res, None) else
  match skip_while isspace endp with
  | 47 :: s' =>
      rd <- mp_int_read_cstring (den r) radix s';
      if negb (fst rd =? MP_OK) then Ret (fst rd, if fst rd =? MP_TRUNC then Some (snd rd) else None) else
      cz <- mp_int_compare_zero (den r);
      if cz =? 0 then Ret (MP_UNDEF, Some (snd rd)) else
      res <- s_rat_reduce r;
      Ret (res, Some (snd rd))
  | _ => mp_int_set_value (den r) 1;; Ret (res, Some endp)
  end.
(** imrat.c 657-659 *)
Definition mp_rat_read_string (r : rat) (radix : Z) (s : list Z) : prog Z :=
  x <- mp_rat_read_cstring r radix s; Ret (fst x).

(** imrat.c 788-792, the trailing zeros: dividing by the radix while that is
    possible; [n] bounds the number of rounds. *)
Fixpoint strip_loop (n : nat) (frac : oid) (radix : Z) : prog Z :=
  dv <- mp_int_divisible_value frac radix;
  if dv : bool then
    match n with
    | O => NoFuel
    | S n' =>
        res <- mp_int_div_value frac radix (Some frac);
        if negb (fst res =? MP_OK) then Ret (fst res) else strip_loop n' frac radix
    end
  else Ret MP_OK.
(** imrat.c 795-797 *)
Fixpoint lz_count (s : list Z) : nat :=
  match s with 48 :: s' => S (lz_count s') | _ => O end.
(** imrat.c 803-808; [n] bounds the number of rounds. *)
Fixpoint grow_loop (n : nat) (d frac : oid) (radix : Z) : prog Z :=
  cmp <- mp_int_compare d frac;
  if cmp <? 0 then
    match n with
    | O => NoFuel
    | S n' =>
        res <- mp_int_mul_value d radix d;
        if negb (res =? MP_OK) then Ret res else grow_loop n' d frac radix
    end
  else Ret MP_OK.
(** imrat.c 811-818 *)
Fixpoint shift_loop (n : nat) (d : oid) (radix : Z) : prog Z :=
  match n with
  | O => Ret MP_OK
  | S n' =>
      res <- mp_int_mul_value d radix d;
      if negb (res =? MP_OK) then Ret res else shift_loop n' d radix
  end.
(** imrat.c 723-851 *)
Definition mp_rat_read_cdecimal (r : rat) (radix : Z) (s : list Z) : prog (Z * option (list Z)) :=
  let s := skip_while isspace s in
  let osign := match s with 45 :: _ => MP_NEG | _ => MP_ZPOS end in
  rn <- mp_int_read_cstring (num r) radix s;
  let res := fst rn in let endp := snd rn in
  if negb (res =? MP_OK) && negb (res =? MP_TRUNC) then Ret (res, None) else
  mp_int_set_value (den r) 1;;
  match endp with
  | 46 :: endp =>
      match endp with
      | [] => Ret (MP_OK, Some endp)
      | c :: _ =>
          if isspace c || (c =? 45) || (c =? 43) then Ret (MP_TRUNC, None) else
          with_init (fun _ => false) mp_int_init (fun res => (res, None)) (fun frac =>
            rf <- mp_int_read_cstring frac radix endp;
            let save_res := fst rf in let save := endp in let endp := snd rf in
            if negb (save_res =? MP_OK) && negb (save_res =? MP_TRUNC) then Ret (save_res, None) else
            cz <- mp_int_compare_zero frac;
            if cz =? 0 then Ret (save_res, Some endp) else
            res <- strip_loop (length save) frac radix;
            if negb (res =? MP_OK) then Ret (res, None) else
            let num_lz := lz_count save in
            mp_int_set_value (den r) radix;;
            res <- grow_loop (length save) (den r) frac radix;
            if negb (res =? MP_OK) then Ret (res, None) else
            res <- shift_loop num_lz (den r) radix;
            if negb (res =? MP_OK) then Ret (res, None) else
            res <- mp_int_mul (num r) (den r) (num r);
            if negb (res =? MP_OK) then Ret (res, None) else
            set_sign (num r) MP_ZPOS;;
            res <- mp_int_add (num r) frac (num r);
            if negb (res =? MP_OK) then Ret (res, None) else
            set_sign (num r) osign;;
            res <- s_rat_reduce r;
            if negb (res =? MP_OK) then Ret (res, None) else
            Ret (save_res, Some endp))
      end
  | _ => Ret (res, Some endp)
  end.
(** imrat.c 719-721 *)
Definition mp_rat_read_decimal (r : rat) (radix : Z) (s : list Z) : prog Z :=
  x <- mp_rat_read_cdecimal r radix s; Ret (fst x).
(** imrat.c 704-717 *)
Definition mp_rat_read_ustring (r : rat) (radix : Z) (s : list Z) : prog (Z * list Z) :=
  let radix := if radix =? 0 then 10 else radix in
  x <- mp_rat_read_cstring r radix s;
  let endp := match snd x with Some e => e | None => [] end in
  match endp with
  | 46 :: _ =>
      if fst x =? MP_TRUNC then
        y <- mp_rat_read_cdecimal r radix s;
        Ret (fst y, match snd y with Some e => e | None => endp end)
      else Ret (fst x, endp)
  | _ => Ret (fst x, endp)
  end.
