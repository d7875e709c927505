(** Models of examples/basecvt.c, input.c, rounding.c, findprime.c and randprime.c. *)
From Coq Require Import ZArith List Lia.
From stdpp Require Import gmap list.
From Verif Require Import Mem Prog Kern Imath Imrat Gmp GmpAlloc Rsamath Iprime SpecConv ExRsakey.
Local Open Scope Z_scope.
Local Open Scope prog_scope.

(** A local [mpq_t] that is initialised at the beginning and cleared at the end;
    [bad] is the result when it cannot be initialised. *)
Definition local_rat {A} (bad : A) (f : rat -> prog A) : prog A :=
  NewO (fun n => NewO (fun d =>
    res <- mp_rat_init (n, d);
    if negb (res =? MP_OK) then DelO d (DelO n (Ret bad)) else
    x <- f (n, d);
    mp_rat_clear (n, d);; DelO d (DelO n (Ret x)))).

(** ** basecvt.c *)
(** examples/basecvt.c 79-84: the size of the buffer *)
Definition text_len (v : rat) (is_int : bool) (radix : Z) : prog Z :=
  if is_int then mp_int_string_len (num v) radix else mp_rat_string_len v radix.
(** examples/basecvt.c 91-95: the text in the buffer *)
Definition to_text (v : rat) (is_int : bool) (radix : Z) (buf : ptr) (len : Z) : prog Z :=
  if is_int then mp_int_to_string (num v) radix buf len else mp_rat_to_string v radix buf len.
(** examples/basecvt.c 64-106: the loop over the arguments; [res] is the variable of
    this name.  The result is its last value and what is printed (of the messages on
    the error output their kind, and the rest of the argument). *)
Fixpoint basecvt_loop (v : rat) (in_rdx out_rdx : Z) (res : Z) (args : list (list Z)) : prog (Z * list said) :=
  match args with
  | [] => Ret (res, [])
  | s :: args' =>
      x <- mp_rat_read_ustring v in_rdx s;
      let res := fst x in
      if negb (res =? MP_OK) && negb (res =? MP_TRUNC) then Ret (res, [Unreadable]) else
      match snd x with
      | _ :: _ => y <- basecvt_loop v in_rdx out_rdx res args'; Ret (fst y, Junk (snd x) :: snd y)
      | [] =>
          is_int <- mp_rat_is_integer v;
          len <- text_len v is_int out_rdx;
          Malloc len (fun q =>
            match q with
            | None => Ret (res, [No_memory])
            | Some buf =>
                res <- to_text v is_int out_rdx buf len;
                if negb (res =? MP_OK) then Free buf (Ret (res, [Not_converted])) else
                t <- cstring (Z.to_nat len + 1) buf;
                Free buf (y <- basecvt_loop v in_rdx out_rdx res args'; Ret (fst y, Line t :: snd y))
            end)
      end
  end.
(** examples/basecvt.c 35-111.  The radices are the values of atoi, converted to
    mp_size, which is unsigned.  The result is the exit status and what is printed
    from the loop on. *)
Definition basecvt_main (in_rdx out_rdx : Z) (args : list (list Z)) : prog (Z * list said) :=
  match args with
  | [] => Ret (1, [])
  | _ =>
      if (in_rdx <? 2) || (in_rdx >? 36) then Ret (3, []) else
      if (out_rdx <? 2) || (out_rdx >? 36) then Ret (3, []) else
      local_rat (2, []) (fun v =>
        x <- basecvt_loop v in_rdx out_rdx MP_OK args;
        Ret (if negb (fst x =? MP_OK) then 1 else 0, snd x))
  end.

(** ** input.c *)
(** examples/input.c 36-114 with a value and the radix given: the line that is
    printed (status 0), or the code reported and the rest of the input (status 1).
    The result of malloc is not tested; NULL goes to mp_int_to_string, directly or
    through mp_rat_to_string, which asserts that it is not NULL. *)
Definition input_main (radix : Z) (s : list Z) : prog (list Z + Z * list Z) :=
  if (radix <? 2) || (radix >? 36) then Ret (inr (MP_RANGE, [])) else
  local_rat (inr (MP_MEMORY, [])) (fun v =>
    x <- mp_rat_read_ustring v 0 s;
    if negb (fst x =? MP_OK) then Ret (inr (fst x, snd x)) else
    is_int <- mp_rat_is_integer v;
    len <- text_len v is_int radix;
    malloc_text len (fun obuf =>
      res <- to_text v is_int radix obuf len;
      if negb (res =? MP_OK) then Ret (inr (res, [])) else
      t <- cstring (Z.to_nat len + 1) obuf;
      Free obuf (Ret (inl t)))).

(** ** rounding.c *)
(** examples/rounding.c 37-81: the status and the string of the last line that is
    printed, if there is one.  The result of malloc is not tested: mp_rat_to_decimal
    writes a minus sign to NULL, or passes it to mp_int_to_string, which stops at an
    assertion; both are modelled as undefined. *)
Definition rounding_main (mode prec radix : Z) (s : list Z) : prog (Z * option (list Z)) :=
  local_rat (2, None) (fun v =>
    res <- mp_rat_read_decimal v radix s;
    if negb (res =? MP_OK) then Ret (res, None) else
    len <- mp_rat_decimal_len v radix prec;
    malloc_raw len (fun buf =>
      res <- mp_rat_to_decimal v radix prec mode buf len;
      t <- cstring (Z.to_nat len + 1) buf;
      Free buf (Ret (res, Some t)))).

(** ** findprime.c *)
(** examples/findprime.c 35-68: the status and the number that is printed.  The
    results of mp_int_init and mp_int_to_string are ignored.  The returns with a
    message do not clear [seed]; the structure goes out of scope. *)
Definition findprime_main (s : list Z) : prog (Z * option (list Z)) :=
  NewE 4096 (fun buf => NewO (fun seed =>
    let leave (r : Z * option (list Z)) := DelO seed (DelE buf (Ret r)) in
    mp_int_init seed;;
    res <- mp_int_read_string seed 10 s;
    if negb (res =? MP_OK) then leave (2, None) else
    c <- mp_int_compare_value seed 131;
    if c <=? 0 then leave (1, None) else
    res <- mp_int_find_prime seed;
    if negb (res =? MP_TRUE) then leave (2, None) else
    mp_int_to_string seed 10 buf 4096;;
    t <- cstring 4097 buf;
    mp_int_clear seed;;
    leave (0, Some t))).

(** ** randprime.c *)
(** examples/randprime.c 214-233: one round; [inr] ends the loop with [res].
    [find_prime] (183-207) is that of rsakey.c. *)
Definition strong_body (seed t : oid) (res : Z) : prog (Z + Z) :=
  r <- find_prime seed;
  if negb (r =? MP_TRUE) then Ret (inr res) else
  r <- mp_int_copy seed t;
  if negb (r =? MP_OK) then Ret (inr res) else
  r <- mp_int_mul_pow2 t 1 t;
  if negb (r =? MP_OK) then Ret (inr res) else
  r <- mp_int_add_value t 1 t;
  if negb (r =? MP_OK) then Ret (inr res) else
  res <- mp_int_is_prime t;
  if res =? MP_TRUE then res <- mp_int_copy t seed; Ret (inr res) else
  if negb (res =? MP_FALSE) then Ret (inr res) else
  r <- mp_int_add_value seed 2 seed;
  if negb (r =? MP_OK) then Ret (inr res) else Ret (inl res).
(** examples/randprime.c 209-237.  That the loop ends is not known for every seed
    (nor is it known that there are infinitely many such primes), so the bound, 2^k
    rounds, is a parameter. *)
Definition find_strong_prime (k : nat) (seed : oid) : prog Z :=
  local_int (fun t => mp_int_init t;; Ret tt) (fun t => loop k (strong_body seed t) MP_OK).
(** examples/randprime.c 87-135: from the parsed number of bits to the end: the
    numeral written, or the code reported.  The status is 0 in either case.
    [mp_int_randomize] (150-181) is that of rsakey.c.  [strong]: the option -s was
    given, with the bound of [find_strong_prime]. *)
Definition randprime_main (strong : option nat) (modbits : Z) (d : draw) : prog (list Z + Z) :=
  if modbits <? 8 then Ret (inr MP_RANGE) else
  let modbits := if modbits mod 2 =? 1 then modbits + 1 else modbits in
  local_int (fun t => mp_int_init t;; Ret tt) (fun value =>
    res <- mp_int_randomize value (modbits - 1) d;
    if negb (res =? MP_OK) then Ret (inr res) else
    (match strong with Some k => find_strong_prime k value | None => find_prime value end);;
    len <- mp_int_string_len value 10;
    malloc_text len (fun obuf =>
      mp_int_to_string value 10 obuf len;;
      t <- cstring (Z.to_nat len + 1) obuf;
      Free obuf (Ret (inl t)))).
