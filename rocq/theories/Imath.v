(** Model of the public functions of /repo/imath.c and of its higher-level
    private functions.  Handles that an [assert(z != NULL)] rejects when NULL
    are plain [oid]s here; handles that may legitimately be NULL are options.
    A local array or structure that goes out of scope is deleted explicitly. *)
From Coq Require Import ZArith List Lia.
From stdpp Require Import gmap list.
From Verif Require Import Mem Prog Kern Fp.
Local Open Scope Z_scope.
Local Open Scope prog_scope.

(** imath.c 173-177 ([REQUIRE]): leave with the error, or go on.  The jump to
    the cleanup code is the return from the body given to [with_temp]. *)
Definition require (e : prog Z) (k : prog Z) : prog Z :=
  r <- e; if r =? MP_OK then k else Ret r.
(** The same inside a loop body. *)
Definition requireL {S} (e : prog Z) (k : prog (S + Z)) : prog (S + Z) :=
  r <- e; if r =? MP_OK then k else Ret (inr r).
Notation "'REQUIRE' e ;; k" := (require e k) (at level 100, e at next level, k at level 200, right associativity) : prog_scope.
Notation "'REQUIREL' e ;; k" := (requireL e k) (at level 100, e at next level, k at level 200, right associativity) : prog_scope.

(** imath.c 368-378 *)
Definition mp_int_init (z : oid) : prog Z :=
  Store (Sng z, 0) 0;;
  set_digits z (Some (Sng z, 0));; set_alloc z 1;; set_used z 1;; set_sign z MP_ZPOS;;
  Ret MP_OK.

(** imath.c 380-386 *)
Definition mp_int_alloc : prog (option oid) :=
  MallocO (fun out =>
    match out with
    | Some z => mp_int_init z;; Ret (Some z)
    | None => Ret None
    end).

(** imath.c 388-408 *)
Definition mp_int_init_size (z : oid) (prec : Z) : prog Z :=
  if prec =? 1 then mp_int_init z else
  g <- getG;
  let prec := if prec =? 0 then default_precision g else s_round_prec prec in
  p <- s_alloc prec;
  set_digits z p;;
  match p with
  | None => Ret MP_MEMORY
  | Some d =>
      Store d 0;; set_used z 1;; set_alloc z prec;; set_sign z MP_ZPOS;;
      Ret MP_OK
  end.

(** imath.c 410-427 *)
Definition mp_int_init_copy (z old : oid) : prog Z :=
  uold <- get_used old;
  res <- (if uold =? 1 then mp_int_init z
          else g <- getG; mp_int_init_size z (MAX uold (default_precision g)));
  if negb (res =? MP_OK) then Ret res else
  set_used z uold;;
  s <- get_sign old; set_sign z s;;
  dold <- get_digits old; dz <- get_digits z;
  COPY dold dz uold;;
  Ret MP_OK.

(** imath.c 429-443 *)
Definition mp_int_init_value (z : oid) (value : Z) : prog Z :=
  with_fake value (fun vtmp => mp_int_init_copy z vtmp).
Definition mp_int_init_uvalue (z : oid) (uvalue : Z) : prog Z :=
  with_ufake uvalue (fun vtmp => mp_int_init_copy z vtmp).

(** imath.c 461-469 *)
Definition mp_int_clear (z : oid) : prog unit :=
  m <- getO z;
  match digits m with
  | None => Ret tt
  | Some d =>
      (if ptr_eqb d (Sng z, 0) then Ret tt else s_free d);;
      set_digits z None
  end.

(** imath.c 471-476 *)
Definition mp_int_free (z : oid) : prog unit := mp_int_clear z;; FreeO z (Ret tt).

(** imath.c 137-170 ([DECLARE_TEMP] and [CLEANUP_TEMP]), one temporary at a
    time.  Several temporaries are nested uses; they are then cleared in the
    reverse of the C order, which is not observable. *)
Definition with_temp (f : oid -> prog Z) : prog Z :=
  NewO (fun t =>
    mp_int_init t;;
    r <- f t;
    mp_int_clear t;;
    DelO t (Ret r)).

(** imath.c 478-496 *)
Definition mp_int_copy (a c : oid) : prog Z :=
  if bool_decide (a = c) then Ret MP_OK else
  ua <- get_used a;
  ok <- s_pad c ua;
  if negb ok then Ret MP_MEMORY else
  da <- get_digits a; dc <- get_digits c;
  COPY da dc ua;;
  set_used c ua;;
  s <- get_sign a; set_sign c s;;
  Ret MP_OK.

(** imath.c 445-459 *)
Definition mp_int_set_value (z : oid) (value : Z) : prog Z :=
  with_fake value (fun vtmp => mp_int_copy vtmp z).
Definition mp_int_set_uvalue (z : oid) (uvalue : Z) : prog Z :=
  with_ufake uvalue (fun vtmp => mp_int_copy vtmp z).

(** imath.c 498-508 *)
Definition mp_int_swap (a c : oid) : prog unit :=
  if bool_decide (a = c) then Ret tt else
  ta <- getO a; tc <- getO c;
  Peek (Sng a, 0) (fun sa => Peek (Sng c, 0) (fun sc =>
  Poke (Sng a, 0) sc (Poke (Sng c, 0) sa (
  setO a tc;; setO c ta;;
  da <- getO a;
  (if bool_decide (digits da = Some (Sng c, 0)) then set_digits a (Some (Sng a, 0)) else Ret tt);;
  dc <- getO c;
  (if bool_decide (digits dc = Some (Sng a, 0)) then set_digits c (Some (Sng c, 0)) else Ret tt))))).

(** imath.c 518-526 *)
Definition mp_int_abs (a c : oid) : prog Z :=
  res <- mp_int_copy a c;
  if negb (res =? MP_OK) then Ret res else
  set_sign c MP_ZPOS;; Ret MP_OK.

(** imath.c 528-537 *)
Definition mp_int_neg (a c : oid) : prog Z :=
  res <- mp_int_copy a c;
  if negb (res =? MP_OK) then Ret res else
  cmp <- CMPZ c;
  (if cmp =? 0 then Ret tt else s <- get_sign a; set_sign c (1 - s));;
  Ret MP_OK.

(** imath.c 548-562 and 614-628: the branch that adds magnitudes. *)
Definition add_mags (a b c : oid) : prog Z :=
  ua <- get_used a; ub <- get_used b;
  let max := MAX ua ub in
  ok <- s_pad c max;
  if negb ok then Ret MP_MEMORY else
  da <- get_digits a; db <- get_digits b; dc <- get_digits c;
  carry <- s_uadd da db dc ua ub;
  (if carry =? 0 then
     set_used c max;; s <- get_sign a; set_sign c s;; Ret MP_OK
   else
     ok <- s_pad c (u32 (max + 1));
     if negb ok then Ret MP_MEMORY else
     dc <- get_digits c;
     Store (dc +p max) carry;;
     set_used c (u32 (max + 1));; s <- get_sign a; set_sign c s;; Ret MP_OK).

(** imath.c 539-594 *)
Definition mp_int_add (a b c : oid) : prog Z :=
  sa <- get_sign a; sb <- get_sign b;
  if sa =? sb then add_mags a b c
  else
    cmp <- s_ucmp a b;
    if cmp =? 0 then mp_int_zero c;; Ret MP_OK
    else
      let x := if cmp <? 0 then b else a in
      let y := if cmp <? 0 then a else b in
      ux <- get_used x;
      ok <- s_pad c ux;
      if negb ok then Ret MP_MEMORY else
      dx <- get_digits x; dy <- get_digits y; dc <- get_digits c;
      ux <- get_used x; uy <- get_used y;
      s_usub dx dy dc ux uy;;
      ux <- get_used x; set_used c ux;;
      CLAMP c;;
      s <- get_sign x; set_sign c s;;
      Ret MP_OK.

(** imath.c 596-603 *)
Definition mp_int_add_value (a : oid) (value : Z) (c : oid) : prog Z :=
  with_fake value (fun vtmp => mp_int_add a vtmp c).

(** imath.c 605-656 *)
Definition mp_int_sub (a b c : oid) : prog Z :=
  ua <- get_used a; ub <- get_used b;
  sa <- get_sign a; sb <- get_sign b;
  if negb (sa =? sb) then add_mags a b c
  else
    ok <- s_pad c (MAX ua ub);
    if negb ok then Ret MP_MEMORY else
    cmp <- s_ucmp a b;
    let x := if cmp >=? 0 then a else b in
    let y := if cmp >=? 0 then b else a in
    let osign := if cmp >=? 0 then MP_ZPOS else MP_NEG in
    sa <- get_sign a;
    let osign := if ((sa =? MP_NEG) && negb (cmp =? 0))%bool then 1 - osign else osign in
    dx <- get_digits x; dy <- get_digits y; dc <- get_digits c;
    ux <- get_used x; uy <- get_used y;
    s_usub dx dy dc ux uy;;
    ux <- get_used x; set_used c ux;;
    CLAMP c;;
    set_sign c osign;;
    Ret MP_OK.

(** imath.c 658-665 *)
Definition mp_int_sub_value (a : oid) (value : Z) (c : oid) : prog Z :=
  with_fake value (fun vtmp => mp_int_sub a vtmp c).

(** imath.c 1004-1014 *)
Definition mp_int_compare_zero (z : oid) : prog Z :=
  u <- get_used z;
  if u =? 1 then
    d <- get_digits z; v <- Load d;
    if v =? 0 then Ret 0
    else s <- get_sign z; Ret (if s =? MP_ZPOS then 1 else -1)
  else s <- get_sign z; Ret (if s =? MP_ZPOS then 1 else -1).

(** imath.c 692-712 (and 750-771): the output buffer of [mp_int_mul] and
    [mp_int_sqr]: a fresh one when the output is also an input. *)
Definition out_buffer (fresh : bool) (c : oid) (osize : Z) : prog (option ptr * Z) :=
  if fresh then
    g <- getG;
    let p := MAX (s_round_prec osize) (default_precision g) in
    out <- s_alloc p; Ret (out, p)
  else
    ok <- s_pad c osize;
    if negb ok then Ret (None, 0) else d <- get_digits c; Ret (Some d, 0).
(** [(void* )MP_DIGITS(c) != (void* )c]: the [single] field comes first. *)
Definition install (c : oid) (out : ptr) (p : Z) : prog unit :=
  d <- get_digits c;
  if ptr_eqb out d then Ret tt
  else
    (if ptr_eqb d (Sng c, 0) then Ret tt else s_free d);;
    set_digits c (Some out);; set_alloc c p.

(** imath.c 667-715 *)
Definition mp_int_mul (a b c : oid) : prog Z :=
  ca <- mp_int_compare_zero a;
  cb <- (if ca =? 0 then Ret 1 else mp_int_compare_zero b);
  if ((ca =? 0) || (cb =? 0))%bool then mp_int_zero c;; Ret MP_OK
  else
    sa <- get_sign a; sb <- get_sign b;
    let osign := if sa =? sb then MP_ZPOS else MP_NEG in
    ua <- get_used a; ub <- get_used b;
    let osize := u32 (4 * (u32 (MAX ua ub + 1) / 2)) in
    op <- out_buffer (bool_decide (c = a) || bool_decide (c = b)) c osize;
    match op.1 with
    | None => Ret MP_MEMORY
    | Some out =>
      ZERO out osize;;
      da <- get_digits a; db <- get_digits b;
      ok <- s_kmul da db out ua ub;
      if negb ok then Ret MP_MEMORY else
      install c out op.2;;
      set_used c osize;;
      CLAMP c;;
      set_sign c osign;;
      Ret MP_OK
    end.

(** imath.c 717-724 *)
Definition mp_int_mul_value (a : oid) (value : Z) (c : oid) : prog Z :=
  with_fake value (fun vtmp => mp_int_mul a vtmp c).

(** imath.c 726-737; [(mp_size)p2] keeps the low 32 bits. *)
Definition mp_int_mul_pow2 (a : oid) (p2 : Z) (c : oid) : prog Z :=
  assert (0 <=? p2);;
  res <- mp_int_copy a c;
  if negb (res =? MP_OK) then Ret res else
  ok <- s_qmul c (u32 p2);
  Ret (if ok : bool then MP_OK else MP_MEMORY).

(** imath.c 739-774; the result of [s_ksqr] is ignored (758). *)
Definition mp_int_sqr (a c : oid) : prog Z :=
  ua <- get_used a;
  let osize := u32 (4 * (u32 (ua + 1) / 2)) in
  op <- out_buffer (bool_decide (a = c)) c osize;
  match op.1 with
  | None => Ret MP_MEMORY
  | Some out =>
    ZERO out osize;;
    da <- get_digits a;
    s_ksqr da out ua;;
    install c out op.2;;
    set_used c osize;;
    CLAMP c;;
    set_sign c MP_ZPOS;;
    Ret MP_OK
  end.

(** ** Division *)

(** imath.c 2611-2615 and its repetitions: t = qhat * v. *)
Definition knuth_mul (v t : oid) (qhat n : Z) : prog unit :=
  dv <- get_digits v; dt <- get_digits t;
  s_dbmul dv (u32 qhat) dt (n + 1);;
  set_used t (n + 1);;
  CLAMP t.

(** imath.c 2573-2655: one round of the loop. *)
Definition knuth_step (v q t r : oid) (n : Z) (j : Z) : prog unit :=
  dr <- get_digits r; dv <- get_digits v;
  hi <- Load (dr +p n); lo <- Load (dr +p (n - 1));
  let pfx := Z.lor (w64 (Z.shiftl hi 32)) lo in
  vt <- Load (dv +p (n - 1));
  if vt =? 0 then Undef else
  let qhat := pfx / vt in
  let qhat := if qhat >? DIGIT_MAX then DIGIT_MAX else qhat in
  knuth_mul v t qhat n;;
  CLAMP r;;
  c1 <- s_ucmp t r;
  qhat <- (if c1 >? 0 then
             let qhat := w64 (qhat - 1) in
             knuth_mul v t qhat n;;
             c2 <- s_ucmp t r;
             qhat <- (if c2 >? 0 then
                        assert (0 <? qhat);;
                        let qhat := w64 (qhat - 1) in
                        knuth_mul v t qhat n;; Ret qhat
                      else Ret qhat);
             c3 <- s_ucmp t r;
             assert (c3 <=? 0);;
             Ret qhat
           else Ret qhat);
  set_used r (n + 1);;
  dr <- get_digits r; dt <- get_digits t; ut <- get_used t;
  s_usub dr dt dr (n + 1) ut;;
  dq <- get_digits q;
  Store (dq +p j) (u32 qhat);;
  set_digits r (Some (dr +p (-1)));;
  dt <- get_digits t; at' <- get_alloc t;
  ZERO dt at'.
(** [cnt] rounds are left; the index j is [cnt - 1]. *)
Fixpoint knuth_loop (cnt : nat) (v q t r : oid) (n : Z) : prog unit :=
  match cnt with
  | O => Ret tt
  | S c' => knuth_step v q t r n (Z.of_nat c');; knuth_loop c' v q t r n
  end.

(** imath.c 2502-2673.  The pointer [r.digits] ends one digit before the array
    of [u]; it is not dereferenced there. *)
Definition s_udiv_knuth (u v : oid) : prog Z :=
  set_sign u MP_ZPOS;; set_sign v MP_ZPOS;;
  uv <- get_used v;
  if uv =? 1 then
    dv <- get_digits v; d <- Load dv;
    rem <- s_ddiv u d;
    mp_int_set_value v rem;;
    Ret MP_OK
  else
    let n := uv in
    uu <- get_used u;
    let m := u32 (uu - n) in
    assert (1 <? n);;
    k <- s_norm u v;
    uu <- get_used u;
    REQUIRE (if ((k =? 0) || negb (uu =? u32 (m + n + 1)))%bool then
               ok <- s_pad u (u32 (m + n + 1));
               if negb ok then Ret MP_MEMORY else
               du <- get_digits u;
               Store (du +p (m + n)) 0;; set_used u (u32 (m + n + 1));; Ret MP_OK
             else Ret MP_OK);;
    ok <- s_pad v (u32 (n + 1));
    if negb ok then Ret MP_MEMORY else
    dv <- get_digits v;
    Store (dv +p n) 0;;
    with_temp (fun q => with_temp (fun t =>
      REQUIRE GROW q (u32 (m + 1));;
      REQUIRE GROW t (u32 (n + 1));;
      NewO (fun r =>
      du <- get_digits u; au <- get_alloc u;
      set_digits r (Some (du +p m));; set_used r (n + 1);;
      set_sign r MP_ZPOS;; set_alloc r au;;
      dt <- get_digits t; at' <- get_alloc t;
      ZERO dt at';;
      knuth_loop (Z.to_nat (m + 1)) v q t r n;;
      set_used q (u32 (m + 1));;
      CLAMP q;;
      CLAMP u;;
      (if k =? 0 then Ret tt else s_qdiv u k);;
      mp_int_copy u v;;
      mp_int_copy q u;;
      DelO r (Ret MP_OK)))).

(** Optional-handle helpers for the [if (q) ...] idiom. *)
Definition when {A} (q : option A) (f : A -> prog Z) : prog Z :=
  match q with Some q => f q | None => Ret MP_OK end.
Definition whenu {A} (q : option A) (f : A -> prog unit) : prog unit :=
  match q with Some q => f q | None => Ret tt end.

(** imath.c 844-848, 849-852: setting the sign of an output of [mp_int_div]. *)
Definition resign (z : oid) (s : Z) : prog unit :=
  set_sign z s;;
  c <- CMPZ z;
  if c =? 0 then set_sign z MP_ZPOS else Ret tt.

(** imath.c 776-859 *)
Definition mp_int_div (a b : oid) (q r : option oid) : prog Z :=
  assert (negb (bool_decide (q = r)));;
  sa <- get_sign a; sb <- get_sign b;
  cb <- CMPZ b;
  if cb =? 0 then Ret MP_UNDEF else
  cmp <- s_ucmp a b;
  if cmp <? 0 then
    res <- when r (fun r => mp_int_copy a r);
    if negb (res =? MP_OK) then Ret res else
    whenu q mp_int_zero;; Ret MP_OK
  else if cmp =? 0 then
    whenu r mp_int_zero;;
    whenu q (fun q =>
      mp_int_zero q;;
      d <- get_digits q; Store d 1;;
      if sa =? sb then Ret tt else set_sign q MP_NEG);;
    Ret MP_OK
  else
  with_temp (fun t0 => with_temp (fun t1 =>
    lg <- s_isp2 b;
    if lg <? 0 then
      let qout := match q with
                  | Some q => if bool_decide (b = q) then t0 else q
                  | None => t0
                  end in
      REQUIRE mp_int_copy a qout;;
      let rout := match r with
                  | Some r => if bool_decide (a = r) then t1 else r
                  | None => t1
                  end in
      REQUIRE mp_int_copy b rout;;
      REQUIRE s_udiv_knuth qout rout;;
      resign rout sa;;
      resign qout (if sa =? sb then MP_ZPOS else MP_NEG);;
      REQUIRE when q (fun q => mp_int_copy qout q);;
      REQUIRE when r (fun r => mp_int_copy rout r);;
      Ret MP_OK
    else
      REQUIRE when q (fun q => mp_int_copy a q);;
      REQUIRE when r (fun r => mp_int_copy a r);;
      whenu q (fun q => s_qdiv q (u32 lg));;
      whenu r (fun r => s_qmod r (u32 lg));;
      whenu r (fun r => resign r sa);;
      whenu q (fun q => resign q (if sa =? sb then MP_ZPOS else MP_NEG));;
      REQUIRE when q (fun q => mp_int_copy q q);;
      REQUIRE when r (fun r => mp_int_copy r r);;
      Ret MP_OK)).

(** imath.c 861-872 *)
Definition mp_int_mod (a m c : oid) : prog Z :=
  with_temp (fun t0 =>
    let out := if bool_decide (m = c) then t0 else c in
    REQUIRE mp_int_div a m None (Some out);;
    s <- CMPZ out;
    if s <? 0 then REQUIRE mp_int_add out m c;; Ret MP_OK
    else REQUIRE mp_int_copy out c;; Ret MP_OK).

(** ** Comparison *)

(** imath.c 977-996 *)
Definition mp_int_compare (a b : oid) : prog Z :=
  sa <- get_sign a; sb <- get_sign b;
  if sa =? sb then
    cmp <- s_ucmp a b;
    Ret (if sa =? MP_ZPOS then cmp else - cmp)
  else Ret (if sa =? MP_ZPOS then 1 else -1).
(** imath.c 998-1002 *)
Definition mp_int_compare_unsigned (a b : oid) : prog Z := s_ucmp a b.
(** imath.c 1016-1027 *)
Definition mp_int_compare_value (z : oid) (value : Z) : prog Z :=
  let vsign := if value <? 0 then MP_NEG else MP_ZPOS in
  sz <- get_sign z;
  if vsign =? sz then
    cmp <- s_vcmp z value;
    Ret (if vsign =? MP_ZPOS then cmp else - cmp)
  else Ret (if value <? 0 then 1 else -1).
(** imath.c 1029-1037 *)
Definition mp_int_compare_uvalue (z : oid) (uv : Z) : prog Z :=
  sz <- get_sign z;
  if sz =? MP_NEG then Ret (-1) else s_uvcmp z uv.

(** ** Small integers *)

(** imath.c 1406-1412 for [mp_small uv]: the left shifts are on a signed
    [long] and are undefined when the value does not fit; the disjunction is
    computed in [long]. *)
Definition shl16_signed (v : Z) : option Z :=
  let w := v * 2 ^ 16 in
  if ((v <? 0) || (w >? SMALL_MAX))%bool then None else Some w.
Fixpoint to_int_loop (n : nat) (dz : ptr) (uv : Z) : prog Z :=
  match n with
  | O => Ret uv
  | S n' =>
      match shl16_signed uv with
      | None => Undef
      | Some uv =>
        match shl16_signed uv with
        | None => Undef
        | Some uv =>
            d <- Load dz;
            to_int_loop n' (dz +p (-1)) (Z.lor uv d)
        end
      end
  end.
(** imath.c 1395-1417.  [out] is reported as part of the result. *)
Definition mp_int_to_int (z : oid) : prog (Z * option Z) :=
  sz <- get_sign z;
  c1 <- (if sz =? MP_ZPOS then c <- mp_int_compare_value z SMALL_MAX; Ret (c >? 0)
         else Ret false);
  c2 <- (if c1 : bool then Ret true
         else c <- mp_int_compare_value z SMALL_MIN; Ret (c <? 0));
  if c2 : bool then Ret (MP_RANGE, None) else
  uz <- get_used z; dz <- get_digits z;
  uv <- to_int_loop (Z.to_nat uz) (dz +p (uz - 1)) 0;
  Ret (MP_OK, Some (if sz =? MP_NEG then - uv else uv)).

(** imath.c 1419-1441 *)
Fixpoint to_uint_loop (n : nat) (dz : ptr) (uv : Z) : prog Z :=
  match n with
  | O => Ret uv
  | S n' =>
      d <- Load dz;
      to_uint_loop n' (dz +p (-1))
        (Z.lor (w64 (Z.shiftl (w64 (Z.shiftl uv 16)) 16)) d)
  end.
Definition mp_int_to_uint (z : oid) : prog (Z * option Z) :=
  sz <- get_sign z;
  c <- (if sz =? MP_NEG then Ret true
        else c <- mp_int_compare_uvalue z USMALL_MAX; Ret (c >? 0));
  if c : bool then Ret (MP_RANGE, None) else
  uz <- get_used z; dz <- get_digits z;
  uv <- to_uint_loop (Z.to_nat uz) (dz +p (uz - 1)) 0;
  Ret (MP_OK, Some uv).

(** imath.c 874-886; returns the result code and the value stored in [*r]. *)
Definition mp_int_div_value (a : oid) (value : Z) (q : option oid) : prog (Z * option Z) :=
  with_fake value (fun vtmp =>
    NewO (fun t0 =>
      mp_int_init t0;;
      res <- mp_int_div a vtmp q (Some t0);
      rr <- (if res =? MP_OK then x <- mp_int_to_int t0; Ret x.2 else Ret None);
      mp_int_clear t0;;
      DelO t0 (Ret (res, rr)))).

(** imath.c 888-901 *)
Definition mp_int_div_pow2 (a : oid) (p2 : Z) (q r : option oid) : prog Z :=
  assert ((0 <=? p2) && negb (bool_decide (q = r)));;
  res <- when q (fun q =>
           res <- mp_int_copy a q;
           if res =? MP_OK then s_qdiv q (u32 p2);; Ret MP_OK else Ret res);
  if negb (res =? MP_OK) then Ret res else
  when r (fun r =>
    res <- mp_int_copy a r;
    if res =? MP_OK then s_qmod r (u32 p2);; Ret MP_OK else Ret res).

(** ** Powers *)

(** imath.c 912-922 (and 936-946): the loop over the bits of the exponent;
    [v] is an [unsigned int]. *)
Fixpoint expt_loop (fuel : nat) (v : Z) (t c : oid) : prog Z :=
  if v =? 0 then Ret MP_OK else
  match fuel with
  | O => NoFuel
  | S f =>
      REQUIRE (if Z.odd v then mp_int_mul c t c else Ret MP_OK);;
      let v := Z.shiftr v 1 in
      if v =? 0 then Ret MP_OK
      else REQUIRE mp_int_sqr t t;; expt_loop f v t c
  end.
(** imath.c 903-925; [unsigned int v = labs(b)] keeps the low 32 bits. *)
Definition mp_int_expt (a : oid) (b : Z) (c : oid) : prog Z :=
  if b <? 0 then Ret MP_RANGE else
  with_temp (fun t =>
    REQUIRE mp_int_copy a t;;
    mp_int_set_value c 1;;
    expt_loop 32 (u32 (Z.abs b)) t c).
(** imath.c 927-949 *)
Definition mp_int_expt_value (a b : Z) (c : oid) : prog Z :=
  if b <? 0 then Ret MP_RANGE else
  with_temp (fun t =>
    REQUIRE mp_int_set_value t a;;
    mp_int_set_value c 1;;
    expt_loop 32 (u32 (Z.abs b)) t c).

(** imath.c 962-970: bits of one digit, [n] left; [last] is
    [ix + 1 == MP_USED(b)].  [b] is re-read each time (it may be [c]). *)
Fixpoint expt_bits (n : nat) (d : Z) (ix : Z) (b t c : oid) : prog Z :=
  match n with
  | O => Ret MP_OK
  | S n' =>
      REQUIRE (if Z.odd d then mp_int_mul c t c else Ret MP_OK);;
      let d := Z.shiftr d 1 in
      ub <- get_used b;
      if ((d =? 0) && (ix + 1 =? ub))%bool then Ret MP_OK
      else REQUIRE mp_int_sqr t t;; expt_bits n' d ix b t c
  end.
(** imath.c 959-971; [fuel] bounds the number of digits. *)
Fixpoint expt_digits (fuel : nat) (ix : Z) (b t c : oid) : prog Z :=
  ub <- get_used b;
  if ix <? ub then
    match fuel with
    | O => NoFuel
    | S f =>
      db <- get_digits b;
      d <- Load (db +p ix);
      REQUIRE expt_bits 32 d ix b t c;;
      expt_digits f (ix + 1) b t c
    end
  else Ret MP_OK.
(** imath.c 951-975 *)
Definition mp_int_expt_full (a b c : oid) : prog Z :=
  sb <- get_sign b;
  if sb =? MP_NEG then Ret MP_RANGE else
  ub <- get_used b;
  with_temp (fun t =>
    REQUIRE mp_int_copy a t;;
    mp_int_set_value c 1;;
    expt_digits (Z.to_nat ub) 0 b t c).

(** ** Modular exponentiation *)

(** imath.c 2364-2371 *)
Definition s_brmu (z m : oid) : prog Z :=
  um <- get_used m;
  let um := u32 (um * 2) in
  ok <- s_pad z um;
  if negb ok then Ret MP_MEMORY else
  s_2expt z (32 * um);;
  mp_int_div z m (Some z) None.

(** imath.c 2373-2412 *)
Definition s_reduce (x m mu q1 q2 : oid) : prog bool :=
  um <- get_used m;
  let umb_p1 := u32 (u32 (um + 1) * 32) in
  let umb_m1 := u32 ((um - 1) * 32) in
  res <- mp_int_copy x q1;
  if negb (res =? MP_OK) then Ret false else
  s_qdiv q1 umb_m1;;
  UMUL q1 mu q2;;
  s_qdiv q2 umb_p1;;
  s_qmod x umb_p1;;
  UMUL q2 m q1;;
  s_qmod q1 umb_p1;;
  mp_int_sub x q1 x;;
  c <- CMPZ x;
  ok <- (if c <? 0 then s_qsub x umb_p1 else Ret true);
  if negb ok then Ret false else
  c <- mp_int_compare x m;
  (if c >=? 0 then
     mp_int_sub x m x;;
     c <- mp_int_compare x m;
     if c >=? 0 then mp_int_sub x m x;; Ret tt else Ret tt
   else Ret tt);;
  Ret true.

(** imath.c 2444-2450 and 2468-2472: c = c * a mod m *)
Definition embar_mul (a m mu c t0 t1 t2 : oid) : prog Z :=
  UMUL c a t0;;
  ok <- s_reduce t0 m mu t1 t2;
  if negb ok then Ret MP_MEMORY else
  mp_int_copy t0 c;; Ret MP_OK.
(** imath.c 2442-2459: one full digit; [n] bits left. *)
Fixpoint embar_bits (n : nat) (d : Z) (a m mu c t0 t1 t2 : oid) : prog Z :=
  match n with
  | O => Ret MP_OK
  | S n' =>
      REQUIRE (if Z.odd d then embar_mul a m mu c t0 t1 t2 else Ret MP_OK);;
      USQR a t0;;
      s <- get_sign t0; assert (s =? MP_ZPOS);;
      ok <- s_reduce t0 m mu t1 t2;
      if negb ok then Ret MP_MEMORY else
      s <- get_sign t0; assert (s =? MP_ZPOS);;
      mp_int_copy t0 a;;
      embar_bits n' (Z.shiftr d 1) a m mu c t0 t1 t2
  end.
(** imath.c 2439-2462 *)
Fixpoint embar_digits (n : nat) (db : ptr) (a m mu c t0 t1 t2 : oid) : prog Z :=
  match n with
  | O => Ret MP_OK
  | S n' =>
      d <- Load db;
      REQUIRE embar_bits 32 d a m mu c t0 t1 t2;;
      embar_digits n' (db +p 1) a m mu c t0 t1 t2
  end.
(** imath.c 2466-2481: the top digit *)
Fixpoint embar_top (fuel : nat) (d : Z) (a m mu c t0 t1 t2 : oid) : prog Z :=
  match fuel with
  | O => NoFuel
  | S f =>
      REQUIRE (if Z.odd d then embar_mul a m mu c t0 t1 t2 else Ret MP_OK);;
      let d := Z.shiftr d 1 in
      if d =? 0 then Ret MP_OK
      else
        USQR a t0;;
        ok <- s_reduce t0 m mu t1 t2;
        if negb ok then Ret MP_MEMORY else
        mp_int_copy t0 a;;
        embar_top f d a m mu c t0 t1 t2
  end.
Definition zero_all (t : oid) : prog unit :=
  d <- get_digits t; n <- get_alloc t; ZERO d n.
(** imath.c 2416-2480 *)
Definition s_embar (a b m mu c : oid) : prog Z :=
  umu <- get_used mu;
  db <- get_digits b; ub <- get_used b;
  with_temp (fun t0 => with_temp (fun t1 => with_temp (fun t2 =>
    REQUIRE GROW t0 (u32 (4 * umu));;
    REQUIRE GROW t1 (u32 (4 * umu));;
    REQUIRE GROW t2 (u32 (4 * umu));;
    zero_all t0;; zero_all t1;; zero_all t2;;
    mp_int_set_value c 1;;
    REQUIRE embar_digits (Z.to_nat (ub - 1)) db a m mu c t0 t1 t2;;
    d <- Load (db +p (ub - 1));
    embar_top 33 d a m mu c t0 t1 t2))).

(** imath.c 1039-1066 *)
Definition mp_int_exptmod (a b m c : oid) : prog Z :=
  cm <- CMPZ m;
  if cm =? 0 then Ret MP_UNDEF else
  cb <- CMPZ b;
  if cb <? 0 then Ret MP_RANGE else
  um <- get_used m;
  with_temp (fun t0 => with_temp (fun t1 => with_temp (fun t2 =>
    REQUIRE GROW t0 (u32 (2 * um));;
    REQUIRE GROW t1 (u32 (2 * um));;
    let al := (bool_decide (c = b) || bool_decide (c = m))%bool in
    REQUIRE (if al then GROW t2 (u32 (2 * um)) else Ret MP_OK);;
    let s := if al then t2 else c in
    REQUIRE mp_int_mod a m t0;;
    REQUIRE s_brmu t1 m;;
    REQUIRE s_embar t0 b m t1 s;;
    REQUIRE mp_int_copy s c;;
    Ret MP_OK))).

(** imath.c 1068-1084 *)
Definition mp_int_exptmod_evalue (a : oid) (value : Z) (m c : oid) : prog Z :=
  with_fake value (fun vtmp => mp_int_exptmod a vtmp m c).
Definition mp_int_exptmod_bvalue (value : Z) (b m c : oid) : prog Z :=
  with_fake value (fun vtmp => mp_int_exptmod vtmp b m c).

(** imath.c 1086-1112 *)
Definition mp_int_exptmod_known (a b m mu c : oid) : prog Z :=
  cm <- CMPZ m;
  if cm =? 0 then Ret MP_UNDEF else
  cb <- CMPZ b;
  if cb <? 0 then Ret MP_RANGE else
  um <- get_used m;
  with_temp (fun t0 => with_temp (fun t1 =>
    REQUIRE GROW t0 (u32 (2 * um));;
    let al := (bool_decide (c = b) || bool_decide (c = m))%bool in
    REQUIRE (if al then GROW t1 (u32 (2 * um)) else Ret MP_OK);;
    let s := if al then t1 else c in
    REQUIRE mp_int_mod a m t0;;
    REQUIRE s_embar t0 b m mu s;;
    REQUIRE mp_int_copy s c;;
    Ret MP_OK)).

(** imath.c 1114-1118 *)
Definition mp_int_redux_const (m c : oid) : prog Z :=
  assert (negb (bool_decide (m = c)));; s_brmu c m.

(** ** Greatest common divisors *)

(** imath.h 117, 120 *)
Definition mp_int_is_odd (z : oid) : prog bool :=
  d <- get_digits z; v <- Load d; Ret (Z.odd v).
Definition mp_int_is_even (z : oid) : prog bool :=
  d <- get_digits z; v <- Load d; Ret (negb (Z.odd v)).

(** imath.c 1185-1197: the loop of the binary GCD. *)
Definition gcd_body (t0 t1 t2 : oid) (_ : unit) : prog (unit + Z) :=
  k <- s_dp2k t2;
  s_qdiv t2 (u32 k);;
  c <- CMPZ t2;
  REQUIREL (if c >? 0 then mp_int_copy t2 t0 else mp_int_neg t2 t1);;
  REQUIREL mp_int_sub t0 t1 t2;;
  c <- CMPZ t2;
  if c =? 0 then Ret (inr MP_OK) else Ret (inl tt).

(** imath.c 1152-1207.  The loop is bounded by 2^(32(ua+ub)) rounds. *)
Definition mp_int_gcd (a b c : oid) : prog Z :=
  ca <- CMPZ a; cb <- CMPZ b;
  if ((ca =? 0) && (cb =? 0))%bool then Ret MP_UNDEF
  else if ca =? 0 then mp_int_abs b c
  else if cb =? 0 then mp_int_abs a c
  else
  ua <- get_used a; ub <- get_used b;
  with_temp (fun t0 => with_temp (fun t1 => with_temp (fun t2 =>
    REQUIRE mp_int_copy a t0;;
    REQUIRE mp_int_copy b t1;;
    set_sign t0 MP_ZPOS;; set_sign t1 MP_ZPOS;;
    div2_u <- s_dp2k t0; div2_v <- s_dp2k t1;
    let k := MIN div2_u div2_v in
    s_qdiv t0 (u32 k);; s_qdiv t1 (u32 k);;
    odd <- mp_int_is_odd t0;
    REQUIRE (if odd : bool then mp_int_neg t1 t2 else mp_int_copy t0 t2);;
    REQUIRE loop (Z.to_nat (32 * (ua + ub))) (gcd_body t0 t1 t2) tt;;
    REQUIRE mp_int_abs t0 c;;
    ok <- s_qmul c (u32 k);
    Ret (if ok : bool then MP_OK else MP_MEMORY)))).

(** imath.c 1252-1262 and 1264-1274: halving u (or v) and its coefficients. *)
Definition egcd_half (u p q ou ov : oid) (_ : unit) : prog (unit + Z) :=
  even <- mp_int_is_even u;
  if negb even then Ret (inr MP_OK) else
  s_qdiv u 1;;
  op <- mp_int_is_odd p;
  odd <- (if op : bool then Ret true else mp_int_is_odd q);
  REQUIREL (if odd : bool then
              REQUIRE mp_int_add p ov p;; REQUIRE mp_int_sub q ou q;; Ret MP_OK
            else Ret MP_OK);;
  s_qdiv p 1;; s_qdiv q 1;;
  Ret (inl tt).

(** imath.c 1251-1304: one round of the outer loop. *)
Definition egcd_body (fuel : nat) (A B C D u v ou ov : oid) (k : Z) (c : oid)
    (x y : option oid) (_ : unit) : prog (unit + Z) :=
  REQUIREL loop fuel (egcd_half u A B ou ov) tt;;
  REQUIREL loop fuel (egcd_half v C D ou ov) tt;;
  cmp <- mp_int_compare u v;
  REQUIREL (if cmp >=? 0 then
              REQUIRE mp_int_sub u v u;; REQUIRE mp_int_sub A C A;;
              REQUIRE mp_int_sub B D B;; Ret MP_OK
            else
              REQUIRE mp_int_sub v u v;; REQUIRE mp_int_sub C A C;;
              REQUIRE mp_int_sub D B D;; Ret MP_OK);;
  cu <- CMPZ u;
  if cu =? 0 then
    REQUIREL when x (fun x => mp_int_copy C x);;
    REQUIREL when y (fun y => mp_int_copy D y);;
    ok <- s_qmul v (u32 k);
    if negb ok then Ret (inr MP_MEMORY) else
    REQUIREL mp_int_copy v c;;
    Ret (inr MP_OK)
  else Ret (inl tt).

(** A NULL handle passed to a function that asserts it is not NULL. *)
Definition null_asserts {A} : prog A := Assert ALogic false Undef.

(** imath.c 1213-1308 *)
Definition mp_int_egcd (a b c : oid) (x y : option oid) : prog Z :=
  assert (bool_decide (is_Some x) || bool_decide (is_Some y));;
  ca <- CMPZ a; cb <- CMPZ b;
  if ((ca =? 0) && (cb =? 0))%bool then Ret MP_UNDEF
  else if ca =? 0 then
    res <- mp_int_abs b c;
    if negb (res =? MP_OK) then Ret res else
    (match x with Some x => mp_int_zero x | None => null_asserts end);;
    (match y with Some y => mp_int_set_value y 1 | None => null_asserts end);;
    Ret MP_OK
  else if cb =? 0 then
    res <- mp_int_abs a c;
    if negb (res =? MP_OK) then Ret res else
    (match x with Some x => mp_int_set_value x 1 | None => null_asserts end);;
    (match y with Some y => mp_int_zero y | None => null_asserts end);;
    Ret MP_OK
  else
  ua <- get_used a; ub <- get_used b;
  let fuel := Z.to_nat (32 * (ua + ub)) in
  with_temp (fun A => with_temp (fun B => with_temp (fun C => with_temp (fun D =>
  with_temp (fun u => with_temp (fun v => with_temp (fun ou => with_temp (fun ov =>
    REQUIRE mp_int_set_value A 1;;
    REQUIRE mp_int_set_value D 1;;
    REQUIRE mp_int_copy a u;;
    REQUIRE mp_int_copy b v;;
    set_sign u MP_ZPOS;; set_sign v MP_ZPOS;;
    div2_u <- s_dp2k u; div2_v <- s_dp2k v;
    let k := MIN div2_u div2_v in
    s_qdiv u (u32 k);; s_qdiv v (u32 k);;
    REQUIRE mp_int_copy u ou;;
    REQUIRE mp_int_copy v ov;;
    loop fuel (egcd_body fuel A B C D u v ou ov k c x y) tt)))))))).

(** imath.c 1120-1149 *)
Definition mp_int_invmod (a m c : oid) : prog Z :=
  ca <- CMPZ a;
  if ca =? 0 then Ret MP_RANGE else
  cm <- CMPZ m;
  if cm <=? 0 then Ret MP_RANGE else
  with_temp (fun t0 => with_temp (fun t1 =>
    REQUIRE mp_int_egcd a m t0 (Some t1) None;;
    c1 <- mp_int_compare_value t0 1;
    if negb (c1 =? 0) then Ret MP_UNDEF else
    REQUIRE mp_int_mod t1 m t1;;
    sa <- get_sign a;
    REQUIRE (if sa =? MP_NEG then mp_int_sub m t1 c else mp_int_copy t1 c);;
    Ret MP_OK)).

(** imath.c 1310-1327 *)
Definition mp_int_lcm (a b c : oid) : prog Z :=
  with_temp (fun t0 =>
    REQUIRE mp_int_gcd a b t0;;
    REQUIRE mp_int_div a t0 (Some t0) None;;
    REQUIRE mp_int_mul t0 b t0;;
    REQUIRE mp_int_copy t0 c;;
    Ret MP_OK).

(** imath.c 1329-1336 *)
Definition mp_int_divisible_value (a : oid) (v : Z) : prog bool :=
  x <- mp_int_div_value a v None;
  if negb (x.1 =? MP_OK) then Ret false
  else Ret (match x.2 with Some r => r =? 0 | None => true end).

(** imath.c 1338-1342 *)
Definition mp_int_is_pow2 (z : oid) : prog Z := s_isp2 z.

(** ** Roots *)

(** imath.c 1367-1385: one Newton step. *)
Definition root_body (b : Z) (t0 t1 t2 t3 t4 : oid) (_ : unit) : prog (unit + Z) :=
  REQUIREL mp_int_expt t1 b t2;;
  c <- mp_int_compare_unsigned t2 t0;
  if c <=? 0 then Ret (inr MP_OK) else
  REQUIREL mp_int_sub t2 t0 t2;;
  REQUIREL mp_int_expt t1 (b - 1) t3;;
  REQUIREL mp_int_mul_value t3 b t3;;
  REQUIREL mp_int_div t2 t3 (Some t4) None;;
  REQUIREL mp_int_sub t1 t4 t4;;
  c <- mp_int_compare_unsigned t1 t4;
  REQUIREL (if c =? 0 then mp_int_sub_value t4 1 t4 else Ret MP_OK);;
  REQUIREL mp_int_copy t4 t1;;
  Ret (inl tt).

(** imath.c 1348-1393.  The loop is bounded by 2^(32 ua) rounds. *)
Definition mp_int_root (a : oid) (b : Z) (c : oid) : prog Z :=
  assert (0 <? b);;
  if b =? 1 then mp_int_copy a c else
  sa <- get_sign a;
  if ((sa =? MP_NEG) && (b mod 2 =? 0))%bool then Ret MP_UNDEF else
  let flips := sa =? MP_NEG in
  ua <- get_used a;
  with_temp (fun t0 => with_temp (fun t1 => with_temp (fun t2 =>
  with_temp (fun t3 => with_temp (fun t4 =>
    REQUIRE mp_int_copy a t0;;
    REQUIRE mp_int_copy a t1;;
    set_sign t0 MP_ZPOS;; set_sign t1 MP_ZPOS;;
    REQUIRE loop (Z.to_nat (32 * ua)) (root_body b t0 t1 t2 t3 t4) tt;;
    REQUIRE mp_int_copy t1 c;;
    (if flips then mp_int_neg c c;; Ret tt else Ret tt);;
    Ret MP_OK))))).

(** ** Text *)

(** imath.c 2691-2708 in the "C" locale; [c] is an unsigned character code. *)
Definition isdigit (c : Z) : bool := ((48 <=? c) && (c <=? 57))%bool.
Definition isupper (c : Z) : bool := ((65 <=? c) && (c <=? 90))%bool.
Definition islower (c : Z) : bool := ((97 <=? c) && (c <=? 122))%bool.
Definition isalpha (c : Z) : bool := (isupper c || islower c)%bool.
Definition toupper (c : Z) : Z := if islower c then c - 32 else c.
Definition isspace (c : Z) : bool := ((c =? 32) || ((9 <=? c) && (c <=? 13)))%bool.
Definition s_ch2val (c r : Z) : Z :=
  if isdigit c then let out := c - 48 in if out >=? r then -1 else out
  else if ((r >? 10) && isalpha c)%bool then
    let out := toupper c - 65 + 10 in if out >=? r then -1 else out
  else -1.

(** imath.c 2710-2724 *)
Definition s_val2ch (v : Z) (caps : bool) : Z :=
  if v <? 10 then v + 48
  else let out := v - 10 + 97 in if caps then toupper out else out.

(** imath.c 1464-1472: digits in reverse order; [n] is [limit].  Returns the
    write pointer and the last value of [cmp]. *)
Fixpoint to_string_loop (n : nat) (tmp : oid) (radix : Z) (str : ptr) (cmp : Z)
  : prog (ptr * Z) :=
  match n with
  | O => Ret (str, cmp)
  | S n' =>
      cmp <- CMPZ tmp;
      if cmp =? 0 then Ret (str, cmp)
      else
        d <- s_ddiv tmp radix;
        Store str (s_val2ch d true);;
        to_string_loop n' tmp radix (str +p 1) cmp
  end.
(** imath.c 1476-1480 (and [REV], imath.c 102-110): reversing the elements
    from [h] to [t]; [n] is an upper bound on the number of exchanges. *)
Fixpoint rev_loop (n : nat) (h t : ptr) : prog unit :=
  if h.2 <? t.2 then
    match n with
    | O => NoFuel
    | S n' =>
        tc <- Load h; td <- Load t;
        Store h td;; Store t tc;;
        rev_loop n' (h +p 1) (t +p (-1))
    end
  else Ret tt.
(** imath.c 1443-1490 *)
Definition mp_int_to_string (z : oid) (radix : Z) (str : ptr) (limit : Z) : prog Z :=
  assert (2 <=? limit);;
  assert ((2 <=? radix) && (radix <=? 36));;
  cz <- CMPZ z;
  if cz =? 0 then
    Store str (s_val2ch 0 true);;
    Store (str +p 1) 0;;
    Ret MP_OK
  else
    NewO (fun tmp =>
      res <- mp_int_init_copy tmp z;
      if negb (res =? MP_OK) then DelO tmp (Ret res) else
      sz <- get_sign z;
      sl <- (if sz =? MP_NEG then Store str 45;; Ret (str +p 1, limit - 1)
             else Ret (str, limit));
      let h := fst sl in
      sc <- to_string_loop (Z.to_nat (snd sl)) tmp radix h 0;
      let e := fst sc in
      rev_loop (Z.to_nat (e.2 - h.2)) h (e +p (-1));;
      mp_int_clear tmp;;
      Store e 0;;
      DelO tmp (Ret (if snd sc =? 0 then MP_OK else MP_TRUNC))).

(** imath.c 1562-1578 *)
Fixpoint count_loop (fuel : nat) (d nbits : Z) : prog Z :=
  if d =? 0 then Ret nbits else
  match fuel with
  | O => NoFuel
  | S f => count_loop f (Z.shiftr d 1) (nbits + 1)
  end.
Definition mp_int_count_bits (z : oid) : prog Z :=
  uz <- get_used z; dz <- get_digits z;
  zero <- (if uz =? 1 then v <- Load dz; Ret (v =? 0) else Ret false);
  if zero : bool then Ret 1 else
  d <- Load (dz +p (uz - 1));
  count_loop 32 d (u32 ((uz - 1) * 32)).

(** imath.c 2675-2682 *)
Definition s_outlen (z : oid) (r : Z) : prog Z :=
  assert ((2 <=? r) && (r <=? 36));;
  bits <- mp_int_count_bits z;
  Ret (outlen bits r).
(** imath.c 1492-1502 *)
Definition mp_int_string_len (z : oid) (radix : Z) : prog Z :=
  assert ((2 <=? radix) && (radix <=? 36));;
  len <- s_outlen z radix;
  s <- get_sign z;
  Ret (if s =? MP_NEG then len + 1 + 1 else len + 1).

(** Strings read by the library are lists of character codes, without the
    terminator.  [skip_while] is the [while (...) ++str] idiom. *)
Fixpoint skip_while (f : Z -> bool) (s : list Z) : list Z :=
  match s with
  | c :: s' => if f c then skip_while f s' else s
  | [] => []
  end.
(** imath.c 1537-1541: returns the unread rest. *)
Fixpoint read_loop (z : oid) (radix : Z) (s : list Z) : prog (list Z) :=
  match s with
  | [] => Ret []
  | c :: s' =>
      let ch := s_ch2val c radix in
      if ch >=? 0 then
        s_dmul z radix;;
        s_dadd z ch;;
        read_loop z radix s'
      else Ret s
  end.
(** imath.c 1509-1560.  The result is the code and the rest of the string that
    [*end] points at.  (At the terminator, [s_ch2val] is -1.) *)
Definition mp_int_read_cstring (z : oid) (radix : Z) (s : list Z) : prog (Z * list Z) :=
  assert ((2 <=? radix) && (radix <=? 36));;
  let s := skip_while isspace s in
  s <- (match s with
        | 45 :: s' => set_sign z MP_NEG;; Ret s'
        | 43 :: s' => set_sign z MP_ZPOS;; Ret s'
        | _ => set_sign z MP_ZPOS;; Ret s
        end);
  let s := skip_while (fun c => s_ch2val c radix =? 0) s in
  ok <- s_pad z (s_inlen (Z.of_nat (length s)) radix);
  if negb ok then Ret (MP_MEMORY, s) else
  set_used z 1;;
  dz <- get_digits z; Store dz 0;;
  s <- read_loop z radix s;
  CLAMP z;;
  c <- CMPZ z;
  (if c =? 0 then set_sign z MP_ZPOS else Ret tt);;
  Ret (match s with [] => MP_OK | _ => MP_TRUNC end, s).
(** imath.c 1505-1507 *)
Definition mp_int_read_string (z : oid) (radix : Z) (s : list Z) : prog Z :=
  x <- mp_int_read_cstring z radix s; Ret x.1.

(** ** Binary *)

(** imath.c 2726-2740; [n] bytes left, [p] points at the last one. *)
Fixpoint comp2_loop (n : nat) (p : ptr) (s : Z) : prog unit :=
  match n with
  | O => Ret tt
  | S n' =>
      b <- Load p;
      let c := 255 - b in
      let s := c + s in
      Store p (s mod 256);;
      comp2_loop n' (p +p (-1)) (s / 256)
  end.
Definition s_2comp (buf : ptr) (len : Z) : prog unit :=
  comp2_loop (Z.to_nat len) (buf +p (len - 1)) 1.

(** imath.c 2751-2757: the bytes of one digit; [i] left.  Returns [pos] and
    whether the loop was left with [i > 0] (truncation). *)
Fixpoint tobin_digit (i : nat) (buf : ptr) (pos limit d uz : Z) : prog (Z * bool) :=
  match i with
  | O => Ret (pos, false)
  | S i' =>
      if pos <? limit then
        Store (buf +p pos) (d mod 256);;
        let d := Z.shiftr d 8 in
        if ((d =? 0) && (uz =? 1))%bool then Ret (pos + 1, false)
        else tobin_digit i' buf (pos + 1) limit d uz
      else Ret (pos, true)
  end.
(** imath.c 2747-2763: returns [pos] and the final [uz]. *)
Fixpoint tobin_loop (uz : nat) (dz buf : ptr) (pos limit : Z) : prog (Z * Z) :=
  match uz with
  | O => Ret (pos, 0)
  | S uz' =>
      if pos <? limit then
        d <- Load dz;
        pt <- tobin_digit 4 buf pos limit d (Z.of_nat uz);
        if (snd pt : bool) then Ret (fst pt, Z.of_nat uz)
        else tobin_loop uz' (dz +p 1) buf (fst pt) limit
      else Ret (pos, Z.of_nat uz)
  end.
(** imath.c 2742-2780; returns the code and the final [*limpos]. *)
Definition s_tobin (z : oid) (buf : ptr) (limit : Z) (pad : bool) : prog (Z * Z) :=
  uz <- get_used z; dz <- get_digits z;
  pu <- tobin_loop (Z.to_nat uz) dz buf 0 limit;
  let pos := fst pu in
  pu <- (if pad then
           b <- Load (buf +p (pos - 1));
           if Z.shiftr b 7 =? 0 then Ret pu
           else if pos <? limit then Store (buf +p pos) 0;; Ret (pos + 1, snd pu)
           else Ret (pos, 1)
         else Ret pu);
  rev_loop (Z.to_nat (fst pu)) buf (buf +p (fst pu - 1));;
  Ret (if snd pu =? 0 then MP_OK else MP_TRUNC, fst pu).

(** imath.c 1580-1591 *)
Definition mp_int_to_binary (z : oid) (buf : ptr) (limit : Z) : prog Z :=
  rl <- s_tobin z buf limit true;
  sz <- get_sign z;
  (if sz =? MP_NEG then s_2comp buf (snd rl) else Ret tt);;
  Ret (fst rl).
(** imath.c 1636-1642 *)
Definition mp_int_to_unsigned (z : oid) (buf : ptr) (limit : Z) : prog Z :=
  rl <- s_tobin z buf limit false; Ret (fst rl).

(** imath.c 1610-1613; [dz] was fetched once, before the loop. *)
Fixpoint read_bytes (n : nat) (z : oid) (dz tmp : ptr) : prog unit :=
  match n with
  | O => Ret tt
  | S n' =>
      s_qmul z 8;;
      v <- Load dz; b <- Load tmp;
      Store dz (Z.lor v b);;
      read_bytes n' z dz (tmp +p 1)
  end.
(** imath.c 1597, 1648: [len * CHAR_BIT] is computed in [int]. *)
Definition bytes_need (len : Z) : prog Z :=
  if len * 8 >? 2 ^ 31 - 1 then Undef else Ret (u32 ((len * 8 + 31) / 32)).
(** imath.c 1593-1620 *)
Definition mp_int_read_binary (z : oid) (buf : ptr) (len : Z) : prog Z :=
  assert (0 <? len);;
  need <- bytes_need len;
  ok <- s_pad z need;
  if negb ok then Ret MP_MEMORY else
  mp_int_zero z;;
  b0 <- Load buf;
  (if Z.shiftr b0 7 =? 0 then Ret tt
   else set_sign z MP_NEG;; s_2comp buf len);;
  dz <- get_digits z;
  read_bytes (Z.to_nat len) z dz buf;;
  sz <- get_sign z;
  (if sz =? MP_NEG then s_2comp buf len else Ret tt);;
  Ret MP_OK.
(** imath.c 1653-1656; here [MP_DIGITS(z)] is fetched in every round. *)
Fixpoint read_ubytes (n : nat) (z : oid) (tmp : ptr) : prog unit :=
  match n with
  | O => Ret tt
  | S n' =>
      s_qmul z 8;;
      dz <- get_digits z;
      v <- Load dz; b <- Load tmp;
      Store dz (Z.lor v b);;
      read_ubytes n' z (tmp +p 1)
  end.
(** imath.c 1644-1660 *)
Definition mp_int_read_unsigned (z : oid) (buf : ptr) (len : Z) : prog Z :=
  assert (0 <? len);;
  need <- bytes_need len;
  ok <- s_pad z need;
  if negb ok then Ret MP_MEMORY else
  mp_int_zero z;;
  read_ubytes (Z.to_nat len) z buf;;
  Ret MP_OK.

(** imath.c 1662-1668 *)
Definition mp_int_unsigned_len (z : oid) : prog Z :=
  res <- mp_int_count_bits z;
  if res <=? 0 then Ret res else Ret ((res + 7) / 8).
(** imath.c 1622-1634 *)
Definition mp_int_binary_len (z : oid) : prog Z :=
  res <- mp_int_count_bits z;
  if res <=? 0 then Ret res else
  bytes <- mp_int_unsigned_len z;
  Ret (if bytes * 8 =? res then bytes + 1 else bytes).

(** imath.c 48-54, 1670-1683; [None] is the undefined negation of INT_MIN. *)
From Coq Require Import String.
Definition s_unknown_err : string := "unknown result code".
Definition s_error_msg : list string :=
  ["error code 0"; "boolean true"; "out of memory"; "argument out of range";
   "result undefined"; "output truncated"; "invalid argument"]%string.
(** the index loop: [n] is [res - ix], the list is the table from [ix] on *)
Fixpoint error_scan (n : Z) (tbl : list string) : string :=
  match tbl with
  | [] => s_unknown_err
  | m :: tbl' => if n <=? 0 then m else error_scan (n - 1) tbl'
  end.
Definition mp_error_string (res : Z) : option string :=
  if res >? 0 then Some s_unknown_err
  else if res =? - 2 ^ 31 then None
  else Some (error_scan (- res) s_error_msg).

(** imath.h 226-229 *)
Definition mp_int_mod_value (a : oid) (value : Z) : prog (Z * option Z) :=
  mp_int_div_value a value None.
(** imath.h 310-311 *)
Definition mp_int_sqrt (a c : oid) : prog Z := mp_int_root a 2 c.
