(** Model of the digit-level routines of /repo/imath.c (helpers, lines 82-227
    and 345-366, and private functions, lines 1692-2362). *)
From Coq Require Import ZArith List Lia.
From stdpp Require Import gmap list.
From Verif Require Import Mem Prog.
Local Open Scope Z_scope.
Local Open Scope prog_scope.

(** Result codes, imath.c 35-46. *)
Definition MP_OK : Z := 0.
Definition MP_FALSE : Z := 0.
Definition MP_TRUE : Z := -1.
Definition MP_MEMORY : Z := -2.
Definition MP_RANGE : Z := -3.
Definition MP_UNDEF : Z := -4.
Definition MP_TRUNC : Z := -5.
Definition MP_BADARG : Z := -6.
Definition MP_NEG : Z := 1.
Definition MP_ZPOS : Z := 0.

(** imath.h 55-60, 83-88 *)
Definition RADIX : Z := 2 ^ 32.          (* MP_DIGIT_MAX + 1 *)
Definition DIGIT_MAX : Z := 2 ^ 32 - 1.
Definition WORD_MAX : Z := 2 ^ 64 - 1.
Definition SMALL_MIN : Z := - 2 ^ 63.
Definition SMALL_MAX : Z := 2 ^ 63 - 1.
Definition USMALL_MAX : Z := 2 ^ 64 - 1.

(** Conversions to [mp_digit]/[mp_size] (32 bits) and [mp_word] (64 bits). *)
Definition u32 (x : Z) : Z := x mod 2 ^ 32.
Definition w64 (x : Z) : Z := x mod 2 ^ 64.

(** imath.c 184-185 *)
Definition UPPER_HALF (w : Z) : Z := w / 2 ^ 32.
Definition LOWER_HALF (w : Z) : Z := w mod 2 ^ 32.
(** imath.c 188-190 *)
Definition HIGH_BIT_SET (w : Z) : bool := negb (Z.shiftr w 63 =? 0).
(** imath.c 193-195 *)
Definition ADD_WILL_OVERFLOW (w v : Z) : bool := WORD_MAX - v <? w.

(** imath.c 84 *)
Definition s_round_prec (p : Z) : Z := u32 (2 * (u32 (p + 1) / 2)).

(** imath.c 121-122 *)
Definition MAX (a b : Z) : Z := if b >? a then b else a.
Definition MIN (a b : Z) : Z := if b <? a then b else a.

(** imath.c 87-91: memset of [n] digits. *)
Fixpoint zero_loop (n : nat) (p : ptr) : prog unit :=
  match n with
  | O => Ret tt
  | S n' => Store p 0;; zero_loop n' (p +p 1)
  end.
Definition ZERO (p : ptr) (n : Z) : prog unit := zero_loop (Z.to_nat n) p.

(** imath.c 94-99: memcpy of [n] digits from [p] to [q]; overlapping arrays are
    undefined.  Indeterminate digits are copied, not read as values. *)
Fixpoint copy_loop (n : nat) (p q : ptr) : prog unit :=
  match n with
  | O => Ret tt
  | S n' => Peek p (fun c => Poke q c (copy_loop n' (p +p 1) (q +p 1)))
  end.
Definition overlap (p q : ptr) (n : Z) : bool :=
  (bool_decide (p.1 = q.1) && (Z.abs (p.2 - q.2) <? n))%bool.
Definition COPY (p q : ptr) (n : Z) : prog unit :=
  if overlap p q n then Undef else copy_loop (Z.to_nat n) p q.

(** imath.c 113-118; [n] is [uz_] and [p] is [dz_]. *)
Fixpoint clamp_loop (n : nat) (p : ptr) : prog Z :=
  match n with
  | S (S _ as n') =>
      d <- Load p;
      if d =? 0 then clamp_loop n' (p +p (-1)) else Ret (Z.of_nat n)
  | _ => Ret (Z.of_nat n)
  end.
Definition CLAMP (z : oid) : prog unit :=
  uz <- get_used z;
  d <- get_digits z;
  u <- clamp_loop (Z.to_nat uz) (d +p (uz - 1));
  set_used z u.

(** imath.c 179-182 *)
Definition CMPZ (z : oid) : prog Z :=
  u <- get_used z;
  if u =? 1 then
    d <- get_digits z; v <- Load d;
    if v =? 0 then Ret 0
    else s <- get_sign z; Ret (if s =? MP_NEG then -1 else 1)
  else s <- get_sign z; Ret (if s =? MP_NEG then -1 else 1).

(** imath.c 200-211 *)
Definition mp_int_default_precision (n : Z) : prog unit :=
  assert (0 <? n);;
  GetG (fun g => SetG (Globals n (multiply_threshold g)) (Ret tt)).
Definition mp_int_multiply_threshold (n : Z) : prog unit :=
  assert (8 <=? n);;
  GetG (fun g => SetG (Globals (default_precision g) n) (Ret tt)).

(** imath.c 1692-1700 (not the DEBUG fill) *)
Definition s_alloc (num : Z) : prog (option ptr) :=
  Malloc num (fun p => Assert (ANull num) (bool_decide (is_Some p)) (Ret p)).
(** imath.c 1702-1715 (not the DEBUG variant) *)
Definition s_realloc (old : ptr) (nsize : Z) : prog (option ptr) :=
  Realloc old nsize (fun p => Assert (ANull nsize) (bool_decide (is_Some p)) (Ret p)).
(** imath.c 1717 *)
Definition s_free (p : ptr) : prog unit := Free p (Ret tt).

Definition ptr_eqb (p q : ptr) : bool := bool_decide (p = q).

(** imath.c 1719-1736 *)
Definition s_pad (z : oid) (min : Z) : prog bool :=
  za <- get_alloc z;
  if za <? min then
    let nsize := s_round_prec min in
    d <- get_digits z;
    tmp <- (if ptr_eqb d (Sng z, 0) then
              t <- s_alloc nsize;
              match t with
              | None => Ret None
              | Some t => v <- Load (Sng z, 0); Store t v;; Ret (Some t)
              end
            else s_realloc d nsize);
    match tmp with
    | None => Ret false
    | Some t => set_digits z (Some t);; set_alloc z nsize;; Ret true
    end
  else Ret true.

(** imath.c 225-227 *)
Definition GROW (z : oid) (n : Z) : prog Z :=
  b <- s_pad z n; Ret (if b : bool then MP_OK else MP_MEMORY).

(** imath.c 1768-1782; [uv] is 64 bits wide, so the loop runs at most twice
    ([fuel] below); a third digit would leave [vbuf]. *)
Fixpoint uvpack_loop (fuel : nat) (uv : Z) (t : ptr) (ndig : Z) : prog Z :=
  if uv =? 0 then Ret ndig else
  match fuel with
  | O => NoFuel
  | S f => Store (t +p ndig) (u32 uv);; uvpack_loop f (uv / 2 ^ 32) t (ndig + 1)
  end.
Definition s_uvpack (uv : Z) (t : ptr) : prog Z :=
  if uv =? 0 then Store t 0;; Ret 1 else uvpack_loop 2 uv t 0.

(** imath.c 1745-1752 *)
Definition s_ufake (z : oid) (value : Z) (vbuf : ptr) : prog unit :=
  ndig <- s_uvpack value vbuf;
  set_used z ndig;; set_alloc z 2;; set_sign z MP_ZPOS;; set_digits z (Some vbuf).

(** imath.c 1739-1743; [-value] overflows when [value] is [MP_SMALL_MIN]. *)
Definition s_fake (z : oid) (value : Z) (vbuf : ptr) : prog unit :=
  if value =? SMALL_MIN then Undef else
  s_ufake z (Z.abs value) vbuf;;
  if value <? 0 then set_sign z MP_NEG else Ret tt.

(** A local [mpz_t vtmp; mp_digit vbuf[2]; s_fake(&vtmp, value, vbuf);] around
    [body], as in imath.c 430-434 and its siblings. *)
Definition with_local {A} (body : oid -> ptr -> prog A) : prog A :=
  NewE 2 (fun vbuf => NewO (fun vtmp =>
    r <- body vtmp vbuf;
    DelO vtmp (DelE vbuf (Ret r)))).
Definition with_fake {A} (value : Z) (body : oid -> prog A) : prog A :=
  with_local (fun vtmp vbuf => s_fake vtmp value vbuf;; body vtmp).
Definition with_ufake {A} (value : Z) (body : oid -> prog A) : prog A :=
  with_local (fun vtmp vbuf => s_ufake vtmp value vbuf;; body vtmp).

(** imath.c 1754-1766; [dat], [dbt] point at the last digits. *)
Fixpoint cdig_loop (n : nat) (dat dbt : ptr) : prog Z :=
  match n with
  | O => Ret 0
  | S n' =>
      a <- Load dat; b <- Load dbt;
      if a >? b then Ret 1 else if a <? b then Ret (-1)
      else cdig_loop n' (dat +p (-1)) (dbt +p (-1))
  end.
Definition s_cdig (da db : ptr) (len : Z) : prog Z :=
  cdig_loop (Z.to_nat len) (da +p (len - 1)) (db +p (len - 1)).

(** imath.c 1784-1794 *)
Definition s_ucmp (a b : oid) : prog Z :=
  ua <- get_used a; ub <- get_used b;
  if ua >? ub then Ret 1 else if ub >? ua then Ret (-1)
  else da <- get_digits a; db <- get_digits b; s_cdig da db ua.

(** imath.c 1801-1807 *)
Definition s_uvcmp (a : oid) (uv : Z) : prog Z :=
  with_ufake uv (fun vtmp => s_ucmp a vtmp).
(** imath.c 1796-1799; the negation is done in [mp_usmall] and cannot overflow. *)
Definition s_vcmp (a : oid) (v : Z) : prog Z :=
  s_uvcmp a (if v <? 0 then w64 (- w64 v) else w64 v).

(** imath.c 1809-1837: the loop over both operands ... *)
Fixpoint uadd_loop1 (n : nat) (da db dc : ptr) (w : Z) : prog Z :=
  match n with
  | O => Ret w
  | S n' =>
      a <- Load da; b <- Load db;
      let w := w64 (w + a + b) in
      Store dc (LOWER_HALF w);;
      uadd_loop1 n' (da +p 1) (db +p 1) (dc +p 1) (UPPER_HALF w)
  end.
(** ... and the carry loop. *)
Fixpoint uadd_loop2 (n : nat) (da dc : ptr) (w : Z) : prog Z :=
  match n with
  | O => Ret w
  | S n' =>
      a <- Load da;
      let w := w64 (w + a) in
      Store dc (LOWER_HALF w);;
      uadd_loop2 n' (da +p 1) (dc +p 1) (UPPER_HALF w)
  end.
Definition s_uadd_ord (da db dc : ptr) (na nb : Z) : prog Z :=
  w <- uadd_loop1 (Z.to_nat nb) da db dc 0;
  w <- uadd_loop2 (Z.to_nat (na - nb)) (da +p nb) (dc +p nb) w;
  Ret (u32 w).
Definition s_uadd (da db dc : ptr) (na nb : Z) : prog Z :=
  if nb >? na then s_uadd_ord db da dc nb na else s_uadd_ord da db dc na nb.

(** imath.c 1839-1869 *)
Fixpoint usub_loop1 (n : nat) (da db dc : ptr) (w : Z) : prog Z :=
  match n with
  | O => Ret w
  | S n' =>
      a <- Load da; b <- Load db;
      let w := w64 (RADIX + a - w - b) in
      Store dc (LOWER_HALF w);;
      usub_loop1 n' (da +p 1) (db +p 1) (dc +p 1)
                 (if UPPER_HALF w =? 0 then 1 else 0)
  end.
Fixpoint usub_loop2 (n : nat) (da dc : ptr) (w : Z) : prog Z :=
  match n with
  | O => Ret w
  | S n' =>
      a <- Load da;
      let w := w64 (RADIX + a - w) in
      Store dc (LOWER_HALF w);;
      usub_loop2 n' (da +p 1) (dc +p 1) (if UPPER_HALF w =? 0 then 1 else 0)
  end.
Definition s_usub (da db dc : ptr) (na nb : Z) : prog unit :=
  assert (nb <=? na);;
  w <- usub_loop1 (Z.to_nat nb) da db dc 0;
  w <- usub_loop2 (Z.to_nat (na - nb)) (da +p nb) (dc +p nb) w;
  assert (w =? 0).

(** imath.c 1950-1971: inner loop (1961-1966); returns the pointer [dct] and [w]. *)
Fixpoint umul_inner (n : nat) (da dbt dct : ptr) (w : Z) : prog Z :=
  match n with
  | O => Store dct (u32 w);; Ret w
  | S n' =>
      a <- Load da; b <- Load dbt; c <- Load dct;
      let w := w64 (a * b + w + c) in
      Store dct (LOWER_HALF w);;
      umul_inner n' da (dbt +p 1) (dct +p 1) (UPPER_HALF w)
  end.
(** outer loop (1955-1970) *)
Fixpoint umul_loop (n : nat) (da db dc : ptr) (nb : Z) : prog unit :=
  match n with
  | O => Ret tt
  | S n' =>
      a <- Load da;
      (if a =? 0 then Ret tt
       else umul_inner (Z.to_nat nb) da db dc 0;; Ret tt);;
      umul_loop n' (da +p 1) db (dc +p 1) nb
  end.
Definition s_umul (da db dc : ptr) (na nb : Z) : prog unit :=
  umul_loop (Z.to_nat na) da db dc nb.

(** imath.c 1871-1948.  The recursion is bounded by [fuel]; exhausting it is
    the separate outcome [NoFuel].  The argument swap (1876-1879) is a separate
    step so that the recursive calls below are plain. *)
Fixpoint kmul (fuel : nat) (da db dc : ptr) (na nb : Z) : prog bool :=
  match fuel with
  | O => NoFuel
  | S f =>
    let body (da db dc : ptr) (na nb : Z) : prog bool :=
      g <- getG;
      let bot := u32 (na + 1) / 2 in
      if (negb (multiply_threshold g =? 0) && (na >=? multiply_threshold g)
          && (nb >? bot))%bool then
        let a_top := da +p bot in
        let b_top := db +p bot in
        let at_size := na - bot in
        let bt_size := nb - bot in
        let buf_size := u32 (2 * bot) in
        t <- s_alloc (u32 (4 * buf_size));
        match t with
        | None => Ret false
        | Some t1 =>
          let t2 := t1 +p buf_size in
          let t3 := t2 +p buf_size in
          ZERO t1 (u32 (4 * buf_size));;
          carry <- s_uadd da a_top t1 bot at_size;
          Store (t1 +p bot) carry;;
          carry <- s_uadd db b_top t2 bot bt_size;
          Store (t2 +p bot) carry;;
          kmul f t1 t2 t3 (bot + 1) (bot + 1);;
          ZERO t1 buf_size;;
          ZERO t2 buf_size;;
          kmul f da db t1 bot bot;;
          kmul f a_top b_top t2 at_size bt_size;;
          s_usub t3 t1 t3 (buf_size + 2) buf_size;;
          s_usub t3 t2 t3 (buf_size + 2) buf_size;;
          COPY t1 dc buf_size;;
          carry <- s_uadd t3 (dc +p bot) (dc +p bot) (buf_size + 1) buf_size;
          assert (carry =? 0);;
          carry <- s_uadd t2 (dc +p 2 * bot) (dc +p 2 * bot) buf_size buf_size;
          assert (carry =? 0);;
          s_free t1;;
          Ret true
        end
      else s_umul da db dc na nb;; Ret true
    in
    if nb >? na then body db da dc nb na else body da db dc na nb
  end.
Definition s_kmul (da db dc : ptr) (na nb : Z) : prog bool :=
  kmul (S (Z.to_nat (Z.max na nb))) da db dc na nb.

(** imath.c 2023-2071: the inner loop (2037-2058) ... *)
Fixpoint usqr_inner (n : nat) (da dat dct : ptr) (w : Z) : prog Z :=
  match n with
  | O => Ret w
  | S n' =>
      a <- Load da; b <- Load dat; c <- Load dct;
      let t := w64 (a * b) in
      let u := w64 (w + c) in
      let ov1 := HIGH_BIT_SET t in
      let w := w64 (t + t) in
      let ov2 := ADD_WILL_OVERFLOW w u in
      let w := w64 (w + u) in
      Store dct (LOWER_HALF w);;
      let w := UPPER_HALF w in
      let w := if (ov1 || ov2)%bool then w64 (w64 (w + DIGIT_MAX) + 1) else w in
      usqr_inner n' da (dat +p 1) (dct +p 1) w
  end.
(** ... the carry loop (2062-2066); [w] is its value before the shift ... *)
Fixpoint usqr_carry (fuel : nat) (dct : ptr) (w : Z) : prog unit :=
  let w := UPPER_HALF w in
  if w =? 0 then Ret tt else
  match fuel with
  | O => NoFuel
  | S f =>
      let dct := dct +p 1 in
      c <- Load dct;
      let w := w64 (w + c) in
      Store dct (LOWER_HALF w);;
      usqr_carry f dct w
  end.
(** ... and the outer loop; [n] is [size_a - i].  The final [assert(w == 0)]
    (2068) restates the exit condition of the carry loop. *)
Fixpoint usqr_loop (n : nat) (da dc : ptr) : prog unit :=
  match n with
  | O => Ret tt
  | S n' =>
      a <- Load da;
      (if a =? 0 then Ret tt
       else
         c <- Load dc;
         let w := w64 (a * a + c) in
         Store dc (LOWER_HALF w);;
         w <- usqr_inner n' da (da +p 1) (dc +p 1) (UPPER_HALF w);
         let dct := dc +p (Z.of_nat n' + 1) in
         c <- Load dct;
         let w := w64 (w + c) in
         Store dct (u32 w);;
         usqr_carry (2 * n) dct w);;
      usqr_loop n' (da +p 1) (dc +p 2)
  end.
Definition s_usqr (da dc : ptr) (na : Z) : prog unit := usqr_loop (Z.to_nat na) da dc.

(** imath.c 1993-2004: doubling [t3] in place. *)
Fixpoint dbl_loop (n : nat) (p : ptr) (save : Z) : prog unit :=
  match n with
  | O => Store p (LOWER_HALF save)
  | S n' =>
      d <- Load p;
      let w := Z.lor (w64 (Z.shiftl d 1)) save in
      Store p (LOWER_HALF w);;
      dbl_loop n' (p +p 1) (UPPER_HALF w)
  end.

(** imath.c 1973-2021 *)
Fixpoint ksqr (fuel : nat) (da dc : ptr) (na : Z) : prog bool :=
  match fuel with
  | O => NoFuel
  | S f =>
    g <- getG;
    if (negb (multiply_threshold g =? 0) && (na >? multiply_threshold g))%bool then
      let bot := u32 (na + 1) / 2 in
      let a_top := da +p bot in
      let at_size := na - bot in
      let buf_size := u32 (2 * bot) in
      t <- s_alloc (u32 (4 * buf_size));
      match t with
      | None => Ret false
      | Some t1 =>
        let t2 := t1 +p buf_size in
        let t3 := t2 +p buf_size in
        ZERO t1 (u32 (4 * buf_size));;
        ksqr f da t1 bot;;
        ksqr f a_top t2 at_size;;
        s_kmul da a_top t3 bot at_size;;
        dbl_loop (Z.to_nat (bot + at_size)) t3 0;;
        COPY t1 dc (2 * bot);;
        carry <- s_uadd t3 (dc +p bot) (dc +p bot) (buf_size + 1) buf_size;
        assert (carry =? 0);;
        carry <- s_uadd t2 (dc +p 2 * bot) (dc +p 2 * bot) buf_size buf_size;
        assert (carry =? 0);;
        s_free t1;;
        Ret true
      end
    else s_usqr da dc na;; Ret true
  end.
Definition s_ksqr (da dc : ptr) (na : Z) : prog bool := ksqr (S (Z.to_nat na)) da dc na.

(** imath.c 348-356 *)
Definition UMUL (x y z : oid) : prog unit :=
  ua <- get_used x; ub <- get_used y;
  let o := u32 (ua + ub) in
  dz <- get_digits z;
  ZERO dz o;;
  dx <- get_digits x; dy <- get_digits y;
  s_kmul dx dy dz ua ub;;
  set_used z o;;
  CLAMP z.
(** imath.c 359-366 *)
Definition USQR (x z : oid) : prog unit :=
  ua <- get_used x;
  let o := u32 (ua + ua) in
  dz <- get_digits z;
  ZERO dz o;;
  dx <- get_digits x;
  s_ksqr dx dz ua;;
  set_used z o;;
  CLAMP z.

(** imath.c 2073-2093: carry loop, then the possible new top digit. *)
Fixpoint dadd_loop (n : nat) (da : ptr) (w : Z) : prog (ptr * Z) :=
  match n with
  | O => Ret (da, w)
  | S n' =>
      a <- Load da;
      let w := w64 (a + w) in
      Store da (LOWER_HALF w);;
      dadd_loop n' (da +p 1) (UPPER_HALF w)
  end.
Definition bump_used (a : oid) (da : ptr) (w : Z) : prog unit :=
  if w =? 0 then Ret tt
  else Store da (u32 w);; u <- get_used a; set_used a (u32 (u + 1)).
Definition s_dadd (a : oid) (b : Z) : prog unit :=
  da <- get_digits a;
  ua <- get_used a;
  d <- Load da;
  let w := w64 (d + b) in
  Store da (LOWER_HALF w);;
  pw <- dadd_loop (Z.to_nat (ua - 1)) (da +p 1) (UPPER_HALF w);
  bump_used a pw.1 pw.2.

(** imath.c 2095-2111 *)
Fixpoint dmul_loop (n : nat) (da : ptr) (b w : Z) : prog (ptr * Z) :=
  match n with
  | O => Ret (da, w)
  | S n' =>
      a <- Load da;
      let w := w64 (a * b + w) in
      Store da (LOWER_HALF w);;
      dmul_loop n' (da +p 1) b (UPPER_HALF w)
  end.
Definition s_dmul (a : oid) (b : Z) : prog unit :=
  da <- get_digits a;
  ua <- get_used a;
  pw <- dmul_loop (Z.to_nat ua) da b 0;
  bump_used a pw.1 pw.2.

(** imath.c 2113-2125 *)
Fixpoint dbmul_loop (n : nat) (da : ptr) (b : Z) (dc : ptr) (w : Z) : prog unit :=
  match n with
  | O => if w =? 0 then Ret tt else Store dc (LOWER_HALF w)
  | S n' =>
      a <- Load da;
      let w := w64 (a * b + w) in
      Store dc (LOWER_HALF w);;
      dbmul_loop n' (da +p 1) b (dc +p 1) (UPPER_HALF w)
  end.
Definition s_dbmul (da : ptr) (b : Z) (dc : ptr) (na : Z) : prog unit :=
  dbmul_loop (Z.to_nat na) da b dc 0.

(** imath.c 2127-2147; division by zero is undefined (it cannot be reached
    with [w < b] when [b = 0]). *)
Fixpoint ddiv_loop (n : nat) (da : ptr) (b w : Z) : prog Z :=
  match n with
  | O => Ret w
  | S n' =>
      a <- Load da;
      let w := Z.lor (w64 (Z.shiftl w 32)) a in
      if w >=? b then
        if b =? 0 then Undef
        else Store da (u32 (w / b));; ddiv_loop n' (da +p (-1)) b (w mod b)
      else Store da 0;; ddiv_loop n' (da +p (-1)) b w
  end.
Definition s_ddiv (a : oid) (b : Z) : prog Z :=
  ua <- get_used a;
  da <- get_digits a;
  w <- ddiv_loop (Z.to_nat ua) (da +p (ua - 1)) b 0;
  CLAMP a;;
  Ret (u32 w).

(** imath.c 510-516 *)
Definition mp_int_zero (z : oid) : prog unit :=
  d <- get_digits z;
  Store d 0;; set_used z 1;; set_sign z MP_ZPOS.

(** imath.c 2163-2168: moving digits down. *)
Fixpoint move_up (n : nat) (to from : ptr) : prog unit :=
  match n with
  | O => Ret tt
  | S n' => v <- Load from; Store to v;; move_up n' (to +p 1) (from +p 1)
  end.
(** imath.c 2179-2184: shifting right by [nbits], from the top digit down. *)
Fixpoint shr_loop (n : nat) (dz : ptr) (nbits d : Z) : prog unit :=
  match n with
  | O => Ret tt
  | S n' =>
      save <- Load dz;
      Store dz (Z.lor (Z.shiftr save nbits) (u32 (Z.shiftl d (32 - nbits))));;
      shr_loop n' (dz +p (-1)) nbits save
  end.
(** imath.c 2189 *)
Definition fix_zero_sign (z : oid) : prog unit :=
  u <- get_used z;
  if u =? 1 then
    d <- get_digits z; v <- Load d;
    if v =? 0 then set_sign z MP_ZPOS else Ret tt
  else Ret tt.
(** imath.c 2149-2190 *)
Definition s_qdiv_bits (z : oid) (nbits : Z) : prog unit :=
  (if nbits =? 0 then Ret tt
   else
     uz <- get_used z; d <- get_digits z;
     shr_loop (Z.to_nat uz) (d +p (uz - 1)) nbits 0;;
     CLAMP z);;
  fix_zero_sign z.
Definition s_qdiv (z : oid) (p2 : Z) : prog unit :=
  let ndig := p2 / 32 in
  let nbits := p2 mod 32 in
  uz <- get_used z;
  if ndig =? 0 then s_qdiv_bits z nbits
  else if ndig >=? uz then mp_int_zero z
  else
    d <- get_digits z;
    move_up (Z.to_nat (uz - ndig)) d (d +p ndig);;
    set_used z (uz - ndig);;
    s_qdiv_bits z nbits.

(** imath.c 2192-2202 *)
Definition s_qmod (z : oid) (p2 : Z) : prog unit :=
  let start := p2 / 32 + 1 in
  let rest := p2 mod 32 in
  uz <- get_used z;
  let mask := Z.shiftl 1 rest - 1 in
  if start <=? uz then
    set_used z start;;
    d <- get_digits z;
    v <- Load (d +p (start - 1));
    Store (d +p (start - 1)) (Z.land v mask);;
    CLAMP z
  else Ret tt.

(** imath.c 2231-2234: moving digits up, from the top. *)
Fixpoint move_down (n : nat) (to from : ptr) : prog unit :=
  match n with
  | O => Ret tt
  | S n' => v <- Load from; Store to v;; move_down n' (to +p (-1)) (from +p (-1))
  end.
(** imath.c 2242-2247: shifting left by [rest]; returns [from] and [d]. *)
Fixpoint shl_loop (n : nat) (from : ptr) (rest d : Z) : prog (ptr * Z) :=
  match n with
  | O => Ret (from, d)
  | S n' =>
      save <- Load from;
      Store from (Z.lor (u32 (Z.shiftl save rest)) (Z.shiftr d (32 - rest)));;
      shl_loop n' (from +p 1) rest save
  end.
(** imath.c 2204-2259 *)
Definition s_qmul (z : oid) (p2 : Z) : prog bool :=
  if p2 =? 0 then Ret true else
  uz <- get_used z;
  let need := p2 / 32 in
  let rest := p2 mod 32 in
  extra <- (if rest =? 0 then Ret 0
            else d <- get_digits z; v <- Load (d +p (uz - 1));
                 Ret (if Z.shiftr v (32 - rest) =? 0 then 0 else 1));
  ok <- s_pad z (u32 (uz + need + extra));
  if negb ok then Ret false else
  d <- get_digits z;
  (if need >? 0 then
     move_down (Z.to_nat uz) (d +p (uz - 1 + need)) (d +p (uz - 1));;
     ZERO d need
   else Ret tt);;
  let uz := u32 (uz + need) in
  uz' <- (if rest =? 0 then Ret uz
          else
            fd <- shl_loop (Z.to_nat (uz - need)) (d +p need) rest 0;
            let dd := Z.shiftr fd.2 (32 - rest) in
            if dd =? 0 then Ret uz
            else Store fd.1 dd;; Ret (u32 (uz + extra)));
  set_used z uz';;
  CLAMP z;;
  Ret true.

(** imath.c 2264-2287 *)
Fixpoint qsub_loop (n : nat) (zp : ptr) (w : Z) : prog Z :=
  match n with
  | O => Ret w
  | S n' =>
      v <- Load zp;
      let w := w64 (RADIX - w - v) in
      Store zp (LOWER_HALF w);;
      qsub_loop n' (zp +p 1) (if UPPER_HALF w =? 0 then 1 else 0)
  end.
Definition s_qsub (z : oid) (p2 : Z) : prog bool :=
  let hi := Z.shiftl 1 (p2 mod 32) in
  let tdig := p2 / 32 in
  ok <- s_pad z (u32 (tdig + 1));
  if negb ok then Ret false else
  d <- get_digits z;
  w <- qsub_loop (Z.to_nat tdig) d 0;
  v <- Load (d +p tdig);
  let w := w64 (RADIX + hi - w - v) in
  Store (d +p tdig) (LOWER_HALF w);;
  assert (negb (UPPER_HALF w =? 0));;
  set_sign z MP_ZPOS;;
  CLAMP z;;
  Ret true.

(** imath.c 2289-2307 *)
Fixpoint tz_loop (fuel : nat) (d k : Z) : prog Z :=
  if Z.odd d then Ret k else
  match fuel with
  | O => NoFuel
  | S f => tz_loop f (Z.shiftr d 1) (k + 1)
  end.
Fixpoint dp2k_loop (fuel : nat) (dp : ptr) (k : Z) : prog Z :=
  d <- Load dp;
  if d =? 0 then
    match fuel with
    | O => NoFuel
    | S f => dp2k_loop f (dp +p 1) (k + 32)
    end
  else tz_loop 32 d k.
Definition s_dp2k (z : oid) : prog Z :=
  dp <- get_digits z;
  uz <- get_used z;
  if uz =? 1 then
    d <- Load dp; if d =? 0 then Ret 1 else dp2k_loop (Z.to_nat uz) dp 0
  else dp2k_loop (Z.to_nat uz) dp 0.

(** imath.c 2309-2327 *)
Fixpoint isp2_top (fuel : nat) (d k : Z) : prog Z :=
  if d >? 1 then
    if Z.odd d then Ret (-1) else
    match fuel with
    | O => NoFuel
    | S f => isp2_top f (Z.shiftr d 1) (k + 1)
    end
  else Ret k.
Fixpoint isp2_loop (n : nat) (dz : ptr) (k : Z) : prog Z :=
  match n with
  | S (S _ as n') =>
      d <- Load dz;
      if negb (d =? 0) then Ret (-1) else isp2_loop n' (dz +p 1) (k + 32)
  | _ => d <- Load dz; isp2_top 32 d k
  end.
Definition s_isp2 (z : oid) : prog Z :=
  uz <- get_used z; dz <- get_digits z; isp2_loop (Z.to_nat uz) dz 0.

(** imath.c 2329-2344 *)
Definition s_2expt (z : oid) (k : Z) : prog bool :=
  let ndig := u32 ((k + 32) / 32) in
  let rest := u32 (k mod 32) in
  ok <- s_pad z ndig;
  if negb ok then Ret false else
  dz <- get_digits z;
  ZERO dz ndig;;
  Store (dz +p (ndig - 1)) (Z.shiftl 1 rest);;
  set_used z ndig;;
  Ret true.

(** imath.c 2346-2362 *)
Fixpoint norm_loop (fuel : nat) (d k : Z) : prog Z :=
  if d <? 2 ^ 31 then
    match fuel with
    | O => NoFuel
    | S f => norm_loop f (u32 (Z.shiftl d 1)) (k + 1)
    end
  else Ret k.
Definition s_norm (a b : oid) : prog Z :=
  db <- get_digits b; ub <- get_used b;
  d <- Load (db +p (ub - 1));
  k <- norm_loop 32 d 0;
  (if k =? 0 then Ret tt else s_qmul a k;; s_qmul b k;; Ret tt);;
  Ret k.
