(** Model of examples/rsakey.c. *)
From Coq Require Import ZArith List Lia.
From stdpp Require Import gmap list.
From Verif Require Import Mem Prog Kern Imath Imrat Gmp GmpAlloc Rsamath Iprime.
Local Open Scope Z_scope.
Local Open Scope prog_scope.

(** What /dev/random delivers at one call: [None] if it cannot be opened, else the
    bytes that can be read.  The model is a function of these. *)
Notation draw := (option (list Z)).

(** The bytes that fread stores. *)
Fixpoint store_bytes (bs : list Z) (p : ptr) : prog unit :=
  match bs with [] => Ret tt | c :: bs' => Store p c;; store_bytes bs' (p +p 1) end.
(** examples/rsakey.c 200-210 *)
Definition randomize (d : draw) (buf : ptr) (len : Z) : prog Z :=
  match d with
  | None => Ret (-1)
  | Some bs =>
      let got := take (Z.to_nat len) bs in
      store_bytes got buf;; Ret (Z.of_nat (length got))
  end.

(** examples/rsakey.c 212-243.  A block of [n] bytes is a block of [n] cells, as in
    GmpAlloc.v. *)
Definition mp_int_randomize (a : oid) (n_bits : Z) (d : draw) : prog Z :=
  let n_bytes := (n_bits + 7) mod 2 ^ 32 / 8 in
  Malloc n_bytes (fun q =>
    match q with
    | None => Ret MP_MEMORY
    | Some buf =>
        nr <- randomize d buf n_bytes;
        res <- (if negb (nr mod 2 ^ 32 =? n_bytes) then Ret MP_TRUNC else
          (if negb (n_bits mod 8 =? 0) then
             let b_mask := 2 ^ (n_bits mod 8) - 1 in
             let t_mask := 2 ^ (n_bits mod 8) / 2 in
             x <- Load buf; Store buf (Z.land x b_mask);;
             x <- Load buf; Store buf (Z.lor x t_mask)
           else Ret tt);;
          (x <- Load (buf +p (n_bytes - 1)); Store (buf +p (n_bytes - 1)) (Z.lor x 1));;
          mp_int_read_unsigned a buf n_bytes);
        memset buf 0 n_bytes;;
        Free buf (Ret res)
    end).

(** examples/rsakey.c 245-263: statement by statement mp_int_find_prime of iprime.c,
    besides the marks of progress, which are not modelled. *)
Definition find_prime (seed : oid) : prog Z := mp_int_find_prime seed.

(** examples/rsakey.c 49-55 *)
Record rsa_key := Key { kp : oid; kq : oid; kn : oid; ke : oid; kd : oid }.

(** examples/rsakey.c 170-186: [given]: the exponent was given on the command line.
    The result is the code [res] reported at the jump to EXIT, or MP_OK. *)
Fixpoint expo_loop (k : rsa_key) (half : Z) (given : bool) (ds : list draw) : prog Z :=
  res <- mp_int_invmod (ke k) (kn k) (kd k);
  if res =? MP_OK then Ret MP_OK else
  if given then Ret res else
  match ds with
  | [] => mp_int_randomize (ke k) half None
  | d :: ds' =>
      res <- mp_int_randomize (ke k) half d;
      if negb (res =? MP_OK) then Ret res else expo_loop k half given ds'
  end.

(** The first of the remaining draws; when there is none left /dev/random cannot
    be opened any more. *)
Definition next (ds : list draw) : draw := match ds with d :: _ => d | [] => None end.

(** examples/rsakey.c 100, 122-189: from the parsed number of bits, with the
    numbers of the key initialised, to the finished key; [expt] is the argument
    of the option -e.  The result is the code reported with the message at a jump to
    EXIT before the key is complete, or MP_OK. *)
Definition make_key (k : rsa_key) (modbits : Z) (expt : option (list Z)) (ds : list draw) : prog Z :=
  let modbits := if modbits mod 2 =? 1 then modbits + 1 else modbits in
  let half := modbits / 2 in
  res <- (match expt with Some s => mp_int_read_string (ke k) 10 s | None => Ret MP_OK end);
  if negb (res =? MP_OK) then Ret res else
  res <- mp_int_randomize (kp k) half (next ds);
  if negb (res =? MP_OK) then Ret res else
  find_prime (kp k);;
  let ds := tail ds in
  res <- mp_int_randomize (kq k) half (next ds);
  if negb (res =? MP_OK) then Ret res else
  find_prime (kq k);;
  let ds := tail ds in
  mp_int_mul (kp k) (kq k) (kn k);;
  mp_int_sub (kn k) (kp k) (kn k);;
  mp_int_sub (kn k) (kq k) (kn k);;
  mp_int_add_value (kn k) 1 (kn k);;
  res <- (match expt with Some _ => Ret MP_OK | None => mp_int_randomize (ke k) half (next ds) end);
  if negb (res =? MP_OK) then Ret res else
  res <- expo_loop k half (match expt with Some _ => true | None => false end) (match expt with Some _ => ds | None => tail ds end);
  if negb (res =? MP_OK) then Ret res else
  mp_int_mul (kp k) (kq k) (kn k);;
  Ret MP_OK.

(** examples/rsakey.c 283-302: the result is what fprintf prints for the five %s. *)
Definition rsa_key_write (k : rsa_key) : prog (list (list Z)) :=
  len <- mp_int_string_len (kn k) 10;
  malloc_text len (fun obuf =>
    let show z := mp_int_to_string z 10 obuf len;; cstring (Z.to_nat len + 1) obuf in
    p <- show (kp k);
    q <- show (kq k);
    e <- show (ke k);
    d <- show (kd k);
    n <- show (kn k);
    Free obuf (Ret [p; q; e; d; n])).

(** examples/rsakey.c 114, 122-197 with rsa_key_init and rsa_key_clear (265-281):
    the texts written, or the code reported.  The numbers are cleared in the
    opposite order. *)
Definition rsakey_main (modbits : Z) (expt : option (list Z)) (ds : list draw) : prog (list (list Z) + Z) :=
  let num {A} := local_int (A := A) (fun t => mp_int_init t;; Ret tt) in
  num (fun p => num (fun q => num (fun n => num (fun e => num (fun d =>
    let k := Key p q n e d in
    res <- make_key k modbits expt ds;
    if res =? MP_OK then s <- rsa_key_write k; Ret (inl s) else Ret (inr res)))))).
