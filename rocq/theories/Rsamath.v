(** Model of rsamath.c. *)
From Coq Require Import ZArith List Lia.
From stdpp Require Import gmap list.
From Verif Require Import Mem Prog Kern Fp Imath Imrat.
Local Open Scope Z_scope.
Local Open Scope prog_scope.

(** string.h: [memmove(dst, src, n)].  Bytes are copied as they are, also
    indeterminate ones; a negative [n] is converted to a huge size. *)
Fixpoint peeks (n : nat) (p : ptr) : prog (list cell) :=
  match n with
  | O => Ret []
  | S n' => Peek p (fun c => l <- peeks n' (p +p 1); Ret (c :: l))
  end.
Fixpoint pokes (l : list cell) (p : ptr) : prog unit :=
  match l with
  | [] => Ret tt
  | c :: l' => Poke p c (pokes l' (p +p 1))
  end.
Definition memmove (dst src : ptr) (n : Z) : prog unit :=
  if n <? 0 then Undef else l <- peeks (Z.to_nat n) src; pokes l dst.

(** The range of [int]; the result of an operation outside it is undefined. *)
Definition in_int (x : Z) : bool := (- 2 ^ 31 <=? x) && (x <? 2 ^ 31).

(** rsamath.c 36-47 *)
Definition rsa_i2osp (z : oid) (out : ptr) (len : Z) : prog Z :=
  excess_len <- mp_int_binary_len z;
  if excess_len <? len then Ret MP_RANGE else
  memset out 0 len;;
  let excess_len := excess_len - len in
  mp_int_to_binary z (out +p excess_len) len;;
  Ret MP_OK.

(** rsamath.c 50-52 *)
Definition rsa_os2ip (z : oid) (inb : ptr) (len : Z) : prog Z :=
  mp_int_read_binary z inb len.

(** rsamath.c 139-146 *)
Definition s_rsa_transform (msg exp mod_ out : oid) : prog Z :=
  cz <- mp_int_compare_zero msg;
  if cz <? 0 then Ret MP_RANGE else
  c <- mp_int_compare msg mod_;
  if 0 <=? c then Ret MP_RANGE else
  mp_int_exptmod msg exp mod_ out.

(** rsamath.c 55-57 *)
Definition rsa_rsaep (msg exp mod_ cipher : oid) : prog Z := s_rsa_transform msg exp mod_ cipher.
(** rsamath.c 60-62 *)
Definition rsa_rsadp (cipher exp mod_ msg : oid) : prog Z := s_rsa_transform cipher exp mod_ msg.
(** rsamath.c 65-67 *)
Definition rsa_rsasp (msg exp mod_ signature : oid) : prog Z := s_rsa_transform msg exp mod_ signature.
(** rsamath.c 70-72 *)
Definition rsa_rsavp (signature exp mod_ msg : oid) : prog Z := s_rsa_transform signature exp mod_ msg.

(** rsamath.c 76-85 *)
Definition rsa_max_message_len (mod_ : oid) : prog Z :=
  num_bits <- mp_int_count_bits mod_;
  let num_bytes := Z.quot num_bits 8 in
  Ret (if num_bytes <? 11 then 0 else num_bytes - 11).

(** The caller's filler function, called as [filler(p, n)]: it stores some bytes,
    here [filler n], from [p] on.  (The code trusts it to store [n] of them, none
    zero; so do the theorems.) *)
Fixpoint fill (p : ptr) (bs : list Z) : prog unit :=
  match bs with
  | [] => Ret tt
  | c :: bs' => Store p c;; fill (p +p 1) bs'
  end.

(** rsamath.c 87-112 *)
Definition rsa_pkcs1v15_encode (buf : ptr) (msg_len buf_len tag : Z) (filler : Z -> list Z) : prog Z :=
  if negb (in_int (buf_len - 11)) then Undef else
  if msg_len >? buf_len - 11 then Ret MP_RANGE else
  let msg_start := buf_len - msg_len in
  let pad_len := msg_start - 3 in
  if negb (in_int msg_start) then Undef else
  memmove (buf +p msg_start) buf msg_len;;
  Store buf 0;;
  Store (buf +p 1) (tag mod 256);;
  fill (buf +p 2) (filler pad_len);;
  Store (buf +p (msg_start - 1)) 0;;
  Ret MP_OK.

(** rsamath.c 123, one round of the loop; the state is [i] and [pad_len].  The
    scan has no bound of its own, only [i++] overflows in the end. *)
Definition pad_body (buf : ptr) (s : Z * Z) : prog ((Z * Z) + (Z * Z)) :=
  let '(i, pad_len) := s in
  c <- Load (buf +p i);
  if negb (in_int (i + 1)) then Undef else
  if c =? 0 then Ret (inr (i + 1, pad_len)) else Ret (inl (i + 1, pad_len + 1)).

(** rsamath.c 114-137; returns the result code and the value stored in
    [*msg_len]. *)
Definition rsa_pkcs1v15_decode (buf : ptr) (buf_len tag : Z) : prog (Z * option Z) :=
  if buf_len <? 11 then Ret (MP_UNDEF, None) else
  c0 <- Load buf;
  if negb (c0 =? 0) then Ret (MP_UNDEF, None) else
  c1 <- Load (buf +p 1);
  if negb (c1 =? tag mod 256) then Ret (MP_UNDEF, None) else
  x <- loop 31 (pad_body buf) (2, 0);
  let data_start := x.1 in
  let pad_len := x.2 in
  let data_len := buf_len - data_start in
  memmove buf (buf +p data_start) data_len;;
  memset (buf +p data_len) 0 (pad_len + 3);;
  Ret (MP_OK, Some data_len).
