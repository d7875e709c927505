(** What the theorems say: the specification side.

    This file depends only on the memory model ([Mem]) and on the meaning of a
    run ([Prog]); it mentions no function of the library and no proof helper.

    A state of the machine *represents* a store [V] of mathematical integers,
    one for each initialised [mp_int] handle, together with the rest of the
    world [X]: memory that belongs to no [mp_int] (buffers of the caller),
    structures that are not initialised, and the two tunable globals. *)
From Coq Require Import ZArith List.
From stdpp Require Import gmap list.
From Verif Require Import Mem Prog.
Local Open Scope Z_scope.

(** The value of a little-endian list of 32-bit digits. *)
Fixpoint digits_value (ds : list Z) : Z :=
  match ds with [] => 0 | d :: ds' => d + 2 ^ 32 * digits_value ds' end.

(** Structure [o] holds the integer [v], its digits stored in block [b]: the
    fields agree with the block, at least one digit is used, every used digit is
    a determinate 32-bit number, there is no superfluous leading zero digit, and
    zero is not negative. *)
Definition holds (st : state) (o : oid) (b : base) (v : Z) : Prop :=
  exists (al us sg : Z) (ds : list Z) (rest : list cell),
    objs st !! o = Some (Mpz (Some (b, 0)) al us sg) /\
    mem st !! b = Some ((Some <$> ds) ++ rest) /\
    al = Z.of_nat (length ds + length rest) /\ al <= MAXD /\
    us = Z.of_nat (length ds) /\ 1 <= us /\
    Forall (fun d => 0 <= d < 2 ^ 32) ds /\
    (1 < us -> last ds <> Some 0) /\
    ((sg = 0 /\ v = digits_value ds) \/ (sg = 1 /\ v = - digits_value ds /\ v <> 0)).

(** The rest of the world. *)
Record world : Type := World {
  bufs : memory;            (* memory that belongs to no mp_int         *)
  blanks : gmap oid mpz;    (* structures that hold no initialised integer *)
  tunables : globals        (* default_precision, multiply_threshold    *)
}.

(** The tunables are in the range the library's own assertions require, and
    [default_precision] is not the single value whose rounding up overflows. *)
Definition tunables_ok (g : globals) : Prop :=
  0 < default_precision g < 2 ^ 32 - 1 /\ 8 <= multiply_threshold g < 2 ^ 32.

(** The block with the digits of [o]. *)
Definition block_of (st : state) (o : oid) : option base :=
  match objs st !! o with
  | Some z => match digits z with Some p => Some p.1 | None => None end
  | None => None
  end.

Record Rep (st : state) (V : gmap oid Z) (W : world) : Prop := {
  (* every handle in the store holds its integer, in the structure's own
     one-digit buffer or in a block from malloc *)
  rep_holds : forall o v, V !! o = Some v ->
    exists b, holds st o b v /\ (b = Sng o \/ exists n, b = Hp n);
  (* no two handles share digits *)
  rep_apart : forall o1 o2 v1 v2, V !! o1 = Some v1 -> V !! o2 = Some v2 ->
    block_of st o1 = block_of st o2 -> o1 = o2;
  (* the other structures are those of [W] *)
  rep_others : forall o, V !! o = None -> objs st !! o = blanks W !! o;
  rep_blanks : forall o v, V !! o = Some v -> blanks W !! o = None;
  (* the caller's memory is there, unchanged, and is not used for digits *)
  rep_bufs : forall b l, bufs W !! b = Some l -> mem st !! b = Some l;
  rep_bufs_apart : forall b l o v, bufs W !! b = Some l -> V !! o = Some v ->
    block_of st o <> Some b /\ b <> Sng o;
  rep_bufs_sng : forall b l o, bufs W !! b = Some l -> b <> Sng o;
  (* there is no other memory: nothing has leaked *)
  rep_all : forall b l, mem st !! b = Some l ->
    (exists o v, V !! o = Some v /\ block_of st o = Some b) \/
    (exists o, b = Sng o /\ is_Some (objs st !! o)) \/ is_Some (bufs W !! b);
  rep_sng : forall o, is_Some (objs st !! o) ->
    exists c, mem st !! Sng o = Some [c];
  rep_glob : glob st = tunables W;
  rep_tun : tunables_ok (tunables W)
}.

(** [calls p st Q]: whatever the environment does (which allocations it
    refuses, what junk new memory holds), running [p] in [st] in the default
    build either returns normally with a result and state satisfying [Q], or
    stops at [assert(out != NULL)] because a request it made, for [n] digits,
    was refused (by the environment, or because [n] is beyond [MAXD]).  In
    particular nothing undefined happens, no other assertion fails and [p]
    terminates. *)
Definition calls {A} (p : prog A) (st : state) (Q : A -> state -> Prop) : Prop :=
  forall orc t,
    match run true orc p t st with
    | Done a st' _ => Q a st'
    | OOM n => exists t', (t <= t')%nat /\ granted orc t' n = false
    | AssertFail | UB | OutOfFuel => False
    end.

(** The same for the [NDEBUG] build, for executions in which no request is
    refused (those in which the default build does not stop). *)
Definition calls_ndebug {A} (p : prog A) (st : state) (Q : A -> state -> Prop) : Prop :=
  forall orc t, (forall n, run true orc p t st <> OOM n) ->
    match run false orc p t st with
    | Done a st' _ => Q a st'
    | OOM _ | AssertFail | UB | OutOfFuel => False
    end.

(** Storing to an optional output (a NULL pointer is [None]). *)
Definition assign (o : option oid) (v : Z) (V : gmap oid Z) : gmap oid Z :=
  match o with Some o => <[o := v]> V | None => V end.
Definition live (o : option oid) (V : gmap oid Z) : Prop :=
  match o with Some o => is_Some (V !! o) | None => True end.

(** [r] is negative, zero or positive as [x] is below, equal to or above [y]. *)
Definition ordered (r x y : Z) : Prop :=
  (r < 0 <-> x < y) /\ (r = 0 <-> x = y) /\ (r > 0 <-> x > y).

(** The constant of Barrett's reduction for a modulus [m > 0] of [k] digits:
    the integer part of [2 ^ (64 k) / m]. *)
Definition barrett_const (m : Z) : Z := 2 ^ (64 * (Z.log2 m / 32 + 1)) / m.

(** ** Buffers of the caller *)
(** Block [b] of the caller's memory now holds [l]. *)
Definition with_buf (W : world) (b : base) (l : list cell) : world :=
  World (<[b := l]> (bufs W)) (blanks W) (tunables W).
(** The values [s] stored from offset [off] on, the rest as it was. *)
Definition overwrite (off : nat) (s : list Z) (l : list cell) : list cell :=
  take off l ++ (Some <$> s) ++ drop (off + length s) l.

(** ** Text *)
(** '0'..'9' and then 'A'..'Z'. *)
Definition digit_char (d : Z) : Z := if d <? 10 then 48 + d else 55 + d.
(** The value of a character as a digit, in either case. *)
Definition digit_of (c : Z) : option Z :=
  if (48 <=? c) && (c <=? 57) then Some (c - 48)
  else if (65 <=? c) && (c <=? 90) then Some (c - 55)
  else if (97 <=? c) && (c <=? 122) then Some (c - 87)
  else None.
(** The white space of C's [isspace]: blank, \t, \n, \v, \f, \r. *)
Definition is_space (c : Z) : Prop := c = 32 \/ 9 <= c <= 13.
(** The number written with the digits [ds] in radix [r]. *)
Definition horner (r : Z) (ds : list Z) : Z := fold_left (fun v d => v * r + d) ds 0.
(** [s] is the numeral of [v] in radix [r]: a minus sign if [v] is negative, and
    digits without superfluous leading zeros. *)
Definition numeral (r v : Z) (s : list Z) : Prop :=
  exists ds, Forall (fun d => 0 <= d < r) ds /\ horner r ds = Z.abs v /\
    ds <> [] /\ (head ds = Some 0 -> ds = [0]) /\
    s = (if v <? 0 then [45] else []) ++ map digit_char ds.
