(** The C memory the model runs on.

    Everything here models the C abstract machine as far as /repo uses it, for
    the default configuration of /repo/imath.h lines 38-60 ([mp_digit] is a
    32-bit and [mp_word] a 64-bit unsigned integer, [mp_small] a 64-bit
    [long]).  Sizes, digits, bytes and machine integers are all represented by
    [Z]; the wrap-around of the C types is written out where it can occur. *)
From Coq Require Import ZArith List Lia.
From stdpp Require Import gmap list countable.
Local Open Scope Z_scope.

(** Identity of an [mpz_t] structure.  The boolean tells whether the structure
    itself was obtained from [malloc] (imath.c 380-386, [mp_int_alloc]). *)
Notation oid := (bool * positive)%type.

(** A block of memory: the [single] field inside the structure [o] (imath.h
    62-68), a block obtained from [malloc], or an array that was not (a local
    array such as [vbuf], or a buffer belonging to the caller). *)
Inductive base : Type :=
| Sng (o : oid)
| Hp (n : positive)
| Ext (n : positive).

Global Instance base_eq_dec : EqDecision base.
Proof. solve_decision. Defined.

Definition base_enc (b : base) : oid + positive + positive :=
  match b with Sng o => inl (inl o) | Hp n => inl (inr n) | Ext n => inr n end.
Definition base_dec (x : oid + positive + positive) : base :=
  match x with inl (inl o) => Sng o | inl (inr n) => Hp n | inr n => Ext n end.
Global Instance base_countable : Countable base.
Proof. refine (inj_countable' base_enc base_dec _). by intros []. Defined.

(** A pointer is a block and an offset counted in elements (digits or bytes).
    Offsets may leave the block: only accesses are checked. *)
Notation ptr := (base * Z)%type.

(** An element of an array: [None] is an indeterminate value. *)
Notation cell := (option Z).

(** The four fields of [mpz_t] other than [single] (imath.h 62-68).  [digits]
    is [None] when NULL. *)
Record mpz : Type := Mpz {
  digits : option ptr;
  alloc : Z;
  used : Z;
  sign : Z
}.

(** Global variables: [default_precision] and [multiply_threshold]
    (imath.c 196, 204). *)
Record globals : Type := Globals { default_precision : Z; multiply_threshold : Z }.

Notation memory := (gmap base (list cell)).

Record state : Type := State {
  objs : gmap oid mpz;
  mem : memory;
  glob : globals
}.

Definition padd (p : ptr) (n : Z) : ptr := (p.1, p.2 + n).
Notation "p +p n" := (padd p n) (at level 50, left associativity).

(** Reading one element; [None] means the access is outside any live block. *)
Definition load (m : memory) (p : ptr) : option cell :=
  if Z.ltb p.2 0 then None else
  match m !! p.1 with
  | Some blk => blk !! Z.to_nat p.2
  | None => None
  end.

(** Overwriting one element (only used on accesses that [load] accepts). *)
Definition store (m : memory) (p : ptr) (c : cell) : memory :=
  alter (fun blk => <[Z.to_nat p.2 := c]> blk) p.1 m.

Definition set_objs (st : state) (o : gmap oid mpz) : state :=
  State o (mem st) (glob st).
Definition set_mem (st : state) (m : memory) : state :=
  State (objs st) m (glob st).
Definition set_glob (st : state) (g : globals) : state :=
  State (objs st) (mem st) g.

(** A free name for a new block or structure, used when the one the environment
    asks for is taken ([pick_hp] etc. in Prog.v). *)
Definition fresh_pos (l : list positive) : positive :=
  Pos.succ (foldr Pos.max 1%positive l).

Definition hp_ids (m : memory) : list positive :=
  omap (fun kv => match kv.1 with Hp n => Some n | _ => None end) (map_to_list m).
Definition ext_ids (m : memory) : list positive :=
  omap (fun kv => match kv.1 with Ext n => Some n | _ => None end) (map_to_list m).
(* names of [single] cells are included so that a new structure never meets a
   leftover one *)
Definition obj_ids (st : state) : list positive :=
  ((fun kv => kv.1.2) <$> map_to_list (objs st)) ++
  omap (fun kv => match kv.1 with Sng o => Some o.2 | _ => None end) (map_to_list (mem st)).

Definition new_hp (m : memory) : positive := fresh_pos (hp_ids m).
Definition new_ext (m : memory) : positive := fresh_pos (ext_ids m).
Definition new_obj (st : state) : positive := fresh_pos (obj_ids st).

(** The largest request, in digits, that the allocator may grant: 2^25 digits,
    128 MiB.  See DESIGN.md section 1. *)
Definition MAXD : Z := 2 ^ 25.
