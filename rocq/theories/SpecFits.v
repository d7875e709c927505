(** Calls that need no memory: the sizes that matter, in digits of 32 bits. *)
From Coq Require Import ZArith List.
From stdpp Require Import gmap list.
From Verif Require Import Mem Prog Kern Spec SpecBin SpecHist.
Local Open Scope Z_scope.

(** [v] can be written with [m] digits. *)
Definition fits (v m : Z) : Prop := 1 <= m /\ Z.abs v < 2 ^ (32 * m).

(** [thrifty N c S]: when every integer of the store [S] has storage for [N] digits,
    the call [c] gets by with the storage there is.  Sums want one digit more than
    the operands; products twice the longer operand, rounded up, an output that is
    not an operand, and operands too short for Karatsuba's method at any threshold
    that may be set; a shift wants a digit for the carry; bytes or characters to be
    read want a digit for every four of them, and two more.  The calls that are not
    listed may ask for memory for temporaries, whatever the storage. *)
Definition thrifty (N : Z) (c : call) (S : store) : Prop :=
  match c with
  | Zero _ | Swap _ _ | Clear _ | FreeInt _ | Compare _ _ | CompareUnsigned _ _ | CompareZero _ | CompareValue _ _ | CompareUvalue _ _
  | IsPow2 _ | IsOdd _ | IsEven _ | ToInt _ | ToUint _ | CountBits _ | StringLen _ _ | UnsignedLen _ | BinaryLen _
  | ToUnsigned _ _ _ _ | ToBinary _ _ _ _ | DefaultPrecision _ | MultiplyThreshold _ => True
  | Copy a _ | Abs a _ | Neg a _ | DivPow2 a _ _ _ => fits (val S a) N
  | SetValue _ _ | SetUvalue _ _ => 2 <= N
  | Add a b _ | Sub a b _ => fits (val S a) (N - 1) /\ fits (val S b) (N - 1)
  | AddValue a _ _ | SubValue a _ _ => fits (val S a) (N - 1) /\ 3 <= N
  | MulPow2 a k _ => exists m, fits (val S a) m /\ m + k / 32 + 1 <= N
  | Mul a b c => c <> a /\ c <> b /\ exists m, m <= 7 /\ fits (val S a) m /\ fits (val S b) m /\ 2 * (m + 1) <= N
  | MulValue a _ c => a <> c /\ exists m, 2 <= m <= 7 /\ fits (val S a) m /\ 2 * (m + 1) <= N
  | Sqr a c => a <> c /\ exists m, m <= 8 /\ fits (val S a) m /\ 2 * (m + 1) <= N
  | ReadString _ _ s | ReadCString _ _ s => Z.of_nat (length s) / 4 + 2 <= N
  | ReadUnsigned _ _ _ len | ReadBinary _ _ _ len => Z.of_nat len / 4 + 2 <= N
  | _ => False
  end.
(** A client all of whose calls are such, whatever the store answers. *)
Fixpoint thrifty_all (N : Z) (k : client) (S : store) : Prop :=
  match k with
  | Stop => True
  | Then c k => thrifty N c S /\ forall r S', effect c S r S' -> thrifty_all N (k r) S'
  end.
(** Every integer has storage for [N] digits. *)
Definition roomy (N : Z) (st : state) (S : store) : Prop := forall o, has S o -> N <= room st o.
(** [sure p st Q]: in both builds, whatever the allocator grants or refuses, [p] ends
    normally with [Q]. *)
Definition sure {A} (p : prog A) (st : state) (Q : A -> state -> Prop) : Prop :=
  forall dbg orc t, exists a st' t', run dbg orc p t st = Done a st' t' /\ Q a st'.
(** A client that first gives the structures [os] storage for [N] digits each, and
    the store it has then. *)
Fixpoint prepare (N : Z) (os : list oid) (k : client) : client :=
  match os with [] => k | o :: os => Then (InitSize o N) (fun _ => prepare N os k) end.
Fixpoint prepared (os : list oid) (S : store) : store :=
  match os with [] => S | o :: os => prepared os (put_new o 0 S) end.
