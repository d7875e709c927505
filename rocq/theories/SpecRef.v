(** Specification of calls in the [NDEBUG] build when requests for memory are
    refused.  [run false orc p t st] runs [p] in that build; [orc] says which
    requests are granted. *)
From Coq Require Import ZArith.
From Verif Require Import Mem Prog Kern Imath Exec Spec SpecLow.
Local Open Scope Z_scope.
Local Open Scope prog_scope.

(** [withstands p st Q]: whichever requests are refused, [p] returns, and the
    result and the state then satisfy [Q]: no undefined behaviour, no lost run. *)
Definition withstands {A} (p : prog A) (st : state) (Q : A -> state -> Prop) : Prop :=
  forall orc t, exists r st' t', run false orc p t st = Done r st' t' /\ Q r st'.

(** The usual clean-up of a caller: release the output if the call failed. *)
Definition or_clear (c : oid) (p : prog Z) : prog Z :=
  r <- p; if r =? MP_OK then Ret r else mp_int_clear c;; Ret r.

(** [v] has fewer 32-bit digits than the threshold for Karatsuba multiplication
    (imath.c 58-59). *)
Definition short (g : globals) (v : Z) : Prop := Z.abs v < 2 ^ (32 * (multiply_threshold g - 1)).
(** The operands of a product that is made without Karatsuba's method (imath.c
    1890): both short, or one about twice as long as the other. *)
Definition unsplit (g : globals) (x y : Z) : Prop := (short g x /\ short g y) \/ lopsided x y \/ lopsided y x.
