(** What a program promises when it does not look at the results of its own requests
    for memory.  Independent of the library. *)
From Coq Require Import ZArith List.
From stdpp Require Import gmap list.
From Verif Require Import Mem Prog.
Local Open Scope Z_scope.

(** Unless a request for memory is refused, the call returns and [Q] holds: no
    assertion fails and nothing is undefined. *)
Definition if_granted {A} (p : prog A) (st : state) (Q : A -> state -> Prop) : Prop :=
  forall orc t,
    match run true orc p t st with
    | Done a st' _ => Q a st'
    | OOM _ | UB => exists t' n, (t <= t')%nat /\ granted orc t' n = false
    | AssertFail | OutOfFuel => False
    end.
(** A block of the heap the program did not have before, holding [s] and at most
    [slack] further cells. *)
Definition fresh_block (W : gmap base (list cell)) (p : ptr) (s : list Z) (slack : nat) (l : list cell) : Prop :=
  exists n rest, p = (Hp n, 0) /\ W !! Hp n = None /\ l = (Some <$> s) ++ rest /\ (length rest <= slack)%nat.
