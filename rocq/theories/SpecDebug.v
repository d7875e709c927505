(** What the build with [DEBUG=1] promises: as [calls] in [Spec], for [run_debug]; and
    memory with lost blocks. *)
From Coq Require Import ZArith List.
From stdpp Require Import gmap list.
From Verif Require Import Mem Prog Debug Spec.
Local Open Scope Z_scope.

Definition calls_debug {A} (p : prog A) (st : state) (Q : A -> state -> Prop) : Prop :=
  forall orc t,
    match run_debug orc p t st with
    | Done a st' _ => Q a st'
    | OOM n => exists t', (t <= t')%nat /\ granted orc t' n = false
    | AssertFail | UB | OutOfFuel => False
    end.
(** [st'] is [st] and, besides, blocks from malloc that nothing points to any more. *)
Definition with_lost (st st' : state) : Prop :=
  objs st' = objs st /\ glob st' = glob st /\ (forall b l, mem st !! b = Some l -> mem st' !! b = Some l) /\
  (forall b l, mem st' !! b = Some l -> mem st !! b = None -> exists n, b = Hp n).
