(** Threads that use integers and rationals side by side: which parts of the store
    each may use, and what is shared.  Extends [SpecConc]; independent of the
    library. *)
From Coq Require Import ZArith List QArith.
From stdpp Require Import gmap list.
From Verif Require Import Mem Prog Kern Spec SpecBin SpecHist SpecRat SpecDec SpecQHist SpecConc.
Local Open Scope Z_scope.
Local Open Scope list_scope.

(** The integers a call changes (members of rationals included), the caller's
    buffers it writes, and whether it changes the tunables. *)
Definition qchanges (c : qcall) : list oid :=
  match c with
  | Int c => outputs c
  | QNumer _ c | QDenom _ c => [c]
  | _ => flat_map (fun r : rid => [fst r; snd r]) (qoutputs c)
  end.
Definition qwritten (c : qcall) : list base :=
  match c with Int c => written c | QToString _ _ b _ _ | QToDecimal _ _ _ _ b _ _ => [b] | _ => [] end.
Definition qtunes (c : qcall) : bool := match c with Int c => tunes c | _ => false end.

(** A call that leaves alone the integers [I] and the buffers [B]. *)
Definition qspares (I : gset oid) (B : gset base) (c : qcall) : Prop :=
  (forall o, o ∈ qchanges c -> o ∉ I) /\ (forall b, b ∈ qwritten c -> b ∉ B) /\ qtunes c = false.

(** A client that keeps to the rules and leaves alone what is shared, whatever the
    store answers. *)
Fixpoint qfair (I : gset oid) (B : gset base) (k : qclient) (M : mixed) : Prop :=
  match k with
  | QStop => True
  | QThen c k => qlegal c M /\ qspares I B c /\ forall r M', qeffect c M r M' -> qfair I B (k r) M'
  end.

(** The store [M] is divided among the threads: thread number i uses the part
    [Ms !! i], a tidy store in itself.  Only the integers [I], the buffers [B] and
    the rationals [R], whose members are in [I], are in more than one part, and
    they are in all. *)
Record qdivided (I : gset oid) (B : gset base) (R : gset rid) (M : mixed) (Ms : list mixed) : Prop := {
  qd_whole : divided I B (whole M) (whole <$> Ms);
  qd_fracs : forall r x, fracs M !! r = Some x <-> exists N, N ∈ Ms /\ fracs N !! r = Some x;
  qd_tidy : forall N, N ∈ Ms -> tidy N;
  qd_members : forall r, r ∈ R -> fst r ∈ I /\ snd r ∈ I;
  qd_shared : forall N r, N ∈ Ms -> r ∈ R -> there N r;
  qd_own : forall N r, N ∈ Ms -> there N r -> fst r ∈ I \/ snd r ∈ I -> r ∈ R
}.
