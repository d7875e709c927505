(** Threads that use the GMP interface: what a call writes and what a client has to
    leave alone.  Extends [SpecQConc]; independent of the library. *)
From Coq Require Import ZArith List QArith.
From stdpp Require Import gmap list.
From Verif Require Import Mem Prog Kern Spec SpecBin SpecHist SpecRat SpecDec SpecQHist SpecGmp SpecGstr SpecGHist SpecConc SpecQConc.
Local Open Scope Z_scope.
Local Open Scope list_scope.

(** The caller's buffers a call writes (the integers it changes are [changed]), and
    whether it changes the tunables. *)
Definition gwritten (c : gcall) : list base :=
  match c with Lib c => qwritten c | ZGetStr b _ _ _ | ZExport b _ _ _ _ _ | PGetStr b _ _ _ => [b] | _ => [] end.
Definition gtunes (c : gcall) : bool := match c with Lib c => qtunes c | _ => false end.

(** A call that leaves alone the integers [I] (members of rationals among them) and
    the buffers [B]. *)
Definition gspares (I : gset oid) (B : gset base) (c : gcall) : Prop :=
  (forall o, o ∈ changed c -> o ∉ I) /\ (forall b, b ∈ gwritten c -> b ∉ B) /\ gtunes c = false.

(** A client that keeps to the rules and leaves alone what is shared, whatever the
    store answers. *)
Fixpoint gfair (I : gset oid) (B : gset base) (k : gclient) (M : mixed) : Prop :=
  match k with
  | GStop => True
  | GThen c k => glegal c M /\ gspares I B c /\ forall r M', geffect c M r M' -> gfair I B (k r) M'
  end.
