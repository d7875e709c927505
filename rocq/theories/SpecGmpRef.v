(** Specification of the GMP interface in the [NDEBUG] build when requests for
    memory are refused: which values a call may leave in the variables.  [g]
    holds the tunables of the library. *)
From Coq Require Import ZArith List.
From stdpp Require Import gmap list.
From Verif Require Import Mem SpecRef.
Local Open Scope Z_scope.

(** Calls on integers. *)
Inductive zcall : Type :=
| Set_ (c a : oid) | Neg_ (c a : oid) | Abs_ (c a : oid) | SetSi (c : oid) (v : Z) | SetUi (c : oid) (v : Z)
| Mul_ (c a b : oid) | Mul2 (c a : oid) (k : Z) | Gcd_ (c a b : oid) | Swap_ (a b : oid).

(** The variable that is assigned, and the value meant for it. *)
Definition goal (V : gmap oid Z) (x : zcall) : option (oid * Z) :=
  match x with
  | Set_ c a => v ← V !! a; Some (c, v)
  | Neg_ c a => v ← V !! a; Some (c, - v)
  | Abs_ c a => v ← V !! a; Some (c, Z.abs v)
  | SetSi c v | SetUi c v => Some (c, v)
  | Mul_ c a b => v ← V !! a; w ← V !! b; Some (c, v * w)
  | Mul2 c a k => v ← V !! a; Some (c, v * 2 ^ k)
  | Gcd_ c a b => v ← V !! a; w ← V !! b; Some (c, Z.gcd v w)
  | Swap_ _ _ => None
  end%stdpp.
(** [may V x V']: the call [x] on the values [V] may leave [V']: it does its work;
    or it leaves everything as it was; a shift may stop after copying its operand; a
    greatest common divisor may leave any number in its output.  Nothing else. *)
Definition may (V : gmap oid Z) (x : zcall) (V' : gmap oid Z) : Prop :=
  match x with
  | Swap_ a b => exists va vb, V !! a = Some va /\ V !! b = Some vb /\ V' = <[b := va]> (<[a := vb]> V)
  | Gcd_ c _ _ => exists v, V' = <[c := v]> V
  | Mul2 c a _ => (exists v, goal V x = Some (c, v) /\ V' = <[c := v]> V) \/ V' = V \/ (exists v, V !! a = Some v /\ V' = <[c := v]> V)
  | _ => (exists c v, goal V x = Some (c, v) /\ V' = <[c := v]> V) \/ V' = V
  end.
(** The arguments are variables, machine integers are in range, products are made
    without Karatsuba's method. *)
Definition legal (g : globals) (V : gmap oid Z) (x : zcall) : Prop :=
  let var o := is_Some (V !! o) in
  match x with
  | Set_ c a | Neg_ c a | Abs_ c a => var c /\ var a
  | SetSi c v => var c /\ - 2 ^ 63 < v < 2 ^ 63
  | SetUi c v => var c /\ 0 <= v < 2 ^ 64
  | Mul_ c a b => var c /\ exists va vb, V !! a = Some va /\ V !! b = Some vb /\ unsplit g va vb
  | Mul2 c a k => var c /\ var a /\ 0 <= k < 2 ^ 32
  | Gcd_ c a b => var c /\ var a /\ var b
  | Swap_ a b => var a /\ var b
  end.
(** A sequence of calls, each of them legal whatever the earlier ones have done. *)
Fixpoint legal_all (g : globals) (V : gmap oid Z) (l : list zcall) : Prop :=
  match l with
  | [] => True
  | x :: l' => legal g V x /\ forall V', may V x V' -> legal_all g V' l'
  end.
Fixpoint may_all (V : gmap oid Z) (l : list zcall) (V' : gmap oid Z) : Prop :=
  match l with
  | [] => V' = V
  | x :: l' => exists V1, may V x V1 /\ may_all V1 l' V'
  end.
