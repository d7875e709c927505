(** The text of rational numbers, as fractions and with a radix point. *)
From Coq Require Import ZArith List QArith.
From stdpp Require Import gmap list.
From Verif Require Import Mem Spec SpecRat SpecHist.
Local Open Scope Z_scope.

(** ** Fractions *)
(** The numeral of the numerator and, unless it is zero, a slash and the numeral
    of the denominator. *)
Definition rat_text (r : Z) (q : Q) (s : list Z) : Prop :=
  exists n d, numeral r (Qnum (Qred q)) n /\ numeral r (Zpos (Qden (Qred q))) d /\
    s = if Qnum (Qred q) =? 0 then n else n ++ 47 :: d.
(** Reading an integer off the front of [s]: white space, a sign or none, digits
    of radix [r] (as many as there are) with the value [v], and the rest. *)
Definition reads (r : Z) (s : list Z) (v : Z) (rest : list Z) : Prop :=
  exists sp sg body ds, shape r s sp sg body ds rest /\ v = (if decide (sg = [45]) then - horner r ds else horner r ds).

(** ** Rounding *)
Inductive rounding : Type := Down | Half_up | Up | Half_down.
(** The library's numbers for them (imrat.h 42-47). *)
Definition rounding_code (m : rounding) : Z := match m with Down => 0 | Half_up => 1 | Up => 2 | Half_down => 3 end.
(** [N] is the quotient of [n] by [d] rounded to an integer: down; up; to the
    nearest one, of two equally near ones to the larger or the smaller. *)
Definition rounds (m : rounding) (n d N : Z) : Prop :=
  match m with
  | Down => N * d <= n < (N + 1) * d
  | Up => (N - 1) * d < n <= N * d
  | Half_up => 2 * n - d < 2 * (N * d) <= 2 * n + d
  | Half_down => 2 * n - d <= 2 * (N * d) < 2 * n + d
  end.
(** Exactly [k] digits with the value [f]. *)
Definition fixed (r : Z) (k : nat) (f : Z) (s : list Z) : Prop :=
  exists ds, length ds = k /\ Forall (fun d => 0 <= d < r) ds /\ horner r ds = f /\ s = map digit_char ds.
(** [N / r^prec], with a minus sign if [neg], written with [prec] digits after the
    point. *)
Definition decimal_text (r : Z) (prec : nat) (neg : bool) (N : Z) (s : list Z) : Prop :=
  exists i f, numeral r (N / r ^ Z.of_nat prec) i /\ fixed r prec (N mod r ^ Z.of_nat prec) f /\
    s = (if neg && negb (N =? 0) then [45] else []) ++ i ++ (if (prec =? 0)%nat then [] else 46 :: f).

(** ** Reading a radix point *)
(** White space, a sign or none, digits, a point, digits (as many as there are),
    and the rest: the number is [q].  The point is not followed by white space or a
    sign. *)
Definition reads_point (r : Z) (s : list Z) (q : Q) (rest : list Z) : Prop :=
  exists sp sg ib ids fb fds, s = sp ++ sg ++ ib ++ 46 :: fb ++ rest /\
  Forall is_space sp /\ (sg = [] \/ sg = [43] \/ sg = [45]) /\
  Forall2 (fun c d => digit_of c = Some d /\ d < r) ib ids /\ Forall2 (fun c d => digit_of c = Some d /\ d < r) fb fds /\
  (forall c d, head rest = Some c -> ~ (digit_of c = Some d /\ d < r)) /\
  (forall c, head (fb ++ rest) = Some c -> ~ is_space c /\ c <> 43 /\ c <> 45) /\
  q = frac ((if decide (sg = [45]) then -1 else 1) * horner r (ids ++ fds)) (r ^ Z.of_nat (length fds)).
