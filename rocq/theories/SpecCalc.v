(** What the calculator of examples/imcalc.c does, as a machine on integers.  Nothing
    here depends on the library besides the names of its result codes. *)
From Coq Require Import ZArith List String Ascii.
From stdpp Require Import gmap list.
From Verif Require Import Mem Prog Kern Spec SpecBin.
Local Open Scope Z_scope.
Local Open Scope list_scope.

(** The codes of the characters of a text. *)
Fixpoint chars (s : string) : list Z :=
  match s with EmptyString => [] | String c s' => Z.of_nat (nat_of_ascii c) :: chars s' end.

(** The calculator: the operands, the last one first; the variables; the output
    radix (0: bytes); the characters printed so far. *)
Record calc := Calc { stk : list Z; vars : list (list Z * Z); orad : Z; shown : list Z }.
Definition start : calc := Calc [] [] 10 [].
Definition to (l : list Z) (s : calc) : calc := Calc l (vars s) (orad s) (shown s).
Definition print (t : list Z) (s : calc) : calc := Calc (stk s) (vars s) (orad s) (shown s ++ t).

Inductive op := OAbs | ONeg | OAdd | OSub | OMul | ODivmod | ODiv | OMod | OExpt | OExptmod | OSqr | OInv | OGcd | OXgcd | OSqrt | ORoot
| OLt | OGt | OLe | OGe | OEq | ONe | OInc | ODec | OFact | OShowDrop | OShow | OShowStack | OClear | ODrop | ODup | OCopy | OSwap | ORot | OPick
| OForget | OShowVars | OOut | OBin | OHelp.
Definition names : list (string * op) := [
  ("abs", OAbs); ("neg", ONeg); ("+", OAdd); ("add", OAdd); ("-", OSub); ("sub", OSub); ("*", OMul); ("mul", OMul); ("/", ODivmod);
  ("//", ODiv); ("div", ODiv); ("%", OMod); ("mod", OMod); ("^", OExpt); ("expt", OExpt); ("^^", OExptmod); ("emod", OExptmod);
  ("sqr", OSqr); ("inv", OInv); ("gcd", OGcd); ("xgcd", OXgcd); ("sqrt", OSqrt); ("root", ORoot); ("<", OLt); (">", OGt); ("<=", OLe);
  (">=", OGe); ("=", OEq); ("<>", ONe); ("inc", OInc); ("dec", ODec); ("!", OFact); ("fact", OFact); (".", OShowDrop); (";", OShow);
  ("?", OShowStack); ("cls", OClear); ("$", ODrop); ("drop", ODrop); ("dup", ODup); ("copy", OCopy); ("swap", OSwap); ("rot", ORot);
  ("pick", OPick); ("clm", OForget); ("??", OShowVars); ("out", OOut); ("bin", OBin); ("help", OHelp) ]%string.
Definition arity (o : op) : nat :=
  match o with
  | OShowStack | OClear | OForget | OShowVars | OBin | OHelp => 0
  | OAbs | ONeg | OSqr | OSqrt | OInc | ODec | OFact | OShowDrop | OShow | ODrop | ODup | OOut => 1
  | OExptmod | ORot => 3
  | _ => 2
  end.

(** What may be printed for the integer [v]: its numeral, its bytes in two's
    complement, or the remark that there is no memory. *)
Definition nibble (d : Z) : Z := nth (Z.to_nat d) (chars "0123456789abcdef") 0.
Definition dump (bs : list Z) : list Z := 
  match map (fun c => [nibble (c / 16); nibble (c mod 16)]) bs with [] => [] | w :: ws => w ++ concat (map (cons 46) ws) ++ [10] end.
Definition displays (r v : Z) (s : list Z) : Prop :=
  s = chars "<insufficient memory to print>" ++ [10] \/
  (r = 0 /\ exists n, signed_size v n /\ s = dump (be_bytes n v)) \/
  (r <> 0 /\ exists t, numeral r v t /\ s = t ++ [10]).
(** The stack, one integer in each line, with its distance from the top. *)
Fixpoint stack_lines (r : Z) (i : nat) (l : list Z) (s : list Z) : Prop :=
  match l with
  | [] => s = []
  | v :: l' => exists d t s', numeral 10 (Z.of_nat i) d /\ displays r v t /\ stack_lines r (S i) l' s' /\
      s = (if (length d <? 2)%nat then [32] else []) ++ d ++ chars ": " ++ t ++ s'
  end.
(** The variables, one in each line, the values below each other. *)
Fixpoint var_lines (r : Z) (width : nat) (m : list (list Z * Z)) (s : list Z) : Prop :=
  match m with
  | [] => s = []
  | (n, v) :: m' => exists t s', displays r v t /\ var_lines r width m' s' /\ s = n ++ chars ":" ++ repeat 32 (width - length n) ++ t ++ s'
  end.
Definition name_width (m : list (list Z * Z)) : nat := S (list_max (map (fun p => length (fst p)) m)).

Fixpoint factorial (n : nat) : Z := match n with O => 1 | S n' => Z.of_nat (S n') * factorial n' end.
Definition fits (v : Z) : Prop := - 2 ^ 63 < v < 2 ^ 63.
Definition truth (b : bool) : Z := if b then 1 else 0.

(** [effect_of o s r s']: the operator may report [r] and make [s'] of [s]. *)
Definition effect_of (m : bool) (o : op) (s : calc) (r : Z) (s' : calc) : Prop :=
  match o, stk s with
  | OAbs, x :: l => r = MP_OK /\ s' = to (Z.abs x :: l) s
  | ONeg, x :: l => r = MP_OK /\ s' = to (- x :: l) s
  | OAdd, y :: x :: l => r = MP_OK /\ s' = to (x + y :: l) s
  | OSub, y :: x :: l => r = MP_OK /\ s' = to (x - y :: l) s
  | OMul, y :: x :: l => r = MP_OK /\ s' = to (x * y :: l) s
  | ODivmod, y :: x :: l => (y = 0 /\ r = MP_UNDEF /\ s' = s) \/ (y <> 0 /\ r = MP_OK /\ s' = to (Z.rem x y :: Z.quot x y :: l) s)
  | ODiv, y :: x :: l => (y = 0 /\ r = MP_UNDEF /\ s' = s) \/ (y <> 0 /\ r = MP_OK /\ s' = to (Z.quot x y :: l) s)
  | OMod, y :: x :: l => (y = 0 /\ r = MP_UNDEF /\ s' = s) \/
      (y <> 0 /\ r = MP_OK /\ exists z, (0 < y -> z = x mod y) /\ (y | x - z) /\ s' = to (z :: l) s)
  | OExpt, y :: x :: l => (~ fits y /\ r = MP_RANGE /\ s' = s) \/ (fits y /\ y < 0 /\ r = MP_RANGE /\ s' = to (x :: l) s) \/
      (fits y /\ 0 <= y /\ r = MP_OK /\ s' = to (x ^ y :: l) s)
  | OExptmod, m :: y :: x :: l => (m = 0 /\ r = MP_UNDEF /\ s' = s) \/ (m <> 0 /\ y < 0 /\ r = MP_RANGE /\ s' = s) \/
      (m <> 0 /\ 0 <= y /\ r = MP_OK /\ s' = to ((if y =? 0 then 1 else x ^ y mod m) :: l) s)
  | OSqr, x :: l => r = MP_OK /\ s' = to (x * x :: l) s
  | OInv, m :: x :: l => ((x = 0 \/ m <= 0) /\ r = MP_RANGE /\ s' = to (x :: l) s) \/ (x <> 0 /\ 0 < m /\ Z.gcd x m <> 1 /\ r = MP_UNDEF /\ s' = to (x :: l) s) \/
      (x <> 0 /\ 0 < m /\ r = MP_OK /\ exists z, (z * x) mod m = 1 mod m /\ (0 <= z < m \/ m = 1) /\ s' = to (z :: l) s)
  | OGcd, y :: x :: l => (x = 0 /\ y = 0 /\ r = MP_UNDEF /\ s' = s) \/ ((x <> 0 \/ y <> 0) /\ r = MP_OK /\ s' = to (Z.gcd x y :: l) s)
  | OXgcd, y :: x :: l => (m = true /\ r = MP_MEMORY /\ s' = s) \/ (x = 0 /\ y = 0 /\ r = MP_UNDEF /\ s' = s) \/
      ((x <> 0 \/ y <> 0) /\ r = MP_OK /\ exists u v, u * Z.abs x + v * Z.abs y = Z.gcd x y /\ s' = to (v :: u :: Z.gcd x y :: l) s)
  | OSqrt, x :: l => (x < 0 /\ r = MP_UNDEF /\ s' = s) \/ (0 <= x /\ r = MP_OK /\ s' = to (Z.sqrt x :: l) s)
  | ORoot, y :: x :: l => (~ fits y /\ r = MP_RANGE /\ s' = s) \/ (fits y /\ x < 0 /\ Z.even y = true /\ r = MP_UNDEF /\ s' = to (x :: l) s) \/
      (fits y /\ (0 <= x \/ Z.odd y = true) /\ r = MP_OK /\ exists z, 0 <= z /\ z ^ y <= Z.abs x < (z + 1) ^ y /\ s' = to (Z.sgn x * z :: l) s)
  | OLt, y :: x :: l => r = MP_OK /\ s' = to (truth (x <? y) :: l) s
  | OGt, y :: x :: l => r = MP_OK /\ s' = to (truth (y <? x) :: l) s
  | OLe, y :: x :: l => r = MP_OK /\ s' = to (truth (x <=? y) :: l) s
  | OGe, y :: x :: l => r = MP_OK /\ s' = to (truth (y <=? x) :: l) s
  | OEq, y :: x :: l => r = MP_OK /\ s' = to (truth (x =? y) :: l) s
  | ONe, y :: x :: l => r = MP_OK /\ s' = to (truth (negb (x =? y)) :: l) s
  | OInc, x :: l => r = MP_OK /\ s' = to (x + 1 :: l) s
  | ODec, x :: l => r = MP_OK /\ s' = to (x - 1 :: l) s
  | OFact, x :: l => (x < 0 /\ r = MP_UNDEF /\ s' = s) \/ (0 <= x /\ r = MP_OK /\ s' = to (factorial (Z.to_nat x) :: l) s)
  | OShowDrop, x :: l => r = MP_OK /\ exists t, displays (orad s) x t /\ s' = print t (to l s)
  | OShow, x :: l => r = MP_OK /\ exists t, displays (orad s) x t /\ s' = print t s
  | OShowStack, [] => r = MP_OK /\ s' = print (chars "<stack empty>" ++ [10]) s
  | OShowStack, l => r = MP_OK /\ exists t, stack_lines (orad s) 0 l t /\ s' = print t s
  | OClear, _ => r = MP_OK /\ s' = to [] s
  | ODrop, x :: l => r = MP_OK /\ s' = to l s
  | ODup, x :: l => (m = true /\ r = MP_MEMORY /\ s' = s) \/ (r = MP_OK /\ s' = to (x :: x :: l) s)
  | OCopy, n :: l => ((~ fits n \/ n < 1 \/ Z.of_nat (length l) < n) /\ r = MP_RANGE /\ s' = s) \/
      (1 <= n <= Z.of_nat (length l) /\ r = MP_OK /\ s' = to (take (Z.to_nat n) l ++ l) s) \/
      (1 <= n <= Z.of_nat (length l) /\ m = true /\ r = MP_MEMORY /\ exists j, (1 <= j <= Z.to_nat n)%nat /\ s' = to (drop j (take (Z.to_nat n) l) ++ l) s)
  | OSwap, y :: x :: l => r = MP_OK /\ s' = to (x :: y :: l) s
  | ORot, c :: b :: a :: l => r = MP_OK /\ s' = to (a :: c :: b :: l) s
  | OPick, n :: l => ((~ fits n \/ n < 0 \/ Z.of_nat (length l) <= n) /\ r = MP_RANGE /\ s' = s) \/
      (0 <= n < Z.of_nat (length l) /\ r = MP_OK /\ s' = to (nth (Z.to_nat n) l 0 :: l) s)
  | OForget, _ => r = MP_OK /\ s' = Calc (stk s) [] (orad s) (shown s)
  | OShowVars, _ => r = MP_OK /\ match vars s with
      | [] => s' = print (chars "<memory empty>" ++ [10]) s
      | m => exists t, var_lines (orad s) (name_width m) m t /\ s' = print t s
      end
  | OOut, x :: l => ((~ fits x \/ x < 2 \/ 36 < x) /\ r = MP_RANGE /\ s' = s) \/ (2 <= x <= 36 /\ r = MP_OK /\ s' = Calc l (vars s) x (shown s))
  | OBin, _ => r = MP_OK /\ s' = Calc (stk s) (vars s) 0 (shown s)
  | OHelp, _ => r = MP_OK /\ s' = s
  | _, _ => False
  end.

(** The conditions under which an operator works at all. *)
Definition printable (r v : Z) : Prop := r = 0 \/ r = 10 \/ Z.abs v < 2 ^ 20000.
Definition allowed (o : op) (s : calc) : Prop :=
  match o, stk s with
  | OExpt, y :: _ => y <> - 2 ^ 63 /\ (y < 2 ^ 32 \/ ~ fits y)
  | ORoot, y :: _ => y <> - 2 ^ 63 /\ (1 <= y < 2 ^ 32 \/ ~ fits y)
  | OExptmod, m :: y :: _ => 0 <= y -> 0 <= m
  | (OCopy | OPick | OOut), n :: _ => n <> - 2 ^ 63
  | (OShowDrop | OShow), v :: _ => printable (orad s) v
  | OShowStack, l => Forall (printable (orad s)) l
  | OShowVars, _ => Forall (fun p => printable (orad s) (snd p)) (vars s)
  | _, _ => True
  end.

(** Variables. *)
Fixpoint get_var (n : list Z) (m : list (list Z * Z)) : option Z :=
  match m with [] => None | (k, v) :: m' => if decide (n = k) then Some v else get_var n m' end.
Fixpoint set_var (n : list Z) (v : Z) (m : list (list Z * Z)) : list (list Z * Z) :=
  match m with [] => [(n, v)] | (k, w) :: m' => if decide (n = k) then (k, v) :: m' else (k, w) :: set_var n v m' end.

(** The commands, and what they do; [None]: no operation was started. *)
Inductive cmd := Number (v : Z) | Do (o : op) | Save (n : list Z) | Recall (n : list Z) | Word (n : list Z).
Definition pushes (m : bool) (v : Z) (s : calc) (r : option Z) (s' : calc) : Prop :=
  (r = Some MP_OK /\ s' = to (v :: stk s) s) \/ (m = true /\ r = Some MP_MEMORY /\ s' = s).
Definition does (m : bool) (c : cmd) (s : calc) (r : option Z) (s' : calc) : Prop :=
  match c with
  | Number v => pushes m v s r s'
  | Do o => if (length (stk s) <? arity o)%nat then r = None /\ s' = s else exists k, r = Some k /\ effect_of m o s k s'
  | Save n => exists x l, stk s = x :: l /\ r = Some MP_OK /\ s' = Calc l (set_var n x (vars s)) (orad s) (shown s)
  | Recall n => match get_var n (vars s) with
      | Some v => pushes m v s r s'
      | None => (r = Some MP_UNDEF \/ (m = true /\ r = Some MP_MEMORY)) /\ s' = s
      end
  | Word n => match get_var n (vars s) with Some v => pushes m v s r s' | None => r = None /\ s' = s end
  end.
Definition possible (c : cmd) (s : calc) : Prop :=
  match c with
  | Do o => (arity o <= length (stk s))%nat -> allowed o s
  | Save _ => stk s <> []
  | _ => True
  end.

(** A run: the code reported last, and the calculator afterwards. *)
Inductive runs (m : bool) : list cmd -> Z -> calc -> Z -> calc -> Prop :=
| runs_nil k s : runs m [] k s k s
| runs_cons c cs k s r s' k' s'' : does m c s r s' -> runs m cs (default k r) s' k' s'' -> runs m (c :: cs) k s k' s''.
(** All commands of a run can be carried out, whatever those before them did. *)
Fixpoint workable (m : bool) (cs : list cmd) (s : calc) : Prop :=
  match cs with [] => True | c :: cs' => possible c s /\ forall r s', does m c s r s' -> workable m cs' s' end.

(** ** The notation *)
Definition is_digit (c : Z) : Prop := 48 <= c <= 57.
Definition lower (c : Z) : Z := if (65 <=? c) && (c <=? 90) then c + 32 else c.
(** The radix, given before the digits by # and a letter. *)
Definition radix_mark (p : list Z) (r : Z) : Prop :=
  (p = [] /\ r = 10) \/ (map lower p = chars "#b" /\ r = 2) \/ (map lower p = chars "#o" /\ r = 8) \/ (map lower p = chars "#d" /\ r = 10) \/ (map lower p = chars "#x" /\ r = 16).
Definition number_word (w : list Z) (v : Z) : Prop :=
  exists p r sg body ds, radix_mark p r /\ (sg = [] \/ sg = chars "-") /\ body <> [] /\
    Forall2 (fun c d => digit_of c = Some d /\ d < r) body ds /\
    w = p ++ sg ++ body /\ v = (if decide (sg = []) then horner r ds else - horner r ds).
(** A name: no digits and no spaces. *)
Definition name_word (w : list Z) : Prop :=
  w <> [] /\ head w <> Some 35 /\ Forall (fun c => ~ is_space c /\ ~ is_digit c /\ c <> 0) w.
Definition spelling (c : cmd) (w : list Z) : Prop :=
  match c with
  | Number v => number_word w v
  | Do o => exists n, In (n, o) names /\ map lower w = chars n
  | Save n => exists sp, sp <> [] /\ Forall is_space sp /\ name_word n /\ w = chars ">>" ++ sp ++ n
  | Recall n => exists sp, sp <> [] /\ Forall is_space sp /\ name_word n /\ w = chars "<<" ++ sp ++ n
  | Word n => w = n /\ name_word n /\ ~ In (map lower n) (chars ">>" :: chars "<<" :: map (fun p => chars (fst p)) names)
  end.
(** The commands [cs] written as the text [s], with spaces between them. *)
Inductive written : list cmd -> list Z -> Prop :=
| written_end sp : Forall is_space sp -> written [] sp
| written_cmd sp c w cs s : Forall is_space sp -> spelling c w -> Z.of_nat (length w) < 16384 -> written cs s ->
    (s = [] \/ exists b s', s = b :: s' /\ is_space b) -> written (c :: cs) (sp ++ w ++ s).
