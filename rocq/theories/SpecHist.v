(** A store of integers: what a client of the library may think it is working
    with.  Independent of the library; only the names of its calls, its result
    codes and the caller's buffers appear.

    [legal c S] are the conditions under which a call may be made, [effect c S r S']
    says that it may answer [r] and leave the store [S']. *)
From Coq Require Import ZArith Znumtheory List.
From stdpp Require Import gmap list.
From Verif Require Import Mem Prog Kern Spec SpecBin.
Local Open Scope Z_scope.

Record store : Type := Store {
  ints : gmap oid Z;       (* the initialised handles and the integers they hold *)
  raws : gmap oid bool;    (* structures that hold none; [true]: cleared by the library *)
  dyns : gset oid;         (* the handles obtained from mp_int_alloc *)
  text : memory            (* the caller's buffers *)
}.

Inductive call : Type :=
| Init (o : oid) | InitSize (o : oid) (n : Z) | InitCopy (o a : oid) | InitValue (o : oid) (v : Z) | InitUvalue (o : oid) (v : Z)
| Clear (o : oid) | Alloc | FreeInt (o : oid)
| SetValue (c : oid) (v : Z) | SetUvalue (c : oid) (v : Z) | Copy (a c : oid) | Swap (a c : oid) | Zero (c : oid) | Abs (a c : oid) | Neg (a c : oid)
| Add (a b c : oid) | AddValue (a : oid) (v : Z) (c : oid) | Sub (a b c : oid) | SubValue (a : oid) (v : Z) (c : oid)
| Mul (a b c : oid) | MulValue (a : oid) (v : Z) (c : oid) | MulPow2 (a : oid) (k : Z) (c : oid) | Sqr (a c : oid)
| Div (a b : oid) (q r : option oid) | DivValue (a : oid) (v : Z) (q : option oid) | DivPow2 (a : oid) (k : Z) (q r : option oid)
| Mod (a m c : oid) | Expt (a : oid) (k : Z) (c : oid) | ExptValue (v k : Z) (c : oid) | ExptFull (a b c : oid)
| Compare (a b : oid) | CompareUnsigned (a b : oid) | CompareZero (a : oid) | CompareValue (a : oid) (v : Z) | CompareUvalue (a : oid) (v : Z)
| DivisibleValue (a : oid) (v : Z) | IsPow2 (a : oid) | IsOdd (a : oid) | IsEven (a : oid)
| Exptmod (a b m c : oid) | ExptmodEvalue (a : oid) (v : Z) (m c : oid) | ExptmodBvalue (v : Z) (b m c : oid) | ExptmodKnown (a b m mu c : oid)
| ReduxConst (m c : oid) | Invmod (a m c : oid) | Gcd (a b c : oid) | Egcd (a b c : oid) (x y : option oid) | Lcm (a b c : oid)
| Root (a : oid) (k : Z) (c : oid)
| ToInt (a : oid) | ToUint (a : oid)
| CountBits (a : oid) | StringLen (a : oid) (r : Z) | ToString (a : oid) (r : Z) (b : base) (off : nat) (limit : Z)
| ReadString (c : oid) (r : Z) (s : list Z) | ReadCString (c : oid) (r : Z) (s : list Z)
| UnsignedLen (a : oid) | BinaryLen (a : oid)
| ToUnsigned (a : oid) (b : base) (off limit : nat) | ToBinary (a : oid) (b : base) (off limit : nat)
| ReadUnsigned (c : oid) (b : base) (off len : nat) | ReadBinary (c : oid) (b : base) (off len : nat)
| DefaultPrecision (n : Z) | MultiplyThreshold (n : Z).

Inductive answer : Type :=
| Nothing                          (* void *)
| Num (r : Z)                      (* a result code, an order or a length *)
| Flag (b : bool)
| Small (r : Z) (v : option Z)     (* a result code and the machine word stored, if any *)
| Handle (o : option oid)          (* a pointer to a new integer, or NULL *)
| Rest (r : Z) (s : list Z).       (* a result code and the characters left over *)

Definition has (S : store) (a : oid) : Prop := is_Some (ints S !! a).
Definition has_opt (S : store) (a : option oid) : Prop := live a (ints S).
Definition val (S : store) (a : oid) : Z := default 0 (ints S !! a).
Definition blank_at (S : store) (o : oid) : Prop := is_Some (raws S !! o).

(** Storing an integer; turning a blank structure into an integer. *)
Definition put_int (c : oid) (v : Z) (S : store) : store := Store (<[c := v]> (ints S)) (raws S) (dyns S) (text S).
Definition put_opt (c : option oid) (v : Z) (S : store) : store := Store (assign c v (ints S)) (raws S) (dyns S) (text S).
Definition put_new (o : oid) (v : Z) (S : store) : store := Store (<[o := v]> (ints S)) (delete o (raws S)) (dyns S) (text S).
Definition put_text (b : base) (l : list cell) (S : store) : store := Store (ints S) (raws S) (dyns S) (<[b := l]> (text S)).

Definition small (v : Z) : Prop := - 2 ^ 63 < v < 2 ^ 63.
Definition usmall (v : Z) : Prop := 0 <= v < 2 ^ 64.
(** Modular powers; 1 is stored for exponent 0, which for modulus 1 is not 1 mod 1. *)
Definition power_mod (a b m : Z) : Z := if b =? 0 then 1 else a ^ b mod m.

(** The shape of a string in radix [r]: white space, sign, digits, rest. *)
Definition shape (r : Z) (s sp sg body ds rest : list Z) : Prop :=
  s = sp ++ sg ++ body ++ rest /\ Forall is_space sp /\ (sg = [] \/ sg = [43] \/ sg = [45]) /\
  Forall2 (fun c d => digit_of c = Some d /\ d < r) body ds /\
  (forall c d, head rest = Some c -> ~ (digit_of c = Some d /\ d < r)) /\
  (sg = [] -> forall c, head (body ++ rest) = Some c -> ~ is_space c /\ c <> 43 /\ c <> 45).

Definition legal (c : call) (S : store) : Prop :=
  match c with
  | Init o => blank_at S o
  | InitSize o n => blank_at S o /\ 0 <= n < 2 ^ 32 - 1
  | InitCopy o a => blank_at S o /\ has S a
  | InitValue o v => blank_at S o /\ small v
  | InitUvalue o v => blank_at S o /\ usmall v
  | Clear o => has S o \/ raws S !! o = Some true
  | Alloc => True
  | FreeInt o => has S o /\ o ∈ dyns S
  | SetValue c v => has S c /\ small v
  | SetUvalue c v => has S c /\ usmall v
  | Copy a c | Swap a c | Abs a c | Neg a c | Sqr a c | Compare a c | CompareUnsigned a c => has S a /\ has S c
  | Zero c | CompareZero c | IsOdd c | IsEven c | ToUint c | CountBits c | UnsignedLen c | BinaryLen c | IsPow2 c => has S c
  | Add a b c | Sub a b c | Mul a b c | Mod a b c | Gcd a b c | Lcm a b c | Invmod a b c => has S a /\ has S b /\ has S c
  | AddValue a v c | SubValue a v c | MulValue a v c => has S a /\ has S c /\ small v
  | MulPow2 a k c => has S a /\ has S c /\ 0 <= k < 2 ^ 32
  | Div a b q r => has S a /\ has S b /\ has_opt S q /\ has_opt S r /\ q <> r
  | DivValue a v q => has S a /\ has_opt S q /\ small v
  | DivPow2 a k q r => has S a /\ has_opt S q /\ has_opt S r /\ q <> r /\ 0 <= k < 2 ^ 32 /\
      (q = Some a -> r = None) /\ (r <> None -> val S a < 0 -> Z.rem (val S a) (2 ^ k) <> 0)
  | Expt a k c => has S a /\ has S c /\ k < 2 ^ 32
  | ExptValue v k c => has S c /\ small v /\ k < 2 ^ 32
  | ExptFull a b c => has S a /\ has S b /\ has S c /\ b <> c
  | CompareValue a v => has S a /\ - 2 ^ 63 <= v < 2 ^ 63
  | CompareUvalue a v => has S a /\ usmall v
  | DivisibleValue a v => has S a /\ small v /\ v <> 0
  | ToInt a => has S a /\ val S a <> - 2 ^ 63
  | Exptmod a b m c => has S a /\ has S b /\ has S m /\ has S c /\ (0 <= val S b -> 0 <= val S m)
  | ExptmodEvalue a v m c => has S a /\ has S m /\ has S c /\ small v /\ (0 <= v -> 0 <= val S m)
  | ExptmodBvalue v b m c => has S b /\ has S m /\ has S c /\ small v /\ (0 <= val S b -> 0 <= val S m)
  | ExptmodKnown a b m mu c => has S a /\ has S b /\ has S m /\ has S mu /\ has S c /\ c <> mu /\ (0 <= val S b -> 0 <= val S m) /\
      (0 < val S m -> 0 <= val S b -> Z.abs (val S mu) = barrett_const (val S m))
  | ReduxConst m c => has S m /\ has S c /\ m <> c /\ 0 < val S m
  | Egcd a b c x y => has S a /\ has S b /\ has S c /\ has_opt S x /\ has_opt S y /\ (is_Some x \/ is_Some y) /\
      (val S a = 0 \/ val S b = 0 -> is_Some x /\ is_Some y)
  | Root a k c => has S a /\ has S c /\ 1 <= k < 2 ^ 32
  | StringLen a r => has S a /\ 2 <= r <= 36
  | ToString a r b off limit => has S a /\ 2 <= r <= 36 /\ 2 <= limit /\ exists l, text S !! b = Some l /\ (off + Z.to_nat limit + 1 <= length l)%nat
  | ReadString c r s | ReadCString c r s => has S c /\ 2 <= r <= 36 /\ Z.of_nat (length s) < 2 ^ 31
  | ToUnsigned a b off limit => has S a /\ exists l, text S !! b = Some l /\ (off + limit <= length l)%nat
  | ToBinary a b off limit => has S a /\ (1 <= limit)%nat /\ exists l, text S !! b = Some l /\ (off + limit <= length l)%nat
  | ReadUnsigned c b off len | ReadBinary c b off len => has S c /\ (1 <= len)%nat /\ Z.of_nat len < 2 ^ 28 /\
      exists l bs, text S !! b = Some l /\ has_bytes l off bs /\ length bs = len
  | DefaultPrecision n => 0 < n < 2 ^ 32 - 1
  | MultiplyThreshold n => 8 <= n < 2 ^ 32
  end.

Definition effect (c : call) (S : store) (r : answer) (S' : store) : Prop :=
  match c with
  | Init o | InitSize o _ => r = Num MP_OK /\ S' = put_new o 0 S
  | InitCopy o a => r = Num MP_OK /\ S' = put_new o (val S a) S
  | InitValue o v | InitUvalue o v => r = Num MP_OK /\ S' = put_new o v S
  | Clear o => r = Nothing /\ S' = Store (delete o (ints S)) (<[o := true]> (raws S)) (dyns S) (text S)
  | Alloc => (r = Handle None /\ S' = S) \/
      exists o, ints S !! o = None /\ raws S !! o = None /\ r = Handle (Some o) /\ S' = Store (<[o := 0]> (ints S)) (raws S) ({[o]} ∪ dyns S) (text S)
  | FreeInt o => r = Nothing /\ S' = Store (delete o (ints S)) (raws S) (dyns S ∖ {[o]}) (text S)
  | SetValue c v | SetUvalue c v => r = Num MP_OK /\ S' = put_int c v S
  | Copy a c => r = Num MP_OK /\ S' = put_int c (val S a) S
  | Swap a c => r = Nothing /\ S' = put_int c (val S a) (put_int a (val S c) S)
  | Zero c => r = Nothing /\ S' = put_int c 0 S
  | Abs a c => r = Num MP_OK /\ S' = put_int c (Z.abs (val S a)) S
  | Neg a c => r = Num MP_OK /\ S' = put_int c (- val S a) S
  | Add a b c => r = Num MP_OK /\ S' = put_int c (val S a + val S b) S
  | AddValue a v c => r = Num MP_OK /\ S' = put_int c (val S a + v) S
  | Sub a b c => r = Num MP_OK /\ S' = put_int c (val S a - val S b) S
  | SubValue a v c => r = Num MP_OK /\ S' = put_int c (val S a - v) S
  | Mul a b c => r = Num MP_OK /\ S' = put_int c (val S a * val S b) S
  | MulValue a v c => r = Num MP_OK /\ S' = put_int c (val S a * v) S
  | MulPow2 a k c => r = Num MP_OK /\ S' = put_int c (val S a * 2 ^ k) S
  | Sqr a c => r = Num MP_OK /\ S' = put_int c (val S a * val S a) S
  | Div a b q t => if val S b =? 0 then r = Num MP_UNDEF /\ S' = S
      else r = Num MP_OK /\ S' = put_opt t (Z.rem (val S a) (val S b)) (put_opt q (Z.quot (val S a) (val S b)) S)
  | DivValue a v q => if v =? 0 then r = Small MP_UNDEF None /\ S' = S
      else r = Small MP_OK (Some (Z.rem (val S a) v)) /\ S' = put_opt q (Z.quot (val S a) v) S
  | DivPow2 a k q t => r = Num MP_OK /\ S' = put_opt t (Z.rem (val S a) (2 ^ k)) (put_opt q (Z.quot (val S a) (2 ^ k)) S)
  | Mod a m c => if val S m =? 0 then r = Num MP_UNDEF /\ S' = S
      else exists x, (0 < val S m -> x = val S a mod val S m) /\ (val S m | val S a - x) /\ r = Num MP_OK /\ S' = put_int c x S
  | Expt a k c => if k <? 0 then r = Num MP_RANGE /\ S' = S else r = Num MP_OK /\ S' = put_int c (val S a ^ k) S
  | ExptValue v k c => if k <? 0 then r = Num MP_RANGE /\ S' = S else r = Num MP_OK /\ S' = put_int c (v ^ k) S
  | ExptFull a b c => if val S b <? 0 then r = Num MP_RANGE /\ S' = S else r = Num MP_OK /\ S' = put_int c (val S a ^ val S b) S
  | Compare a b => exists n, r = Num n /\ ordered n (val S a) (val S b) /\ S' = S
  | CompareUnsigned a b => exists n, r = Num n /\ ordered n (Z.abs (val S a)) (Z.abs (val S b)) /\ S' = S
  | CompareZero a => exists n, r = Num n /\ ordered n (val S a) 0 /\ S' = S
  | CompareValue a v | CompareUvalue a v => exists n, r = Num n /\ ordered n (val S a) v /\ S' = S
  | DivisibleValue a v => exists b, r = Flag b /\ (b = true <-> (v | val S a)) /\ S' = S
  | IsPow2 a => exists n, r = Num n /\ S' = S /\ (val S a <> 0 ->
      (0 <= n /\ Z.abs (val S a) = 2 ^ n) \/ (n = -1 /\ forall j, 0 <= j -> Z.abs (val S a) <> 2 ^ j))
  | IsOdd a => r = Flag (Z.odd (val S a)) /\ S' = S
  | IsEven a => r = Flag (Z.even (val S a)) /\ S' = S
  | Exptmod a b m c => if val S m =? 0 then r = Num MP_UNDEF /\ S' = S else if val S b <? 0 then r = Num MP_RANGE /\ S' = S
      else r = Num MP_OK /\ S' = put_int c (power_mod (val S a) (val S b) (val S m)) S
  | ExptmodEvalue a v m c => if val S m =? 0 then r = Num MP_UNDEF /\ S' = S else if v <? 0 then r = Num MP_RANGE /\ S' = S
      else r = Num MP_OK /\ S' = put_int c (power_mod (val S a) v (val S m)) S
  | ExptmodBvalue v b m c => if val S m =? 0 then r = Num MP_UNDEF /\ S' = S else if val S b <? 0 then r = Num MP_RANGE /\ S' = S
      else r = Num MP_OK /\ S' = put_int c (power_mod v (val S b) (val S m)) S
  | ExptmodKnown a b m mu c => if val S m =? 0 then r = Num MP_UNDEF /\ S' = S else if val S b <? 0 then r = Num MP_RANGE /\ S' = S
      else r = Num MP_OK /\ S' = put_int c (power_mod (val S a) (val S b) (val S m)) S
  | ReduxConst m c => exists x, r = Num MP_OK /\ Z.abs x = barrett_const (val S m) /\ (0 <= val S c -> 0 <= x) /\ S' = put_int c x S
  | Invmod a m c =>
      (r = Num MP_RANGE /\ (val S a = 0 \/ val S m <= 0) /\ S' = S) \/
      (r = Num MP_UNDEF /\ val S a <> 0 /\ 0 < val S m /\ Z.gcd (val S a) (val S m) <> 1 /\ S' = S) \/
      (r = Num MP_OK /\ val S a <> 0 /\ 0 < val S m /\ Z.gcd (val S a) (val S m) = 1 /\ exists x, (x * val S a) mod val S m = 1 mod val S m /\
         (0 <= x < val S m \/ (x = 1 /\ val S m = 1 /\ val S a < 0)) /\ S' = put_int c x S)
  | Gcd a b c => if (val S a =? 0) && (val S b =? 0) then r = Num MP_UNDEF /\ S' = S else r = Num MP_OK /\ S' = put_int c (Z.gcd (val S a) (val S b)) S
  | Egcd a b c x y =>
      let a0 := Z.abs (val S a) in let b0 := Z.abs (val S b) in
      if (a0 =? 0) && (b0 =? 0) then r = Num MP_UNDEF /\ S' = S
      else r = Num MP_OK /\ exists s t, s * a0 + t * b0 = Z.gcd a0 b0 /\
        (S' = put_opt y t (put_opt x s (put_int c (Z.gcd a0 b0) S)) \/ S' = put_int c (Z.gcd a0 b0) (put_opt y t (put_opt x s S)))
  | Lcm a b c => if (val S a =? 0) && (val S b =? 0) then r = Num MP_UNDEF /\ S' = S
      else exists x, r = Num MP_OK /\ Z.abs x = Z.lcm (val S a) (val S b) /\ S' = put_int c x S
  | Root a k c => (r = Num MP_UNDEF /\ val S a < 0 /\ Z.even k = true /\ S' = S) \/
      (r = Num MP_OK /\ (0 <= val S a \/ Z.odd k = true) /\ exists x, 0 <= x /\ x ^ k <= Z.abs (val S a) < (x + 1) ^ k /\ S' = put_int c (Z.sgn (val S a) * x) S)
  | ToInt a => S' = S /\ if (- 2 ^ 63 <? val S a) && (val S a <? 2 ^ 63) then r = Small MP_OK (Some (val S a)) else r = Small MP_RANGE None
  | ToUint a => S' = S /\ if (0 <=? val S a) && (val S a <? 2 ^ 64) then r = Small MP_OK (Some (val S a)) else r = Small MP_RANGE None
  | CountBits a => exists n, r = Num n /\ S' = S /\ 1 <= n /\ Z.abs (val S a) < 2 ^ n /\ (val S a <> 0 -> 2 ^ (n - 1) <= Z.abs (val S a)) /\ (val S a = 0 -> n = 1)
  | StringLen a k => exists n, r = Num n /\ S' = S /\ (Z.abs (val S a) < 2 ^ 20000 -> forall s, numeral k (val S a) s -> Z.of_nat (length s) + 1 <= n)
  | ToString a k b off limit => exists l s, text S !! b = Some l /\ numeral k (val S a) s /\
      ((Z.of_nat (length s) < limit /\ r = Num MP_OK /\ S' = put_text b (overwrite off (s ++ [0]) l) S) \/
       (limit <= Z.of_nat (length s) /\ r = Num MP_TRUNC /\ exists s', length s' = Z.to_nat limit /\ S' = put_text b (overwrite off (s' ++ [0]) l) S))
  | ReadString c k s => exists sp sg body ds rest, shape k s sp sg body ds rest /\
      r = Num (match rest with [] => MP_OK | _ => MP_TRUNC end) /\ S' = put_int c (if decide (sg = [45]) then - horner k ds else horner k ds) S
  | ReadCString c k s => exists sp sg body ds rest, shape k s sp sg body ds rest /\
      r = Rest (match rest with [] => MP_OK | _ => MP_TRUNC end) rest /\ S' = put_int c (if decide (sg = [45]) then - horner k ds else horner k ds) S
  | UnsignedLen a => exists n, unsigned_size (val S a) n /\ r = Num (Z.of_nat n) /\ S' = S
  | BinaryLen a => exists n, signed_size (val S a) n /\ r = Num (Z.of_nat n) /\ S' = S
  | ToUnsigned a b off limit => exists l n, text S !! b = Some l /\ unsigned_size (val S a) n /\
      r = Num (if (n <=? limit)%nat then MP_OK else MP_TRUNC) /\ S' = put_text b (overwrite off (be_bytes (limit `min` n) (Z.abs (val S a))) l) S
  | ToBinary a b off limit => exists l n, text S !! b = Some l /\ signed_size (val S a) n /\
      r = Num (if (n <=? limit)%nat then MP_OK else MP_TRUNC) /\ S' = put_text b (overwrite off (be_bytes (limit `min` n) (val S a)) l) S
  | ReadUnsigned c b off len => exists l bs, text S !! b = Some l /\ has_bytes l off bs /\ length bs = len /\ r = Num MP_OK /\ S' = put_int c (horner 256 bs) S
  | ReadBinary c b off len => exists l bs, text S !! b = Some l /\ has_bytes l off bs /\ length bs = len /\ r = Num MP_OK /\ S' = put_int c (signed_value bs) S
  | DefaultPrecision _ | MultiplyThreshold _ => r = Nothing /\ S' = S
  end.

(** A client: it makes a call, and what it does next may depend on the answer. *)
Inductive client : Type := Stop | Then (c : call) (k : answer -> client).
(** It keeps to the rules, whatever the store answers. *)
Fixpoint well_behaved (k : client) (S : store) : Prop :=
  match k with
  | Stop => True
  | Then c k => legal c S /\ forall r S', effect c S r S' -> well_behaved (k r) S'
  end.
(** What it may see of the store: the answers, one for each call, and the store at
    the end. *)
Inductive history : client -> store -> list (call * answer) -> store -> Prop :=
| history_stop S : history Stop S [] S
| history_call c k S r S' h S'' : effect c S r S' -> history (k r) S' h S'' -> history (Then c k) S ((c, r) :: h) S''.

(** The handles a call may change. *)
Definition out_opt (o : option oid) : list oid := match o with Some o => [o] | None => [] end.
Definition outputs (c : call) : list oid :=
  match c with
  | Init o | InitSize o _ | InitCopy o _ | InitValue o _ | InitUvalue o _ | Clear o | FreeInt o => [o]
  | SetValue c _ | SetUvalue c _ | Copy _ c | Zero c | Abs _ c | Neg _ c => [c]
  | Swap a c => [a; c]
  | Add _ _ c | AddValue _ _ c | Sub _ _ c | SubValue _ _ c | Mul _ _ c | MulValue _ _ c | MulPow2 _ _ c | Sqr _ c => [c]
  | Div _ _ q r | DivPow2 _ _ q r => out_opt q ++ out_opt r
  | DivValue _ _ q => out_opt q
  | Mod _ _ c | Expt _ _ c | ExptValue _ _ c | ExptFull _ _ c => [c]
  | Exptmod _ _ _ c | ExptmodEvalue _ _ _ c | ExptmodBvalue _ _ _ c | ExptmodKnown _ _ _ _ c | ReduxConst _ c | Invmod _ _ c | Gcd _ _ c | Lcm _ _ c => [c]
  | Egcd _ _ c x y => c :: out_opt x ++ out_opt y
  | Root _ _ c | ReadString c _ _ | ReadCString c _ _ | ReadUnsigned c _ _ _ | ReadBinary c _ _ _ => [c]
  | _ => []
  end.

(** A state of the machine shows the store [S]. *)
Definition shows (st : state) (S : store) : Prop :=
  exists W, Rep st (ints S) W /\ bufs W = text S /\
    (forall o, raws S !! o = None <-> blanks W !! o = None) /\
    (forall o z, raws S !! o = Some true -> blanks W !! o = Some z -> digits z = None) /\
    (forall o, o ∈ dyns S -> o.1 = true).
(** A live structure in good order: the fields agree with the block of digits, at
    least one digit is used, the used digits are determinate 32-bit numbers, the
    leading one is zero only in the number 0, and 0 is not negative. *)
Definition canonical (st : state) (o : oid) : Prop :=
  exists z b cells, objs st !! o = Some z /\ digits z = Some (b, 0) /\ mem st !! b = Some cells /\
    alloc z = Z.of_nat (length cells) /\ 1 <= used z <= alloc z /\ (sign z = MP_ZPOS \/ sign z = MP_NEG) /\
    (forall i, (i < Z.to_nat (used z))%nat -> exists d, cells !! i = Some (Some d) /\ 0 <= d < 2 ^ 32) /\
    (cells !! (Z.to_nat (used z) - 1)%nat = Some (Some 0) -> used z = 1 /\ sign z = MP_ZPOS).

(** Storage: the number of digits the integer [o] can hold without growing. *)
Definition room (st : state) (o : oid) : Z := match objs st !! o with Some z => alloc z | None => 0 end.
(** No integer in [V] has less storage in [st'] than in [st]. *)
Definition no_shrink (st : state) (V : gmap oid Z) (st' : state) : Prop := forall o v, V !! o = Some v -> room st o <= room st' o.

(** [reports p st Q]: in the [NDEBUG] build, whichever requests are refused, [p]
    ends normally, and it returns [MP_MEMORY] unless the outcome satisfies [Q]. *)
Definition reports (p : prog Z) (st : state) (Q : Z -> state -> Prop) : Prop :=
  forall orc t, exists r st' t', run false orc p t st = Done r st' t' /\ (r = MP_MEMORY \/ Q r st').
