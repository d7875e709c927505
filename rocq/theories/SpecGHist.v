(** Programs written against the GMP interface: the store of integers and rationals
    of [SpecQHist], which the functions of the GMP interface work on together with
    those of the library.  Independent of the library. *)
From Coq Require Import ZArith Znumtheory List QArith.
From stdpp Require Import gmap list.
From Verif Require Import Mem Prog Kern Spec SpecBin SpecHist SpecRat SpecDec SpecQHist SpecGmp SpecGstr.
Local Open Scope Z_scope.

(** One constructor for each function, the arguments in the order of the C function;
    [Lib] is a call of the library proper. *)
Inductive gcall : Type :=
| Lib (c : qcall)
| ZInit (x : oid) | ZClear (x : oid) | ZSet (c a : oid) | ZSetUi (c : oid) (n : Z) | ZSetSi (c : oid) (n : Z) | ZSwap (a c : oid)
| ZAbs (c a : oid) | ZNeg (c a : oid) | ZAdd (c a b : oid) | ZSub (c a b : oid) | ZMul (c a b : oid) | ZAddMul (c a b : oid) | ZSubMul (c a b : oid)
| ZAddUi (c a : oid) (n : Z) | ZSubUi (c a : oid) (n : Z) | ZMulUi (c a : oid) (n : Z) | ZMul2exp (c a : oid) (k : Z) | ZPowUi (c a : oid) (k : Z)
| ZGcd (c a b : oid) | ZLcm (c a b : oid)
| ZCdivQ (q n d : oid) | ZFdivQ (q n d : oid) | ZFdivR (r n d : oid) | ZTdivQ (q n d : oid) | ZFdivQUi (q n : oid) (d : Z)
| ZDivexact (q n d : oid) | ZDivexactUi (q n : oid) (d : Z) | ZDivisible (n d : oid)
| ZCmp (a b : oid) | ZCmpSi (a : oid) (n : Z) | ZCmpabs (a b : oid) | ZSgn (a : oid) | ZGetUi (a : oid) | ZGetSi (a : oid)
| ZSetStr (c : oid) (s : list Z) (radix : Z) | ZGetStr (b : base) (off : nat) (radix : Z) (a : oid) | ZSizeinbase (a : oid) (radix : Z)
| ZExport (b : base) (off : nat) (order : Z) (size : nat) (endian : Z) (a : oid)
| ZImport (c : oid) (count : nat) (order : Z) (size : nat) (endian : Z) (b : base) (off : nat)
| PInit (r : rid) | PClear (r : rid) | PSet (c a : rid) | PSetUi (c : rid) (n d : Z) | PMul (c a b : rid) | PCmp (a b : rid) | PSgn (a : rid)
| PCanonicalize (r : rid) | PSetStr (c : rid) (s : list Z) (radix : Z) | PGetStr (b : base) (off : nat) (radix : Z) (a : rid).

(** Writing to the numerator or the denominator of a rational as to any integer is
    allowed.  The rational then has no number, until [mpq_canonicalize] makes one
    of the two. *)
Definition lose (os : list oid) (F : gmap rid (option Q)) : gmap rid (option Q) :=
  map_imap (fun r x => Some (if decide (fst r ∈ os \/ snd r ∈ os) then None else x)) F.
Definition put_z (c : oid) (v : Z) (M : mixed) : mixed := Mixed (put_int c v (whole M)) (lose [c] (fracs M)).

Definition glegal (c : gcall) (M : mixed) : Prop :=
  let S := whole M in
  match c with
  | Lib c => qlegal c M
  | ZInit x => blank_at S x
  | ZClear x => has S x /\ ~ member M x
  | ZSet c a | ZSwap c a | ZAbs c a | ZNeg c a | ZCmp c a | ZCmpabs c a | ZDivisible c a => has S c /\ has S a
  | ZSetUi c n => has S c /\ usmall n
  | ZSetSi c n => has S c /\ small n                                 (* the least long: C16_min_refuted *)
  | ZAdd c a b | ZSub c a b | ZMul c a b | ZAddMul c a b | ZSubMul c a b | ZGcd c a b | ZLcm c a b => has S c /\ has S a /\ has S b
  | ZAddUi c a n | ZSubUi c a n | ZMulUi c a n | ZPowUi c a n => has S c /\ has S a /\ usmall n
  | ZMul2exp c a k => has S c /\ has S a /\ 0 <= k < 2 ^ 32          (* C48_mul_2exp_refuted *)
  | ZCdivQ c n d | ZFdivQ c n d | ZFdivR c n d | ZTdivQ c n d => has S c /\ has S n /\ has S d /\ val S d <> 0
  | ZDivexact c n d => has S c /\ has S n /\ has S d /\ val S d <> 0 /\ (val S d | val S n)
  | ZFdivQUi c n d => has S c /\ has S n /\ 0 < d < 2 ^ 64
  | ZDivexactUi c n d => has S c /\ has S n /\ 0 < d < 2 ^ 64 /\ (d | val S n)
  | ZCmpSi a n => has S a /\ - 2 ^ 63 <= n < 2 ^ 63
  | ZSgn a | ZGetUi a => has S a
  | ZGetSi a => has S a /\ val S a <> - 2 ^ 63                       (* C47_get_si_min_refuted *)
  | ZSetStr c s k => has S c /\ 2 <= k <= 36 /\ Z.of_nat (length s) < 2 ^ 31
  | ZGetStr b off k a => has S a /\ 2 <= Z.abs k <= 36 /\ Z.abs (val S a) < 2 ^ 20000 /\
      exists l s, text S !! b = Some l /\ gmp_numeral (k <? 0) (Z.abs k) (val S a) s /\ (off + length s + 1 <= length l)%nat
  | ZSizeinbase a k => has S a /\ 2 <= k <= 36 /\ Z.abs (val S a) < 2 ^ 20000
  | ZExport b off order size endian a => has S a /\ (0 < size)%nat /\ valid_order order /\ valid_endian endian /\
      exists l n, text S !! b = Some l /\ word_count size (val S a) n /\ (off + size * n <= length l)%nat /\ Z.of_nat (size * n) < 2 ^ 63
  | ZImport c n order size endian b off => has S c /\ (0 < size)%nat /\ (0 < n)%nat /\ valid_order order /\ valid_endian endian /\ Z.of_nat (size * n) <= 2 ^ 34 - 8 /\
      exists l bs, text S !! b = Some l /\ has_bytes l off bs /\ length bs = (size * n)%nat
  | PInit r => blank_pair M r
  | PClear r => there M r
  | PSet c a => there M c /\ has_frac M a
  | PSetUi c n d => there M c /\ usmall n /\ 0 < d < 2 ^ 64
  | PMul c a b => there M c /\ has_frac M a /\ has_frac M b
  | PCmp a b => has_frac M a /\ has_frac M b
  | PSgn a => has_frac M a
  | PCanonicalize r => there M r /\ val S (snd r) <> 0
  | PSetStr c s k => there M c /\ 2 <= k <= 36 /\ Z.of_nat (length s) < 2 ^ 31
  | PGetStr b off k a => has_frac M a /\ 2 <= Z.abs k <= 36 /\ Z.abs (Qnum (Qred (qval M a))) < 2 ^ 20000 /\ Zpos (Qden (Qred (qval M a))) < 2 ^ 20000 /\
      exists l s, text S !! b = Some l /\ gmp_ratio (k <? 0) (Z.abs k) (qval M a) s /\ (off + length s + 1 <= length l)%nat /\
        (* two characters are looked at behind the text: C52_mpq_get_str_refuted *)
        (Zpos (Qden (Qred (qval M a))) <> 1 -> forall i, (length s < i <= length s + 2)%nat -> exists c, l !! (off + i)%nat = Some (Some c) /\ 0 <= c < 128)
  end.

Definition geffect (c : gcall) (M : mixed) (r : qanswer) (M' : mixed) : Prop :=
  let S := whole M in
  let wrote c v := r = Plain Nothing /\ M' = put_z c v M in
  let wrote_frac c q := r = Plain Nothing /\ M' = put_frac c q M in
  match c with
  | Lib c => qeffect c M r M'
  | ZInit x => r = Plain Nothing /\ M' = on_whole (put_new x 0 S) M
  | ZClear x => r = Plain Nothing /\ M' = on_whole (Store (delete x (ints S)) (<[x := true]> (raws S)) (dyns S) (text S)) M
  | ZSet c a => wrote c (val S a)
  | ZSetUi c n | ZSetSi c n => wrote c n
  | ZSwap a c => r = Plain Nothing /\ M' = Mixed (put_int c (val S a) (put_int a (val S c) S)) (lose [a; c] (fracs M))
  | ZAbs c a => wrote c (Z.abs (val S a))
  | ZNeg c a => wrote c (- val S a)
  | ZAdd c a b => wrote c (val S a + val S b)
  | ZSub c a b => wrote c (val S a - val S b)
  | ZMul c a b => wrote c (val S a * val S b)
  | ZAddMul c a b => wrote c (val S c + val S a * val S b)
  | ZSubMul c a b => wrote c (val S c - val S a * val S b)
  | ZAddUi c a n => wrote c (val S a + n)
  | ZSubUi c a n => wrote c (val S a - n)
  | ZMulUi c a n => wrote c (val S a * n)
  | ZMul2exp c a k => wrote c (val S a * 2 ^ k)
  | ZPowUi c a k => wrote c (val S a ^ k)
  | ZGcd c a b => wrote c (Z.gcd (val S a) (val S b))
  | ZLcm c a b => wrote c (Z.lcm (val S a) (val S b))
  | ZCdivQ c n d => wrote c (- ((- val S n) / val S d))
  | ZFdivQ c n d => wrote c (val S n / val S d)
  | ZFdivR c n d => wrote c (val S n mod val S d)
  | ZTdivQ c n d => wrote c (Z.quot (val S n) (val S d))
  | ZDivexact c n d => exists v, val S n = v * val S d /\ wrote c v
  | ZDivexactUi c n d => exists v, val S n = v * d /\ wrote c v
  | ZFdivQUi c n d => r = Plain (Num (val S n mod d)) /\ M' = put_z c (val S n / d) M
  | ZDivisible n d => exists b, r = Plain (Flag b) /\ M' = M /\ (b = true <-> (val S d | val S n))
  | ZCmp a b => exists n, r = Plain (Num n) /\ M' = M /\ ordered n (val S a) (val S b)
  | ZCmpSi a v => exists n, r = Plain (Num n) /\ M' = M /\ ordered n (val S a) v
  | ZCmpabs a b => exists n, r = Plain (Num n) /\ M' = M /\ ordered n (Z.abs (val S a)) (Z.abs (val S b))
  | ZSgn a => exists n, r = Plain (Num n) /\ M' = M /\ ordered n (val S a) 0
  | ZGetUi a => r = Plain (Num (Z.abs (val S a) mod 2 ^ 64)) /\ M' = M
  | ZGetSi a => r = Plain (Num (Z.sgn (val S a) * (Z.abs (val S a) mod 2 ^ 63))) /\ M' = M
  | ZSetStr c s k => exists v rest, reads k s v rest /\ r = Plain (Num (match rest with [] => 0 | _ => -1 end)) /\ M' = put_z c v M
  | ZGetStr b off k a => exists l s, text S !! b = Some l /\ gmp_numeral (k <? 0) (Z.abs k) (val S a) s /\
      r = Plain Nothing /\ M' = on_whole (put_text b (overwrite off (s ++ [0]) l) S) M
  | ZSizeinbase a k => exists n D, r = Plain (Num n) /\ M' = M /\ digit_count k (val S a) D /\ D <= n <= D + 1 /\ ((exists j, k = 2 ^ j) -> n = D)
  | ZExport b off order size endian a => exists l n, text S !! b = Some l /\ word_count size (val S a) n /\
      r = Plain (Num (Z.of_nat n)) /\ M' = on_whole (put_text b (overwrite off (words order endian size n (Z.abs (val S a))) l) S) M
  | ZImport c n order size endian b off => exists l v, text S !! b = Some l /\ 0 <= v < 256 ^ Z.of_nat (size * n) /\ has_bytes l off (words order endian size n v) /\ wrote c v
  | PInit o => r = Plain Nothing /\ M' = put_frac_new o 0 M
  | PClear o => r = Plain Nothing /\
      M' = Mixed (Store (delete (snd o) (delete (fst o) (ints S))) (<[snd o := true]> (<[fst o := true]> (raws S))) (dyns S) (text S)) (delete o (fracs M))
  | PSet c a => wrote_frac c (qval M a)
  | PSetUi c n d => wrote_frac c (frac n d)
  | PMul c a b => wrote_frac c (qval M a * qval M b)%Q
  | PCmp a b => exists n, r = Plain (Num n) /\ M' = M /\ qordered n (qval M a) (qval M b)
  | PSgn a => exists n, r = Plain (Num n) /\ M' = M /\ qordered n (qval M a) 0
  | PCanonicalize c => wrote_frac c (frac (val S (fst c)) (val S (snd c)))
  | PSetStr c s k =>
      (* an integer, or two integers and a slash between them, which are stored as they are *)
      (exists n rest, 47 ∉ s /\ reads k s n rest /\ r = Plain (Num (match rest with [] => 0 | _ => -1 end)) /\ M' = put_frac c (inject_Z n) M) \/
      (exists s1 s2 n d rest1 rest2, s = s1 ++ 47 :: s2 /\ 47 ∉ s1 /\ reads k s1 n rest1 /\ reads k s2 d rest2 /\
         r = Plain (Num (match rest1, rest2 with [], [] => 0 | _, _ => -1 end)) /\ M' = spoil c n d M)
  | PGetStr b off k a => exists l s t, text S !! b = Some l /\ gmp_ratio (k <? 0) (Z.abs k) (qval M a) s /\ (length t <= 2)%nat /\
      r = Plain Nothing /\ M' = on_whole (put_text b (overwrite off (s ++ 0 :: t) l) S) M
  end.

(** Clients, their histories. *)
Inductive gclient : Type := GStop | GThen (c : gcall) (k : qanswer -> gclient).
Fixpoint gwell_behaved (k : gclient) (M : mixed) : Prop :=
  match k with
  | GStop => True
  | GThen c k => glegal c M /\ forall r M', geffect c M r M' -> gwell_behaved (k r) M'
  end.
Inductive ghistory : gclient -> mixed -> list (gcall * qanswer) -> mixed -> Prop :=
| ghistory_stop M : ghistory GStop M [] M
| ghistory_call c k M r M' h M'' : geffect c M r M' -> ghistory (k r) M' h M'' -> ghistory (GThen c k) M ((c, r) :: h) M''.

(** The integers, and members of rationals, that a call may change. *)
Definition both (r : rid) : list oid := [fst r; snd r].
Definition changed_q (c : qcall) : list oid :=
  match c with
  | Int c => outputs c
  | QNumer _ c | QDenom _ c => [c]
  | _ => concat (map both (qoutputs c))
  end.
Definition changed (c : gcall) : list oid :=
  match c with
  | Lib c => changed_q c
  | ZInit c | ZClear c | ZSet c _ | ZSetUi c _ | ZSetSi c _ | ZAbs c _ | ZNeg c _ | ZAdd c _ _ | ZSub c _ _ | ZMul c _ _ | ZAddMul c _ _ | ZSubMul c _ _ => [c]
  | ZAddUi c _ _ | ZSubUi c _ _ | ZMulUi c _ _ | ZMul2exp c _ _ | ZPowUi c _ _ | ZGcd c _ _ | ZLcm c _ _ | ZCdivQ c _ _ | ZFdivQ c _ _ | ZFdivR c _ _ | ZTdivQ c _ _ => [c]
  | ZFdivQUi c _ _ | ZDivexact c _ _ | ZDivexactUi c _ _ | ZSetStr c _ _ | ZImport c _ _ _ _ _ _ => [c]
  | ZSwap a c => [a; c]
  | PInit c | PClear c | PSet c _ | PSetUi c _ _ | PMul c _ _ | PCanonicalize c | PSetStr c _ _ => both c
  | _ => []
  end.
