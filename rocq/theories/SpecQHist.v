(** A store of integers and rationals: what a client of both parts of the library
    may think it is working with.  Extends [SpecHist]; rationals are those of Coq's
    standard library ([SpecRat]). *)
From Coq Require Import ZArith List QArith Qabs Qpower.
From stdpp Require Import gmap list.
From Verif Require Import Mem Prog Kern Spec SpecBin SpecHist SpecRat SpecDec.
Local Open Scope Z_scope.

(** A rational structure is known by the handles of its two members. *)
Notation rid := (oid * oid)%type.
Record mixed : Type := Mixed {
  whole : store;                   (* all the integers, also the members of rationals *)
  fracs : gmap rid (option Q)      (* the initialised rationals; [None]: it holds no number,
                                      because reading a text into it has failed *)
}.

Inductive qcall : Type :=
| Int (c : call)
| QInit (r : rid) | QInitSize (r : rid) (n d : Z) | QInitCopy (r a : rid) | QClear (r : rid) | QAlloc | QFree (r : rid)
| QSetValue (r : rid) (n d : Z) | QSetUvalue (r : rid) (n d : Z) | QNumer (r : rid) (c : oid) | QDenom (r : rid) (c : oid)
| QSign (a : rid) | QCopy (a c : rid) | QZero (c : rid) | QAbs (a c : rid) | QNeg (a c : rid) | QRecip (a c : rid)
| QAdd (a b c : rid) | QSub (a b c : rid) | QMul (a b c : rid) | QDiv (a b c : rid)
| QAddInt (a : rid) (b : oid) (c : rid) | QSubInt (a : rid) (b : oid) (c : rid) | QMulInt (a : rid) (b : oid) (c : rid) | QDivInt (a : rid) (b : oid) (c : rid)
| QExpt (a : rid) (k : Z) (c : rid)
| QCompare (a b : rid) | QCompareUnsigned (a b : rid) | QCompareZero (a : rid) | QCompareValue (a : rid) (n d : Z) | QIsInteger (a : rid) | QToInts (a : rid)
| QToString (a : rid) (r : Z) (b : base) (off : nat) (limit : Z)
| QToDecimal (a : rid) (r prec : Z) (m : rounding) (b : base) (off : nat) (limit : Z)
| QReadCString (c : rid) (r : Z) (s : list Z) | QReadCDecimal (c : rid) (r : Z) (s : list Z) | QReadUString (c : rid) (r : Z) (s : list Z)
| QReduce (a : rid) | QStringLen (a : rid) (r : Z) | QDecimalLen (a : rid) (r prec : Z).

Inductive qanswer : Type :=
| Plain (a : answer)
| QHandle (r : option rid)                       (* a pointer to a new rational, or NULL *)
| Pair (r : Z) (n d : option Z)                  (* a result code and the machine words stored, if any *)
| Tail (r : Z) (s : option (list Z)).            (* a result code and the characters left over, if set *)

Definition there (M : mixed) (r : rid) : Prop := is_Some (fracs M !! r).
Definition has_frac (M : mixed) (r : rid) : Prop := exists q, fracs M !! r = Some (Some q).
Definition qval (M : mixed) (r : rid) : Q := match fracs M !! r with Some (Some q) => q | _ => 0%Q end.
(** [o] is a member of a rational. *)
Definition member (M : mixed) (o : oid) : Prop := exists r, there M r /\ (o = fst r \/ o = snd r).

Definition with_ints (V : gmap oid Z) (S : store) : store := Store V (raws S) (dyns S) (text S).
(** Storing [q]; storing it in a structure that was blank; losing the number. *)
Definition put_frac (c : rid) (q : Q) (M : mixed) : mixed :=
  Mixed (with_ints (set_rat c q (ints (whole M))) (whole M)) (<[c := Some (Qred q)]> (fracs M)).
Definition put_frac_new (c : rid) (q : Q) (M : mixed) : mixed :=
  let S := whole M in
  Mixed (Store (set_rat c q (ints S)) (delete (snd c) (delete (fst c) (raws S))) (dyns S) (text S)) (<[c := Some (Qred q)]> (fracs M)).
Definition spoil (c : rid) (n d : Z) (M : mixed) : mixed :=
  Mixed (with_ints (<[snd c := d]> (<[fst c := n]> (ints (whole M)))) (whole M)) (<[c := None]> (fracs M)).
Definition on_whole (S : store) (M : mixed) : mixed := Mixed S (fracs M).

Definition blank_pair (M : mixed) (r : rid) : Prop := fst r <> snd r /\ blank_at (whole M) (fst r) /\ blank_at (whole M) (snd r).
(** Where the notation with a point, rounded as told, has no carry out of the
    digits after the point (a carry is a defect: C40_carry_refuted). *)
Definition no_carry (q : Q) (r prec N : Z) : Prop :=
  let F := Z.abs (Qnum (Qred q)) * r ^ prec / Zpos (Qden (Qred q)) in N = F \/ forall k, 1 <= k -> F mod r ^ prec + 1 <> r ^ k.
Definition point_text (q : Q) (r prec : Z) (m : rounding) (N : Z) (s : list Z) : Prop :=
  rounds m (Z.abs (Qnum (Qred q)) * r ^ prec) (Zpos (Qden (Qred q))) N /\ decimal_text r (Z.to_nat prec) (Qnum (Qred q) <? 0) N s.

Definition qlegal (c : qcall) (M : mixed) : Prop :=
  let S := whole M in
  match c with
  | Int c => legal c S /\ forall o, o ∈ outputs c -> ~ member M o
  | QInit r => blank_pair M r
  | QInitSize r n d => blank_pair M r /\ 0 <= n < 2 ^ 32 - 1 /\ 0 <= d < 2 ^ 32 - 1
  | QInitCopy r a => blank_pair M r /\ has_frac M a
  | QClear r => there M r
  | QAlloc => True
  | QFree r => there M r /\ fst r ∈ dyns S /\ snd r ∈ dyns S
  | QSetValue r n d => there M r /\ small n /\ small d
  | QSetUvalue r n d => there M r /\ usmall n /\ usmall d
  | QNumer r c | QDenom r c => has_frac M r /\ has S c /\ ~ member M c
  | QSign a | QIsInteger a | QCompareZero a => has_frac M a
  | QCopy a c | QAbs a c | QNeg a c | QRecip a c => has_frac M a /\ there M c
  | QZero c => there M c
  | QAdd a b c | QSub a b c | QMul a b c | QDiv a b c => has_frac M a /\ has_frac M b /\ there M c
  | QAddInt a b c | QSubInt a b c => has_frac M a /\ has S b /\ there M c
  | QMulInt a b c | QDivInt a b c => has_frac M a /\ has S b /\ there M c /\ (a = c \/ b <> fst c /\ b <> snd c)
  | QExpt a k c => has_frac M a /\ there M c /\ k < 2 ^ 32
  | QCompare a b | QCompareUnsigned a b => has_frac M a /\ has_frac M b
  | QCompareValue a n d => has_frac M a /\ small n /\ small d /\ d <> 0
  | QToInts a => has_frac M a /\ Qnum (Qred (qval M a)) <> - 2 ^ 63
  | QToString a r b off limit => has_frac M a /\ 2 <= r <= 36 /\ 2 <= limit /\
      (exists l, text S !! b = Some l /\ (off + Z.to_nat limit + 1 <= length l)%nat) /\
      (forall s sn, rat_text r (qval M a) s -> numeral r (Qnum (Qred (qval M a))) sn ->
         Z.of_nat (length s) < limit \/ limit <= Z.of_nat (length sn) \/ Z.of_nat (length sn) + 3 <= limit)
  | QToDecimal a r prec m b off limit => has_frac M a /\ 2 <= r <= 36 /\ 0 <= prec < 2 ^ 31 - 1 /\
      exists l N s, text S !! b = Some l /\ point_text (qval M a) r prec m N s /\ no_carry (qval M a) r prec N /\
        (off + length s + 1 <= length l)%nat /\ Z.of_nat (length s) + 2 <= limit
  | QReadCString c r s | QReadCDecimal c r s => there M c /\ 2 <= r <= 36 /\ Z.of_nat (length s) < 2 ^ 31
  | QReadUString c r s => there M c /\ (r = 0 \/ 2 <= r <= 36) /\ Z.of_nat (length s) < 2 ^ 31
  | QReduce a => has_frac M a
  | QStringLen a r => has_frac M a /\ 2 <= r <= 36 /\
      exists k, 1 <= k <= 2 ^ 30 - 4 /\ Z.abs (Qnum (Qred (qval M a))) < 2 ^ k /\ Zpos (Qden (Qred (qval M a))) < 2 ^ k
  | QDecimalLen a r prec => has_frac M a /\ 2 <= r <= 36 /\ 0 <= prec < 2 ^ 29 /\
      exists k, 1 <= k <= 2 ^ 30 - 4 /\ Z.abs (Qnum (Qred (qval M a))) < 2 ^ k
  end.


Definition qeffect (c : qcall) (M : mixed) (r : qanswer) (M' : mixed) : Prop :=
  let S := whole M in let done_with c q := r = Plain (Num MP_OK) /\ M' = put_frac c q M in
  match c with
  | Int c => exists a S', r = Plain a /\ effect c S a S' /\ M' = on_whole S' M
  | QInit o | QInitSize o _ _ => r = Plain (Num MP_OK) /\ M' = put_frac_new o 0 M
  | QInitCopy o a => r = Plain (Num MP_OK) /\ M' = put_frac_new o (qval M a) M
  | QClear o => r = Plain Nothing /\
      M' = Mixed (Store (delete (snd o) (delete (fst o) (ints S))) (<[snd o := true]> (<[fst o := true]> (raws S))) (dyns S) (text S)) (delete o (fracs M))
  | QAlloc => (r = QHandle None /\ M' = M) \/
      exists o, fracs M !! o = None /\ fst o <> snd o /\ (forall i, i = fst o \/ i = snd o -> ints S !! i = None /\ raws S !! i = None) /\ r = QHandle (Some o) /\
        M' = Mixed (Store (set_rat o 0 (ints S)) (raws S) ({[fst o; snd o]} ∪ dyns S) (text S)) (<[o := Some 0%Q]> (fracs M))
  | QFree o => r = Plain Nothing /\
      M' = Mixed (Store (delete (snd o) (delete (fst o) (ints S))) (raws S) (dyns S ∖ {[fst o; snd o]}) (text S)) (delete o (fracs M))
  | QSetValue c n d | QSetUvalue c n d => if d =? 0 then r = Plain (Num MP_UNDEF) /\ M' = M else done_with c (frac n d)
  | QNumer a c => r = Plain (Num MP_OK) /\ M' = on_whole (put_int c (Qnum (Qred (qval M a))) S) M
  | QDenom a c => r = Plain (Num MP_OK) /\ M' = on_whole (put_int c (Zpos (Qden (Qred (qval M a)))) S) M
  | QSign a => exists n, r = Plain (Num n) /\ M' = M /\ (n = MP_NEG <-> (qval M a < 0)%Q) /\ (n = MP_ZPOS <-> ~ (qval M a < 0)%Q)
  | QCopy a c => done_with c (qval M a)
  | QZero c => r = Plain Nothing /\ M' = put_frac c 0 M
  | QAbs a c => done_with c (Qabs (qval M a))
  | QNeg a c => done_with c (- qval M a)%Q
  | QRecip a c => if Qeq_dec (qval M a) 0 then r = Plain (Num MP_UNDEF) /\ M' = M else done_with c (/ qval M a)%Q
  | QAdd a b c => done_with c (qval M a + qval M b)%Q
  | QSub a b c => done_with c (qval M a - qval M b)%Q
  | QMul a b c => done_with c (qval M a * qval M b)%Q
  | QDiv a b c => if Qeq_dec (qval M b) 0 then r = Plain (Num MP_UNDEF) /\ M' = M else done_with c (qval M a / qval M b)%Q
  | QAddInt a b c => done_with c (qval M a + inject_Z (val S b))%Q
  | QSubInt a b c => done_with c (qval M a - inject_Z (val S b))%Q
  | QMulInt a b c => done_with c (qval M a * inject_Z (val S b))%Q
  | QDivInt a b c => if val S b =? 0 then r = Plain (Num MP_UNDEF) /\ M' = M else done_with c (qval M a / inject_Z (val S b))%Q
  | QExpt a k c => if k <? 0 then r = Plain (Num MP_RANGE) /\ M' = M else done_with c (qval M a ^ k)%Q
  | QCompare a b => exists n, r = Plain (Num n) /\ M' = M /\ qordered n (qval M a) (qval M b)
  | QCompareUnsigned a b => exists n, r = Plain (Num n) /\ M' = M /\ qordered n (Qabs (qval M a)) (Qabs (qval M b))
  | QCompareZero a => exists n, r = Plain (Num n) /\ M' = M /\ qordered n (qval M a) 0
  | QCompareValue a n d => exists x, r = Plain (Num x) /\ M' = M /\ qordered x (qval M a) (frac n d)
  | QIsInteger a => exists b, r = Plain (Flag b) /\ M' = M /\ (b = true <-> exists z, (qval M a == inject_Z z)%Q)
  | QToInts a => M' = M /\ let n := Qnum (Qred (qval M a)) in let d := Zpos (Qden (Qred (qval M a))) in
      if (- 2 ^ 63 <? n) && (n <? 2 ^ 63) && (d <? 2 ^ 63) then r = Pair MP_OK (Some n) (Some d) else exists x y, r = Pair MP_RANGE x y
  | QToString a k b off limit => exists l s t, text S !! b = Some l /\ rat_text k (qval M a) s /\ M' = on_whole (put_text b (overwrite off t l) S) M /\
      ((Z.of_nat (length s) < limit /\ r = Plain (Num MP_OK) /\ t = s ++ [0]) \/
       (limit <= Z.of_nat (length s) /\ r = Plain (Num MP_TRUNC) /\ (length t <= Z.to_nat limit + 1)%nat /\ last t = Some 0))
  | QToDecimal a k prec m b off limit => exists l N s, text S !! b = Some l /\ point_text (qval M a) k prec m N s /\
      r = Plain (Num MP_OK) /\ M' = on_whole (put_text b (overwrite off (s ++ [0]) l) S) M
  | QReadCString c k s =>
      (* an integer; a fraction; a zero denominator; something left after a fraction *)
      (exists n sp u, reads k s n (sp ++ u) /\ Forall is_space sp /\ (forall x, head u = Some x -> ~ is_space x /\ x <> 47) /\
         r = Tail (match sp ++ u with [] => MP_OK | _ => MP_TRUNC end) (Some (sp ++ u)) /\ M' = put_frac c (inject_Z n) M) \/
      (exists n sp u d rest, reads k s n (sp ++ 47 :: u) /\ Forall is_space sp /\ reads k u d rest /\
         ((rest = [] /\ d <> 0 /\ r = Tail MP_OK (Some []) /\ M' = put_frac c (frac n d) M) \/
          (rest = [] /\ d = 0 /\ r = Tail MP_UNDEF (Some []) /\ M' = spoil c n d M) \/
          (rest <> [] /\ r = Tail MP_TRUNC (Some rest) /\ M' = spoil c n d M)))
  | QReadCDecimal c k s =>
      (* an integer; a number with a point; a point and white space or a sign *)
      (exists n rest, reads k s n rest /\ head rest <> Some 46 /\ r = Tail (match rest with [] => MP_OK | _ => MP_TRUNC end) (Some rest) /\ M' = put_frac c (inject_Z n) M) \/
      (exists q rest, reads_point k s q rest /\ r = Tail (match rest with [] => MP_OK | _ => MP_TRUNC end) (Some rest) /\ M' = put_frac c q M) \/
      (exists n x u, reads k s n (46 :: x :: u) /\ (is_space x \/ x = 43 \/ x = 45) /\ r = Tail MP_TRUNC None /\ M' = put_frac c (inject_Z n) M)
  | QReadUString c k s => let k := if k =? 0 then 10 else k in
      (* an integer; a number with a point; a point and white space or a sign; a
         fraction, a zero denominator, something left after a fraction, where a
         point makes the function start again and take the integer only *)
      (exists n rest, reads k s n rest /\ (forall sp u, rest = sp ++ 47 :: u -> ~ Forall is_space sp) /\ head rest <> Some 46 /\
         r = Tail (match rest with [] => MP_OK | _ => MP_TRUNC end) (Some rest) /\ M' = put_frac c (inject_Z n) M) \/
      (exists q rest, reads_point k s q rest /\ r = Tail (match rest with [] => MP_OK | _ => MP_TRUNC end) (Some rest) /\ M' = put_frac c q M) \/
      (exists n x u, reads k s n (46 :: x :: u) /\ (is_space x \/ x = 43 \/ x = 45) /\ r = Tail MP_TRUNC (Some (46 :: x :: u)) /\ M' = put_frac c (inject_Z n) M) \/
      (exists n sp u d rest, reads k s n (sp ++ 47 :: u) /\ Forall is_space sp /\ reads k u d rest /\
         ((rest = [] /\ d <> 0 /\ r = Tail MP_OK (Some []) /\ M' = put_frac c (frac n d) M) \/
          (rest = [] /\ d = 0 /\ r = Tail MP_UNDEF (Some []) /\ M' = spoil c n d M) \/
          (rest <> [] /\ head rest <> Some 46 /\ r = Tail MP_TRUNC (Some rest) /\ M' = spoil c n d M) \/
          (head rest = Some 46 /\ r = Tail MP_TRUNC (Some (sp ++ 47 :: u)) /\ M' = put_frac c (inject_Z n) M)))
  | QReduce a => done_with a (qval M a)
  | QStringLen a k => exists n, r = Plain (Num n) /\ M' = M /\
      (Z.abs (Qnum (Qred (qval M a))) < 2 ^ 20000 -> Zpos (Qden (Qred (qval M a))) < 2 ^ 20000 -> forall s, rat_text k (qval M a) s -> Z.of_nat (length s) + 1 <= n)
  | QDecimalLen a k prec => exists n, r = Plain (Num n) /\ M' = M /\
      (Z.abs (Qnum (Qred (qval M a))) < 2 ^ 20000 -> forall m N s, point_text (qval M a) k prec m N s -> Z.of_nat (length s) + 1 <= n)
  end.

(** Clients, their histories. *)
Inductive qclient : Type := QStop | QThen (c : qcall) (k : qanswer -> qclient).
Fixpoint qwell_behaved (k : qclient) (M : mixed) : Prop :=
  match k with
  | QStop => True
  | QThen c k => qlegal c M /\ forall r M', qeffect c M r M' -> qwell_behaved (k r) M'
  end.
Inductive qhistory : qclient -> mixed -> list (qcall * qanswer) -> mixed -> Prop :=
| qhistory_stop M : qhistory QStop M [] M
| qhistory_call c k M r M' h M'' : qeffect c M r M' -> qhistory (k r) M' h M'' -> qhistory (QThen c k) M ((c, r) :: h) M''.

(** The rationals a call may change. *)
Definition qoutputs (c : qcall) : list rid :=
  match c with
  | QInit r | QInitSize r _ _ | QInitCopy r _ | QClear r | QFree r | QSetValue r _ _ | QSetUvalue r _ _ => [r]
  | QCopy _ c | QZero c | QAbs _ c | QNeg _ c | QRecip _ c | QAdd _ _ c | QSub _ _ c | QMul _ _ c | QDiv _ _ c => [c]
  | QAddInt _ _ c | QSubInt _ _ c | QMulInt _ _ c | QDivInt _ _ c | QExpt _ _ c | QReadCString c _ _ | QReadCDecimal c _ _ | QReadUString c _ _ | QReduce c => [c]
  | _ => []
  end.

(** The rationals have members of their own, and these are the numbers in lowest
    terms. *)
Definition tidy (M : mixed) : Prop :=
  (forall r, there M r -> rat_live (ints (whole M)) r) /\
  (forall r s, there M r -> there M s -> fst r <> snd s /\ (fst r = fst s <-> snd r = snd s)) /\
  (forall r q, fracs M !! r = Some (Some q) -> rat_at (ints (whole M)) r q).
(** A state of the machine shows the store [M]. *)
Definition qshows (st : state) (M : mixed) : Prop := shows st (whole M) /\ tidy M.
