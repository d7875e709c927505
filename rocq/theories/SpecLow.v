(** A store of integers on a machine that may run out of memory: what a client of
    the [NDEBUG] build may think it is working with.  Independent of the library;
    [legal] and [effect] are those of [SpecHist]. *)
From Coq Require Import ZArith List.
From stdpp Require Import gmap list.
From Verif Require Import Mem Prog Kern Spec SpecBin SpecHist.
Local Open Scope Z_scope.

Record lowstore : Type := Low {
  held : store;        (* the integers, blank structures and buffers *)
  lost : gset oid;     (* integers whose value a failed call has destroyed *)
  threshold : Z        (* the threshold for Karatsuba multiplication, in 32-bit digits *)
}.
(** [x] is about twice as long as [y], or longer: [y] has at most [k] 32-bit digits,
    [x] at least [2 k - 1].  Such products are made without Karatsuba's method. *)
Definition lopsided (x y : Z) : Prop := exists k, 1 <= k /\ Z.abs y < 2 ^ (32 * k) /\ 2 ^ (32 * (2 * k - 2)) <= Z.abs x.
(** Fewer digits than the threshold. *)
Definition within (T : lowstore) (a : oid) : Prop := Z.abs (val (held T) a) < 2 ^ (32 * (threshold T - 1)).

(** The calls treated here.  Excluded are those that can mistake a refusal for
    success (C29), and functions built on division and powers. *)
Definition safe (c : call) (T : lowstore) : Prop :=
  match c with
  | Clear o => legal c (held T) \/ o ∈ lost T
  | FreeInt o => legal c (held T) \/ (o ∈ lost T /\ o ∈ dyns (held T))
  | Mul a b _ => legal c (held T) /\ ((within T a /\ within T b) \/ lopsided (val (held T) a) (val (held T) b) \/ lopsided (val (held T) b) (val (held T) a))
  | Sqr a _ => legal c (held T) /\ within T a
  | Div _ _ _ _ | DivValue _ _ _ | Mod _ _ _ | Expt _ _ _ | ExptValue _ _ _ | ExptFull _ _ _ | DivisibleValue _ _
  | Exptmod _ _ _ _ | ExptmodEvalue _ _ _ _ | ExptmodBvalue _ _ _ _ | ExptmodKnown _ _ _ _ _ | ReduxConst _ _
  | Invmod _ _ _ | Lcm _ _ _ | Root _ _ _ => False
  | _ => legal c (held T)
  end.

(** The call does its work ([effect]); a released structure is not lost any more. *)
Definition works (c : call) (T : lowstore) (r : answer) (T' : lowstore) : Prop :=
  exists S', effect c (held T) r S' /\
    T' = Low S' (match c with Clear o | FreeInt o => lost T ∖ {[o]} | _ => lost T end)
           (match c with MultiplyThreshold n => n | _ => threshold T end).

Definition with_held (S : store) (T : lowstore) : lowstore := Low S (lost T) (threshold T).
(** [c] has lost its value: it can only be released. *)
Definition lose (c : oid) (T : lowstore) : lowstore :=
  Low (Store (delete c (ints (held T))) (raws (held T)) (dyns (held T)) (text (held T))) ({[c]} ∪ lost T) (threshold T).
(** A request was refused: the call says so, and this is what it leaves behind. *)
Definition fails (c : call) (T : lowstore) (r : answer) (T' : lowstore) : Prop :=
  let S := held T in
  match c with
  | SetValue _ _ | SetUvalue _ _ | Copy _ _ | Abs _ _ | Neg _ _ | Mul _ _ _ | MulValue _ _ _ | Sqr _ _
  | ToString _ _ _ _ _ | ReadUnsigned _ _ _ _ | ReadBinary _ _ _ _ => r = Num MP_MEMORY /\ T' = T
  | InitSize o _ | InitCopy o _ | InitValue o _ | InitUvalue o _ =>
      r = Num MP_MEMORY /\ T' = with_held (Store (ints S) (<[o := true]> (raws S)) (dyns S) (text S)) T
  | MulPow2 a _ c => r = Num MP_MEMORY /\ (T' = T \/ T' = with_held (put_int c (val S a) S) T)
  | DivPow2 a k q _ => r = Num MP_MEMORY /\ (T' = T \/ T' = with_held (put_opt q (Z.quot (val S a) (2 ^ k)) S) T)
  | Gcd _ _ c => r = Num MP_MEMORY /\ exists v, T' = with_held (put_int c v S) T
  | Egcd _ _ _ x y => r = Num MP_MEMORY /\ (T' = T \/ (exists s, T' = with_held (put_opt x s S) T) \/ exists s t, T' = with_held (put_opt y t (put_opt x s S)) T)
  | Add _ _ c | AddValue _ _ c | Sub _ _ c | SubValue _ _ c | ReadString c _ _ => r = Num MP_MEMORY /\ T' = lose c T
  | ReadCString c _ _ => (exists s, r = Rest MP_MEMORY s) /\ T' = lose c T
  | _ => False   (* the other calls make no request, or report NULL *)
  end.
Definition answers (c : call) (T : lowstore) (r : answer) (T' : lowstore) : Prop := works c T r T' \/ fails c T r T'.

(** Clients that keep to the rules whatever happens, and what they may see. *)
Fixpoint careful (k : client) (T : lowstore) : Prop :=
  match k with
  | Stop => True
  | Then c k => safe c T /\ forall r T', answers c T r T' -> careful (k r) T'
  end.
Inductive story : client -> lowstore -> list (call * answer) -> lowstore -> Prop :=
| story_stop T : story Stop T [] T
| story_call c k T r T' h T'' : answers c T r T' -> story (k r) T' h T'' -> story (Then c k) T ((c, r) :: h) T''.

(** A state of the machine shows the store [T].  [B] gives the storage that the lost
    integers still own: one block each, apart from everything else. *)
Definition shows_low (st : state) (T : lowstore) : Prop :=
  exists W (B : gmap oid base), let S := held T in
    Rep st (ints S) W /\ multiply_threshold (tunables W) = threshold T /\
    (forall o, o ∈ lost T <-> is_Some (B !! o)) /\
    (forall o b, B !! o = Some b -> exists z, blanks W !! o = Some z /\ digits z = Some (b, 0) /\
       (b = Sng o \/ exists n l, b = Hp n /\ bufs W !! b = Some l)) /\
    (forall o1 o2 b, B !! o1 = Some b -> B !! o2 = Some b -> o1 = o2) /\
    (forall o b, B !! o = Some b -> text S !! b = None) /\
    (forall b, (forall o, B !! o <> Some b) -> bufs W !! b = text S !! b) /\
    (forall o, o ∈ lost T -> raws S !! o = None) /\
    (forall o, o ∉ lost T -> (raws S !! o = None <-> blanks W !! o = None)) /\
    (forall o z, raws S !! o = Some true -> blanks W !! o = Some z -> digits z = None) /\
    (forall o, o ∈ dyns S -> o.1 = true).
