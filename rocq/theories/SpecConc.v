(** Threads that use the library side by side: which parts of the store each may
    use, and what is shared.  Independent of the library. *)
From Coq Require Import ZArith List.
From stdpp Require Import gmap list.
From Verif Require Import Mem Prog Kern Spec SpecBin SpecHist.
Local Open Scope Z_scope.

(** The caller's buffers that a call writes.  [mp_int_read_binary] is among the
    calls that write: it complements a negative number in place before reading it
    and restores the bytes afterwards (/repo/imath.c:1602-1617), as its
    documentation says. *)
Definition written (c : call) : list base :=
  match c with
  | ToString _ _ b _ _ | ToUnsigned _ b _ _ | ToBinary _ b _ _ | ReadBinary _ b _ _ => [b]
  | _ => []
  end.
(** Calls that change the tunables, which all threads read. *)
Definition tunes (c : call) : bool := match c with DefaultPrecision _ | MultiplyThreshold _ => true | _ => false end.

(** A call that leaves alone the integers [I] and the buffers [B]. *)
Definition spares (I : gset oid) (B : gset base) (c : call) : Prop :=
  (forall o, o ∈ outputs c -> o ∉ I) /\ (forall b, b ∈ written c -> b ∉ B) /\ tunes c = false.

(** A client that keeps to the rules and leaves alone what is shared, whatever the
    store answers. *)
Fixpoint fair (I : gset oid) (B : gset base) (k : client) (T : store) : Prop :=
  match k with
  | Stop => True
  | Then c k => legal c T /\ spares I B c /\ forall r T', effect c T r T' -> fair I B (k r) T'
  end.

Definition known (T : store) (o : oid) : Prop := is_Some (ints T !! o) \/ is_Some (raws T !! o).

(** The store [S] is divided among the threads: thread number i uses the part
    [Ts !! i]; only the integers [I] and the buffers [B] are in more than one part,
    and they are in all. *)
Record divided (I : gset oid) (B : gset base) (S : store) (Ts : list store) : Prop := {
  dv_ints : forall o v, ints S !! o = Some v <-> exists T, T ∈ Ts /\ ints T !! o = Some v;
  dv_raws : forall o c, raws S !! o = Some c <-> exists T, T ∈ Ts /\ raws T !! o = Some c;
  dv_dyns : forall o, o ∈ dyns S <-> exists T, T ∈ Ts /\ o ∈ dyns T;
  dv_text : forall b l, text S !! b = Some l <-> exists T, T ∈ Ts /\ text T !! b = Some l;
  dv_apart : forall i j Ti Tj o, Ts !! i = Some Ti -> Ts !! j = Some Tj -> i <> j -> known Ti o -> known Tj o -> o ∈ I;
  dv_apart_text : forall i j Ti Tj b, Ts !! i = Some Ti -> Ts !! j = Some Tj -> i <> j -> is_Some (text Ti !! b) -> is_Some (text Tj !! b) -> b ∈ B;
  dv_shared : forall T o, T ∈ Ts -> o ∈ I -> is_Some (ints T !! o);
  dv_shared_text : forall T b, T ∈ Ts -> b ∈ B -> is_Some (text T !! b)
}.
