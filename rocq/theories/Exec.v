(** Running the model: concrete initial states and readers, used by the
    examples beside the theorems. *)
From Coq Require Import ZArith List Lia.
From stdpp Require Import gmap list.
From Verif Require Import Mem Prog Kern Imath.
Local Open Scope Z_scope.

(** An allocator that grants everything it may, with zero junk. *)
Definition orc_yes : oracle := Oracle (fun _ _ => true) (fun _ => Mpz None 0 0 0) (fun _ _ => 1%positive).
(** An allocator that grants the first [n] requests only. *)
Definition orc_first (n : nat) : oracle :=
  Oracle (fun t _ => Nat.ltb t n) (fun _ => Mpz None 0 0 0) (fun _ _ => 1%positive).

Definition st0 : state := State ∅ ∅ (Globals 8 32).

Fixpoint to_digits (fuel : nat) (v : Z) : list Z :=
  match fuel with
  | O => []
  | S f => if v <? 2 ^ 32 then [v] else (v mod 2 ^ 32) :: to_digits f (v / 2 ^ 32)
  end.
Definition of_digits (l : list Z) : Z := fold_right (fun d acc => d + 2 ^ 32 * acc) 0 l.

(** Add a heap-allocated handle holding [v], with two spare digits. *)
Definition put (o : oid) (v : Z) (st : state) : state :=
  let ds := to_digits (Z.to_nat (Z.log2 (Z.abs v) / 32 + 2)) (Z.abs v) in
  let cells := (Some <$> ds) ++ [None; None] in
  let b := Hp (new_hp (mem st)) in
  State (<[o := Mpz (Some (b, 0)) (Z.of_nat (length cells)) (Z.of_nat (length ds))
                    (if v <? 0 then 1 else 0)]> (objs st))
        (<[Sng o := [None]]> (<[b := cells]> (mem st))) (glob st).

Definition read_cells (st : state) (p : ptr) (n : Z) : list (option cell) :=
  (fun i => load (mem st) (p +p Z.of_nat i)) <$> seq 0 (Z.to_nat n).
Definition value_of (st : state) (o : oid) : option Z :=
  match objs st !! o with
  | Some z =>
      match digits z with
      | Some p =>
          let ds := (fun c => match c with Some (Some v) => v | _ => 0 end)
                      <$> read_cells st p (used z) in
          let v := of_digits ds in
          Some (if sign z =? 1 then - v else v)
      | None => None
      end
  | None => None
  end.

Definition H (n : positive) : oid := (true, n).
Definition exec {A} (p : prog A) (st : state) : outcome A := run true orc_yes p 0 st.
(** Result and value of one handle after running [p]. *)
Definition result {A} (p : prog A) (o : oid) (st : state) : option (A * option Z) :=
  match exec p st with Done a st' _ => Some (a, value_of st' o) | _ => None end.
