(** A concrete store with rationals, for the examples beside the theorems. *)
From Coq Require Import ZArith List Lia QArith.
From stdpp Require Import gmap list.
From Verif Require Import Mem Prog Kern Imath Exec Spec Concrete SpecRat.
Local Open Scope Z_scope.

Definition rA : oid * oid := (H 21, H 22).
Definition rB : oid * oid := (H 23, H 24).
Definition rC : oid * oid := (H 25, H 26).
Definition qA : Q := 12345678901234567890123 # 700.
Definition qB : Q := -5 # 12.
Definition exVq : gmap oid Z :=
  <[H 26 := 1]> (<[H 25 := 0]> (<[H 24 := 12]> (<[H 23 := -5]> (<[H 22 := 700]> (<[H 21 := 12345678901234567890123]> exV))))).
Definition exSq : state :=
  put (H 26) 1 (put (H 25) 0 (put (H 24) 12 (put (H 23) (-5) (put (H 22) 700 (put (H 21) 12345678901234567890123 exS))))).
Lemma exq_rep : Rep exSq exVq world0.
Proof. unfold exSq, exVq. do 6 (apply Rep_put; [|reflexivity|by vm_compute]). apply ex_rep. Qed.
Lemma exq_A : rat_at exVq rA qA. Proof. by vm_compute. Qed.
Lemma exq_B : rat_at exVq rB qB. Proof. by vm_compute. Qed.
Lemma exq_C : rat_at exVq rC 0. Proof. by vm_compute. Qed.
Lemma exq_structs : structs [rA; rB; rC].
Proof. intros r s Hr Hs. simpl in Hr, Hs. destruct Hr as [<-|[<-|[<-|[]]]], Hs as [<-|[<-|[<-|[]]]]; by vm_compute. Qed.

(** The result of a call and the numerator and denominator it left in [r]. *)
Definition result_rat {A} (p : prog A) (r : oid * oid) (st : state) : option (A * option Z * option Z) :=
  match exec p st with Done a st' _ => Some (a, value_of st' (fst r), value_of st' (snd r)) | _ => None end.
