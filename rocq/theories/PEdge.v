(** Corners of the library where a claim fails; each with a concrete run. *)
From Coq Require Import ZArith List Lia.
From stdpp Require Import gmap list.
From Verif Require Import Mem Prog Kern Imath Iprime Exec Wp Spec SpecBin SpecHist Concrete Public Hist.
Local Open Scope Z_scope.

(** mp_int_init_size with the largest mp_size: rounding up to an even number of
    digits gives 0, the block has no room, and the digit 0 is written past its end.
    (C27 asks for a size below.) *)
Theorem C24_init_size_max_refuted : exists st S o, shows st S /\ raws S !! o = Some false /\ run true orc_yes (mp_int_init_size o (2 ^ 32 - 1)) 0 st = UB.
Proof. exists (declares [H 1]), (blank_store [H 1]), (H 1). split; [apply declares_shows|]. split; [by vm_compute|]. by vm_compute. Qed.
Print Assumptions C24_init_size_max_refuted.

Lemma done_inv {A} (x : outcome A) (P : A -> state -> Prop) : match x with Done r st' _ => P r st' | _ => False end -> exists r st' t', x = Done r st' t' /\ P r st'.
Proof. destruct x; try done. eauto. Qed.
Definition leakS : state := put (H 1) (2 ^ 61 - 1) st0.
(** In the NDEBUG build mp_int_is_prime does not release its temporary when a
    modular power fails for lack of memory: MP_MEMORY is returned and a block is
    left that belongs to no integer. *)
Theorem C33_leak_refuted : exists st V W orc st' t' n l,
  Rep st V W /\ run false orc (mp_int_is_prime (H 1)) 0 st = Done MP_MEMORY st' t' /\ mem st !! Hp n = None /\ mem st' !! Hp n = Some l /\
  forall o z, objs st' !! o = Some z -> option_map fst (digits z) <> Some (Hp n).
Proof.
  destruct (done_inv (run false (orc_first 1380) (mp_int_is_prime (H 1)) 0 leakS) (fun r st' => r = MP_MEMORY /\ bool_decide (is_Some (mem st' !! Hp 7)) = true /\ bool_decide (map_Forall (fun _ z => option_map fst (digits z) <> Some (Hp 7)) (objs st')) = true))
    as (r & st' & t' & E & -> & H1 & H2); [by vm_compute|]. apply bool_decide_eq_true in H1 as [l Hl], H2.
  exists leakS, (<[H 1 := 2 ^ 61 - 1]> ∅), world0, (orc_first 1380), st', t', 7%positive, l. split; [apply Rep_put; [apply Rep_empty|reflexivity|by vm_compute]|].
  split; [exact E|]. split; [by vm_compute|]. split; [exact Hl|exact H2].
Qed.
Print Assumptions C33_leak_refuted.
