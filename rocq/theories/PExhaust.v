(** C29, continued: in the [NDEBUG] build the functions built on division and on
    products of long numbers may answer MP_OK with a wrong result after a refused
    request for memory, and modular exponentiation may write outside its storage.
    Each is a run of the model in which one request is refused. *)
From Coq Require Import ZArith List Lia.
From stdpp Require Import gmap list.
From Verif Require Import Mem Prog Kern Imath Exec Spec SpecBin SpecHist Concrete PStore.
Local Open Scope Z_scope.
Local Open Scope prog_scope.

(** All requests are granted but number [k]. *)
Definition orc_but (k : nat) : oracle := Oracle (fun t _ => negb (Nat.eqb t k)) (fun _ => Mpz None 0 0 0) (fun _ _ => 1%positive).
Definition hM : oid := H 14.
Definition exM (a b m : Z) : state := put hC 0 (put hA a (put hB b (put hM m st0))).
Definition exMV (a b m : Z) : gmap oid Z := <[hC := 0]> (<[hA := a]> (<[hB := b]> (<[hM := m]> ∅))).
(** The same with the threshold for Karatsuba multiplication at eight digits. *)
Definition st8 : state := State ∅ ∅ (Globals 8 8).
Definition world8 : world := World ∅ ∅ (Globals 8 8).
Lemma Rep_empty8 : Rep st8 ∅ world8.
Proof.
  constructor; simpl.
  all: try (intros *; rewrite ?lookup_empty; done).
  intros o [? E]. by rewrite lookup_empty in E.
Qed.
Definition exM8 (a b : Z) : state := put hC 0 (put hA a (put hB b st8)).
Definition exMV8 (a b : Z) : gmap oid Z := <[hC := 0]> (<[hA := a]> (<[hB := b]> ∅)).
Ltac reps := repeat (apply Rep_put; [|reflexivity|by vm_compute]); (apply Rep_empty || apply Rep_empty8).
Ltac wrong := vm_compute; split; [reflexivity|]; eexists; split; [reflexivity|discriminate].

Theorem C29_mod_refuted : exists st V W a m c va vm orc,
  Rep st V W /\ V !! a = Some va /\ V !! m = Some vm /\ is_Some (V !! c) /\ 0 < vm /\
  match run false orc (mp_int_mod a m c) 0 st with
  | Done r st' _ => r = MP_OK /\ exists v, value_of st' c = Some v /\ v <> va mod vm | _ => False end.
Proof.
  exists (exM (2 ^ 128 - 1) (2 ^ 33 + 1) 7), (exMV (2 ^ 128 - 1) (2 ^ 33 + 1) 7), world0, hA, hB, hC, (2 ^ 128 - 1), (2 ^ 33 + 1), (orc_but 4).
  split; [reps|]. do 2 (split; [done|]). split; [by eexists|]. split; [done|]. wrong.
Qed.
Print Assumptions C29_mod_refuted.
Theorem C29_div_value_refuted : exists st V W a v q va orc,
  Rep st V W /\ V !! a = Some va /\ 0 < v < 2 ^ 63 /\ is_Some (V !! q) /\
  match run false orc (mp_int_div_value a v (Some q)) 0 st with
  | Done r st' _ => fst r = MP_OK /\ exists w, value_of st' q = Some w /\ w <> Z.quot va v | _ => False end.
Proof.
  exists (exM (2 ^ 128 - 1) 1 7), (exMV (2 ^ 128 - 1) 1 7), world0, hA, (2 ^ 33 + 1), hC, (2 ^ 128 - 1), (orc_but 6).
  split; [reps|]. split; [done|]. split; [done|]. split; [by eexists|]. wrong.
Qed.
Print Assumptions C29_div_value_refuted.
(** This one has no way to report a failure: it answers that a multiple is none. *)
Theorem C29_divisible_value_refuted : exists st V W a v k orc,
  Rep st V W /\ V !! a = Some (v * k) /\ 0 < v < 2 ^ 63 /\
  match run false orc (mp_int_divisible_value a v) 0 st with Done r _ _ => r = false | _ => False end.
Proof.
  exists (exM ((2 ^ 33 + 1) * (2 ^ 64 + 5)) 1 7), (exMV ((2 ^ 33 + 1) * (2 ^ 64 + 5)) 1 7), world0, hA, (2 ^ 33 + 1), (2 ^ 64 + 5), (orc_but 4).
  split; [reps|]. split; [done|]. split; [done|]. by vm_compute.
Qed.
Print Assumptions C29_divisible_value_refuted.
Theorem C29_lcm_refuted : exists st V W a b c va vb orc,
  Rep st V W /\ V !! a = Some va /\ V !! b = Some vb /\ is_Some (V !! c) /\
  match run false orc (mp_int_lcm a b c) 0 st with
  | Done r st' _ => r = MP_OK /\ exists v, value_of st' c = Some v /\ v <> Z.lcm va vb | _ => False end.
Proof.
  exists (exM ((2 ^ 33 + 1) * (2 ^ 158 - 1)) (7 * (2 ^ 33 + 1)) 7), (exMV ((2 ^ 33 + 1) * (2 ^ 158 - 1)) (7 * (2 ^ 33 + 1)) 7), world0, hA, hB, hC, ((2 ^ 33 + 1) * (2 ^ 158 - 1)), (7 * (2 ^ 33 + 1)), (orc_but 13).
  split; [reps|]. do 2 (split; [done|]). split; [by eexists|]. wrong.
Qed.
Print Assumptions C29_lcm_refuted.
Theorem C29_invmod_refuted : exists st V W a m c va vm orc,
  Rep st V W /\ V !! a = Some va /\ V !! m = Some vm /\ is_Some (V !! c) /\ 0 < vm /\ Z.gcd va vm = 1 /\
  match run false orc (mp_int_invmod a m c) 0 st with
  | Done r st' _ => r = MP_OK /\ match value_of st' c with Some v => (v * va) mod vm <> 1 | None => False end | _ => False end.
Proof.
  exists (exM 25 1 8547389767665891207), (exMV 25 1 8547389767665891207), world0, hA, hM, hC, 25, 8547389767665891207, (orc_but 24).
  split; [reps|]. do 2 (split; [done|]). split; [by eexists|]. do 2 (split; [by vm_compute|]). vm_compute. split; [reflexivity|discriminate].
Qed.
Print Assumptions C29_invmod_refuted.
Theorem C29_expt_refuted : exists st V W a b c va orc,
  Rep st V W /\ V !! a = Some va /\ 0 <= b < 2 ^ 31 /\ is_Some (V !! c) /\
  match run false orc (mp_int_expt a b c) 0 st with
  | Done r st' _ => r = MP_OK /\ exists v, value_of st' c = Some v /\ v <> va ^ b | _ => False end.
Proof.
  exists (exM8 (2 ^ 260) 3), (exMV8 (2 ^ 260) 3), world8, hA, 3, hC, (2 ^ 260), (orc_but 5).
  split; [reps|]. split; [done|]. split; [done|]. split; [by eexists|]. wrong.
Qed.
Print Assumptions C29_expt_refuted.
Theorem C29_expt_full_refuted : exists st V W a b c va vb orc,
  Rep st V W /\ V !! a = Some va /\ V !! b = Some vb /\ 0 <= vb /\ is_Some (V !! c) /\
  match run false orc (mp_int_expt_full a b c) 0 st with
  | Done r st' _ => r = MP_OK /\ exists v, value_of st' c = Some v /\ v <> va ^ vb | _ => False end.
Proof.
  exists (exM8 (2 ^ 260) 3), (exMV8 (2 ^ 260) 3), world8, hA, hB, hC, (2 ^ 260), 3, (orc_but 5).
  split; [reps|]. do 3 (split; [done|]). split; [by eexists|]. wrong.
Qed.
Print Assumptions C29_expt_full_refuted.
Theorem C29_expt_value_refuted : exists st V W a b c orc,
  Rep st V W /\ 0 < a < 2 ^ 63 /\ 0 <= b < 2 ^ 31 /\ is_Some (V !! c) /\
  match run false orc (mp_int_expt_value a b c) 0 st with
  | Done r st' _ => r = MP_OK /\ exists v, value_of st' c = Some v /\ v <> a ^ b | _ => False end.
Proof.
  exists (exM8 1 3), (exMV8 1 3), world8, (2 ^ 60), 15, hC, (orc_but 13).
  split; [reps|]. split; [done|]. split; [done|]. split; [by eexists|]. wrong.
Qed.
Print Assumptions C29_expt_value_refuted.
Theorem C29_root_refuted : exists st V W a b c va orc,
  Rep st V W /\ V !! a = Some va /\ 0 <= va /\ 0 < b /\ is_Some (V !! c) /\
  match run false orc (mp_int_root a b c) 0 st with
  | Done r st' _ => r = MP_OK /\ match value_of st' c with Some v => va < v ^ b | None => False end | _ => False end.
Proof.
  exists (exM8 (2 ^ 260) 0), (exMV8 (2 ^ 260) 0), world8, hA, 2, hC, (2 ^ 260), (orc_but 11).
  split; [reps|]. do 3 (split; [done|]). split; [by eexists|]. vm_compute. split; reflexivity.
Qed.
Print Assumptions C29_root_refuted.
(** Reduction constants: the scaling of 1 can fail unnoticed. *)
Theorem C29_redux_const_refuted : exists st V W m c vm orc,
  Rep st V W /\ V !! m = Some vm /\ 0 < vm /\ is_Some (V !! c) /\
  match run false orc (mp_int_redux_const m c) 0 st with
  | Done r st' _ => r = MP_OK /\ value_of st' c = Some 0 | _ => False end.
Proof.
  exists (exM 0 (2 ^ 33 + 1) 7), (exMV 0 (2 ^ 33 + 1) 7), world0, hB, hC, (2 ^ 33 + 1), (orc_but 1).
  split; [reps|]. do 2 (split; [done|]). split; [by eexists|]. by vm_compute.
Qed.
Print Assumptions C29_redux_const_refuted.
Theorem C29_exptmod_refuted : exists st V W a b m c va vb vm orc,
  Rep st V W /\ V !! a = Some va /\ V !! b = Some vb /\ V !! m = Some vm /\ is_Some (V !! c) /\ 0 <= vb /\ 0 < vm /\
  match run false orc (mp_int_exptmod a b m c) 0 st with
  | Done r st' _ => r = MP_OK /\ exists v, value_of st' c = Some v /\ v <> va ^ vb mod vm | _ => False end.
Proof.
  exists (exM (2 ^ 128 - 1) 3 (2 ^ 70 + 3)), (exMV (2 ^ 128 - 1) 3 (2 ^ 70 + 3)), world0, hA, hB, hM, hC, (2 ^ 128 - 1), 3, (2 ^ 70 + 3), (orc_but 9).
  split; [reps|]. do 3 (split; [done|]). split; [by eexists|]. do 2 (split; [done|]). wrong.
Qed.
Print Assumptions C29_exptmod_refuted.
Theorem C29_exptmod_known_refuted : exists st V W a b m mu c va vb vm vmu orc,
  Rep st V W /\ V !! a = Some va /\ V !! b = Some vb /\ V !! m = Some vm /\ V !! mu = Some vmu /\ is_Some (V !! c) /\ 0 <= vb /\ 0 < vm /\ vmu = 2 ^ 192 / vm /\ 2 ^ 64 <= vm < 2 ^ 96 /\
  match run false orc (mp_int_exptmod_known a b m mu c) 0 st with
  | Done r st' _ => r = MP_OK /\ exists v, value_of st' c = Some v /\ v <> va ^ vb mod vm | _ => False end.
Proof.
  exists (put hD (2 ^ 192 / (2 ^ 70 + 3)) (exM (2 ^ 128 - 1) 3 (2 ^ 70 + 3))), (<[hD := 2 ^ 192 / (2 ^ 70 + 3)]> (exMV (2 ^ 128 - 1) 3 (2 ^ 70 + 3))), world0, hA, hB, hM, hD, hC, (2 ^ 128 - 1), 3, (2 ^ 70 + 3), (2 ^ 192 / (2 ^ 70 + 3)), (orc_but 7).
  split; [reps|]. do 4 (split; [done|]). split; [by eexists|]. do 4 (split; [done|]). wrong.
Qed.
Print Assumptions C29_exptmod_known_refuted.
(** Worse: with the reduction constant 0 the temporaries are too short for the
    products, which are then written outside them. *)
Theorem C29_exptmod_unsafe_refuted : exists st V W a b m c va vb vm orc,
  Rep st V W /\ V !! a = Some va /\ V !! b = Some vb /\ V !! m = Some vm /\ is_Some (V !! c) /\ 0 <= vb /\ 0 < vm /\
  run false orc (mp_int_exptmod a b m c) 0 st = UB.
Proof.
  exists (exM (2 ^ 128 - 1) 3 (2 ^ 70 + 3)), (exMV (2 ^ 128 - 1) 3 (2 ^ 70 + 3)), world0, hA, hB, hM, hC, (2 ^ 128 - 1), 3, (2 ^ 70 + 3), (orc_but 15).
  split; [reps|]. do 3 (split; [done|]). split; [by eexists|]. do 2 (split; [done|]). by vm_compute.
Qed.
Print Assumptions C29_exptmod_unsafe_refuted.
Theorem C29_exptmod_evalue_unsafe_refuted : exists st V W a v m c va vm orc,
  Rep st V W /\ V !! a = Some va /\ 0 <= v < 2 ^ 63 /\ V !! m = Some vm /\ is_Some (V !! c) /\ 0 < vm /\
  run false orc (mp_int_exptmod_evalue a v m c) 0 st = UB.
Proof.
  exists (exM (2 ^ 128 - 1) 3 (2 ^ 70 + 3)), (exMV (2 ^ 128 - 1) 3 (2 ^ 70 + 3)), world0, hA, 3, hM, hC, (2 ^ 128 - 1), (2 ^ 70 + 3), (orc_but 16).
  split; [reps|]. do 3 (split; [done|]). split; [by eexists|]. split; [done|]. by vm_compute.
Qed.
Print Assumptions C29_exptmod_evalue_unsafe_refuted.
Theorem C29_exptmod_bvalue_unsafe_refuted : exists st V W v b m c vb vm orc,
  Rep st V W /\ 0 < v < 2 ^ 63 /\ V !! b = Some vb /\ 0 <= vb /\ V !! m = Some vm /\ is_Some (V !! c) /\ 0 < vm /\
  run false orc (mp_int_exptmod_bvalue v b m c) 0 st = UB.
Proof.
  exists (exM 1 3 (2 ^ 70 + 3)), (exMV 1 3 (2 ^ 70 + 3)), world0, (2 ^ 61 + 1), hB, hM, hC, 3, (2 ^ 70 + 3), (orc_but 7).
  split; [reps|]. do 4 (split; [done|]). split; [by eexists|]. split; [done|]. by vm_compute.
Qed.
Print Assumptions C29_exptmod_bvalue_unsafe_refuted.
