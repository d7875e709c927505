(** Properties of modular exponentiation (C14).  See [Spec] for the vocabulary. *)
From Coq Require Import ZArith List Lia.
From stdpp Require Import gmap list.
From Verif Require Import Mem Prog Kern Imath Exec Wp Spec Public Concrete Exptmod.
Local Open Scope Z_scope.
Local Open Scope prog_scope.

(** ** C14 Modular exponentiation *)
(** Any base; any of the operands may be the output.  The excluded case, exponent
    zero and modulus one, is [C14_exptmod_one_refuted]. *)
Theorem C14_exptmod st V W a b m c va vb vm :
  Rep st V W -> V !! a = Some va -> V !! b = Some vb -> V !! m = Some vm -> is_Some (V !! c) ->
  0 < vm -> 0 <= vb -> vb <> 0 \/ vm <> 1 ->
  calls (mp_int_exptmod a b m c) st (fun r st' => r = MP_OK /\ Rep st' (<[c := va ^ vb mod vm]> V) W).
Proof.
  intros H Ha Hb Hm [vc Hc] Pm Pb Hx. eapply by_rule; [done|]. intros st1 HV. eapply wpV_exptmod; [done..|lia|lia|lia|].
  intros _ _ st' H'. rewrite emval_pow in H' by lia. split; [done|by apply RV_done].
Qed.
Example C14_exptmod_ex : result (mp_int_exptmod hB hE hA hA) hA exS = Some (MP_OK, Some (vB ^ 3 mod vA)).
Proof. by vm_compute. Qed.
Print Assumptions C14_exptmod.
Theorem C14_exptmod_undefined st V W a b m c va vb :
  Rep st V W -> V !! a = Some va -> V !! b = Some vb -> V !! m = Some 0 -> is_Some (V !! c) ->
  calls (mp_int_exptmod a b m c) st (fun r st' => r = MP_UNDEF /\ Rep st' V W).
Proof. intros H Ha Hb Hm [vc Hc]. eapply by_rule; [done|]. intros st1 HV. eapply wpV_exptmod; [done..|lia| |lia|lia]. intros _. split; [done|by apply RV_done]. Qed.
Example C14_exptmod_undefined_ex : result (mp_int_exptmod hA hE hC hA) hA exS = Some (MP_UNDEF, Some vA).
Proof. by vm_compute. Qed.
Print Assumptions C14_exptmod_undefined.
Theorem C14_exptmod_range st V W a b m c va vb vm :
  Rep st V W -> V !! a = Some va -> V !! b = Some vb -> V !! m = Some vm -> is_Some (V !! c) -> vm <> 0 -> vb < 0 ->
  calls (mp_int_exptmod a b m c) st (fun r st' => r = MP_RANGE /\ Rep st' V W).
Proof. intros H Ha Hb Hm [vc Hc] Nm Nb. eapply by_rule; [done|]. intros st1 HV. eapply wpV_exptmod; [done..|lia|lia| |lia]. intros _ _. split; [done|by apply RV_done]. Qed.
Example C14_exptmod_range_ex : result (mp_int_exptmod hA hD hA hA) hA exS = Some (MP_RANGE, Some vA).
Proof. by vm_compute. Qed.
Print Assumptions C14_exptmod_range.
(** A machine integer as the exponent. *)
Theorem C14_exptmod_evalue st V W a v m c va vm :
  Rep st V W -> V !! a = Some va -> V !! m = Some vm -> is_Some (V !! c) ->
  0 < vm -> 0 <= v < 2 ^ 63 -> v <> 0 \/ vm <> 1 ->
  calls (mp_int_exptmod_evalue a v m c) st (fun r st' => r = MP_OK /\ Rep st' (<[c := va ^ v mod vm]> V) W).
Proof.
  intros H Ha Hm [vc Hc] Pm Pv Hx. eapply by_rule; [done|]. intros st1 HV. eapply wpV_exptmod_evalue; [done..|lia|lia|lia|lia|].
  intros _ _ st' H'. rewrite emval_pow in H' by lia. split; [done|by apply RV_done].
Qed.
Example C14_exptmod_evalue_ex : result (mp_int_exptmod_evalue hB 40 hA hA) hA exS = Some (MP_OK, Some (vB ^ 40 mod vA)).
Proof. by vm_compute. Qed.
Print Assumptions C14_exptmod_evalue.
Theorem C14_exptmod_evalue_errors st V W a v m c va vm :
  Rep st V W -> V !! a = Some va -> V !! m = Some vm -> is_Some (V !! c) -> - 2 ^ 63 < v < 2 ^ 63 -> vm = 0 \/ v < 0 ->
  calls (mp_int_exptmod_evalue a v m c) st (fun r st' => r = (if vm =? 0 then MP_UNDEF else MP_RANGE) /\ Rep st' V W).
Proof.
  intros H Ha Hm [vc Hc] Pv Hx. eapply by_rule; [done|]. intros st1 HV. eapply wpV_exptmod_evalue; [done..|lia| | |lia].
  - intros -> st' H'. split; [done|by apply RV_done].
  - intros N _ st' H'. apply Z.eqb_neq in N as ->. split; [done|by apply RV_done].
Qed.
Example C14_exptmod_evalue_errors_ex : result (mp_int_exptmod_evalue hB (-1) hD hA) hA exS = Some (MP_RANGE, Some vA) /\
  result (mp_int_exptmod_evalue hB (-1) hC hA) hA exS = Some (MP_UNDEF, Some vA).
Proof. by vm_compute. Qed.
Print Assumptions C14_exptmod_evalue_errors.
(** A machine integer as the base. *)
Theorem C14_exptmod_bvalue st V W v b m c vb vm :
  Rep st V W -> V !! b = Some vb -> V !! m = Some vm -> is_Some (V !! c) ->
  0 < vm -> 0 <= vb -> vb <> 0 \/ vm <> 1 -> - 2 ^ 63 < v < 2 ^ 63 ->
  calls (mp_int_exptmod_bvalue v b m c) st (fun r st' => r = MP_OK /\ Rep st' (<[c := v ^ vb mod vm]> V) W).
Proof.
  intros H Hb Hm [vc Hc] Pm Pb Hx Pv. eapply by_rule; [done|]. intros st1 HV. eapply wpV_exptmod_bvalue; [done..|lia|lia|lia|].
  intros _ _ st' H'. rewrite emval_pow in H' by lia. split; [done|by apply RV_done].
Qed.
Example C14_exptmod_bvalue_ex : result (mp_int_exptmod_bvalue (-1000) hE hA hB) hB exS = Some (MP_OK, Some ((-1000) ^ 3 mod vA)).
Proof. by vm_compute. Qed.
Print Assumptions C14_exptmod_bvalue.
Theorem C14_exptmod_bvalue_errors st V W v b m c vb vm :
  Rep st V W -> V !! b = Some vb -> V !! m = Some vm -> is_Some (V !! c) -> - 2 ^ 63 < v < 2 ^ 63 -> vm = 0 \/ vb < 0 ->
  calls (mp_int_exptmod_bvalue v b m c) st (fun r st' => r = (if vm =? 0 then MP_UNDEF else MP_RANGE) /\ Rep st' V W).
Proof.
  intros H Hb Hm [vc Hc] Pv Hx. eapply by_rule; [done|]. intros st1 HV. eapply wpV_exptmod_bvalue; [done..|lia| | |lia].
  - intros -> st' H'. split; [done|by apply RV_done].
  - intros N _ st' H'. apply Z.eqb_neq in N as ->. split; [done|by apply RV_done].
Qed.
Example C14_exptmod_bvalue_errors_ex : result (mp_int_exptmod_bvalue 5 hD hA hB) hB exS = Some (MP_RANGE, Some vB) /\
  result (mp_int_exptmod_bvalue 5 hD hC hB) hB exS = Some (MP_UNDEF, Some vB).
Proof. by vm_compute. Qed.
Print Assumptions C14_exptmod_bvalue_errors.

(** The constant for repeated reductions. *)
Theorem C14_redux_const st V W m c vm vc :
  Rep st V W -> V !! m = Some vm -> V !! c = Some vc -> m <> c -> 0 < vm -> 0 <= vc ->
  calls (mp_int_redux_const m c) st (fun r st' => r = MP_OK /\ Rep st' (<[c := barrett_const vm]> V) W).
Proof.
  intros H Hm Hc N Pm Pc. eapply by_rule; [done|]. intros st1 HV. eapply wpV_redux_const; [done..|].
  intros st' H'. rewrite (proj2 (Z.ltb_ge _ _) Pc) in H'. split; [done|by apply RV_done].
Qed.
Example C14_redux_const_ex : result (mp_int_redux_const hA hC) hC exS = Some (MP_OK, Some (2 ^ 256 / vA)).
Proof. by vm_compute. Qed.
Print Assumptions C14_redux_const.
(** With that constant (up to its sign) the caller gets the same power. *)
Theorem C14_exptmod_known st V W a b m mu c va vb vm vmu :
  Rep st V W -> V !! a = Some va -> V !! b = Some vb -> V !! m = Some vm -> V !! mu = Some vmu -> is_Some (V !! c) -> c <> mu ->
  0 < vm -> 0 <= vb -> vb <> 0 \/ vm <> 1 -> Z.abs vmu = barrett_const vm ->
  calls (mp_int_exptmod_known a b m mu c) st (fun r st' => r = MP_OK /\ Rep st' (<[c := va ^ vb mod vm]> V) W).
Proof.
  intros H Ha Hb Hm Hu [vc Hc] N Pm Pb Hx Hmu. eapply by_rule; [done|]. intros st1 HV. eapply wpV_exptmod_known; [done..|lia|done|lia|lia|].
  intros _ _ st' H'. rewrite emval_pow in H' by lia. split; [done|by apply RV_done].
Qed.
Example C14_exptmod_known_ex : result (mp_int_exptmod_known hB hE hA (H 9) hB) hB (put (H 9) (barrett_const vA) exS) = Some (MP_OK, Some (vB ^ 3 mod vA)).
Proof. by vm_compute. Qed.
Print Assumptions C14_exptmod_known.
Theorem C14_exptmod_known_errors st V W a b m mu c va vb vm vmu :
  Rep st V W -> V !! a = Some va -> V !! b = Some vb -> V !! m = Some vm -> V !! mu = Some vmu -> is_Some (V !! c) -> c <> mu ->
  vm = 0 \/ vb < 0 ->
  calls (mp_int_exptmod_known a b m mu c) st (fun r st' => r = (if vm =? 0 then MP_UNDEF else MP_RANGE) /\ Rep st' V W).
Proof.
  intros H Ha Hb Hm Hu [vc Hc] N Hx. eapply by_rule; [done|]. intros st1 HV. eapply wpV_exptmod_known; [done..|lia|lia| | |lia].
  - intros ->. split; [done|by apply RV_done].
  - intros E _. apply Z.eqb_neq in E as ->. split; [done|by apply RV_done].
Qed.
Example C14_exptmod_known_errors_ex : result (mp_int_exptmod_known hB hD hD hA hB) hB exS = Some (MP_RANGE, Some vB) /\
  result (mp_int_exptmod_known hB hD hC hA hB) hB exS = Some (MP_UNDEF, Some vB).
Proof. by vm_compute. Qed.
Print Assumptions C14_exptmod_known_errors.
(** The two calls one after the other, whatever [mu] held before. *)
Theorem C14_redux_then_known st V W a b m mu c va vb vm :
  Rep st V W -> V !! a = Some va -> V !! b = Some vb -> V !! m = Some vm -> is_Some (V !! mu) -> is_Some (V !! c) ->
  c <> mu -> a <> mu -> b <> mu -> m <> mu -> 0 < vm -> 0 <= vb -> vb <> 0 \/ vm <> 1 ->
  calls (r1 <- mp_int_redux_const m mu; r2 <- mp_int_exptmod_known a b m mu c; Ret (r1, r2)) st
    (fun r st' => r = (MP_OK, MP_OK) /\ exists k, Rep st' (<[c := va ^ vb mod vm]> (<[mu := k]> V)) W).
Proof.
  intros H Ha Hb Hm [vu Hu] [vc Hc] N1 N2 N3 N4 Pm Pb Hx. eapply by_rule; [done|]. intros st1 HV. apply wp_bind. eapply wpV_redux_const; [done..|].
  intros st2 H2. apply wp_bind. eapply wpV_exptmod_known; [exact H2|rewrite ?lookup_insert_ne by done; done..|by rewrite lookup_insert|by rewrite lookup_insert_ne|done|lia| |lia|lia|].
  { intros _ _. assert (0 <= barrett_const vm). { unfold barrett_const. apply Z.div_pos; [apply Z.pow_nonneg|]; lia. } destruct (vu <? 0); lia. }
  intros _ _ st' H'. rewrite emval_pow in H' by lia. simpl. split; [done|]. eexists. by apply RV_done.
Qed.
Example C14_redux_then_known_ex : result (mp_int_redux_const hA hD;; mp_int_exptmod_known hB hE hA hD hB) hB exS = Some (MP_OK, Some (vB ^ 3 mod vA)).
Proof. by vm_compute. Qed.
Print Assumptions C14_redux_then_known.

(** Where the claim fails: exponent zero with modulus one gives 1, not 0. *)
Theorem C14_exptmod_one_refuted : exists st V W a b m c,
  Rep st V W /\ V !! a = Some 3 /\ V !! b = Some 0 /\ V !! m = Some 1 /\ is_Some (V !! c) /\
  result (mp_int_exptmod a b m c) c st = Some (MP_OK, Some 1) /\ 3 ^ 0 mod 1 = 0.
Proof.
  exists (put (H 9) 1 exS), (<[H 9 := 1]> exV), world0, hE, hC, (H 9), hA.
  split; [apply Rep_put; [apply ex_rep|reflexivity|by vm_compute]|]. repeat (split; [by vm_compute|]). split; [by vm_compute; eexists|]. split; by vm_compute.
Qed.
Print Assumptions C14_exptmod_one_refuted.
(** A negative modulus is accepted but the result need not even be reduced. *)
Theorem C14_exptmod_negative_refuted : exists st V W a b m c,
  Rep st V W /\ V !! a = Some 3 /\ V !! b = Some 3 /\ V !! m = Some (-12) /\ is_Some (V !! c) /\
  result (mp_int_exptmod a b m c) c st = Some (MP_OK, Some 27).
Proof.
  exists exS, exV, world0, hE, hE, hD, hA. split; [apply ex_rep|]. repeat (split; [by vm_compute|]). split; [by vm_compute; eexists|]. by vm_compute.
Qed.
Print Assumptions C14_exptmod_negative_refuted.
(** The constant must not be the output. *)
Theorem C14_exptmod_known_alias_refuted : exists st V W a b m mu va vm x,
  Rep st V W /\ V !! a = Some va /\ V !! b = Some 3 /\ V !! m = Some vm /\ 0 < vm /\ V !! mu = Some (barrett_const vm) /\
  result (mp_int_exptmod_known a b m mu mu) mu st = Some (MP_OK, Some x) /\ x <> va ^ 3 mod vm.
Proof.
  exists (put (H 9) (barrett_const vA) exS), (<[H 9 := barrett_const vA]> exV), world0, hB, hE, hA, (H 9), vB, vA, 1073166320995071617688314495674795876441273344556.
  split; [apply Rep_put; [apply ex_rep|reflexivity|by vm_compute]|]. repeat (split; [by vm_compute|]). by vm_compute.
Qed.
Print Assumptions C14_exptmod_known_alias_refuted.
(** The sign the output had before is kept by [mp_int_redux_const]. *)
Theorem C14_redux_const_sign_refuted : exists st V W m c vm vc,
  Rep st V W /\ V !! m = Some vm /\ 0 < vm /\ V !! c = Some vc /\ m <> c /\
  result (mp_int_redux_const m c) c st = Some (MP_OK, Some (- barrett_const vm)) /\ barrett_const vm <> 0.
Proof. exists exS, exV, world0, hA, hB, vA, vB. split; [apply ex_rep|]. repeat (split; [by vm_compute|]). by vm_compute. Qed.
Print Assumptions C14_redux_const_sign_refuted.
