(** Properties of storage: refused requests in the [NDEBUG] build (C29), and the
    size of the digit arrays (C50).  See [Spec] and, for [reports], [room] and
    [no_shrink], [SpecHist]. *)
From Coq Require Import ZArith List Lia.
From stdpp Require Import gmap list.
From Verif Require Import Mem Prog Kern Imath Exec Wp RelZ Basic Basic2 Mult Divi Powr Spec SpecHist Public SpecBin Concrete Hist Room Refuse Still Text Read.
Local Open Scope Z_scope.
Local Open Scope prog_scope.
Local Open Scope list_scope.

Lemma known_none st : known ∅ ∅ st. Proof. split; intros ? E; set_solver. Qed.
Lemma known_blank st V W o z : Rep st V W -> V !! o = None -> blanks W !! o = Some z -> known {[o]} ∅ st.
Proof.
  intros HR Hv Hb. split; [|intros ? E; set_solver]. intros o' ->%elem_of_singleton. rewrite (rep_others _ _ _ HR _ Hv). by eexists.
Qed.
Lemma blank_not_live st V W o z : Rep st V W -> blanks W !! o = Some z -> V !! o = None.
Proof. intros HR Hb. destruct (V !! o) as [v|] eqn:E; [|done]. by rewrite (rep_blanks _ _ _ HR _ _ E) in Hb. Qed.

(** ** C29 Allocation failure is reported (NDEBUG) *)
(** For each function below: whichever requests are refused, it returns
    [MP_MEMORY], or else it has its full effect. *)
Theorem C29_copy st V W a c va vc :
  Rep st V W -> V !! a = Some va -> V !! c = Some vc ->
  reports (mp_int_copy a c) st (fun r st' => r = MP_OK /\ Rep st' (<[c := va]> V) W).
Proof.
  intros HR. intros. intros orc t. eapply (reported _ ∅ ∅); [eapply pf_mono; [apply pf_copy|intros ? ? ?; apply rets_or]|apply known_none|].
  eapply wpV_copy; [by apply Rep_RV|done..|]. intros st' H'. split; [done|by apply RV_done].
Qed.
Example C29_copy_ex : match run false (orc_first 0) (mp_int_copy hA hC) 0 exS with Done r _ _ => r = MP_MEMORY | _ => False end /\ match run false orc_yes (mp_int_copy hA hC) 0 exS with Done r _ _ => r = MP_OK | _ => False end. Proof. by vm_compute. Qed.
Print Assumptions C29_copy.
Theorem C29_abs st V W a c va vc :
  Rep st V W -> V !! a = Some va -> V !! c = Some vc ->
  reports (mp_int_abs a c) st (fun r st' => r = MP_OK /\ Rep st' (<[c := Z.abs va]> V) W).
Proof.
  intros HR. intros. intros orc t. eapply (reported _ ∅ ∅); [eapply pf_mono; [apply pf_abs|intros ? ? ?; apply rets_or]|apply known_none|].
  eapply wpV_abs; [by apply Rep_RV|done..|]. intros st' H'. split; [done|by apply RV_done].
Qed.
Example C29_abs_ex : match run false (orc_first 0) (mp_int_abs hA hC) 0 exS with Done r _ _ => r = MP_MEMORY | _ => False end /\ match run false orc_yes (mp_int_abs hA hC) 0 exS with Done r _ _ => r = MP_OK | _ => False end. Proof. by vm_compute. Qed.
Print Assumptions C29_abs.
Theorem C29_neg st V W a c va vc :
  Rep st V W -> V !! a = Some va -> V !! c = Some vc ->
  reports (mp_int_neg a c) st (fun r st' => r = MP_OK /\ Rep st' (<[c := - va]> V) W).
Proof.
  intros HR. intros. intros orc t. eapply (reported _ ∅ ∅); [eapply pf_mono; [apply pf_neg|intros ? ? ?; apply rets_or]|apply known_none|].
  eapply wpV_neg; [by apply Rep_RV|done..|]. intros st' H'. split; [done|by apply RV_done].
Qed.
Example C29_neg_ex : match run false (orc_first 0) (mp_int_neg hA hC) 0 exS with Done r _ _ => r = MP_MEMORY | _ => False end /\ match run false orc_yes (mp_int_neg hA hC) 0 exS with Done r _ _ => r = MP_OK | _ => False end. Proof. by vm_compute. Qed.
Print Assumptions C29_neg.
Theorem C29_add st V W a b c va vb vc :
  Rep st V W -> V !! a = Some va -> V !! b = Some vb -> V !! c = Some vc ->
  reports (mp_int_add a b c) st (fun r st' => r = MP_OK /\ Rep st' (<[c := va + vb]> V) W).
Proof.
  intros HR. intros. intros orc t. eapply (reported _ ∅ ∅); [eapply pf_mono; [apply pf_add|intros ? ? ?; apply rets_or]|apply known_none|].
  eapply wpV_add; [by apply Rep_RV|done..|]. intros st' H'. split; [done|by apply RV_done].
Qed.
Example C29_add_ex : match run false (orc_first 0) (mp_int_add hA hB hC) 0 exS with Done r _ _ => r = MP_MEMORY | _ => False end /\ match run false orc_yes (mp_int_add hA hB hC) 0 exS with Done r _ _ => r = MP_OK | _ => False end. Proof. by vm_compute. Qed.
Print Assumptions C29_add.
Theorem C29_sub st V W a b c va vb vc :
  Rep st V W -> V !! a = Some va -> V !! b = Some vb -> V !! c = Some vc ->
  reports (mp_int_sub a b c) st (fun r st' => r = MP_OK /\ Rep st' (<[c := va - vb]> V) W).
Proof.
  intros HR. intros. intros orc t. eapply (reported _ ∅ ∅); [eapply pf_mono; [apply pf_sub|intros ? ? ?; apply rets_or]|apply known_none|].
  eapply wpV_sub; [by apply Rep_RV|done..|]. intros st' H'. split; [done|by apply RV_done].
Qed.
Example C29_sub_ex : match run false (orc_first 0) (mp_int_sub hA hB hC) 0 exS with Done r _ _ => r = MP_MEMORY | _ => False end /\ match run false orc_yes (mp_int_sub hA hB hC) 0 exS with Done r _ _ => r = MP_OK | _ => False end. Proof. by vm_compute. Qed.
Print Assumptions C29_sub.
Theorem C29_mul_pow2 st V W a k c va vc :
  Rep st V W -> V !! a = Some va -> V !! c = Some vc -> 0 <= k < 2 ^ 32 ->
  reports (mp_int_mul_pow2 a k c) st (fun r st' => r = MP_OK /\ Rep st' (<[c := va * 2 ^ k]> V) W).
Proof.
  intros HR. intros. intros orc t. eapply (reported _ ∅ ∅); [eapply pf_mono; [apply pf_mul_pow2|intros ? ? ?; apply rets_or]|apply known_none|].
  eapply wpV_mul_pow2; [by apply Rep_RV|done..|]. intros st' H'. split; [done|by apply RV_done].
Qed.
Example C29_mul_pow2_ex : match run false (orc_first 0) (mp_int_mul_pow2 hA 200 hC) 0 exS with Done r _ _ => r = MP_MEMORY | _ => False end /\ match run false orc_yes (mp_int_mul_pow2 hA 200 hC) 0 exS with Done r _ _ => r = MP_OK | _ => False end. Proof. by vm_compute. Qed.
Print Assumptions C29_mul_pow2.
(** A handle with one digit of storage. *)
Definition hH : oid := H 9.
Definition exH : state := State {[hH := Mpz (Some (Sng hH, 0)) 1 1 0]} {[Sng hH := [Some 4]]} (Globals 8 32).
Theorem C29_add_value st V W a v c va vc :
  Rep st V W -> V !! a = Some va -> V !! c = Some vc -> - 2 ^ 63 < v < 2 ^ 63 ->
  reports (mp_int_add_value a v c) st (fun r st' => r = MP_OK /\ Rep st' (<[c := va + v]> V) W).
Proof.
  intros HR. intros. intros orc t. eapply (reported _ ∅ ∅); [apply pf_with_local; intros t' b' L' E' _; apply pf_q; [apply q_s_fake|intros _; apply pf_add]|apply known_none|].
  eapply wpV_add_value; [by apply Rep_RV|done..|]. intros st' H'. split; [done|by apply RV_done].
Qed.
Example C29_add_value_ex : match run false (orc_first 1) (mp_int_add_value hH (2 ^ 33) hH) 0 exH with Done r _ _ => r = MP_MEMORY | _ => False end /\ match run false orc_yes (mp_int_add_value hH (2 ^ 33) hH) 0 exH with Done r _ _ => r = MP_OK | _ => False end. Proof. by vm_compute. Qed.
Print Assumptions C29_add_value.
Theorem C29_sub_value st V W a v c va vc :
  Rep st V W -> V !! a = Some va -> V !! c = Some vc -> - 2 ^ 63 < v < 2 ^ 63 ->
  reports (mp_int_sub_value a v c) st (fun r st' => r = MP_OK /\ Rep st' (<[c := va - v]> V) W).
Proof.
  intros HR. intros. intros orc t. eapply (reported _ ∅ ∅); [apply pf_with_local; intros t' b' L' E' _; apply pf_q; [apply q_s_fake|intros _; apply pf_sub]|apply known_none|].
  eapply wpV_sub_value; [by apply Rep_RV|done..|]. intros st' H'. split; [done|by apply RV_done].
Qed.
Example C29_sub_value_ex : match run false (orc_first 1) (mp_int_sub_value hH (- 2 ^ 33) hH) 0 exH with Done r _ _ => r = MP_MEMORY | _ => False end /\ match run false orc_yes (mp_int_sub_value hH (- 2 ^ 33) hH) 0 exH with Done r _ _ => r = MP_OK | _ => False end. Proof. by vm_compute. Qed.
Print Assumptions C29_sub_value.
Theorem C29_set_value st V W v c vc :
  Rep st V W -> V !! c = Some vc -> - 2 ^ 63 < v < 2 ^ 63 ->
  reports (mp_int_set_value c v) st (fun r st' => r = MP_OK /\ Rep st' (<[c := v]> V) W).
Proof.
  intros HR. intros. intros orc t. eapply (reported _ ∅ ∅); [apply pf_with_local; intros t' b' L' E' _; apply pf_q; [apply q_s_fake|intros _; apply pf_copy]|apply known_none|].
  eapply wpV_set_value; [by apply Rep_RV|done..|]. intros st' H'. split; [done|by apply RV_done].
Qed.
Example C29_set_value_ex : match run false (orc_first 1) (mp_int_set_value hH (- 2 ^ 33)) 0 exH with Done r _ _ => r = MP_MEMORY | _ => False end /\ match run false orc_yes (mp_int_set_value hH (- 2 ^ 33)) 0 exH with Done r _ _ => r = MP_OK | _ => False end. Proof. by vm_compute. Qed.
Print Assumptions C29_set_value.
Theorem C29_set_uvalue st V W v c vc :
  Rep st V W -> V !! c = Some vc -> 0 <= v < 2 ^ 64 ->
  reports (mp_int_set_uvalue c v) st (fun r st' => r = MP_OK /\ Rep st' (<[c := v]> V) W).
Proof.
  intros HR. intros. intros orc t. eapply (reported _ ∅ ∅); [apply pf_with_local; intros t' b' L' E' _; apply pf_q; [apply q_s_ufake|intros _; apply pf_copy]|apply known_none|].
  eapply wpV_set_uvalue; [by apply Rep_RV|done..|]. intros st' H'. split; [done|by apply RV_done].
Qed.
Example C29_set_uvalue_ex : match run false (orc_first 1) (mp_int_set_uvalue hH (2 ^ 63)) 0 exH with Done r _ _ => r = MP_MEMORY | _ => False end /\ match run false orc_yes (mp_int_set_uvalue hH (2 ^ 63)) 0 exH with Done r _ _ => r = MP_OK | _ => False end. Proof. by vm_compute. Qed.
Print Assumptions C29_set_uvalue.
Theorem C29_init_size st V W o z n :
  Rep st V W -> blanks W !! o = Some z -> 0 <= n < 2 ^ 32 - 1 ->
  reports (mp_int_init_size o n) st (fun r st' => r = MP_OK /\ Rep st' (<[o := 0]> V) (World (bufs W) (delete o (blanks W)) (tunables W))).
Proof.
  intros HR Hb. intros. intros orc t. pose proof (blank_not_live _ _ _ _ _ HR Hb) as Hn.
  eapply (reported _ {[o]} ∅); [eapply pf_mono; [apply pf_init_size; by apply elem_of_singleton|intros ? ? ?; apply rets_or]|by eapply known_blank|].
  eapply wpV_init_size; [by apply Rep_RV|done..|]. intros st' H'. split; [done|by apply RV_done].
Qed.
Example C29_init_size_ex : match run false (orc_first 0) (mp_int_init_size (H 1) 64) 0 (declares [H 1; H 2]) with Done r _ _ => r = MP_MEMORY | _ => False end /\ match run false orc_yes (mp_int_init_size (H 1) 64) 0 (declares [H 1; H 2]) with Done r _ _ => r = MP_OK | _ => False end. Proof. by vm_compute. Qed.
Print Assumptions C29_init_size.
Theorem C29_init_copy st V W o z a va :
  Rep st V W -> blanks W !! o = Some z -> V !! a = Some va ->
  reports (mp_int_init_copy o a) st (fun r st' => r = MP_OK /\ Rep st' (<[o := va]> V) (World (bufs W) (delete o (blanks W)) (tunables W))).
Proof.
  intros HR Hb. intros. intros orc t. pose proof (blank_not_live _ _ _ _ _ HR Hb) as Hn.
  eapply (reported _ {[o]} ∅); [eapply pf_mono; [apply pf_init_copy; by apply elem_of_singleton|intros ? ? ?; apply rets_or]|by eapply known_blank|].
  eapply wpV_init_copy; [by apply Rep_RV|done..|]. intros st' H'. split; [done|by apply RV_done].
Qed.
Example C29_init_copy_ex : match run false (orc_first 2) (mp_int_init_value (H 1) (2 ^ 40);; mp_int_init_copy (H 2) (H 1)) 0 (declares [H 1; H 2]) with Done r _ _ => r = MP_MEMORY | _ => False end /\ match run false orc_yes (mp_int_init_value (H 1) (2 ^ 40);; mp_int_init_copy (H 2) (H 1)) 0 (declares [H 1; H 2]) with Done r _ _ => r = MP_OK | _ => False end. Proof. by vm_compute. Qed.
Print Assumptions C29_init_copy.
Theorem C29_init_value st V W o z v :
  Rep st V W -> blanks W !! o = Some z -> - 2 ^ 63 < v < 2 ^ 63 ->
  reports (mp_int_init_value o v) st (fun r st' => r = MP_OK /\ Rep st' (<[o := v]> V) (World (bufs W) (delete o (blanks W)) (tunables W))).
Proof.
  intros HR Hb. intros. intros orc t. pose proof (blank_not_live _ _ _ _ _ HR Hb) as Hn.
  eapply (reported _ {[o]} ∅); [apply pf_with_local; intros t' b' L' E' HL; apply pf_q; [apply q_s_fake|intros _; apply pf_init_copy; set_solver]|by eapply known_blank|].
  eapply wpV_init_value; [by apply Rep_RV|done..|]. intros st' H'. split; [done|by apply RV_done].
Qed.
Example C29_init_value_ex : match run false (orc_first 1) (mp_int_init_value (H 1) (2 ^ 40)) 0 (declares [H 1; H 2]) with Done r _ _ => r = MP_MEMORY | _ => False end /\ match run false orc_yes (mp_int_init_value (H 1) (2 ^ 40)) 0 (declares [H 1; H 2]) with Done r _ _ => r = MP_OK | _ => False end. Proof. by vm_compute. Qed.
Print Assumptions C29_init_value.
Theorem C29_init_uvalue st V W o z v :
  Rep st V W -> blanks W !! o = Some z -> 0 <= v < 2 ^ 64 ->
  reports (mp_int_init_uvalue o v) st (fun r st' => r = MP_OK /\ Rep st' (<[o := v]> V) (World (bufs W) (delete o (blanks W)) (tunables W))).
Proof.
  intros HR Hb. intros. intros orc t. pose proof (blank_not_live _ _ _ _ _ HR Hb) as Hn.
  eapply (reported _ {[o]} ∅); [apply pf_with_local; intros t' b' L' E' HL; apply pf_q; [apply q_s_ufake|intros _; apply pf_init_copy; set_solver]|by eapply known_blank|].
  eapply wpV_init_uvalue; [by apply Rep_RV|done..|]. intros st' H'. split; [done|by apply RV_done].
Qed.
Example C29_init_uvalue_ex : match run false (orc_first 1) (mp_int_init_uvalue (H 2) (2 ^ 63)) 0 (declares [H 1; H 2]) with Done r _ _ => r = MP_MEMORY | _ => False end /\ match run false orc_yes (mp_int_init_uvalue (H 2) (2 ^ 63)) 0 (declares [H 1; H 2]) with Done r _ _ => r = MP_OK | _ => False end. Proof. by vm_compute. Qed.
Print Assumptions C29_init_uvalue.
Theorem C29_div_pow2 st V W a k q r va :
  Rep st V W -> V !! a = Some va -> q <> r -> live q V -> live r V -> 0 <= k < 2 ^ 32 -> (q = Some a -> r = None) ->
  (r <> None -> va < 0 -> Z.rem va (2 ^ k) <> 0) ->
  reports (mp_int_div_pow2 a k q r) st (fun x st' => x = MP_OK /\ Rep st' (assign r (Z.rem va (2 ^ k)) (assign q (Z.quot va (2 ^ k)) V)) W).
Proof.
  intros HR. intros. intros orc t. eapply (reported _ ∅ ∅); [eapply pf_mono; [apply pf_div_pow2|intros ? ? ?; apply rets_or]|apply known_none|].
  eapply wpV_div_pow2; [by apply Rep_RV|done..|]. intros st' H'. split; [done|by apply RV_done].
Qed.
Example C29_div_pow2_ex :
  match run false (orc_first 0) (mp_int_div_pow2 hA 1 (Some hC) (Some hD)) 0 exS with Done r _ _ => r = MP_MEMORY | _ => False end /\
  match run false orc_yes (mp_int_div_pow2 hA 1 (Some hC) (Some hD)) 0 exS with Done r _ _ => r = MP_OK | _ => False end.
Proof. by vm_compute. Qed.
Print Assumptions C29_div_pow2.
Theorem C29_read_string st V W z r sp sg body ds rest :
  Rep st V W -> is_Some (V !! z) -> 2 <= r <= 36 ->
  Forall is_space sp -> (sg = [] \/ sg = [43] \/ sg = [45]) ->
  Forall2 (fun c d => digit_of c = Some d /\ d < r) body ds ->
  (forall c d, head rest = Some c -> ~ (digit_of c = Some d /\ d < r)) ->
  (sg = [] -> forall c, head (body ++ rest) = Some c -> ~ is_space c /\ c <> 43 /\ c <> 45) ->
  Z.of_nat (length (sp ++ sg ++ body ++ rest)) < 2 ^ 31 ->
  reports (mp_int_read_string z r (sp ++ sg ++ body ++ rest)) st
    (fun x st' => x = (match rest with [] => MP_OK | _ :: _ => MP_TRUNC end) /\
       Rep st' (<[z := if decide (sg = [45]) then - horner r ds else horner r ds]> V) W).
Proof.
  intros HR [v0 Hz]. intros. intros orc t. eapply (reported_any _ ∅ ∅); [apply pf_read_string|apply known_none|].
  eapply wpV_read_string; [by apply Rep_RV|done..|]. intros st' H'. split; [done|by apply RV_done].
Qed.
Example C29_read_string_ex :
  let p := mp_int_read_string hH 10 [49;50;51;52;53;54;55;56;57;48;49;50;51;52;53;54;55;56;57;48] in
  match run false (orc_first 0) p 0 exH with Done r _ _ => r = MP_MEMORY | _ => False end /\
  match run false orc_yes p 0 exH with Done r st' _ => r = MP_OK /\ value_of st' hH = Some 12345678901234567890 | _ => False end.
Proof. by vm_compute. Qed.
Print Assumptions C29_read_string.
Theorem C29_to_string st V W z v r b (off : nat) l limit s :
  Rep st V W -> V !! z = Some v -> bufs W !! b = Some l -> 2 <= r <= 36 -> numeral r v s ->
  Z.of_nat (length s) < limit -> (off + length s + 1 <= length l)%nat ->
  reports (mp_int_to_string z r (b, Z.of_nat off) limit) st
    (fun x st' => x = MP_OK /\ Rep st' V (with_buf W b (overwrite off (s ++ [0]) l))).
Proof.
  intros HR Hz Hb Hr Hs Hl Ho. intros orc t. eapply (reported_any _ ∅ ∅); [apply pf_to_string|apply known_none|].
  assert (RV st V (ctx_of W)) as HV by (by apply Rep_RV). destruct (numeral_short _ _ _ _ _ _ _ HV Hz (proj1 Hr) Hs) as [L1 _].
  eapply wpV_to_string; [done|done|exact Hb|done|lia|done|lia| |lia]. intros st' _ H'. split; [done|by apply RV_done_buf].
Qed.
Example C29_to_string_ex :
  match run false (orc_first 1) (mp_int_to_string hA 10 (bX, 0) 40) 0 (exB 41) with Done r _ _ => r = MP_MEMORY | _ => False end /\
  match run false orc_yes (mp_int_to_string hA 10 (bX, 0) 40) 0 (exB 41) with Done r _ _ => r = MP_OK | _ => False end.
Proof. by vm_compute. Qed.
Print Assumptions C29_to_string.
(** Squaring ignores the result of the recursive routine: a refused request gives
    a zero "square", and [MP_OK]. *)
Theorem C29_sqr_refuted : exists st V W a c va orc,
  Rep st V W /\ V !! a = Some va /\ is_Some (V !! c) /\ va <> 0 /\
  match run false orc (mp_int_sqr a c) 0 st with Done r st' _ => (r, value_of st' c) | _ => (-1, None) end = (MP_OK, Some 0).
Proof.
  exists (put hC 0 (put hA (2 ^ 1100) st0)), (<[hC := 0]> (<[hA := 2 ^ 1100]> ∅)), world0, hA, hC, (2 ^ 1100), (orc_first 1).
  split; [repeat (apply Rep_put; [|reflexivity|by vm_compute]); apply Rep_empty|].
  split; [done|]. split; [by eexists|]. split; [done|]. vm_cast_no_check (eq_refl (MP_OK, Some 0)).
Qed.
Print Assumptions C29_sqr_refuted.
(** The same in the inner calls of a long multiplication. *)
Theorem C29_mul_refuted : exists st V W a c va orc,
  Rep st V W /\ V !! a = Some va /\ is_Some (V !! c) /\ va <> 0 /\
  match run false orc (mp_int_mul a a c) 0 st with Done r st' _ => (r, value_of st' c) | _ => (-1, None) end = (MP_OK, Some 0).
Proof.
  exists (put hC 0 (put hA (2 ^ 2200 + 1) st0)), (<[hC := 0]> (<[hA := 2 ^ 2200 + 1]> ∅)), world0, hA, hC, (2 ^ 2200 + 1), (orc_first 2).
  split; [repeat (apply Rep_put; [|reflexivity|by vm_compute]); apply Rep_empty|].
  split; [done|]. split; [by eexists|]. split; [done|]. vm_cast_no_check (eq_refl (MP_OK, Some 0)).
Qed.
Print Assumptions C29_mul_refuted.
(** Division ignores a failure to scale its operands ("These multiplications can't
    fail"). *)
Theorem C29_div_refuted : exists st V W a b q va vb orc,
  Rep st V W /\ V !! a = Some va /\ V !! b = Some vb /\ is_Some (V !! q) /\ vb <> 0 /\
  match run false orc (mp_int_div a b (Some q) None) 0 st with
  | Done r st' _ => r = MP_OK /\ is_Some (value_of st' q) /\ value_of st' q <> Some (Z.quot va vb) | _ => False end.
Proof.
  exists (put hC 0 (put hA (2 ^ 128 - 1) (put hB (2 ^ 33 + 1) st0))), (<[hC := 0]> (<[hA := 2 ^ 128 - 1]> (<[hB := 2 ^ 33 + 1]> ∅))), world0, hA, hB, hC, (2 ^ 128 - 1), (2 ^ 33 + 1).
  exists (Oracle (fun t _ => negb (Nat.eqb t 4)) (fun _ => Mpz None 0 0 0) (fun _ _ => 1%positive)). split; [repeat (apply Rep_put; [|reflexivity|by vm_compute]); apply Rep_empty|].
  split; [done|]. split; [done|]. split; [by eexists|]. split; [done|]. vm_compute. split; [done|]. split; [by eexists|done].
Qed.
Print Assumptions C29_div_refuted.

(** ** C50 Storage grows monotonically *)
Ltac look := repeat match goal with Hv : relv ?ζ ?V, Hx : ?V !! ?o = Some ?v |- _ => destruct (relv_some ζ V o v Hv Hx) as (? & ? & ? & ? & ?); clear Hx end.
Ltac grown HN := let st' := fresh in let HZ' := fresh in intros st' HZ'; eapply HN; [exact HZ'|]; eapply keepz_ins; [apply keepz_refl|eassumption|done].
Theorem C50_copy st V W a c va vc :
  Rep st V W -> V !! a = Some va -> V !! c = Some vc ->
  calls (mp_int_copy a c) st (fun _ st' => no_shrink st V st').
Proof.
  intros HR. intros. eapply by_room; [done|]. intros ζ HZ Hv HN.
  look. eapply wpZ_copy; [eassumption..|]. grown HN.
Qed.
Print Assumptions C50_copy.
Theorem C50_zero st V W c vc :
  Rep st V W -> V !! c = Some vc ->
  calls (mp_int_zero c) st (fun _ st' => no_shrink st V st').
Proof.
  intros HR. intros. eapply by_room; [done|]. intros ζ HZ Hv HN.
  look. eapply wpZ_zero; [eassumption..|]. grown HN.
Qed.
Print Assumptions C50_zero.
Theorem C50_abs st V W a c va vc :
  Rep st V W -> V !! a = Some va -> V !! c = Some vc ->
  calls (mp_int_abs a c) st (fun _ st' => no_shrink st V st').
Proof.
  intros HR. intros. eapply by_room; [done|]. intros ζ HZ Hv HN.
  look. eapply wpZ_abs; [eassumption..|]. grown HN.
Qed.
Print Assumptions C50_abs.
Theorem C50_neg st V W a c va vc :
  Rep st V W -> V !! a = Some va -> V !! c = Some vc ->
  calls (mp_int_neg a c) st (fun _ st' => no_shrink st V st').
Proof.
  intros HR. intros. eapply by_room; [done|]. intros ζ HZ Hv HN.
  look. eapply wpZ_neg; [eassumption..|]. grown HN.
Qed.
Print Assumptions C50_neg.
Theorem C50_set_value st V W c v vc :
  Rep st V W -> V !! c = Some vc -> - 2 ^ 63 < v < 2 ^ 63 ->
  calls (mp_int_set_value c v) st (fun _ st' => no_shrink st V st').
Proof.
  intros HR. intros. eapply by_room; [done|]. intros ζ HZ Hv HN.
  look. eapply wpZ_set_value; [eassumption..|]. grown HN.
Qed.
Print Assumptions C50_set_value.
Theorem C50_set_uvalue st V W c v vc :
  Rep st V W -> V !! c = Some vc -> 0 <= v < 2 ^ 64 ->
  calls (mp_int_set_uvalue c v) st (fun _ st' => no_shrink st V st').
Proof.
  intros HR. intros. eapply by_room; [done|]. intros ζ HZ Hv HN.
  look. eapply wpZ_set_uvalue; [eassumption..|]. grown HN.
Qed.
Print Assumptions C50_set_uvalue.
Theorem C50_add st V W a b c va vb vc :
  Rep st V W -> V !! a = Some va -> V !! b = Some vb -> V !! c = Some vc ->
  calls (mp_int_add a b c) st (fun _ st' => no_shrink st V st').
Proof.
  intros HR. intros. eapply by_room; [done|]. intros ζ HZ Hv HN.
  look. eapply wpZ_add; [eassumption..|]. grown HN.
Qed.
Print Assumptions C50_add.
Theorem C50_sub st V W a b c va vb vc :
  Rep st V W -> V !! a = Some va -> V !! b = Some vb -> V !! c = Some vc ->
  calls (mp_int_sub a b c) st (fun _ st' => no_shrink st V st').
Proof.
  intros HR. intros. eapply by_room; [done|]. intros ζ HZ Hv HN.
  look. eapply wpZ_sub; [eassumption..|]. grown HN.
Qed.
Print Assumptions C50_sub.
Theorem C50_add_value st V W a v c va vc :
  Rep st V W -> V !! a = Some va -> V !! c = Some vc -> - 2 ^ 63 < v < 2 ^ 63 ->
  calls (mp_int_add_value a v c) st (fun _ st' => no_shrink st V st').
Proof.
  intros HR. intros. eapply by_room; [done|]. intros ζ HZ Hv HN.
  look. eapply wpZ_add_value; [eassumption..|]. grown HN.
Qed.
Print Assumptions C50_add_value.
Theorem C50_sub_value st V W a v c va vc :
  Rep st V W -> V !! a = Some va -> V !! c = Some vc -> - 2 ^ 63 < v < 2 ^ 63 ->
  calls (mp_int_sub_value a v c) st (fun _ st' => no_shrink st V st').
Proof.
  intros HR. intros. eapply by_room; [done|]. intros ζ HZ Hv HN.
  look. eapply wpZ_sub_value; [eassumption..|]. grown HN.
Qed.
Print Assumptions C50_sub_value.
Theorem C50_mul_pow2 st V W a k c va vc :
  Rep st V W -> V !! a = Some va -> V !! c = Some vc -> 0 <= k < 2 ^ 32 ->
  calls (mp_int_mul_pow2 a k c) st (fun _ st' => no_shrink st V st').
Proof.
  intros HR. intros. eapply by_room; [done|]. intros ζ HZ Hv HN.
  look. eapply wpZ_mul_pow2; [eassumption..|]. grown HN.
Qed.
Print Assumptions C50_mul_pow2.
(** Multiplication into a handle that is not an operand. *)
Theorem C50_mul st V W a b c va vb vc :
  Rep st V W -> V !! a = Some va -> V !! b = Some vb -> V !! c = Some vc -> c <> a -> c <> b ->
  calls (mp_int_mul a b c) st (fun _ st' => no_shrink st V st').
Proof.
  intros HR. intros. eapply by_room; [done|]. intros ζ HZ Hv HN.
  look. eapply wpZ_mul_room; [eassumption..|]. rewrite !bool_decide_eq_false_2 by done. grown HN.
Qed.
Print Assumptions C50_mul.
Theorem C50_mul_value st V W a v c va vc :
  Rep st V W -> V !! a = Some va -> V !! c = Some vc -> - 2 ^ 63 < v < 2 ^ 63 -> a <> c ->
  calls (mp_int_mul_value a v c) st (fun _ st' => no_shrink st V st').
Proof.
  intros HR. intros. eapply by_room; [done|]. intros ζ HZ Hv HN.
  look. eapply wpZ_mul_value_room; [eassumption..|]. grown HN.
Qed.
Print Assumptions C50_mul_value.
Theorem C50_sqr st V W a c va vc :
  Rep st V W -> V !! a = Some va -> V !! c = Some vc -> a <> c ->
  calls (mp_int_sqr a c) st (fun _ st' => no_shrink st V st').
Proof.
  intros HR. intros. eapply by_room; [done|]. intros ζ HZ Hv HN.
  look. eapply wpZ_sqr_room; [eassumption..|]. rewrite bool_decide_eq_false_2 by done. grown HN.
Qed.
Print Assumptions C50_sqr.
(** Division: quotient and remainder. *)
Theorem C50_div st V W a b q r va vb :
  Rep st V W -> V !! a = Some va -> V !! b = Some vb -> q <> r -> live q V -> live r V ->
  calls (mp_int_div a b q r) st (fun _ st' => no_shrink st V st').
Proof.
  intros HR. intros. eapply by_room; [done|]. intros ζ HZ Hv HN.
  assert (oown q ζ) by (by eapply live_oown). assert (oown r ζ) by (by eapply live_oown). look. eapply (wpZ_div _ _ _ a b); [eassumption..| |].
  - intros _. eapply HN; [exact HZ|apply keepz_refl].
  - intros _ st' HZ'. eapply HN; [exact HZ'|]. apply keepz_oput, keepz_oput, keepz_refl.
Qed.
Print Assumptions C50_div.
Theorem C50_div_value st V W a v q va :
  Rep st V W -> V !! a = Some va -> live q V -> - 2 ^ 63 < v < 2 ^ 63 ->
  calls (mp_int_div_value a v q) st (fun _ st' => no_shrink st V st').
Proof.
  intros HR. intros. eapply by_room; [done|]. intros ζ HZ Hv HN.
  assert (oown q ζ) by (by eapply live_oown). look. eapply (wpZ_div_value _ _ _ a v); [eassumption..| |].
  - intros _ st' HZ'. eapply HN; [exact HZ'|apply keepz_refl].
  - intros _ st' HZ'. eapply HN; [exact HZ'|]. apply keepz_oput, keepz_refl.
Qed.
Print Assumptions C50_div_value.
Theorem C50_div_pow2 st V W a k q r va :
  Rep st V W -> V !! a = Some va -> q <> r -> live q V -> live r V -> 0 <= k < 2 ^ 32 -> (q = Some a -> r = None) ->
  calls (mp_int_div_pow2 a k q r) st (fun _ st' => no_shrink st V st').
Proof.
  intros HR. intros. eapply by_room; [done|]. intros ζ HZ Hv HN.
  assert (oown q ζ) by (by eapply live_oown). assert (oown r ζ) by (by eapply live_oown). look. eapply (wpZ_div_pow2 _ _ _ a k); [eassumption..|].
  intros st' HZ'. eapply HN; [exact HZ'|]. apply keepz_oupd; [|done]. apply keepz_oput, keepz_refl.
Qed.
Print Assumptions C50_div_pow2.
Theorem C50_mod st V W a m c va vm vc :
  Rep st V W -> V !! a = Some va -> V !! m = Some vm -> V !! c = Some vc ->
  calls (mp_int_mod a m c) st (fun _ st' => no_shrink st V st').
Proof.
  intros HR. intros. eapply by_room; [done|]. intros ζ HZ Hv HN.
  look. eapply wpZ_mod; [eassumption..| |].
  - intros _ st' HZ'. eapply HN; [exact HZ'|apply keepz_refl].
  - intros _. grown HN.
Qed.
Print Assumptions C50_mod.
(** Copying a number whose digits fit makes no request for memory: whatever would
    be granted, the count [t] of requests is as before.  So does zeroing. *)
Theorem C50_copy_in_place st V W a c va vc :
  Rep st V W -> V !! a = Some va -> V !! c = Some vc -> Z.abs va < 2 ^ (32 * room st c) ->
  forall dbg orc t, exists st', run dbg orc (mp_int_copy a c) t st = Done MP_OK st' t /\ Rep st' (<[c := va]> V) W.
Proof. apply copy_still. Qed.
Print Assumptions C50_copy_in_place.
Theorem C50_zero_in_place st V W c vc :
  Rep st V W -> V !! c = Some vc ->
  forall dbg orc t, exists st', run dbg orc (mp_int_zero c) t st = Done tt st' t /\ Rep st' (<[c := 0]> V) W.
Proof.
  intros HR Hc dbg orc t. pose proof (quiet_run true orc (mp_int_zero c) t st (q_zero c)) as HS.
  assert (wp (mp_int_zero c) (fun _ st' => Rep st' (<[c := 0]> V) W) st) as HW.
  { eapply wpV_zero; [by apply Rep_RV|done|]. intros st' H'. by apply RV_done. }
  pose proof (wp_sound _ _ _ HW orc t) as HD. destruct (run true orc (mp_int_zero c) t st) as [[] st' t'|n| | |] eqn:E; try done.
  cbn in HS, HD. subst t'. exists st'. split; [|done]. destruct dbg; [done|by apply run_nd_agrees].
Qed.
Print Assumptions C50_zero_in_place.
Example C50_in_place_ex : match run true (orc_first 0) (mp_int_copy hC hA) 0 exS with Done r st' t => r = MP_OK /\ t = 0%nat /\ value_of st' hA = Some 0 | _ => False end /\
  match run true (orc_first 0) (mp_int_copy hA hC) 0 exS with OOM _ => True | _ => False end.
Proof. by vm_compute. Qed.
(** Concrete: the digits of [hA] do not fit in the storage of [hC]. *)
Example C50_ex : room exS hC = 3 /\ room exS hA = 6 /\
  match exec (mp_int_copy hA hC) exS with Done _ st' _ => room st' hC = 4 | _ => False end /\
  match exec (mp_int_copy hC hA) exS with Done _ st' _ => room st' hA = 6 | _ => False end /\
  match exec (mp_int_mul hA hB hC) exS with Done _ st' _ => room st' hC = 8 | _ => False end /\
  match exec (mp_int_div hA hB (Some hC) (Some hD)) exS with Done _ st' _ => room st' hC = 6 | _ => False end.
Proof. by vm_compute. Qed.
(** Multiplication onto an operand replaces its array by one sized for the product. *)
Theorem C50_mul_alias_refuted :
  match run true orc_yes (mp_int_init_size (H 1) 64;; mp_int_set_value (H 1) 5) 0 (declares [H 1]) with
  | Done r1 st1 t1 => r1 = MP_OK /\
      match run true orc_yes (mp_int_mul (H 1) (H 1) (H 1)) t1 st1 with
      | Done r2 st2 _ => r2 = MP_OK /\ room st2 (H 1) < room st1 (H 1)
      | _ => False
      end
  | _ => False
  end.
Proof. by vm_compute. Qed.
Print Assumptions C50_mul_alias_refuted.
