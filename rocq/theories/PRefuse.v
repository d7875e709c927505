(** C54: what a call leaves behind when a request for memory is refused, in the
    [NDEBUG] build.  See [SpecRef] for [withstands] and [or_clear]. *)
From Coq Require Import ZArith List Lia.
From stdpp Require Import gmap list.
From Verif Require Import Mem Prog Kern Imath Exec Wp Rel RelZ Basic Basic2 Mult Divi Powr Spec SpecHist SpecLow SpecRef Public SpecBin Buf Text Concrete Refuse Gcd Hist Read PStore Soft Soft2 Soft3 Soft4 Soft5 Soft6.
Local Open Scope Z_scope.
Local Open Scope prog_scope.
Local Open Scope list_scope.

Lemma by_soft {A} (p : prog A) st V W (Q : A -> state -> Prop) : Rep st V W -> (RV st V (ctx_of W) -> sw p Q st) -> withstands p st Q.
Proof.
  intros H HW orc t. specialize (HW (Rep_RV _ _ _ H)). pose proof (wp_sound _ _ _ HW orc t) as HS.
  destruct (run true orc (soft p) t st) as [r st' t'|n| | |] eqn:E; try done.
  - exists r, st', t'. split; [|done]. rewrite <- soft_run. by apply run_nd_agrees.
  - exfalso. by eapply soft_no_oom.
Qed.

(** Two integers of five digits and one digit, and one with room for five. *)
Definition hJ : oid := H 10.
Definition hK : oid := H 11.
Definition hL : oid := H 12.
Definition exJ : state := put hJ (2 ^ 160 - 1) (put hK (-1) (put hL (2 ^ 96 - 1) st0)).
Definition exJV : gmap oid Z := <[hJ := 2 ^ 160 - 1]> (<[hK := -1]> (<[hL := 2 ^ 96 - 1]> ∅)).
Lemma exJ_rep : Rep exJ exJV world0.
Proof. unfold exJ, exJV. repeat (apply Rep_put; [|reflexivity|by vm_compute]). apply Rep_empty. Qed.

(** ** C54 A refused request leaves every integer intact *)
(** Copy, absolute value, negation: done, or nothing changed. *)
Theorem C54_copy st V W a c va vc :
  Rep st V W -> V !! a = Some va -> V !! c = Some vc ->
  withstands (mp_int_copy a c) st (fun r st' => (r = MP_OK /\ Rep st' (<[c := va]> V) W) \/ (r = MP_MEMORY /\ Rep st' V W)).
Proof.
  intros H Ha Hc. eapply by_soft; [exact H|]. intros HV. eapply sV_copy; [exact HV|exact Ha|exact Hc| |].
  - right. split; [done|exact H].
  - intros st' H'. left. split; [done|by apply RV_done].
Qed.
Example C54_copy_ex : match run false (orc_first 0) (mp_int_copy hA hC) 0 exS with Done r st' _ => r = MP_MEMORY /\ value_of st' hC = Some 0 | _ => False end.
Proof. by vm_compute. Qed.
Print Assumptions C54_copy.
Theorem C54_abs st V W a c va vc :
  Rep st V W -> V !! a = Some va -> V !! c = Some vc ->
  withstands (mp_int_abs a c) st (fun r st' => (r = MP_OK /\ Rep st' (<[c := Z.abs va]> V) W) \/ (r = MP_MEMORY /\ Rep st' V W)).
Proof.
  intros H Ha Hc. eapply by_soft; [exact H|]. intros HV. eapply sV_abs; [exact HV|exact Ha|exact Hc| |].
  - right. split; [done|exact H].
  - intros st' H'. left. split; [done|by apply RV_done].
Qed.
Example C54_abs_ex : match run false (orc_first 0) (mp_int_abs hA hC) 0 exS with Done r st' _ => r = MP_MEMORY /\ value_of st' hC = Some 0 | _ => False end.
Proof. by vm_compute. Qed.
Print Assumptions C54_abs.
Theorem C54_neg st V W a c va vc :
  Rep st V W -> V !! a = Some va -> V !! c = Some vc ->
  withstands (mp_int_neg a c) st (fun r st' => (r = MP_OK /\ Rep st' (<[c := - va]> V) W) \/ (r = MP_MEMORY /\ Rep st' V W)).
Proof.
  intros H Ha Hc. eapply by_soft; [exact H|]. intros HV. eapply sV_neg; [exact HV|exact Ha|exact Hc| |].
  - right. split; [done|exact H].
  - intros st' H'. left. split; [done|by apply RV_done].
Qed.
Example C54_neg_ex : match run false (orc_first 0) (mp_int_neg hA hC) 0 exS with Done r st' _ => r = MP_MEMORY /\ value_of st' hC = Some 0 | _ => False end.
Proof. by vm_compute. Qed.
Print Assumptions C54_neg.
(** Assigning a small value: done, or nothing changed. *)
Theorem C54_set_value st V W c v vc :
  Rep st V W -> V !! c = Some vc -> - 2 ^ 63 < v < 2 ^ 63 ->
  withstands (mp_int_set_value c v) st (fun r st' => (r = MP_OK /\ Rep st' (<[c := v]> V) W) \/ (r = MP_MEMORY /\ Rep st' V W)).
Proof.
  intros H Hc Hr. eapply by_soft; [exact H|]. intros HV. eapply sV_set_value; [exact HV|exact Hc|exact Hr| |].
  - intros st' H'. right. split; [done|by apply RV_done].
  - intros st' H'. left. split; [done|by apply RV_done].
Qed.
Example C54_set_value_ex : match run false (orc_first 1) (mp_int_set_value hH (2 ^ 40)) 0 exH with Done r st' _ => r = MP_MEMORY /\ value_of st' hH = Some 4 | _ => False end.
Proof. by vm_compute. Qed.
Print Assumptions C54_set_value.
Theorem C54_set_uvalue st V W c v vc :
  Rep st V W -> V !! c = Some vc -> 0 <= v < 2 ^ 64 ->
  withstands (mp_int_set_uvalue c v) st (fun r st' => (r = MP_OK /\ Rep st' (<[c := v]> V) W) \/ (r = MP_MEMORY /\ Rep st' V W)).
Proof.
  intros H Hc Hr. eapply by_soft; [exact H|]. intros HV. eapply sV_set_uvalue; [exact HV|exact Hc|exact Hr| |].
  - intros st' H'. right. split; [done|by apply RV_done].
  - intros st' H'. left. split; [done|by apply RV_done].
Qed.
Example C54_set_uvalue_ex : match run false (orc_first 1) (mp_int_set_uvalue hH (2 ^ 40)) 0 exH with Done r st' _ => r = MP_MEMORY /\ value_of st' hH = Some 4 | _ => False end.
Proof. by vm_compute. Qed.
Print Assumptions C54_set_uvalue.
(** Shifts: done, or nothing changed, or only the first of the two steps done. *)
Theorem C54_mul_pow2 st V W a k c va vc :
  Rep st V W -> V !! a = Some va -> V !! c = Some vc -> 0 <= k < 2 ^ 32 ->
  withstands (mp_int_mul_pow2 a k c) st (fun r st' => (r = MP_OK /\ Rep st' (<[c := va * 2 ^ k]> V) W) \/
    (r = MP_MEMORY /\ (Rep st' V W \/ Rep st' (<[c := va]> V) W))).
Proof.
  intros H Ha Hc Hk. eapply by_soft; [exact H|]. intros HV. eapply sV_mul_pow2; [exact HV|exact Ha|exact Hc|exact Hk| | |].
  - intros st' H'. right. split; [done|]. left. by apply RV_done.
  - intros st' H'. right. split; [done|]. right. by apply RV_done.
  - intros st' H'. left. split; [done|by apply RV_done].
Qed.
Example C54_mul_pow2_ex : match run false (orc_first 1) (mp_int_mul_pow2 hA 2000 hC) 0 exS with Done r st' _ => r = MP_MEMORY /\ value_of st' hC = Some (2 ^ 100 - 12345) | _ => False end.
Proof. by vm_compute. Qed.
Print Assumptions C54_mul_pow2.
Theorem C54_div_pow2 st V W a k q r va :
  Rep st V W -> V !! a = Some va -> q <> r -> live q V -> live r V -> 0 <= k < 2 ^ 32 ->
  (q = Some a -> r = None) -> (r <> None -> va < 0 -> Z.rem va (2 ^ k) <> 0) ->
  withstands (mp_int_div_pow2 a k q r) st (fun x st' =>
    (x = MP_OK /\ Rep st' (assign r (Z.rem va (2 ^ k)) (assign q (Z.quot va (2 ^ k)) V)) W) \/
    (x = MP_MEMORY /\ (Rep st' V W \/ Rep st' (assign q (Z.quot va (2 ^ k)) V) W))).
Proof.
  intros H Ha Nq Lq Lr Hk Hq Hz. eapply by_soft; [exact H|]. intros HV. eapply sV_div_pow2; [exact HV|exact Ha|exact Nq|exact Lq|exact Lr|exact Hk|exact Hq|exact Hz| | |].
  - intros st' H'. right. split; [done|]. left. by apply RV_done.
  - intros st' H'. right. split; [done|]. right. by apply RV_done.
  - intros st' H'. left. split; [done|by apply RV_done].
Qed.
Example C54_div_pow2_ex : match run false (orc_first 1) (mp_int_div_pow2 hA 1 (Some hC) (Some hE)) 0 exS with Done r st' _ => r = MP_MEMORY /\ value_of st' hC = Some (Z.quot (2 ^ 100 - 12345) 2) /\ value_of st' hE = Some 3 | _ => False end.
Proof. by vm_compute. Qed.
Print Assumptions C54_div_pow2.
(** The greatest common divisor, with its three temporaries: the temporaries are
    released, the operands intact, and the output is still a number. *)
Theorem C54_gcd st V W a b c va vb vc :
  Rep st V W -> V !! a = Some va -> V !! b = Some vb -> V !! c = Some vc ->
  withstands (mp_int_gcd a b c) st (fun r st' => 
    (r = MP_OK /\ (va <> 0 \/ vb <> 0) /\ Rep st' (<[c := Z.gcd va vb]> V) W) \/
    (r = MP_UNDEF /\ va = 0 /\ vb = 0 /\ Rep st' V W) \/
    (r = MP_MEMORY /\ exists v, Rep st' (<[c := v]> V) W)).
Proof.
  intros H Ha Hb Hc. eapply by_soft; [exact H|]. intros HV. eapply sV_gcd; [exact HV|exact Ha|exact Hb|exact Hc| | |].
  - intros Ea Eb. right. left. done.
  - intros v st' H'. right. right. split; [done|]. exists v. by apply RV_done.
  - intros Hn st' H'. left. split; [done|]. split; [done|by apply RV_done].
Qed.
Example C54_gcd_ex : match run false (orc_first 3) (mp_int_gcd hA hB hC) 0 exS with Done r st' _ => r = MP_MEMORY /\ value_of st' hC = Some 0 /\ value_of st' hA = Some (2 ^ 100 - 12345) | _ => False end.
Proof. by vm_compute. Qed.
Print Assumptions C54_gcd.
(** The extended greatest common divisor, with its eight temporaries, one of which
    may lose its number on the way: all are released, nothing leaks, the operands
    and [c] are intact, and at most the coefficients have been assigned.  (The call
    ignores the answer of [mp_int_set_value] when an operand is zero; a single
    digit never makes a request.) *)
Theorem C54_egcd st V W a b c x y va vb vc :
  Rep st V W -> V !! a = Some va -> V !! b = Some vb -> V !! c = Some vc -> live x V -> live y V -> x <> None \/ y <> None ->
  (va = 0 \/ vb = 0 -> x <> None /\ y <> None) ->
  withstands (mp_int_egcd a b c x y) st (fun r st' =>
    (r = MP_OK /\ va <> 0 /\ vb <> 0 /\ exists s t, s * Z.abs va + t * Z.abs vb = Z.gcd va vb /\ Rep st' (<[c := Z.gcd va vb]> (assign y t (assign x s V))) W) \/
    (r = MP_OK /\ va = 0 /\ vb <> 0 /\ Rep st' (assign y 1 (assign x 0 (<[c := Z.abs vb]> V))) W) \/
    (r = MP_OK /\ va <> 0 /\ vb = 0 /\ Rep st' (assign y 0 (assign x 1 (<[c := Z.abs va]> V))) W) \/
    (r = MP_UNDEF /\ va = 0 /\ vb = 0 /\ Rep st' V W) \/
    (r = MP_MEMORY /\ exists V', Rep st' V' W /\ (V' = V \/ (exists s, V' = assign x s V) \/ exists s t, V' = assign y t (assign x s V)))).
Proof.
  intros H Ha Hb Hc Lx Ly Hxy Hz. eapply by_soft; [exact H|]. intros HV.
  eapply (sV_egcd st V (ctx_of W) a b c x y va vb vc); [exact HV|exact Ha|exact Hb|exact Hc|exact Lx|exact Ly| | | | | | |]; rewrite <- ?not_eq_None_Some; [done|done|..].
  - intros Ea Eb. do 3 right. left. done.
  - intros st' V' HB H'. do 4 right. split; [done|]. exists V'. split; [by apply RV_done|exact HB].
  - intros Ea Eb st' H'. right. left. split; [done|]. split; [done|]. split; [done|by apply RV_done].
  - intros Ea Eb st' H'. right. right. left. split; [done|]. split; [done|]. split; [done|by apply RV_done].
  - intros Ea Eb st' s t Bz H'. left. split; [done|]. split; [done|]. split; [done|]. exists s, t. split; [done|by apply RV_done].
Qed.
Example C54_egcd_ex : match run false (orc_first 5) (mp_int_egcd hA hB hC (Some hD) (Some hE)) 0 exS with Done r st' _ => r = MP_MEMORY /\ value_of st' hC = Some 0 /\ value_of st' hA = Some (2 ^ 100 - 12345) | _ => False end.
Proof. by vm_compute. Qed.
Print Assumptions C54_egcd.
(** Initialisation: done, or the structure holds no storage (its digit pointer is
    NULL) and nothing else changed. *)
Theorem C54_init_size st V W o z n :
  Rep st V W -> blanks W !! o = Some z -> 0 <= n < 2 ^ 32 - 1 ->
  withstands (mp_int_init_size o n) st (fun r st' => 
    (r = MP_OK /\ Rep st' (<[o := 0]> V) (World (bufs W) (delete o (blanks W)) (tunables W))) \/
    (r = MP_MEMORY /\ exists z', digits z' = None /\ Rep st' V (World (bufs W) (<[o := z']> (blanks W)) (tunables W)))).
Proof.
  intros H Hb Hn. eapply by_soft; [exact H|]. intros HV. eapply (sV_init_size _ _ _ o z); [exact HV|exact Hb|exact Hn| |].
  - intros st' H'. right. split; [done|]. eexists. split; [|by apply RV_done]. done.
  - intros st' _ H'. left. split; [done|by apply RV_done].
Qed.
Example C54_init_size_ex : match run false (orc_first 0) (mp_int_init_size (H 1) 64) 0 (declares [H 1; H 2]) with Done r st' _ => r = MP_MEMORY /\ objs st' !! H 2 = objs (declares [H 1; H 2]) !! H 2 | _ => False end.
Proof. by vm_compute. Qed.
Print Assumptions C54_init_size.
Theorem C54_init_copy st V W o z a va :
  Rep st V W -> blanks W !! o = Some z -> V !! a = Some va ->
  withstands (mp_int_init_copy o a) st (fun r st' => 
    (r = MP_OK /\ Rep st' (<[o := va]> V) (World (bufs W) (delete o (blanks W)) (tunables W))) \/
    (r = MP_MEMORY /\ exists z', digits z' = None /\ Rep st' V (World (bufs W) (<[o := z']> (blanks W)) (tunables W)))).
Proof.
  intros H Hb Ha. eapply by_soft; [exact H|]. intros HV. eapply (sV_init_copy _ _ _ o z); [exact HV|exact Hb|exact Ha| |].
  - intros st' H'. right. split; [done|]. eexists. split; [|by apply RV_done]. done.
  - intros st' _ H'. left. split; [done|by apply RV_done].
Qed.
Example C54_init_copy_ex : match run false (orc_first 0) (mp_int_init_copy hH hA) 0 (declare hH exS) with Done r st' _ => r = MP_MEMORY /\ value_of st' hA = Some (2 ^ 100 - 12345) | _ => False end.
Proof. by vm_compute. Qed.
Print Assumptions C54_init_copy.
Theorem C54_init_value st V W o z v :
  Rep st V W -> blanks W !! o = Some z -> - 2 ^ 63 < v < 2 ^ 63 ->
  withstands (mp_int_init_value o v) st (fun r st' => 
    (r = MP_OK /\ Rep st' (<[o := v]> V) (World (bufs W) (delete o (blanks W)) (tunables W))) \/
    (r = MP_MEMORY /\ exists z', digits z' = None /\ Rep st' V (World (bufs W) (<[o := z']> (blanks W)) (tunables W)))).
Proof.
  intros H Hb Hr. eapply by_soft; [exact H|]. intros HV. eapply (sV_init_value _ _ _ o z); [exact HV|exact Hb|exact Hr| |].
  - intros st' H'. right. split; [done|]. eexists. split; [|by apply RV_done]. done.
  - intros st' _ H'. left. split; [done|by apply RV_done].
Qed.
Example C54_init_value_ex : match run false (orc_first 1) (mp_int_init_value (H 1) (2 ^ 40)) 0 (declares [H 1; H 2]) with Done r st' _ => r = MP_MEMORY /\ objs st' !! H 2 = objs (declares [H 1; H 2]) !! H 2 | _ => False end.
Proof. by vm_compute. Qed.
Print Assumptions C54_init_value.
Theorem C54_init_uvalue st V W o z v :
  Rep st V W -> blanks W !! o = Some z -> 0 <= v < 2 ^ 64 ->
  withstands (mp_int_init_uvalue o v) st (fun r st' => 
    (r = MP_OK /\ Rep st' (<[o := v]> V) (World (bufs W) (delete o (blanks W)) (tunables W))) \/
    (r = MP_MEMORY /\ exists z', digits z' = None /\ Rep st' V (World (bufs W) (<[o := z']> (blanks W)) (tunables W)))).
Proof.
  intros H Hb Hr. eapply by_soft; [exact H|]. intros HV. eapply (sV_init_uvalue _ _ _ o z); [exact HV|exact Hb|exact Hr| |].
  - intros st' H'. right. split; [done|]. eexists. split; [|by apply RV_done]. done.
  - intros st' _ H'. left. split; [done|by apply RV_done].
Qed.
Example C54_init_uvalue_ex : match run false (orc_first 1) (mp_int_init_uvalue (H 2) (2 ^ 63)) 0 (declares [H 1; H 2]) with Done r st' _ => r = MP_MEMORY /\ objs st' !! H 1 = objs (declares [H 1; H 2]) !! H 1 | _ => False end.
Proof. by vm_compute. Qed.
Print Assumptions C54_init_uvalue.
(** Output of numerals: done, or nothing changed, not even the buffer. *)
Theorem C54_to_string st V W z v r b (off : nat) l limit s :
  Rep st V W -> V !! z = Some v -> bufs W !! b = Some l -> 2 <= r <= 36 -> numeral r v s ->
  Z.of_nat (length s) < limit -> (off + length s + 1 <= length l)%nat ->
  withstands (mp_int_to_string z r (b, Z.of_nat off) limit) st (fun x st' =>
    (x = MP_OK /\ Rep st' V (with_buf W b (overwrite off (s ++ [0]) l))) \/ (x = MP_MEMORY /\ Rep st' V W)).
Proof.
  intros H Hz Hb Hr Hs Hl Ho. eapply by_soft; [exact H|]. intros HV. destruct (numeral_short _ _ _ _ _ _ _ HV Hz (proj1 Hr) Hs) as [L1 _].
  eapply sV_to_string; [exact HV|exact Hz|exact Hb|exact Hr|lia|exact Hs|lia| | |lia].
  - intros st' H'. right. split; [done|by apply RV_done].
  - intros st' _ H'. left. split; [done|by apply RV_done_buf].
Qed.
Example C54_to_string_ex : match run false (orc_first 1) (mp_int_to_string hA 10 (bX, 0) 40) 0 (exB 41) with Done r st' _ => r = MP_MEMORY /\ mem st' !! bX = mem (exB 41) !! bX | _ => False end.
Proof. by vm_compute. Qed.
Print Assumptions C54_to_string.
(** ** Products that are made without Karatsuba's method: both operands below the
    threshold, or one about twice as long as the other ([unsplit]); in particular every
    product by a small value *)
Theorem C54_mul st V W a b c va vb vc :
  Rep st V W -> V !! a = Some va -> V !! b = Some vb -> V !! c = Some vc -> unsplit (tunables W) va vb ->
  withstands (mp_int_mul a b c) st (fun r st' => (r = MP_OK /\ Rep st' (<[c := va * vb]> V) W) \/ (r = MP_MEMORY /\ Rep st' V W)).
Proof.
  intros H Ha Hb Hc Sa. eapply by_soft; [exact H|]. intros HV. eapply sV_mul; [exact HV|exact Ha|exact Hb|exact Hc|done| |].
  - right. split; [done|exact H].
  - intros st' H'. left. split; [done|by apply RV_done].
Qed.
Example C54_mul_ex : short (tunables world0) vA /\ short (tunables world0) vB /\
  match run false (orc_first 0) (mp_int_mul hA hB hA) 0 exS with Done r st' _ => r = MP_MEMORY /\ value_of st' hA = Some vA /\ size (mem st') = size (mem exS) | _ => False end.
Proof. by vm_compute. Qed.
Example C54_mul_lopsided_ex : unsplit (tunables world0) (2 ^ 1200) (- 77) /\ ~ short (tunables world0) (2 ^ 1200).
Proof. split; [|by vm_compute]. right. left. exists 1. by vm_compute. Qed.
Print Assumptions C54_mul.
Theorem C54_mul_value st V W a v c va vc :
  Rep st V W -> V !! a = Some va -> V !! c = Some vc -> - 2 ^ 63 < v < 2 ^ 63 ->
  withstands (mp_int_mul_value a v c) st (fun r st' => (r = MP_OK /\ Rep st' (<[c := va * v]> V) W) \/ (r = MP_MEMORY /\ Rep st' V W)).
Proof.
  intros H Ha Hc Hv. eapply by_soft; [exact H|]. intros HV. eapply sV_mul_value; [exact HV|exact Ha|exact Hc|done| |].
  - intros st' H'. right. split; [done|by apply RV_done].
  - intros st' H'. left. split; [done|by apply RV_done].
Qed.
Example C54_mul_value_ex : match run false (orc_first 0) (mp_int_mul_value hA (-77) hC) 0 exS with Done r st' _ => r = MP_MEMORY /\ value_of st' hC = Some 0 | _ => False end.
Proof. by vm_compute. Qed.
Print Assumptions C54_mul_value.
Theorem C54_sqr st V W a c va vc :
  Rep st V W -> V !! a = Some va -> V !! c = Some vc -> short (tunables W) va ->
  withstands (mp_int_sqr a c) st (fun r st' => (r = MP_OK /\ Rep st' (<[c := va * va]> V) W) \/ (r = MP_MEMORY /\ Rep st' V W)).
Proof.
  intros H Ha Hc Sa. eapply by_soft; [exact H|]. intros HV. eapply sV_sqr; [exact HV|exact Ha|exact Hc|done| |].
  - right. split; [done|exact H].
  - intros st' H'. left. split; [done|by apply RV_done].
Qed.
Example C54_sqr_ex : match run false (orc_first 0) (mp_int_sqr hA hA) 0 exS with Done r st' _ => r = MP_MEMORY /\ value_of st' hA = Some vA | _ => False end.
Proof. by vm_compute. Qed.
Print Assumptions C54_sqr.
(** ** Reading bytes: one request, before anything is written *)
Theorem C54_read_unsigned st V W z b (off : nat) l bs :
  Rep st V W -> is_Some (V !! z) -> bufs W !! b = Some l -> has_bytes l off bs -> bs <> [] -> Z.of_nat (length bs) < 2 ^ 28 ->
  withstands (mp_int_read_unsigned z (b, Z.of_nat off) (Z.of_nat (length bs))) st
    (fun r st' => (r = MP_OK /\ Rep st' (<[z := horner 256 bs]> V) W) \/ (r = MP_MEMORY /\ Rep st' V W)).
Proof.
  intros H Hz Hb HB N Hn. eapply by_soft; [exact H|]. intros HV. eapply sV_read_unsigned; [exact HV|done|exact Hb|done|done|lia| |].
  - right. split; [done|exact H].
  - intros st' H'. left. split; [done|by apply RV_done].
Qed.
Example C54_read_unsigned_ex : match run false (orc_first 0) (mp_int_read_unsigned hA (bX, 1) 40) 0 (put_buf bX (replicate 41 (Some 255)) exS) with Done r st' _ => r = MP_MEMORY /\ value_of st' hA = Some vA | _ => False end /\
  match run false orc_yes (mp_int_read_unsigned hA (bX, 1) 40) 0 (put_buf bX (replicate 41 (Some 255)) exS) with Done r st' _ => r = MP_OK /\ value_of st' hA = Some (2 ^ 320 - 1) | _ => False end.
Proof. by vm_compute. Qed.
Print Assumptions C54_read_unsigned.
Theorem C54_read_binary st V W z b (off : nat) l bs :
  Rep st V W -> is_Some (V !! z) -> bufs W !! b = Some l -> has_bytes l off bs -> bs <> [] -> Z.of_nat (length bs) < 2 ^ 28 ->
  withstands (mp_int_read_binary z (b, Z.of_nat off) (Z.of_nat (length bs))) st
    (fun r st' => (r = MP_OK /\ Rep st' (<[z := signed_value bs]> V) W) \/ (r = MP_MEMORY /\ Rep st' V W)).
Proof.
  intros H Hz Hb HB N Hn. eapply by_soft; [exact H|]. intros HV. eapply sV_read_binary; [exact HV|done|exact Hb|done|done|lia| |].
  - right. split; [done|exact H].
  - intros st' H'. left. split; [done|by apply RV_done].
Qed.
Example C54_read_binary_ex : match run false (orc_first 0) (mp_int_read_binary hA (bX, 1) 40) 0 (put_buf bX (replicate 41 (Some 255)) exS) with Done r st' _ => r = MP_MEMORY /\ value_of st' hA = Some vA | _ => False end /\
  match run false orc_yes (mp_int_read_binary hA (bX, 1) 40) 0 (put_buf bX (replicate 41 (Some 255)) exS) with Done r st' _ => r = MP_OK /\ value_of st' hA = Some (-1) | _ => False end.
Proof. by vm_compute. Qed.
Print Assumptions C54_read_binary.
(** ** Sums: the output may be lost, but the usual clean-up is sound *)
Lemma s_or_clear st V W c vc (p : prog Z) v :
  (forall (Q : Z -> state -> Prop), (forall st', spoilt st' V (ctx_of W) c -> Q MP_MEMORY st') -> (forall st', RV st' (<[c := v]> V) (ctx_of W) -> Q MP_OK st') -> sw p Q st) ->
  V !! c = Some vc ->
  sw (or_clear c p) (fun r st' => (r = MP_OK /\ Rep st' (<[c := v]> V) W) \/
    (r = MP_MEMORY /\ exists z, digits z = None /\ Rep st' (delete c V) (World (bufs W) (<[c := z]> (blanks W)) (tunables W)))) st.
Proof.
  intros Hp Hc. unfold or_clear. apply soft_bind, wp_bind. apply Hp.
  - intros st' HX. change (MP_MEMORY =? MP_OK) with false. cbv iota. sqt. eapply spoilt_clear; [exact HX|]. intros st2 z Hd H2. apply s_ret. right. split; [done|]. exists z. split; [done|by apply RV_done].
  - intros st' H'. change (MP_OK =? MP_OK) with true. cbv iota. apply s_ret. left. split; [done|by apply RV_done].
Qed.
(** If the call fails and the caller releases the output, everything else is intact
    and nothing has leaked. *)
Theorem C54_add st V W a b c va vb vc :
  Rep st V W -> V !! a = Some va -> V !! b = Some vb -> V !! c = Some vc ->
  withstands (or_clear c (mp_int_add a b c)) st (fun r st' => 
    (r = MP_OK /\ Rep st' (<[c := va + vb]> V) W) \/
    (r = MP_MEMORY /\ exists z, digits z = None /\ Rep st' (delete c V) (World (bufs W) (<[c := z]> (blanks W)) (tunables W)))).
Proof.
  intros H Ha Hb Hc. eapply by_soft; [exact H|]. intros HV. eapply s_or_clear; [|exact Hc]. intros Q HX HQ.
  eapply (sV_add_spoilt st V (ctx_of W) c vc Q HV Hc HX a b va vb); [exact Ha|exact Hb|exact HQ].
Qed.
Example C54_add_ex : match run false (orc_first 0) (or_clear hL (mp_int_add hJ hJ hL)) 0 exJ with Done r st' _ => r = MP_MEMORY /\ value_of st' hK = Some (-1) /\ size (mem st') = (size (mem exJ) - 1)%nat | _ => False end.
Proof. by vm_compute. Qed.
Print Assumptions C54_add.
Theorem C54_sub st V W a b c va vb vc :
  Rep st V W -> V !! a = Some va -> V !! b = Some vb -> V !! c = Some vc ->
  withstands (or_clear c (mp_int_sub a b c)) st (fun r st' => 
    (r = MP_OK /\ Rep st' (<[c := va - vb]> V) W) \/
    (r = MP_MEMORY /\ exists z, digits z = None /\ Rep st' (delete c V) (World (bufs W) (<[c := z]> (blanks W)) (tunables W)))).
Proof.
  intros H Ha Hb Hc. eapply by_soft; [exact H|]. intros HV. eapply s_or_clear; [|exact Hc]. intros Q HX HQ.
  eapply (sV_sub_spoilt st V (ctx_of W) c vc Q HV Hc HX a b va vb); [exact Ha|exact Hb|exact HQ].
Qed.
Example C54_sub_ex : match run false (orc_first 0) (or_clear hL (mp_int_sub hJ hK hL)) 0 exJ with Done r st' _ => r = MP_MEMORY /\ value_of st' hK = Some (-1) /\ size (mem st') = (size (mem exJ) - 1)%nat | _ => False end.
Proof. by vm_compute. Qed.
Print Assumptions C54_sub.
Theorem C54_add_value st V W a v c va vc :
  Rep st V W -> V !! a = Some va -> V !! c = Some vc -> - 2 ^ 63 < v < 2 ^ 63 ->
  withstands (or_clear c (mp_int_add_value a v c)) st (fun r st' => 
    (r = MP_OK /\ Rep st' (<[c := va + v]> V) W) \/
    (r = MP_MEMORY /\ exists z, digits z = None /\ Rep st' (delete c V) (World (bufs W) (<[c := z]> (blanks W)) (tunables W)))).
Proof.
  intros H Ha Hc Hr. eapply by_soft; [exact H|]. intros HV. eapply s_or_clear; [|exact Hc]. intros Q HX HQ.
  eapply (sV_add_value_spoilt st V (ctx_of W) c vc Q HV Hc HX a v va); [exact Ha|exact Hr|exact HQ].
Qed.
Example C54_add_value_ex : match run false (orc_first 1) (or_clear hL (mp_int_add_value hJ 7 hL)) 0 exJ with Done r st' _ => r = MP_MEMORY /\ value_of st' hK = Some (-1) /\ size (mem st') = (size (mem exJ) - 1)%nat | _ => False end.
Proof. by vm_compute. Qed.
Print Assumptions C54_add_value.
Theorem C54_sub_value st V W a v c va vc :
  Rep st V W -> V !! a = Some va -> V !! c = Some vc -> - 2 ^ 63 < v < 2 ^ 63 ->
  withstands (or_clear c (mp_int_sub_value a v c)) st (fun r st' => 
    (r = MP_OK /\ Rep st' (<[c := va - v]> V) W) \/
    (r = MP_MEMORY /\ exists z, digits z = None /\ Rep st' (delete c V) (World (bufs W) (<[c := z]> (blanks W)) (tunables W)))).
Proof.
  intros H Ha Hc Hr. eapply by_soft; [exact H|]. intros HV. eapply s_or_clear; [|exact Hc]. intros Q HX HQ.
  eapply (sV_sub_value_spoilt st V (ctx_of W) c vc Q HV Hc HX a v va); [exact Ha|exact Hr|exact HQ].
Qed.
Example C54_sub_value_ex : match run false (orc_first 1) (or_clear hL (mp_int_sub_value hJ (-7) hL)) 0 exJ with Done r st' _ => r = MP_MEMORY /\ value_of st' hK = Some (-1) /\ size (mem st') = (size (mem exJ) - 1)%nat | _ => False end.
Proof. by vm_compute. Qed.
Print Assumptions C54_sub_value.
(** Without that, the output need not be intact: the sum of two numbers is written
    over it before the request for the carry. *)
Theorem C54_add_refuted : exists st V W a b c vc orc,
  Rep st V W /\ is_Some (V !! a) /\ is_Some (V !! b) /\ V !! c = Some vc /\
  match run false orc (mp_int_add a b c) 0 st with Done r st' _ => r = MP_MEMORY /\ value_of st' c <> Some vc | _ => False end.
Proof.
  exists exJ, exJV, world0, hJ, hJ, hL, (2 ^ 96 - 1), (orc_first 0). split; [apply exJ_rep|]. do 2 (split; [by eexists|]). split; [done|]. by vm_compute.
Qed.
Print Assumptions C54_add_refuted.
(** Input of numerals sets the sign before it asks for room: when that is refused the
    old number has changed its sign. *)
Theorem C54_read_string_refuted : exists st V W z v orc s,
  Rep st V W /\ V !! z = Some v /\
  match run false orc (mp_int_read_string z 10 s) 0 st with Done r st' _ => r = MP_MEMORY /\ value_of st' z = Some (- v) /\ v <> 0 | _ => False end.
Proof.
  exists exJ, exJV, world0, hL, (2 ^ 96 - 1), (orc_first 0), (45 :: replicate 60 49). split; [apply exJ_rep|]. split; [done|]. by vm_compute.
Qed.
Print Assumptions C54_read_string_refuted.
(** A long multiplication in place that fails loses the block for the result. *)
Theorem C54_mul_leak_refuted : exists st V W a b orc,
  Rep st V W /\ is_Some (V !! a) /\ is_Some (V !! b) /\
  match run false orc (mp_int_mul a b a) 0 st with Done r st' _ => (r, size (mem st')) | _ => (0, 0%nat) end = (MP_MEMORY, S (size (mem st))).
Proof.
  exists (put hC 0 (put hA (2 ^ 1100) st0)), (<[hC := 0]> (<[hA := 2 ^ 1100]> ∅)), world0, hA, hA, (orc_first 1).
  split; [repeat (apply Rep_put; [|reflexivity|by vm_compute]); apply Rep_empty|]. do 2 (split; [by eexists|]). by vm_compute.
Qed.
Print Assumptions C54_mul_leak_refuted.
