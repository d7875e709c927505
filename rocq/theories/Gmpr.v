(** Rules for gmp_compat.c. *)
From Coq Require Import ZArith List Lia.
From stdpp Require Import gmap list.
From Verif Require Import Mem Prog Kern Fp Imath Imrat Gmp Wp MemLem Dig KernLem Rel RelWp RelZ Life Basic Basic2 Mult Shift Knuth Divi Powr Spec SpecBin Public Gcd Root Buf Read Bin Rat Rsa.
Local Open Scope Z_scope.

Lemma wp_check (e : prog Z) (Q : unit -> state -> Prop) st : wp e (fun r st' => r = MP_OK /\ Q tt st') st -> wp (CHECK e) Q st.
Proof. intros He. unfold CHECK. wb. eapply wp_mono; [exact He|]. intros r st' [-> HQ]. apply wp_assert; [done|done]. Qed.
Ltac ck := apply wp_check.
Lemma wpV_local {A} (init : oid -> prog unit) (body : oid -> prog A) v0 st V X (Q : A -> state -> Prop) :
  RV st V X ->
  (forall t z st1 (Q' : unit -> state -> Prop), V !! t = None -> craw X !! t = None -> RV st1 V (with_craw X (<[t := z]> (craw X))) ->
     (forall st', RV st' (<[t := v0]> V) X -> Q' tt st') -> wp (init t) Q' st1) ->
  (forall t st1, V !! t = None -> RV st1 (<[t := v0]> V) X ->
     wp (body t) (fun r st2 => exists V2 v, V2 !! t = None /\ RV st2 (<[t := v]> V2) X /\ (forall st3, RV st3 V2 X -> Q r st3)) st1) ->
  wp (local_int init body) Q st.
Proof.
  intros HV Hi HB. unfold local_int. apply wp_NewO. intros z iz Fz. destruct (RV_newO st V X false z _ HV Fz) as (H1 & H2 & H3). set (t := (false, iz)) in *.
  wb. eapply Hi; [done|done|exact H3|]. intros st1 HV1.
  wb. eapply wp_mono; [by apply HB|]. intros r st2 (V2 & v & N & HV2 & HQ).
  wb. eapply wpV_clear; [exact HV2|apply lookup_insert|]. intros st3 z3 _ HV3.
  eapply wp_DelO; [eapply RV_rawobj; [exact HV3|cbn [craw with_craw]; apply lookup_insert]|done|].
  apply wp_ret. apply HQ. eapply RV_delO in HV3; [|cbn [craw with_craw]; apply lookup_insert].
  unfold with_craw in HV3. cbn [craw cmem cglob] in HV3. rewrite !delete_insert in HV3 by done. destruct X; exact HV3.
Qed.
Section loc.
Context {A : Type} (body : oid -> prog A) (st : state) (V : gmap oid Z) (X : ctx) (Q : A -> state -> Prop).
Definition local_ok (v0 : Z) : Prop := forall t st1, V !! t = None -> RV st1 (<[t := v0]> V) X ->
     wp (body t) (fun r st2 => exists V2 v, V2 !! t = None /\ RV st2 (<[t := v]> V2) X /\ (forall st3, RV st3 V2 X -> Q r st3)) st1.
Ltac fin HV' HQ := apply HQ; unfold with_craw in HV'; cbn [craw cmem cglob] in HV'; rewrite delete_insert in HV' by done; destruct X; exact HV'.
Lemma wpV_local0 : RV st V X -> local_ok 0 -> wp (local_int init0 body) Q st.
Proof.
  intros HV HB. eapply wpV_local; [exact HV| |exact HB]. intros t z st1 Q' Ht Hn HV1 HQ. unfold init0. ck.
  eapply wpV_init; [exact HV1|cbn [craw with_craw]; apply lookup_insert|]. intros st' _ HV'. split; [done|]. fin HV' HQ.
Qed.
Lemma wpV_local0' : RV st V X -> local_ok 0 -> wp (local_int (fun t => mp_int_init t;; Ret tt)%prog body) Q st.
Proof.
  intros HV HB. eapply wpV_local; [exact HV| |exact HB]. intros t z st1 Q' Ht Hn HV1 HQ. wb.
  eapply wpV_init; [exact HV1|cbn [craw with_craw]; apply lookup_insert|]. intros st' _ HV'. apply wp_ret. fin HV' HQ.
Qed.
Lemma wpV_localu v : RV st V X -> 0 <= v < 2 ^ 64 -> local_ok v -> wp (local_int (initu v) body) Q st.
Proof.
  intros HV Hv HB. eapply wpV_local; [exact HV| |exact HB]. intros t z st1 Q' Ht Hn HV1 HQ. unfold initu. ck.
  eapply wpV_init_uvalue; [exact HV1|cbn [craw with_craw]; apply lookup_insert|done|]. intros st' _ HV'. split; [done|]. fin HV' HQ.
Qed.
Lemma wpV_localc a va : RV st V X -> V !! a = Some va -> local_ok va -> wp (local_int (initc a) body) Q st.
Proof.
  intros HV Ha HB. eapply wpV_local; [exact HV| |exact HB]. intros t z st1 Q' Ht Hn HV1 HQ. unfold initc. ck.
  eapply wpV_init_copy; [exact HV1|cbn [craw with_craw]; apply lookup_insert|done|]. intros st' _ HV'. split; [done|]. fin HV' HQ.
Qed.
End loc.

(** ** Rounding divisions *)
Lemma rem_cases q r d : d <> 0 -> Z.abs r < Z.abs d -> 0 <= r * (d * q + r) -> (q = 0 \/ r = 0) \/ (0 < q /\ 0 < d /\ 0 < r) \/ (0 < q /\ d < 0 /\ r < 0) \/ (q < 0 /\ d < 0 /\ 0 < r) \/ (q < 0 /\ 0 < d /\ r < 0).
Proof.
  intros Hd B S. destruct (Z.eq_dec q 0); [by left; left|]. destruct (Z.eq_dec r 0); [by left; right|]. right.
  assert (0 < q \/ q < 0) as [Q|Q] by lia; assert (0 < d \/ d < 0) as [D|D] by lia; assert (0 < r \/ r < 0) as [R|R] by lia; try tauto; exfalso;
    first [assert (d <= d * q) by nia; assert (0 < d * q + r) by lia | assert (d * q <= d) by nia; assert (d * q + r < 0) by lia | assert (d * q <= - d) by nia; assert (d * q + r < 0) by lia | assert (- d <= d * q) by nia; assert (0 < d * q + r) by lia]; nia.
Qed.
Lemma ceil_quot (n d : Z) : d <> 0 -> - ((- n) / d) = (if Z.sgn (Z.quot n d) >? 0 then if negb (Z.sgn (Z.rem n d) =? 0) then Z.quot n d + 1 else Z.quot n d
   else if Z.sgn (Z.quot n d) =? 0 then if negb (Z.sgn (Z.rem n d) =? 0) then if (((Z.sgn n >? 0) && (Z.sgn d >? 0)) || ((Z.sgn n <? 0) && (Z.sgn d <? 0)))%bool then 1 else Z.quot n d else Z.quot n d else Z.quot n d).
Proof.
  intros Hd. pose proof (Z.quot_rem n d Hd) as E. pose proof (Z.rem_bound_abs n d Hd) as B. pose proof (Z.rem_sign_mul n d Hd) as S. set (q := Z.quot n d) in *. set (r := Z.rem n d) in *. clearbody q r.
  assert (forall x, 0 <= d * x - n < d \/ d < d * x - n <= 0 -> - ((- n) / d) = x) as HU.
  { intros x Hb. rewrite <- (Z.div_unique (- n) d (- x) (d * x - n) Hb); lia. }
  apply HU. subst n. clear HU. apply rem_cases in S; [|done|done].
  destruct (Z.gtb_spec (Z.sgn q) 0) as [Q|Q]; [|destruct (Z.eqb_spec (Z.sgn q) 0) as [Q2|Q2]]; destruct (Z.eqb_spec (Z.sgn r) 0) as [R|R]; cbn [negb];
    try (replace q with 0 in * by lia; rewrite ?Z.mul_0_r, ?Z.add_0_l in *; destruct (Z.gtb_spec (Z.sgn r) 0), (Z.gtb_spec (Z.sgn d) 0), (Z.ltb_spec (Z.sgn r) 0), (Z.ltb_spec (Z.sgn d) 0); cbn [andb orb]; lia); nia.
Qed.
Lemma floor_quot (n d : Z) : d <> 0 -> n / d = (if Z.sgn (Z.quot n d) <? 0 then if negb (Z.sgn (Z.rem n d) =? 0) then Z.quot n d - 1 else Z.quot n d
   else if Z.sgn (Z.quot n d) =? 0 then if negb (Z.sgn (Z.rem n d) =? 0) then if (((Z.sgn n <? 0) && (Z.sgn d >? 0)) || ((Z.sgn n >? 0) && (Z.sgn d <? 0)))%bool then -1 else Z.quot n d else Z.quot n d else Z.quot n d).
Proof.
  intros Hd. pose proof (Z.quot_rem n d Hd) as E. pose proof (Z.rem_bound_abs n d Hd) as B. pose proof (Z.rem_sign_mul n d Hd) as S. set (q := Z.quot n d) in *. set (r := Z.rem n d) in *. clearbody q r.
  assert (forall x, 0 <= n - d * x < d \/ d < n - d * x <= 0 -> n / d = x) as HU.
  { intros x Hb. rewrite <- (Z.div_unique n d x (n - d * x) Hb); lia. }
  apply HU. subst n. clear HU. apply rem_cases in S; [|done|done].
  destruct (Z.ltb_spec (Z.sgn q) 0) as [Q|Q]; [|destruct (Z.eqb_spec (Z.sgn q) 0) as [Q2|Q2]]; destruct (Z.eqb_spec (Z.sgn r) 0) as [R|R]; cbn [negb];
    try (replace q with 0 in * by lia; rewrite ?Z.mul_0_r, ?Z.add_0_l in *; destruct (Z.gtb_spec (Z.sgn r) 0), (Z.gtb_spec (Z.sgn d) 0), (Z.ltb_spec (Z.sgn r) 0), (Z.ltb_spec (Z.sgn d) 0); cbn [andb orb]; lia); nia.
Qed.
(** ** Composites *)
Section ops.
Context (st : state) (V : gmap oid Z) (X : ctx).
Implicit Types (a b c n d q r : oid) (Q : unit -> state -> Prop).
Ltac look := repeat first [done | rewrite lookup_insert_ne by congruence | rewrite lookup_insert].

Lemma wpV_addmul c a b vc va vb Q : RV st V X -> V !! c = Some vc -> V !! a = Some va -> V !! b = Some vb ->
  (forall st', RV st' (<[c := vc + va * vb]> V) X -> Q tt st') -> wp (mpz_addmul c a b) Q st.
Proof.
  intros HV Hc Ha Hb HQ. unfold mpz_addmul. eapply wpV_local0'; [exact HV|]. intros t st1 Ft HV1. wb. ck.
  eapply (wpV_mul _ _ _ a b t); [exact HV1|look..|]. intros st2 HV2. split; [done|]. rewrite insert_insert in HV2. ck.
  eapply (wpV_add _ _ _ c t c); [exact HV2|look..|]. intros st3 HV3. split; [done|]. exists (<[c := vc + va * vb]> V), (va * vb). split; [look|]. split; [|done].
  by rewrite insert_commute in HV3 by congruence.
Qed.
Lemma wpV_submul c a b vc va vb Q : RV st V X -> V !! c = Some vc -> V !! a = Some va -> V !! b = Some vb ->
  (forall st', RV st' (<[c := vc - va * vb]> V) X -> Q tt st') -> wp (mpz_submul c a b) Q st.
Proof.
  intros HV Hc Ha Hb HQ. unfold mpz_submul. eapply wpV_local0'; [exact HV|]. intros t st1 Ft HV1. wb. ck.
  eapply (wpV_mul _ _ _ a b t); [exact HV1|look..|]. intros st2 HV2. split; [done|]. rewrite insert_insert in HV2. ck.
  eapply (wpV_sub _ _ _ c t c); [exact HV2|look..|]. intros st3 HV3. split; [done|]. exists (<[c := vc - va * vb]> V), (va * vb). split; [look|]. split; [|done].
  by rewrite insert_commute in HV3 by congruence.
Qed.
Lemma wpV_add_ui c a v vc va Q : RV st V X -> V !! c = Some vc -> V !! a = Some va -> 0 <= v < 2 ^ 64 ->
  (forall st', RV st' (<[c := va + v]> V) X -> Q tt st') -> wp (mpz_add_ui c a v) Q st.
Proof.
  intros HV Hc Ha Hv HQ. eapply wpV_localu; [exact HV|done|]. intros t st1 Ft HV1. ck.
  eapply (wpV_add _ _ _ a t c); [exact HV1|look..|]. intros st3 HV3. split; [done|]. exists (<[c := va + v]> V), v. split; [look|]. split; [|done].
  by rewrite insert_commute in HV3 by congruence.
Qed.
Lemma wpV_sub_ui c a v vc va Q : RV st V X -> V !! c = Some vc -> V !! a = Some va -> 0 <= v < 2 ^ 64 ->
  (forall st', RV st' (<[c := va - v]> V) X -> Q tt st') -> wp (mpz_sub_ui c a v) Q st.
Proof.
  intros HV Hc Ha Hv HQ. eapply wpV_localu; [exact HV|done|]. intros t st1 Ft HV1. ck.
  eapply (wpV_sub _ _ _ a t c); [exact HV1|look..|]. intros st3 HV3. split; [done|]. exists (<[c := va - v]> V), v. split; [look|]. split; [|done].
  by rewrite insert_commute in HV3 by congruence.
Qed.
Lemma wpV_mul_ui c a v vc va Q : RV st V X -> V !! c = Some vc -> V !! a = Some va -> 0 <= v < 2 ^ 64 ->
  (forall st', RV st' (<[c := va * v]> V) X -> Q tt st') -> wp (mpz_mul_ui c a v) Q st.
Proof.
  intros HV Hc Ha Hv HQ. eapply wpV_localu; [exact HV|done|]. intros t st1 Ft HV1. ck.
  eapply (wpV_mul _ _ _ a t c); [exact HV1|look..|]. intros st3 HV3. split; [done|]. exists (<[c := va * v]> V), v. split; [look|]. split; [|done].
  by rewrite insert_commute in HV3 by congruence.
Qed.
Lemma wpV_divexact_ui q n v vq vn Q : RV st V X -> V !! q = Some vq -> V !! n = Some vn -> 0 < v < 2 ^ 64 ->
  (forall st', RV st' (<[q := Z.quot vn v]> V) X -> Q tt st') -> wp (mpz_divexact_ui q n v) Q st.
Proof.
  intros HV Hc Ha Hv HQ. eapply wpV_localu; [exact HV|lia|]. intros t st1 Ft HV1. ck.
  eapply (wpV_div _ _ _ n t (Some q) None); [exact HV1|look..|simpl; eexists; look|done|lia|]. intros _ st3 HV3. split; [done|]. exists (<[q := Z.quot vn v]> V), v. split; [look|]. split; [|done].
  simpl in HV3. by rewrite insert_commute in HV3 by congruence.
Qed.
Lemma wpV_tdiv_q q n d vq vn vd Q : RV st V X -> V !! q = Some vq -> V !! n = Some vn -> V !! d = Some vd -> vd <> 0 ->
  (forall st', RV st' (<[q := Z.quot vn vd]> V) X -> Q tt st') -> wp (mpz_tdiv_q q n d) Q st.
Proof.
  intros HV Hc Ha Hd Hv HQ. unfold mpz_tdiv_q. ck. eapply (wpV_div _ _ _ n d (Some q) None); [exact HV|done|done|done|by eexists|done|done|]. intros _ st3 HV3. split; [done|]. by apply HQ.
Qed.
Lemma wpV_divisible_p n d vn vd (Q : bool -> state -> Prop) : RV st V X -> V !! n = Some vn -> V !! d = Some vd ->
  (forall st' (b : bool), RV st' V X -> (b = true <-> (vd | vn)) -> Q b st') -> wp (mpz_divisible_p n d) Q st.
Proof.
  intros HV Hn Hd HQ. unfold mpz_divisible_p. wb. eapply wpV_compare_zero; [done..|]. wb. eapply wpV_compare_zero; [done..|].
  destruct (Z.eqb_spec (Z.sgn vd) 0) as [E|E].
  { apply wp_ret, HQ; [done|]. apply (proj1 (Z.sgn_null_iff _)) in E. subst vd. rewrite Z.eqb_eq, Z.sgn_null_iff. split; [intros ->; apply Z.divide_0_r|apply Z.divide_0_l]. }
  eapply wpV_local0; [exact HV|]. intros t st1 Ft HV1. wb. ck.
  eapply (wpV_div _ _ _ n d None (Some t)); [exact HV1|look..|simpl; eexists; look|intros ->; done|]. intros Nd st2 HV2. split; [done|]. simpl in HV2. rewrite insert_insert in HV2.
  wb. eapply wpV_compare_zero; [exact HV2|apply lookup_insert|]. apply wp_ret. exists V, (Z.rem vn vd). split; [done|]. split; [done|]. intros st3 HV3. apply HQ; [done|].
  rewrite Z.eqb_eq, Z.sgn_null_iff. by rewrite Z.rem_divide by done.
Qed.
Lemma wpV_pow_ui c a v vc va Q : RV st V X -> V !! c = Some vc -> V !! a = Some va -> 0 <= v < 2 ^ 64 ->
  (forall st', RV st' (<[c := va ^ v]> V) X -> Q tt st') -> wp (mpz_pow_ui c a v) Q st.
Proof.
  intros HV Hc Ha Hv HQ. unfold mpz_pow_ui. wb. apply (wp_mono _ (fun z st' => st' = st /\ (z = true -> v = 0))).
  { destruct (Z.eqb_spec v 0) as [->|]; [|by apply wp_ret]. wb. eapply wpV_compare_zero; [done..|]. apply wp_ret. done. }
  intros [] ? [-> Hz].
  - rewrite (Hz eq_refl) in *. ck. eapply wpV_set_value; [done|done|lia|]. intros st' HV'. split; [done|]. by apply HQ.
  - eapply wpV_localu; [exact HV|done|]. intros t st1 Ft HV1. ck.
    eapply (wpV_expt_full _ _ _ a t c); [exact HV1|look..|congruence|lia|]. intros _ st3 HV3. split; [done|]. exists (<[c := va ^ v]> V), v. split; [look|]. split; [|done].
    by rewrite insert_commute in HV3 by congruence.
Qed.
Lemma wpV_zgcd c a b vc va vb Q : RV st V X -> V !! c = Some vc -> V !! a = Some va -> V !! b = Some vb ->
  (forall st', RV st' (<[c := Z.gcd va vb]> V) X -> Q tt st') -> wp (mpz_gcd c a b) Q st.
Proof.
  intros HV Hc Ha Hb HQ. unfold mpz_gcd. wb. eapply wpV_compare_zero; [done..|]. wb. eapply wpV_compare_zero; [done..|].
  destruct (Z.eqb_spec (Z.sgn va) 0) as [E|E]; [destruct (Z.eqb_spec (Z.sgn vb) 0) as [E2|E2]|]; cbn [andb].
  - apply (proj1 (Z.sgn_null_iff _)) in E, E2. subst. eapply wpV_zero; [done|done|]. intros st' HV'. by apply HQ.
  - ck. eapply wpV_gcd; [done..|intros _ ->; done|]. intros _ st' HV'. split; [done|]. by apply HQ.
  - ck. eapply wpV_gcd; [done..|intros ->; done|]. intros _ st' HV'. split; [done|]. by apply HQ.
Qed.
Lemma wpV_zlcm c a b vc va vb Q : RV st V X -> V !! c = Some vc -> V !! a = Some va -> V !! b = Some vb ->
  (forall st', RV st' (<[c := Z.lcm va vb]> V) X -> Q tt st') -> wp (mpz_lcm c a b) Q st.
Proof.
  intros HV Hc Ha Hb HQ. unfold mpz_lcm. wb. eapply wpV_compare_zero; [done..|]. wb. eapply wpV_compare_zero; [done..|].
  destruct (Z.eqb_spec (Z.sgn va) 0) as [E|E]; [|destruct (Z.eqb_spec (Z.sgn vb) 0) as [E2|E2]]; cbn [orb].
  - apply (proj1 (Z.sgn_null_iff _)) in E. subst. eapply wpV_zero; [done|done|]. intros st' HV'. by apply HQ.
  - apply (proj1 (Z.sgn_null_iff _)) in E2. subst. eapply wpV_zero; [done|done|]. intros st' HV'. apply HQ. by rewrite Z.lcm_0_r.
  - wb. ck. eapply wpV_lcm; [exact HV|done..|intros ->; done|]. intros _ st' HV'. split; [done|].
    ck. eapply wpV_abs; [exact HV'|apply lookup_insert..|]. intros st2 HV2. split; [done|]. apply HQ. rewrite insert_insert in HV2. unfold Z.lcm.
    assert (va / Z.gcd va vb * vb = va * (vb / Z.gcd va vb)) as <-; [|done].
    assert (Z.gcd va vb <> 0) as NG by (intros G; apply Z.gcd_eq_0_l in G; subst; done).
    destruct (Z.gcd_divide_l va vb) as [x Hx]. destruct (Z.gcd_divide_r va vb) as [y Hy]. set (g := Z.gcd va vb) in *. rewrite Hx at 1. rewrite Hy at 2. rewrite !Z.div_mul by done. rewrite Hy at 1. rewrite Hx at 1. ring.
Qed.
Lemma wpV_mul_2exp c a k vc va Q : RV st V X -> V !! c = Some vc -> V !! a = Some va -> 0 <= k < 2 ^ 64 -> (va = 0 \/ k < 2 ^ 32) ->
  (forall st', RV st' (<[c := va * 2 ^ k]> V) X -> Q tt st') -> wp (mpz_mul_2exp c a k) Q st.
Proof.
  intros HV Hc Ha Hk Hk2 HQ. unfold mpz_mul_2exp. wb. eapply wpV_compare_zero; [done..|]. destruct (Z.eqb_spec (Z.sgn va) 0) as [E|E].
  - apply (proj1 (Z.sgn_null_iff _)) in E. subst. eapply wpV_zero; [done|done|]. intros st' HV'. by apply HQ.
  - destruct Hk2 as [->|Hk2]; [done|]. ck. destruct (Z.ltb_spec k (2 ^ 63)); [|lia]. eapply wpV_mul_pow2; [done|done|done|lia|]. intros st' HV'. split; [done|]. by apply HQ.
Qed.

Lemma wpV_cdiv_q q n d vq vn vd Q : RV st V X -> V !! q = Some vq -> V !! n = Some vn -> V !! d = Some vd -> vd <> 0 ->
  (forall st', RV st' (<[q := - ((- vn) / vd)]> V) X -> Q tt st') -> wp (mpz_cdiv_q q n d) Q st.
Proof.
  intros HV Hq Hn Hd Hv HQ. unfold mpz_cdiv_q. eapply wpV_local0; [exact HV|]. intros t st1 Ft HV1.
  wb. eapply wpV_compare_zero; [exact HV1|look|]. wb. eapply wpV_compare_zero; [exact HV1|look|]. wb. ck.
  assert (q <> t) as Nt by congruence.
  eapply (wpV_div _ _ _ n d (Some q) (Some t)); [exact HV1|look|look|congruence|simpl; eexists; look|simpl; eexists; look|done|]. intros _ st2 HV2. split; [done|].
  simpl in HV2. assert (RV st2 (<[t := Z.rem vn vd]> (<[q := Z.quot vn vd]> V)) X) as HV3.
  { first [rewrite (insert_commute _ q t) in HV2 by done; rewrite insert_insert in HV2; exact HV2 | rewrite (insert_commute _ t q), insert_insert in HV2 by done; rewrite (insert_commute _ q t) in HV2 by done; exact HV2 | rewrite insert_insert in HV2; rewrite (insert_commute _ q t) in HV2 by done; exact HV2]. }
  clear HV2. wb. eapply wpV_compare_zero; [exact HV3|look|]. wb. eapply wpV_compare_zero; [exact HV3|look|].
  assert (forall x, x = - ((- vn) / vd) -> forall s, RV s (<[t := Z.rem vn vd]> (<[q := x]> V)) X -> exists V2 v, V2 !! t = None /\ RV s (<[t := v]> V2) X /\ (forall st3, RV st3 V2 X -> Q tt st3)) as fin.
  { intros x -> s Hs. exists (<[q := - ((- vn) / vd)]> V), (Z.rem vn vd). split; [look|]. split; [done|]. exact HQ. }
  rewrite (ceil_quot vn vd Hv) in fin.
  destruct (Z.gtb_spec (Z.sgn (Z.quot vn vd)) 0) as [Q1|Q1]; [|destruct (Z.eqb_spec (Z.sgn (Z.quot vn vd)) 0) as [Q2|Q2]].
  - destruct (negb _); [|apply wp_ret; by eapply fin]. ck. eapply (wpV_add_value _ _ _ q 1 q); [exact HV3|look..|lia|]. intros s Hs. split; [done|].
    eapply fin; [reflexivity|]. rewrite (insert_commute _ q t), insert_insert in Hs by done. exact Hs.
  - destruct (negb _); [|apply wp_ret; by eapply fin]. destruct (_ || _)%bool; [|apply wp_ret; by eapply fin]. ck. eapply (wpV_set_value _ _ _ q 1); [exact HV3|look..|lia|]. intros s Hs. split; [done|].
    eapply fin; [reflexivity|]. rewrite (insert_commute _ q t), insert_insert in Hs by done. exact Hs.
  - apply wp_ret; by eapply fin.
Qed.
Lemma wpV_fdiv_q q n d vq vn vd Q : RV st V X -> V !! q = Some vq -> V !! n = Some vn -> V !! d = Some vd -> vd <> 0 ->
  (forall st', RV st' (<[q := vn / vd]> V) X -> Q tt st') -> wp (mpz_fdiv_q q n d) Q st.
Proof.
  intros HV Hq Hn Hd Hv HQ. unfold mpz_fdiv_q. eapply wpV_local0; [exact HV|]. intros t st1 Ft HV1.
  wb. eapply wpV_compare_zero; [exact HV1|look|]. wb. eapply wpV_compare_zero; [exact HV1|look|]. wb. ck.
  assert (q <> t) as Nt by congruence.
  eapply (wpV_div _ _ _ n d (Some q) (Some t)); [exact HV1|look|look|congruence|simpl; eexists; look|simpl; eexists; look|done|]. intros _ st2 HV2. split; [done|].
  simpl in HV2. assert (RV st2 (<[t := Z.rem vn vd]> (<[q := Z.quot vn vd]> V)) X) as HV3.
  { first [rewrite (insert_commute _ q t) in HV2 by done; rewrite insert_insert in HV2; exact HV2 | rewrite (insert_commute _ t q), insert_insert in HV2 by done; rewrite (insert_commute _ q t) in HV2 by done; exact HV2 | rewrite insert_insert in HV2; rewrite (insert_commute _ q t) in HV2 by done; exact HV2]. }
  clear HV2. wb. eapply wpV_compare_zero; [exact HV3|look|]. wb. eapply wpV_compare_zero; [exact HV3|look|].
  assert (forall x, x = vn / vd -> forall s, RV s (<[t := Z.rem vn vd]> (<[q := x]> V)) X -> exists V2 v, V2 !! t = None /\ RV s (<[t := v]> V2) X /\ (forall st3, RV st3 V2 X -> Q tt st3)) as fin.
  { intros x -> s Hs. exists (<[q := vn / vd]> V), (Z.rem vn vd). split; [look|]. split; [done|]. exact HQ. }
  rewrite (floor_quot vn vd Hv) in fin.
  destruct (Z.ltb_spec (Z.sgn (Z.quot vn vd)) 0) as [Q1|Q1]; [|destruct (Z.eqb_spec (Z.sgn (Z.quot vn vd)) 0) as [Q2|Q2]].
  - destruct (negb _); [|apply wp_ret; by eapply fin]. ck. eapply (wpV_sub_value _ _ _ q 1 q); [exact HV3|look..|lia|]. intros s Hs. split; [done|].
    eapply fin; [reflexivity|]. rewrite (insert_commute _ q t), insert_insert in Hs by done. exact Hs.
  - destruct (negb _); [|apply wp_ret; by eapply fin]. destruct (_ || _)%bool; [|apply wp_ret; by eapply fin]. ck. eapply (wpV_set_value _ _ _ q (-1)); [exact HV3|look..|lia|]. intros s Hs. split; [done|].
    eapply fin; [reflexivity|]. rewrite (insert_commute _ q t), insert_insert in Hs by done. exact Hs.
  - apply wp_ret; by eapply fin.
Qed.
End ops.
Section ops2.
Context (st : state) (V : gmap oid Z) (X : ctx).
Implicit Types (a b c n q r : oid).
Ltac look := repeat first [done | rewrite lookup_insert_ne by congruence | rewrite lookup_insert].
Lemma wpV_fdiv_r r n (d : oid) vr vn vd (Q : unit -> state -> Prop) : RV st V X -> V !! r = Some vr -> V !! n = Some vn -> V !! d = Some vd -> vd <> 0 ->
  (forall st', RV st' (<[r := vn mod vd]> V) X -> Q tt st') -> wp (mpz_fdiv_r r n d) Q st.
Proof.
  intros HV Hr Hn Hd Hv HQ. unfold mpz_fdiv_r.
  eapply wpV_local0; [exact HV|]. intros q st1 Fq HV1.
  eapply wpV_local0; [exact HV1|]. intros t st2 Ft HV2. assert (t <> q) as Ntq by (intros ->; rewrite lookup_insert in Ft; done). rewrite lookup_insert_ne in Ft by done.
  eapply (wpV_localc _ _ _ _ _ d); [exact HV2|look|]. intros od st3 Fo HV3. assert (od <> t) as Not by (intros ->; rewrite lookup_insert in Fo; done). rewrite lookup_insert_ne in Fo by done.
  assert (od <> q) as Noq by (intros ->; rewrite lookup_insert in Fo; done). rewrite lookup_insert_ne in Fo by done.
  eapply (wpV_localc _ _ _ _ _ n); [exact HV3|look|]. intros on st4 Fn HV4. assert (on <> od) as Nno by (intros ->; rewrite lookup_insert in Fn; done). rewrite lookup_insert_ne in Fn by done.
  assert (on <> t) as Nnt by (intros ->; rewrite lookup_insert in Fn; done). rewrite lookup_insert_ne in Fn by done. assert (on <> q) as Nnq by (intros ->; rewrite lookup_insert in Fn; done). rewrite lookup_insert_ne in Fn by done.
  wb. eapply (wpV_fdiv_q _ _ _ q n d); [exact HV4|look..|]. intros st5 HV5.
  wb. eapply (wpV_mul _ _ _ q od t); [exact HV5|look..|]. intros st6 HV6.
  wb. eapply (wpV_sub _ _ _ on t r); [exact HV6|look..|]. intros st7 HV7. apply wp_ret.
  exists (<[od := vd]> (<[t := vn / vd * vd]> (<[q := vn / vd]> (<[r := vn mod vd]> V)))), vn. split; [look|]. split.
  { replace (vn mod vd) with (vn - vn / vd * vd) by (rewrite Z.mod_eq by done; ring).
    refine (eq_ind _ (fun m => RV st7 m X) HV7 _ _). assert (r <> q) by congruence. assert (r <> t) by congruence. assert (r <> od) by congruence. assert (r <> on) by congruence. clear -Ntq Not Noq Nno Nnt Nnq H H0 H1 H2. mapeq. }
  intros st8 HV8. exists (<[t := vn / vd * vd]> (<[q := vn / vd]> (<[r := vn mod vd]> V))), vd. split; [look|]. split; [done|]. intros st9 HV9.
  exists (<[q := vn / vd]> (<[r := vn mod vd]> V)), (vn / vd * vd). split; [look|]. split; [done|]. intros st10 HV10.
  exists (<[r := vn mod vd]> V), (vn / vd). split; [look|]. split; [done|]. exact HQ.
Qed.
End ops2.
Section ops3.
Context (st : state) (V : gmap oid Z) (X : ctx).
Implicit Types (a b c n q r : oid).
Ltac look := repeat first [done | rewrite lookup_insert_ne by congruence | rewrite lookup_insert].
Lemma wpV_fdiv_q_ui q n (d : Z) vq vn (Q : Z -> state -> Prop) : RV st V X -> V !! q = Some vq -> V !! n = Some vn -> 0 < d < 2 ^ 64 ->
  (forall st', RV st' (<[q := vn / d]> V) X -> Q (vn mod d) st') -> wp (mpz_fdiv_q_ui q n d) Q st.
Proof.
  intros HV Hq Hn Hd HQ. unfold mpz_fdiv_q_ui.
  eapply wpV_localu; [exact HV|lia|]. intros t st1 Ft HV1.
  eapply wpV_local0; [exact HV1|]. intros r st2 Fr HV2. assert (r <> t) as Nrt by (intros ->; rewrite lookup_insert in Fr; done). rewrite lookup_insert_ne in Fr by done.
  eapply (wpV_localc _ _ _ _ _ n); [exact HV2|look|]. intros on st3 Fo HV3. assert (on <> r) as Nor by (intros ->; rewrite lookup_insert in Fo; done). rewrite lookup_insert_ne in Fo by done.
  assert (on <> t) as Nt by (intros ->; rewrite lookup_insert in Fo; done). rewrite lookup_insert_ne in Fo by done.
  assert (q <> t) as N1 by congruence. assert (q <> r) as N2 by congruence. assert (q <> on) as N3 by congruence. assert (d <> 0) as D0 by lia.
  wb. eapply (wpV_fdiv_q _ _ _ q n t); [exact HV3|look..|]. intros st5 HV5.
  wb. eapply (wpV_fdiv_r _ _ _ r on t); [exact HV5|look..|]. intros st6 HV6.
  assert (RV st6 (<[on := vn]> (<[r := vn mod d]> (<[t := d]> (<[q := vn / d]> V)))) X) as HV7.
  { refine (eq_ind _ (fun m => RV st6 m X) HV6 _ _). clear -Nrt Nor Nt N1 N2 N3. mapeq. }
  pose proof (Z.mod_pos_bound vn d ltac:(lia)) as B. clear HV6.
  wb. eapply (wpV_to_uint _ _ _ r); [exact HV7|look|intros _|lia]. intros st8 HV8. cbn [fst snd]. wb. apply wp_assert; [done|]. apply wp_ret.
  exists (<[r := vn mod d]> (<[t := d]> (<[q := vn / d]> V))), vn. split; [look|]. split; [done|]. intros st9 HV9.
  exists (<[t := d]> (<[q := vn / d]> V)), (vn mod d). split; [look|]. split; [done|]. intros st10 HV10.
  exists (<[q := vn / d]> V), d. split; [look|]. split; [done|]. exact HQ.
Qed.
End ops3.

(** ** get_ui, get_si *)
Lemma RV_digits st V X a va : RV st V X -> V !! a = Some va ->
  exists σ f ds, R st σ X /\ σ !! a = Some f /\ fu f = Z.of_nat (length ds) /\ fs f = (if va <? 0 then 1 else 0) /\ digs ds /\ canon ds /\ val ds = Z.abs va /\ darr (mem st) (fl f, 0) ds.
Proof.
  intros (ζ & HZ & Hr) Ha. destruct (relv_some _ _ _ _ Hr Ha) as (z & Hz & Ev & Hn & _). destruct (RZ_s01 _ _ _ _ _ HZ Hz) as [M S].
  destruct HZ as (σ & HR & Hz2). destruct (relz_get _ _ _ _ Hz2 Hz) as (f & ds & Hf & G). exists σ, f, ds.
  split; [done|]. split; [done|]. split; [by eapply goodw_u|]. split.
  { rewrite (g_sign _ _ _ G), <- Ev. unfold zval, norm in *. destruct (Z.eqb_spec (zs z) 0); [destruct (Z.ltb_spec (zm z) 0); lia|destruct (Z.ltb_spec (- zm z) 0); lia]. }
  split; [by eapply goodw_dig|]. split; [apply G|]. split; [rewrite (g_val _ _ _ G), <- Ev; unfold zval; destruct (_ =? _); lia|]. eapply view_darr; [done..|apply G].
Qed.
Section get.
Context (st : state) (V : gmap oid Z) (X : ctx).
Lemma wpV_get_long_bits a va (Q : Z -> state -> Prop) : RV st V X -> V !! a = Some va -> Q (Z.abs va mod 2 ^ 64) st -> wp (get_long_bits a) Q st.
Proof.
  intros HV Ha HQ. destruct (RV_digits _ _ _ _ _ HV Ha) as (σ & f & ds & HR & Hf & Eu & Es & D & C & Ev & Hd).
  unfold get_long_bits. wb. eapply wpR_used; [done..|]. wb. eapply wpR_digits; [done..|]. rewrite Eu. clear Es. rewrite <- Ev in HQ. clear Ev.
  destruct ds as [|d0 [|d1 ds]]; [by destruct C| |].
  - cbn [length]. change (2 >? Z.of_nat 1) with true. cbv iota. change (Z.to_nat (Z.of_nat 1)) with 1%nat. apply darr_cons in Hd as [H1 _]. rewrite to_uint_loop_S.
    apply digs_1 in D. wb. eapply wp_load; [exact H1|]. apply wp_ret. rewrite shl1616, lor32 by (done || mx). rewrite Z.mul_0_l, Z.add_0_l.
    cbn [val] in HQ. rewrite Z.mul_0_r, Z.add_0_r in HQ. unfold dig in D. change RADIX with (2 ^ 32) in D. by rewrite Z.mod_small in HQ by lia.
  - replace (2 >? Z.of_nat (length (d0 :: d1 :: ds))) with false by (symmetry; rewrite Z.gtb_ltb; apply Z.ltb_ge; simpl length; lia). cbv iota.
    apply darr_cons in Hd as [H1 Hd]. apply darr_cons in Hd as [H2 _]. apply Forall_cons in D as [D0 D]. apply Forall_cons in D as [D1 D].
    change (Z.to_nat 2) with 2%nat. rewrite to_uint_loop_S. wb. eapply wp_load; [exact H2|]. rewrite shl1616, lor32 by (done || mx). rewrite to_uint_loop_S.
    rewrite Z.mul_0_l, Z.add_0_l. rewrite shl1616 by done. wb. eapply wp_load; [rewrite padd_padd; exact H1|]. apply wp_ret. rewrite lor32 by (done || apply D1).
    replace (d1 * RADIX + d0) with (val (d0 :: d1 :: ds) mod 2 ^ 64); [done|]. cbn [val]. unfold dig in D0, D1. change RADIX with (2 ^ 32) in *.
    symmetry. apply (Z.mod_unique_pos _ _ (val ds)); [lia|ring].
Qed.
End get.
Section get2.
Context (st : state) (V : gmap oid Z) (X : ctx).
Lemma wpV_get_ui a va (Q : Z -> state -> Prop) : RV st V X -> V !! a = Some va ->
  (forall st', RV st' V X -> Q (Z.abs va mod 2 ^ 64) st') -> wp (mpz_get_ui a) Q st.
Proof.
  intros HV Ha HQ. unfold mpz_get_ui. wb. eapply wpV_to_uint; [done..| |]; intros Hr st1 HV1; cbn [fst snd].
  - change (MP_OK =? MP_OK) with true. cbv iota. apply wp_ret. specialize (HQ _ HV1). by rewrite Z.abs_eq, Z.mod_small in HQ by lia.
  - change (MP_RANGE =? MP_OK) with false. cbv iota. wb. apply wp_assert; [done|]. change (negb (MP_RANGE =? MP_RANGE)) with false. cbv iota.
    revert HV1. clear -Ha HQ. intros HV1. pose proof Ha. 
    exact (wpV_get_long_bits st1 V X a va Q HV1 Ha (HQ st1 HV1)).
Qed.
Lemma wpV_get_si a va (Q : Z -> state -> Prop) : RV st V X -> V !! a = Some va -> va <> - 2 ^ 63 ->
  (forall st', RV st' V X -> Q (Z.sgn va * (Z.abs va mod 2 ^ 63)) st') -> wp (mpz_get_si a) Q st.
Proof.
  intros HV Ha Hne HQ. unfold mpz_get_si. wb. eapply wpV_to_int; [done..| |]; intros Hr st1 HV1; cbn [fst snd].
  - change (MP_OK =? MP_OK) with true. cbv iota. apply wp_ret. specialize (HQ _ HV1). rewrite Z.mod_small in HQ by lia. by rewrite Z.mul_comm, Z.abs_sgn in HQ.
  - change (MP_RANGE =? MP_OK) with false. cbv iota. wb. apply wp_assert; [done|]. change (negb (MP_RANGE =? MP_RANGE)) with false. cbv iota.
    wb. eapply wpV_get_long_bits; [exact HV1|exact Ha|]. wb. destruct (RV_digits _ _ _ _ _ HV1 Ha) as (σ & f & ds & HR & Hf & _ & Es & _). eapply wpR_sign; [done..|]. rewrite Es. apply wp_ret.
    specialize (HQ _ HV1). change (2 ^ 63 - 1) with (Z.ones 63). rewrite Z.land_ones by lia.
    assert ((Z.abs va mod 2 ^ 64) mod 2 ^ 63 = Z.abs va mod 2 ^ 63) as ->.
    { change (2 ^ 64) with (2 ^ 63 * 2). rewrite Z.rem_mul_r by lia. rewrite Z.mul_comm, Z.mod_add by lia. by rewrite Z.mod_mod by lia. }
    pose proof (Z.mod_pos_bound (Z.abs va) (2 ^ 63) ltac:(lia)) as B. remember (Z.abs va mod 2 ^ 63) as m. change MP_NEG with 1.
    destruct (Z.ltb_spec va 0) as [N|N].
    + change (1 =? 1) with true. cbv iota. replace (Z.sgn va) with (-1) in HQ by lia. unfold w64. destruct (Z.eq_dec m 0) as [->|M0].
      * exact HQ.
      * replace ((0 - m) mod 2 ^ 64) with (2 ^ 64 - m) by (apply (Z.mod_unique_pos _ _ (-1)); lia). destruct (Z.ltb_spec (2 ^ 64 - m) (2 ^ 63)); [lia|]. by replace (2 ^ 64 - m - 2 ^ 64) with (-1 * m) by lia.
    + change (0 =? 1) with false. cbv iota. destruct (Z.ltb_spec m (2 ^ 63)); [|lia]. replace (Z.sgn va) with 1 in HQ by lia. by rewrite Z.mul_1_l in HQ.
Qed.
End get2.
