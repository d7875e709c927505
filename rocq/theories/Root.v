(** Least common multiples, modular inverses and integer roots, at the level
    of stores of integers. *)
From Coq Require Import ZArith List Lia Znumtheory.
From stdpp Require Import gmap list.
From Verif Require Import Mem Prog Kern Imath Wp MemLem Dig KernLem KernMul KernKar Rel RelWp RelZ Life Basic Basic2 Mult Shift Knuth Divi Powr Spec Public Gcd.
Local Open Scope Z_scope.

(** ** mp_int_lcm *)
Lemma wpV_lcm (st : state) (V : gmap oid Z) (X : ctx) (a b c : oid) (va vb vc : Z) (Q : Z -> state -> Prop) :
  RV st V X -> V !! a = Some va -> V !! b = Some vb -> V !! c = Some vc ->
  (va = 0 -> vb = 0 -> forall st', RV st' V X -> Q MP_UNDEF st') ->
  (va <> 0 \/ vb <> 0 -> forall st', RV st' (<[c := va / Z.gcd va vb * vb]> V) X -> Q MP_OK st') ->
  wp (mp_int_lcm a b c) Q st.
Proof.
  intros HV Ha Hb Hc HU HQ. unfold mp_int_lcm. eapply wpV_with_temp; [exact HV|]. intros t st1 Ft HV1.
  unfold require at 1. wb. eapply wpV_gcd; [exact HV1|lk|lk|lk|..].
  { intros -> ->. change (MP_UNDEF =? MP_OK) with false. apply wp_ret. exists V, 0. split; [done|]. split; [done|]. intros st3 HV3. by apply HU. }
  intros Hnz st2 HV2. rewrite Z.eqb_refl. assert (0 < Z.gcd va vb) as Hg.
  { pose proof (Z.gcd_nonneg va vb). assert (Z.gcd va vb <> 0); [|lia]. intros E. apply Z.gcd_eq_0 in E. lia. }
  apply wp_require. eapply wpV_div; [exact HV2|lk|lk|done|cbn [live]; eexists; lk|done|lia|]. intros _ st3 HV3. cbn [assign] in HV3. split; [done|].
  apply wp_require. eapply wpV_mul; [exact HV3|lk|lk|lk|]. intros st4 HV4. split; [done|].
  apply wp_require. eapply wpV_copy; [exact HV4|lk|lk|]. intros st5 HV5. split; [done|]. apply wp_ret.
  assert (Z.quot va (Z.gcd va vb) = va / Z.gcd va vb) as E.
  { destruct (Z.gcd_divide_l va vb) as [q Eq]. rewrite Eq at 1 3. by rewrite Z.quot_mul, Z.div_mul by lia. }
  rewrite E in HV5. exists (<[c := va / Z.gcd va vb * vb]> V), (va / Z.gcd va vb * vb). split; [lk|]. split; [vn HV5|]. intros st6 HV6. by apply HQ.
Qed.

(** ** mp_int_invmod *)
Lemma wpV_invmod (st : state) (V : gmap oid Z) (X : ctx) (a m c : oid) (va vm vc : Z) (Q : Z -> state -> Prop) :
  RV st V X -> V !! a = Some va -> V !! m = Some vm -> V !! c = Some vc ->
  (va = 0 \/ vm <= 0 -> Q MP_RANGE st) ->
  (va <> 0 -> 0 < vm -> Z.gcd va vm <> 1 -> forall st', RV st' V X -> Q MP_UNDEF st') ->
  (va <> 0 -> 0 < vm -> Z.gcd va vm = 1 -> forall st' r, (r * va) mod vm = 1 mod vm -> 0 <= r <= vm -> (r = vm -> va < 0 /\ vm = 1) -> RV st' (<[c := r]> V) X -> Q MP_OK st') ->
  wp (mp_int_invmod a m c) Q st.
Proof.
  intros HV Ha Hm Hc HR HU HQ. unfold mp_int_invmod. wb. eapply wpV_CMPZ; [exact HV|exact Ha|].
  destruct (Z.eqb_spec (Z.sgn va) 0) as [Ea|Ea]; [apply wp_ret; apply HR; lia|]. wb. eapply wpV_CMPZ; [exact HV|exact Hm|].
  destruct (Z.leb_spec (Z.sgn vm) 0) as [Em|Em]; [apply wp_ret; apply HR; lia|].
  eapply wpV_with_temp; [exact HV|]. intros t0 st1 F0 HV1. eapply wpV_with_temp; [exact HV1|]. intros t1 st2 F1 HV2. fr F1.
  apply wp_require. eapply wpV_egcd; [exact HV2|lk|lk|lk|cbn [live]; eexists; lk|done|left; by eexists|lia|lia|lia|lia|].
  intros _ _ st3 s t Bz HV3. cbn [assign] in HV3. split; [done|].
  assert (RV st3 (<[t1 := s]> (<[t0 := Z.gcd va vm]> V)) X) as HV3' by (vn HV3).
  wb. eapply wpV_compare_value; [exact HV3'|lk|lia|]. intros st4 HV4.
  destruct (Z.eqb_spec (Z.sgn (Z.gcd va vm - 1)) 0) as [Eg|Eg]; cbn [negb].
  2:{ apply wp_ret. eexists _, _. split; [|split; [exact HV4|]]; [lk|]. intros st5 HV5. eexists _, _. split; [|split; [exact HV5|]]; [lk|]. intros st6 HV6.
      apply HU; [lia|lia|lia|done]. }
  apply wp_require. eapply wpV_mod; [exact HV4|lk|lk|lk|lia|]. intros _ st5 HV5. split; [done|].
  rewrite mod_val_pos in HV5 by lia. assert (Z.gcd va vm = 1) as Eg1 by lia. rewrite Eg1 in Bz. set (r := s mod vm) in *.
  pose proof (Z.mod_pos_bound s vm ltac:(lia)) as Hr. fold r in Hr.
  assert ((r * Z.abs va) mod vm = 1 mod vm) as Er.
  { unfold r. rewrite Z.mul_mod_idemp_l by lia. rewrite <- Bz. rewrite (Z.abs_eq vm) by lia. by rewrite Z.mod_add by lia. }
  wb. eapply wpV_sign; [exact HV5|lk|]. apply wp_require.
  destruct (Z.ltb_spec va 0) as [Hs|Hs]; cbv iota.
  - change (1 =? MP_NEG) with true. cbv iota. eapply wpV_sub; [exact HV5|lk|lk|lk|]. intros st6 HV6. split; [done|]. apply wp_ret.
    exists (<[t0 := Z.gcd va vm]> (<[c := vm - r]> V)), r. split; [lk|]. split; [vn HV6|]. intros st7 HV7.
    exists (<[c := vm - r]> V), (Z.gcd va vm). split; [lk|]. split; [done|]. intros st8 HV8. apply (HQ ltac:(lia) ltac:(lia) ltac:(lia) st8 (vm - r)); [|lia| |done].
    + rewrite <- Er. replace ((vm - r) * va) with (r * Z.abs va + va * vm) by (rewrite Z.abs_neq by lia; ring). by rewrite Z.mod_add by lia.
    + intros E0. split; [lia|]. assert (r = 0) as Hr0 by lia. rewrite Hr0, Z.mul_0_l, Z.mod_0_l in Er by lia. destruct (Z.eq_dec vm 1); [done|]. rewrite Z.mod_1_l in Er by lia. lia.
  - change (0 =? MP_NEG) with false. cbv iota. eapply wpV_copy; [exact HV5|lk|lk|]. intros st6 HV6. split; [done|]. apply wp_ret.
    exists (<[t0 := Z.gcd va vm]> (<[c := r]> V)), r. split; [lk|]. split; [vn HV6|]. intros st7 HV7.
    exists (<[c := r]> V), (Z.gcd va vm). split; [lk|]. split; [done|]. intros st8 HV8. apply (HQ ltac:(lia) ltac:(lia) ltac:(lia) st8 r); [|lia|lia|done].
    by rewrite Z.abs_eq in Er by lia.
Qed.

(** ** mp_int_root *)
(** Bernoulli's inequality, scaled. *)
Lemma bernoulli x q b : 0 <= q <= x -> 0 <= b -> x ^ (b + 1) - (b + 1) * q * x ^ b <= (x - q) ^ (b + 1).
Proof.
  intros Hq Hb. revert b Hb. apply natlike_ind.
  - rewrite Z.pow_0_r, !Z.pow_1_r. lia.
  - intros b Hb IH. replace (Z.succ b) with (b + 1) by lia. rewrite (Z.pow_add_r (x - q) (b + 1) 1), (Z.pow_add_r x (b + 1) 1), !Z.pow_1_r by lia.
    assert ((x ^ (b + 1) - (b + 1) * q * x ^ b) * (x - q) <= (x - q) ^ (b + 1) * (x - q)) as H by (apply Z.mul_le_mono_nonneg_r; lia).
    eapply Z.le_trans; [|exact H]. assert (x ^ (b + 1) = x ^ b * x) as E by (rewrite Z.pow_add_r, Z.pow_1_r by lia; ring). rewrite E.
    assert (0 <= x ^ b) by (apply Z.pow_nonneg; lia). assert (0 <= (b + 1) * (q * q) * x ^ b) by nia. nia.
Qed.
Lemma newton_step M x b : 0 <= M -> 0 < x -> 2 <= b -> M < x ^ b ->
  let q := Z.quot (x ^ b - M) (x ^ (b - 1) * b) in 0 <= q < x /\ (0 < q -> M < (x - q + 1) ^ b).
Proof.
  intros HM Hx Hb HMx q. assert (0 < x ^ (b - 1)) as P by (apply Z.pow_pos_nonneg; lia).
  assert (x ^ b = x ^ (b - 1) * x) as E. { replace b with (b - 1 + 1) at 1 by lia. by rewrite Z.pow_add_r, Z.pow_1_r by lia. }
  assert (0 < x ^ (b - 1) * b) as Pd by nia.
  assert (q = (x ^ b - M) / (x ^ (b - 1) * b)) as Eq by (unfold q; rewrite Z.quot_div_nonneg by lia; done).
  pose proof (Z.mul_div_le (x ^ b - M) (x ^ (b - 1) * b) Pd) as Hle. rewrite <- Eq in Hle.
  assert (0 <= q) as Hq0 by (rewrite Eq; apply Z.div_pos; lia).
  assert (q < x) as Hqx.
  { rewrite Eq. apply Z.div_lt_upper_bound; [done|]. rewrite E. nia. }
  split; [lia|]. intros Hq. pose proof (bernoulli x q (b - 1) ltac:(lia) ltac:(lia)) as HB. replace (b - 1 + 1) with b in HB by lia.
  assert (M <= (x - q) ^ b) as H1 by nia. assert ((x - q) ^ b < (x - q + 1) ^ b) by (apply Z.pow_lt_mono_l; lia). lia.
Qed.

Section root.
Context (V : gmap oid Z) (X : ctx) (t0 t1 t2 t3 t4 : oid).
Hypotheses (N01 : t0 <> t1) (N02 : t0 <> t2) (N03 : t0 <> t3) (N04 : t0 <> t4) (N12 : t1 <> t2) (N13 : t1 <> t3) (N14 : t1 <> t4) (N23 : t2 <> t3) (N24 : t2 <> t4) (N34 : t3 <> t4).
Local Notation G m x a b c := (<[t4 := c]> (<[t3 := b]> (<[t2 := a]> (<[t1 := x]> (<[t0 := m]> V))))).
Definition root_inv (M b n : Z) (st : state) : Prop :=
  exists x y z w, RV st (G M x y z w) X /\ 0 <= x /\ M < (x + 1) ^ b /\ x <= n.
Lemma wpV_root_body M b n st : 0 <= M -> 2 <= b < 2 ^ 32 ->
  root_inv M b n st ->
  wp (root_body b t0 t1 t2 t3 t4 tt) (fun r st' => match r with inl s' => exists n', 0 <= n' < n /\ root_inv M b n' st'
     | inr res => res = MP_OK /\ exists x y z w, RV st' (G M x y z w) X /\ 0 <= x /\ x ^ b <= M < (x + 1) ^ b end) st.
Proof.
  intros HM Hb (x & y & z & w & HV & Hx & Hlt & Hn). unfold root_body.
  apply wp_requireL. eapply wpV_expt; [exact HV|lk|lk|lia|]. intros _ st1 HV1. rewrite Z.mod_small in HV1 by lia. split; [done|].
  assert (0 <= x ^ b) as P by (apply Z.pow_nonneg; lia).
  wb. eapply wpV_compare_unsigned; [exact HV1|lk|lk|]. rewrite !Z.abs_eq by lia.
  destruct (Z.leb_spec (Z.sgn (x ^ b - M)) 0) as [L|L].
  { apply wp_ret. split; [done|]. exists x, (x ^ b), z, w. split; [vn HV1|]. split; [done|]. split; [lia|done]. }
  assert (M < x ^ b) as HMx by lia. assert (0 < x) as Hx0. { destruct (Z.eq_dec x 0) as [->|]; [|lia]. rewrite Z.pow_0_l in HMx by lia. lia. }
  apply wp_requireL. eapply wpV_sub; [exact HV1|lk|lk|lk|]. intros st2 HV2. split; [done|].
  apply wp_requireL. eapply wpV_expt; [exact HV2|lk|lk|lia|]. intros _ st3 HV3. rewrite Z.mod_small in HV3 by lia. split; [done|].
  apply wp_requireL. eapply wpV_mul_value; [exact HV3|lk|lk|lia|]. intros st4 HV4. split; [done|].
  assert (0 < x ^ (b - 1)) as Pb by (apply Z.pow_pos_nonneg; lia).
  apply wp_requireL. eapply wpV_div; [exact HV4|lk|lk|done|cbn [live]; eexists; lk|done|nia|]. intros _ st5 HV5. cbn [assign] in HV5. split; [done|].
  destruct (newton_step M x b HM Hx0 ltac:(lia) HMx) as [Hq Hstep]. set (q := Z.quot _ _) in *.
  apply wp_requireL. eapply wpV_sub; [exact HV5|lk|lk|lk|]. intros st6 HV6. split; [done|].
  wb. eapply wpV_compare_unsigned; [exact HV6|lk|lk|]. rewrite !Z.abs_eq by lia. apply wp_requireL.
  destruct (Z.eqb_spec (Z.sgn (x - (x - q))) 0) as [E|E].
  - eapply wpV_sub_value; [exact HV6|lk|lk|lia|]. intros st7 HV7. split; [done|].
    apply wp_requireL. eapply wpV_copy; [exact HV7|lk|lk|]. intros st8 HV8. split; [done|]. apply wp_ret.
    exists (x - 1). split; [lia|]. replace (x - q - 1) with (x - 1) in HV8 by lia. eexists (x - 1), _, _, _. split; [vn HV8|]. split; [lia|]. split; [|lia].
    by replace (x - 1 + 1) with x by lia.
  - apply wp_ret. split; [done|]. apply wp_requireL. eapply wpV_copy; [exact HV6|lk|lk|]. intros st8 HV8. split; [done|]. apply wp_ret.
    exists (x - q). split; [lia|]. eexists (x - q), _, _, _. split; [vn HV8|]. split; [lia|]. split; [apply Hstep; lia|lia].
Qed.
End root.

Lemma wpV_root (st : state) (V : gmap oid Z) (X : ctx) (a c : oid) (b va vc : Z) (Q : Z -> state -> Prop) :
  RV st V X -> V !! a = Some va -> V !! c = Some vc -> 1 <= b < 2 ^ 32 ->
  (va < 0 -> Z.even b = true -> Q MP_UNDEF st) ->
  (0 <= va \/ Z.odd b = true -> forall st' r, 0 <= r -> r ^ b <= Z.abs va < (r + 1) ^ b -> RV st' (<[c := Z.sgn va * r]> V) X -> Q MP_OK st') ->
  wp (mp_int_root a b c) Q st.
Proof.
  intros HV Ha Hc Hb HU HQ. unfold mp_int_root. wb. apply wp_assert; [lia|].
  destruct (Z.eqb_spec b 1) as [->|Eb].
  { eapply wpV_copy; [exact HV|exact Ha|exact Hc|]. intros st1 HV1. apply (HQ ltac:(by right) st1 (Z.abs va)); [lia|rewrite !Z.pow_1_r; lia|].
    by rewrite Z.mul_comm, Z.abs_sgn. }
  wb. eapply wpV_sign; [exact HV|exact Ha|].
  assert ((if va <? 0 then 1 else 0) =? MP_NEG = (va <? 0)) as -> by (by destruct (va <? 0)).
  rewrite Zmod_even. destruct ((va <? 0) && ((if Z.even b then 0 else 1) =? 0))%bool eqn:Ec.
  { apply andb_true_iff in Ec as [E1 E2]. apply wp_ret. apply HU; [lia|]. by destruct (Z.even b). }
  assert (0 <= va \/ Z.odd b = true) as Hok.
  { apply andb_false_iff in Ec as [E1|E2]; [lia|]. right. rewrite <- Z.negb_even. by destruct (Z.even b). }
  specialize (HQ Hok). cbv zeta.
  wb. eapply wpV_used; [exact HV|exact Ha|]. intros na Na1 Na2 _ Na.
  eapply wpV_with_temp; [exact HV|]. intros t0 st1 F0 HV1. eapply wpV_with_temp; [exact HV1|]. intros t1 st2 F1 HV2. fr F1.
  eapply wpV_with_temp; [exact HV2|]. intros t2 st3 F2 HV3. fr F2. eapply wpV_with_temp; [exact HV3|]. intros t3 st4 F3 HV4. fr F3.
  eapply wpV_with_temp; [exact HV4|]. intros t4 st5 F4 HV5. fr F4.
  apply wp_require. eapply wpV_copy; [exact HV5|lk|lk|]. intros st6 HV6. split; [done|].
  apply wp_require. eapply wpV_copy; [exact HV6|lk|lk|]. intros st7 HV7. split; [done|].
  wb. eapply wpV_set_pos; [exact HV7|lk|]. intros st8 HV8. wb. eapply wpV_set_pos; [exact HV8|lk|]. intros st9 HV9.
  apply wp_require. eapply wp_loop_n with (n := Z.abs va) (I := fun n _ st => root_inv V X t0 t1 t2 t3 t4 (Z.abs va) b n st).
  - eexists (Z.abs va), 0, 0, 0. split; [vn HV9|]. split; [lia|]. split; [|lia].
    apply Z.lt_le_trans with (Z.abs va + 1); [lia|]. rewrite <- (Z.pow_1_r (Z.abs va + 1)) at 1. apply Z.pow_le_mono_r; lia.
  - rewrite Z2Nat.id by lia. exact Na.
  - intros n [] st10 HI. eapply wp_mono; [apply (wpV_root_body V X t0 t1 t2 t3 t4) with (M := Z.abs va) (n := n); [neqs..|lia|lia|exact HI]|].
    intros [[]|res] st11 H; [exact H|]. destruct H as (-> & x & y & z & w & HV11 & Hx & Hr). split; [done|].
    apply wp_require. eapply wpV_copy; [exact HV11|lk|lk|]. intros st12 HV12. split; [done|].
    wb. eapply wp_mono with (Q := fun _ st' => RV st' (<[t4:=w]> (<[t3:=z]> (<[t2:=y]> (<[t1:=x]> (<[t0:=Z.abs va]> (<[c := Z.sgn va * x]> V)))))) X).
    { destruct (Z.ltb_spec va 0) as [Hs|Hs].
      - wb. eapply wpV_neg; [exact HV12|lk|lk|]. intros st13 HV13. apply wp_ret. replace (Z.sgn va * x) with (- x) by (rewrite Z.sgn_neg by lia; lia). vn HV13.
      - apply wp_ret. replace (Z.sgn va * x) with x; [vn HV12|].
        destruct (Z.eq_dec va 0) as [->|]; [|rewrite Z.sgn_pos by lia; lia]. assert (~ 1 <= x); [|lia]. intros Hx1.
        assert (1 ^ b <= x ^ b) by (apply Z.pow_le_mono_l; lia). rewrite Z.pow_1_l in * by lia. lia. }
    intros _ st13 HV13. apply wp_ret.
    do 5 (eexists _, _; split; [|split; [exact HV13|]]; [lk|]; clear HV13; intros ?st HV13).
    by eapply HQ.
Qed.
