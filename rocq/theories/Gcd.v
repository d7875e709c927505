(** Greatest common divisors, at the level of stores of integers. *)
From Coq Require Import ZArith List Lia Znumtheory.
From stdpp Require Import gmap list.
From Verif Require Import Mem Prog Kern Imath Wp MemLem Dig KernLem KernMul KernKar Rel RelWp RelZ Life Basic Basic2 Mult Shift Knuth Divi Powr Spec Public.
Local Open Scope Z_scope.

(** ** More rules for stores *)
Lemma RV_eqV (st : state) (V V' : gmap oid Z) (X : ctx) : RV st V X -> V = V' -> RV st V' X.
Proof. by intros ? <-. Qed.
Ltac vn H := eapply RV_eqV; [exact H|mapeq].

Lemma wpV_with_temp st V X (body : oid -> prog Z) (Q : Z -> state -> Prop) :
  RV st V X ->
  (forall t st1, V !! t = None -> RV st1 (<[t := 0]> V) X ->
     wp (body t) (fun r st2 => exists V2 v, V2 !! t = None /\ RV st2 (<[t := v]> V2) X /\ (forall st3, RV st3 V2 X -> Q r st3)) st1) ->
  wp (with_temp body) Q st.
Proof.
  intros (ζ & HZ & Hv) H. eapply wpZ_with_temp; [exact HZ|]. intros t st1 Ht HZ1. eapply wp_mono.
  { apply H; [by eapply relv_none'|]. eexists. split; [done|]. by apply relv_ins. }
  intros r st2 (V2 & v & N & (ζ2 & HZ2 & Hv2) & HQ). destruct (relv_some ζ2 (<[t := v]> V2) t v Hv2) as (z & Hz & _ & _ & O); [apply lookup_insert|].
  exists ζ2, z. split; [done|]. split; [done|]. split; [done|]. intros st3 HZ3. apply HQ. eexists. split; [done|].
  apply (relv_del _ _ t) in Hv2. by rewrite delete_insert in Hv2.
Qed.

Section ops.
Context (st : state) (V : gmap oid Z) (X : ctx).
Lemma wpV_sign a va (Q : Z -> state -> Prop) : RV st V X -> V !! a = Some va -> Q (if va <? 0 then 1 else 0) st -> wp (get_sign a) Q st.
Proof.
  intros (ζ & HZ & Hv) Ha HQ. destruct (relv_some _ _ _ _ Hv Ha) as (z & Hz & <- & N & O). destruct (RZ_s01 _ _ _ _ _ HZ Hz) as [M S].
  eapply wpZ_sign; [done..|]. replace (zs z) with (if zval z <? 0 then 1 else 0); [done|]. unfold zval, norm in *.
  destruct S as [S|S]; rewrite S in *; simpl; [destruct (Z.ltb_spec (zm z) 0)|destruct (Z.ltb_spec (- zm z) 0)]; change (1 =? 0) with false in *; lia.
Qed.
Lemma wpV_set_pos a va (Q : unit -> state -> Prop) : RV st V X -> V !! a = Some va ->
  (forall st', RV st' (<[a := Z.abs va]> V) X -> Q tt st') -> wp (set_sign a MP_ZPOS) Q st.
Proof.
  intros (ζ & HZ & Hv) Ha HQ. destruct (relv_some _ _ _ _ Hv Ha) as (z & Hz & <- & N & O). destruct (RZ_s01 _ _ _ _ _ HZ Hz) as [M S].
  eapply wpZ_set_sign; [done|done|by left|]. intros st' HZ'. apply HQ. eexists. split; [done|]. apply relv_ins; [done| |done|done].
  rewrite <- zm_abs by done. done.
Qed.
Lemma wpV_used a va (Q : Z -> state -> Prop) : RV st V X -> V !! a = Some va ->
  (forall n, (1 <= n)%nat -> Z.of_nat n <= MAXD -> n = ndig (Z.abs va) -> Z.abs va < 2 ^ (32 * Z.of_nat n) -> Q (Z.of_nat n) st) -> wp (get_used a) Q st.
Proof.
  intros (ζ & HZ & Hv) Ha HQ. destruct (relv_some _ _ _ _ Hv Ha) as (z & Hz & <- & N & O). destruct (RZ_s01 _ _ _ _ _ HZ Hz) as [M S].
  eapply wpZ_used; [done|done|]. intros Hm. destruct (RZ_ndig _ _ _ _ _ HZ Hz) as [Hb _]. apply HQ; [|done|by rewrite <- zm_abs|].
  - unfold ndig. destruct (_ <=? _); lia.
  - rewrite <- zm_abs by done. rewrite <- Bn_pow2. lia.
Qed.
Lemma wpV_qdiv a va p (Q : unit -> state -> Prop) : RV st V X -> V !! a = Some va -> 0 <= p ->
  (forall st', RV st' (<[a := Z.quot va (2 ^ p)]> V) X -> Q tt st') -> wp (s_qdiv a p) Q st.
Proof.
  intros (ζ & HZ & Hv) Ha Hp HQ. destruct (relv_some _ _ _ _ Hv Ha) as (z & Hz & <- & N & O). destruct (RZ_s01 _ _ _ _ _ HZ Hz) as [M S].
  assert (0 < 2 ^ p) as Hpp by (apply Z.pow_pos_nonneg; lia).
  eapply wpZ_qdiv; [done|done|done|]. intros st' HZ'. apply HQ. eexists. split; [done|]. apply relv_ins; [done| |unfold norm, z0sgn; simpl; by intros ->|done].
  unfold zval, z0sgn. simpl. assert (0 <= zm z / 2 ^ p) by (apply Z.div_pos; lia).
  destruct (Z.eqb_spec (zm z / 2 ^ p) 0) as [E|E].
  - change (0 =? 0) with true. cbv iota. rewrite E. destruct (_ =? _); [rewrite Z.quot_div_nonneg by lia; lia|rewrite Z.quot_opp_l, Z.quot_div_nonneg by lia; lia].
  - destruct (_ =? _); [by rewrite Z.quot_div_nonneg by lia|by rewrite Z.quot_opp_l, Z.quot_div_nonneg by lia].
Qed.
Lemma wpV_qmul a va p (Q : bool -> state -> Prop) : RV st V X -> V !! a = Some va -> 0 <= p < RADIX ->
  (forall st', RV st' (<[a := va * 2 ^ p]> V) X -> Q true st') -> wp (s_qmul a p) Q st.
Proof.
  intros (ζ & HZ & Hv) Ha Hp HQ. destruct (relv_some _ _ _ _ Hv Ha) as (z & Hz & <- & N & O). destruct (RZ_s01 _ _ _ _ _ HZ Hz) as [M S].
  assert (0 < 2 ^ p) as Hpp by (apply Z.pow_pos_nonneg; lia).
  eapply wpZ_qmul; [done|done|done|done|]. intros st' HZ'. apply HQ. eexists. split; [done|]. apply relv_ins; [done| | |done].
  - unfold zval. simpl. destruct (_ =? _); lia.
  - unfold norm in *. simpl. intros E. apply N. nia.
Qed.
Lemma wpV_dp2k a va (Q : Z -> state -> Prop) : RV st V X -> V !! a = Some va -> va <> 0 ->
  (forall j e, 0 <= j < 2 ^ 30 -> Z.odd e = true -> Z.abs va = 2 ^ j * e -> Q j st) -> wp (s_dp2k a) Q st.
Proof.
  intros (ζ & HZ & Hv) Ha N0 HQ. destruct (relv_some _ _ _ _ Hv Ha) as (z & Hz & <- & N & O). destruct (RZ_s01 _ _ _ _ _ HZ Hz) as [M S].
  eapply wpZ_dp2k; [done|done|intros E; apply N0; unfold zval; rewrite E; by destruct (_ =? _)|]. intros j e Hj He E. eapply HQ; [|exact He|by rewrite <- zm_abs].
  change MAXD with (2 ^ 25) in Hj. lia.
Qed.
End ops.

(** A loop whose measure is tied to the state by the invariant. *)
Lemma wp_loopc_n {S R} (k : nat) (body : S -> prog (S + R)) (I : Z -> S -> state -> Prop) (Q : R -> state -> Prop) :
  (forall n s st, I n s st ->
    wp (body s) (fun r st' => match r with inl s' => exists n', 0 <= n' < n /\ I n' s' st' | inr x => Q x st' end) st) ->
  forall n s st, I n s st ->
  wp (loopc k body s) (fun r st' => match r with inl s' => exists n', 0 <= n' /\ n' + 2 ^ Z.of_nat k <= n /\ I n' s' st' | inr x => Q x st' end) st.
Proof.
  intros Hb. induction k as [|k IH]; intros n s st Hs.
  - simpl loopc. eapply wp_mono; [apply (Hb n), Hs|]. intros [s'|x] st'; [|done]. intros (n' & Hn & HI). exists n'. change (2 ^ Z.of_nat 0) with 1. split; [lia|]. split; [lia|done].
  - simpl loopc. apply wp_bind. eapply wp_mono; [eapply IH, Hs|].
    intros [s'|x] st'; [|by intros; apply wp_ret]. intros (n' & H1 & H2 & HI).
    eapply wp_mono; [eapply IH, HI|]. intros [s''|x] st''; [|done]. intros (n'' & H3 & H4 & HI'). exists n''.
    rewrite Nat2Z.inj_succ, Z.pow_succ_r by lia. split; [lia|]. split; [lia|done].
Qed.
Lemma wp_loop_n {S R} (k : nat) (body : S -> prog (S + R)) (I : Z -> S -> state -> Prop) (Q : R -> state -> Prop) n s st :
  I n s st -> n < 2 ^ Z.of_nat k ->
  (forall n s st, I n s st ->
    wp (body s) (fun r st' => match r with inl s' => exists n', 0 <= n' < n /\ I n' s' st' | inr x => Q x st' end) st) ->
  wp (loop k body s) Q st.
Proof.
  intros Hs Hm Hb. unfold loop. apply wp_bind. eapply wp_mono; [eapply (wp_loopc_n k body I Q); eauto|].
  intros [s'|x] st'; [|by intros; apply wp_ret]. intros (n' & H0 & H1 & HI). lia.
Qed.
Lemma wp_requireL {S} (e : prog Z) (k : prog (S + Z)) (Q : S + Z -> state -> Prop) st :
  wp e (fun r st' => r = MP_OK /\ wp k Q st') st -> wp (requireL e k) Q st.
Proof. intros H. unfold requireL. wb. eapply wp_mono; [exact H|]. intros r st' [-> H']. done. Qed.

(** ** Binary GCD *)
Lemma gcd_two_odd v : Z.odd v = true -> Z.gcd 2 v = 1.
Proof.
  intros Hv. pose proof (Z.gcd_nonneg 2 v). pose proof (Z.gcd_divide_l 2 v) as D1. pose proof (Z.gcd_divide_r 2 v) as D2.
  apply Z.divide_pos_le in D1 as L; [|lia]. assert (Z.gcd 2 v <> 0) by (intros E0; apply Z.gcd_eq_0_l in E0; lia).
  destruct (Z.eq_dec (Z.gcd 2 v) 2) as [E2|]; [|lia]. rewrite E2 in D2. destruct D2 as [q ->]. by rewrite Z.odd_mul, andb_comm in Hv.
Qed.
Lemma gcd_half e v : Z.odd v = true -> Z.gcd (2 * e) v = Z.gcd e v.
Proof.
  intros Hv. pose proof (gcd_two_odd v Hv) as E. apply Z.gcd_unique; [apply Z.gcd_nonneg|..].
  - apply Z.divide_mul_r, Z.gcd_divide_l.
  - apply Z.gcd_divide_r.
  - intros q H1 H2. apply Z.gcd_greatest; [|done]. apply Z.gauss with (m := 2); [done|].
    assert (Z.gcd q 2 | Z.gcd 2 v) as D. { apply Z.gcd_greatest; [apply Z.gcd_divide_r|]. etransitivity; [apply Z.gcd_divide_l|done]. }
    rewrite E in D. apply Z.divide_1_r_nonneg in D; [done|apply Z.gcd_nonneg].
Qed.
Lemma gcd_odd_mul j e v : 0 <= j -> Z.odd v = true -> Z.gcd (2 ^ j * e) v = Z.gcd e v.
Proof.
  intros Hj Hv. revert j Hj. apply natlike_ind; [by rewrite Z.pow_0_r, Z.mul_1_l|]. intros j Hj IH.
  rewrite Z.pow_succ_r, <- Z.mul_assoc by done. by rewrite gcd_half.
Qed.
Lemma quot_pow_exact j e : 0 <= j -> Z.quot (2 ^ j * e) (2 ^ j) = e.
Proof. intros. rewrite Z.mul_comm. apply Z.quot_mul. assert (0 < 2 ^ j) by (apply Z.pow_pos_nonneg; lia). lia. Qed.
Lemma gcd_common k x y : 0 <= k -> Z.gcd (2 ^ k * x) (2 ^ k * y) = 2 ^ k * Z.gcd x y.
Proof. intros. apply Z.gcd_mul_mono_l_nonneg. apply Z.pow_nonneg. lia. Qed.
(** Removing the common power of two from two positive numbers. *)
Lemma common_two x y j1 e1 j2 e2 : 0 < x -> 0 < y -> 0 <= j1 -> 0 <= j2 -> Z.odd e1 = true -> Z.odd e2 = true -> x = 2 ^ j1 * e1 -> y = 2 ^ j2 * e2 ->
  exists x' y', x = 2 ^ MIN j1 j2 * x' /\ y = 2 ^ MIN j1 j2 * y' /\ 0 < x' <= x /\ 0 < y' <= y /\ (Z.odd x' = true \/ Z.odd y' = true).
Proof.
  intros Hx Hy H1 H2 O1 O2 E1 E2. unfold MIN. assert (0 < 2 ^ j1 /\ 0 < 2 ^ j2) as [P1 P2] by (split; apply Z.pow_pos_nonneg; lia).
  assert (0 < e1 /\ 0 < e2) as [Q1 Q2] by nia. destruct (Z.ltb_spec j2 j1) || destruct (Z.ltb_spec j1 j2).
  - exists (2 ^ (j1 - j2) * e1), e2. rewrite Z.mul_assoc, <- Z.pow_add_r by lia. replace (j2 + (j1 - j2)) with j1 by lia.
    assert (0 < 2 ^ (j1 - j2)) by (apply Z.pow_pos_nonneg; lia). assert (2 ^ j1 = 2 ^ j2 * 2 ^ (j1 - j2)) by (rewrite <- Z.pow_add_r by lia; f_equal; lia).
    split; [done|]. split; [done|]. split; [nia|]. split; [nia|]. by right.
  - exists e1, (2 ^ (j2 - j1) * e2). rewrite Z.mul_assoc, <- Z.pow_add_r by lia. replace (j1 + (j2 - j1)) with j2 by lia.
    assert (0 < 2 ^ (j2 - j1)) by (apply Z.pow_pos_nonneg; lia). assert (2 ^ j2 = 2 ^ j1 * 2 ^ (j2 - j1)) by (rewrite <- Z.pow_add_r by lia; f_equal; lia).
    split; [done|]. split; [done|]. split; [nia|]. split; [nia|]. by left.
Qed.
(** Freshness *)
Ltac fr H := repeat (let H1 := fresh "N" in apply lookup_insert_None in H as [H H1]; try (apply not_eq_sym in H1)).
Ltac vlk := lk.

Section gcd.
Context (V : gmap oid Z) (X : ctx) (t0 t1 t2 : oid).
Hypotheses (N01 : t0 <> t1) (N02 : t0 <> t2) (N12 : t1 <> t2).
Local Notation G u v t := (<[t2 := t]> (<[t1 := v]> (<[t0 := u]> V))).
Definition gcd_inv (g n : Z) (st : state) : Prop :=
  exists u v t, RV st (G u v t) X /\ 0 < u /\ 0 < v /\ t <> 0 /\
    (0 < t -> Z.odd v = true /\ Z.gcd t v = g /\ t <= u) /\ (t < 0 -> Z.odd u = true /\ Z.gcd u (- t) = g /\ - t <= v) /\
    0 <= n /\ u + v <= n /\ (t = u - v \/ u + v + 1 <= n).
Lemma wpV_gcd_body g n st :
  gcd_inv g n st ->
  wp (gcd_body t0 t1 t2 tt) (fun r st' => match r with inl s' => exists n', 0 <= n' < n /\ gcd_inv g n' st' | inr x => x = MP_OK /\ exists v, RV st' (G g v 0) X end) st.
Proof.
  intros (u & v & t & HV & Hu & Hv & Ht & Hpos & Hneg & Hn & Hm & Hm2). unfold gcd_body.
  wb. eapply wpV_dp2k; [exact HV|lk|done|]. intros j e Hj He Et. rewrite u32_id by mx.
  wb. eapply wpV_qdiv; [exact HV|lk|lia|]. intros st1 HV1.
  assert (0 < 2 ^ j) as P by (apply Z.pow_pos_nonneg; lia).
  assert (Z.quot t (2 ^ j) = Z.sgn t * e) as Eq.
  { transitivity (Z.quot (2 ^ j * (Z.sgn t * e)) (2 ^ j)); [|apply quot_pow_exact; lia]. f_equal. rewrite Z.mul_assoc, (Z.mul_comm (2 ^ j)), <- Z.mul_assoc, <- Et. lia. }
  rewrite Eq in HV1. assert (0 < e <= Z.abs t) as He0 by nia.
  wb. eapply wpV_CMPZ; [exact HV1|lk|].
  apply wp_requireL. destruct (Z.lt_trichotomy t 0) as [T|[T|T]]; [|lia|].
  - destruct (Hneg T) as (Ou & Hg & Lv). replace (Z.sgn t) with (-1) in * by lia. replace (Z.sgn (-1 * e)) with (-1) by lia. change (-1 >? 0) with false. cbv iota.
    eapply wpV_neg; [exact HV1|lk|lk|]. intros st2 HV2. split; [done|].
    apply wp_requireL. eapply wpV_sub; [exact HV2|lk|lk|lk|]. intros st3 HV3. split; [done|].
    wb. eapply wpV_CMPZ; [exact HV3|lk|]. replace (- (-1 * e)) with e in HV3 |- * by lia. replace (- t) with (Z.abs t) in * by lia.
    assert (Z.gcd u e = g) as Hg'. { rewrite Et, Z.gcd_comm, gcd_odd_mul in Hg by (done || lia). by rewrite Z.gcd_comm. }
    destruct (Z.eqb_spec (Z.sgn (u - e)) 0) as [E|E]; apply wp_ret.
    + split; [done|]. exists e. assert (u = e) as Eu by lia. rewrite Eu in *. rewrite Z.gcd_diag, Z.abs_eq in Hg' by lia. rewrite <- Hg'.
      replace (e - e) with 0 in HV3 by lia. vn HV3.
    + exists (u + e). split; [lia|]. exists u, e, (u - e). split; [vn HV3|]. split_and!; try lia.
      * intros Hp. split_and!; [done| |lia]. by rewrite Z.gcd_comm, Z.gcd_sub_diag_r, Z.gcd_comm.
      * intros Hp. split_and!; [done| |lia]. replace (- (u - e)) with (e - u) by lia. by rewrite Z.gcd_sub_diag_r.
  - destruct (Hpos T) as (Ou & Hg & Lv). replace (Z.sgn t) with 1 in * by lia. replace (Z.sgn (1 * e)) with 1 by lia. change (1 >? 0) with true. cbv iota.
    eapply wpV_copy; [exact HV1|lk|lk|]. intros st2 HV2. split; [done|].
    apply wp_requireL. eapply wpV_sub; [exact HV2|lk|lk|lk|]. intros st3 HV3. split; [done|].
    wb. eapply wpV_CMPZ; [exact HV3|lk|]. rewrite Z.mul_1_l in *.
    assert (Z.gcd e v = g) as Hg'. { rewrite Z.abs_eq in Et by lia. by rewrite Et, gcd_odd_mul in Hg by (done || lia). }
    destruct (Z.eqb_spec (Z.sgn (e - v)) 0) as [E|E]; apply wp_ret.
    + split; [done|]. exists e. assert (v = e) as Eu by lia. rewrite Eu in *. rewrite Z.gcd_diag, Z.abs_eq in Hg' by lia. rewrite <- Hg'.
      replace (e - e) with 0 in HV3 by lia. vn HV3.
    + exists (e + v). split; [lia|]. exists e, v, (e - v). split; [vn HV3|]. split_and!; try lia.
      * intros Hp. split_and!; [done| |lia]. by rewrite Z.gcd_comm, Z.gcd_sub_diag_r, Z.gcd_comm.
      * intros Hp. split_and!; [done| |lia]. replace (- (e - v)) with (v - e) by lia. by rewrite Z.gcd_sub_diag_r.
Qed.
End gcd.

Lemma pow_sum_lt x y (m n : nat) : (1 <= m)%nat -> (1 <= n)%nat -> 0 <= x < 2 ^ (32 * Z.of_nat m) -> 0 <= y < 2 ^ (32 * Z.of_nat n) -> x + y + 1 < 2 ^ (32 * (Z.of_nat m + Z.of_nat n)).
Proof.
  intros Hm Hn Hx Hy. rewrite Z.mul_add_distr_l, Z.pow_add_r by lia.
  assert (2 ^ 32 <= 2 ^ (32 * Z.of_nat m)) by (apply Z.pow_le_mono_r; lia). assert (2 ^ 32 <= 2 ^ (32 * Z.of_nat n)) by (apply Z.pow_le_mono_r; lia).
  change (2 ^ 32) with 4294967296 in *. nia.
Qed.

Lemma wpV_gcd (st : state) (V : gmap oid Z) (X : ctx) (a b c : oid) (va vb vc : Z) (Q : Z -> state -> Prop) : RV st V X -> V !! a = Some va -> V !! b = Some vb -> V !! c = Some vc ->
  (va = 0 -> vb = 0 -> Q MP_UNDEF st) ->
  (va <> 0 \/ vb <> 0 -> forall st', RV st' (<[c := Z.gcd va vb]> V) X -> Q MP_OK st') ->
  wp (mp_int_gcd a b c) Q st.
Proof.
  intros HV Ha Hb Hc HU HQ. unfold mp_int_gcd. wb. eapply wpV_CMPZ; [exact HV|exact Ha|]. wb. eapply wpV_CMPZ; [exact HV|exact Hb|].
  destruct (Z.eqb_spec (Z.sgn va) 0) as [Ea|Ea]; cbn [andb].
  { destruct (Z.eqb_spec (Z.sgn vb) 0) as [Eb|Eb]; cbn [andb]; [apply wp_ret; apply HU; lia|].
    eapply wpV_abs; [exact HV|exact Hb|exact Hc|]. intros st' HV'. apply HQ; [lia|]. assert (va = 0) as -> by lia. done. }
  destruct (Z.eqb_spec (Z.sgn vb) 0) as [Eb|Eb].
  { eapply wpV_abs; [exact HV|exact Ha|exact Hc|]. intros st' HV'. apply HQ; [lia|]. assert (vb = 0) as -> by lia. by rewrite Z.gcd_0_r. }
  wb. eapply wpV_used; [exact HV|exact Ha|]. intros na Na1 Na2 _ Na. wb. eapply wpV_used; [exact HV|exact Hb|]. intros nb Nb1 Nb2 _ Nb.
  eapply wpV_with_temp; [exact HV|]. intros t0 st1 F0 HV1. eapply wpV_with_temp; [exact HV1|]. intros t1 st2 F1 HV2.
  eapply wpV_with_temp; [exact HV2|]. intros t2 st3 F2 HV3. fr F1. fr F2.
  apply wp_require. eapply wpV_copy; [exact HV3|lk|lk|]. intros st4 HV4. split; [done|].
  apply wp_require. eapply wpV_copy; [exact HV4|lk|lk|]. intros st5 HV5. split; [done|].
  wb. eapply wpV_set_pos; [exact HV5|lk|]. intros st6 HV6. wb. eapply wpV_set_pos; [exact HV6|lk|]. intros st7 HV7.
  wb. eapply wpV_dp2k; [exact HV7|lk|lia|]. intros j1 e1 Hj1 O1 E1. wb. eapply wpV_dp2k; [exact HV7|lk|lia|]. intros j2 e2 Hj2 O2 E2.
  rewrite Z.abs_involutive in E1, E2. set (k := MIN j1 j2). assert (0 <= k < 2 ^ 30) as Hk by (unfold k, MIN; destruct (_ <? _); lia).
  destruct (common_two (Z.abs va) (Z.abs vb) j1 e1 j2 e2) as (x & y & Ex & Ey & Hx & Hy & Hodd); try (done || lia). fold k in Ex, Ey.
  rewrite u32_id by mx. wb. eapply wpV_qdiv; [exact HV7|lk|lia|]. intros st8 HV8. wb. eapply wpV_qdiv; [exact HV8|lk|lia|]. intros st9 HV9.
  rewrite Ex, Ey, !quot_pow_exact in HV9 by lia.
  set (g := Z.gcd x y).
  assert (Z.gcd va vb = 2 ^ k * g) as Eg by (unfold g; rewrite <- gcd_common, <- Ex, <- Ey, Z.gcd_abs_l, Z.gcd_abs_r by lia; done).
  wb. eapply wpV_is_odd; [exact HV9|lk|].
  apply wp_require.
  assert (forall st10 t, t <> 0 -> (0 < t -> Z.odd y = true /\ t = x) -> (t < 0 -> Z.odd x = true /\ t = - y) ->
     RV st10 (<[t2 := t]> (<[t1 := y]> (<[t0 := x]> V))) X -> wp (REQUIRE loop (Z.to_nat (32 * (Z.of_nat na + Z.of_nat nb))) (gcd_body t0 t1 t2) tt;;
       REQUIRE mp_int_abs t0 c;; ok <- s_qmul c k; Ret (if ok then MP_OK else MP_MEMORY))%prog
       (fun r st2 => exists V2 v, V2 !! t2 = None /\ RV st2 (<[t2 := v]> V2) X /\ (forall st3, RV st3 V2 X ->
        exists V2 v, V2 !! t1 = None /\ RV st3 (<[t1 := v]> V2) X /\ (forall st3, RV st3 V2 X ->
        exists V2 v, V2 !! t0 = None /\ RV st3 (<[t0 := v]> V2) X /\ (forall st3, RV st3 V2 X -> Q r st3)))) st10) as Main.
  { intros st10 t Ht Tp Tn HV10. apply wp_require.
    eapply wp_loop_n with (I := fun n _ st => gcd_inv V X t0 t1 t2 g n st) (n := x + y + 1).
    - exists x, y, t. split; [exact HV10|]. split_and!; try lia.
      + intros T. destruct (Tp T) as [? ->]. split_and!; [done|done|lia].
      + intros T. destruct (Tn T) as [? ->]. rewrite Z.opp_involutive. split_and!; [done|done|lia].
    - rewrite Z2Nat.id by lia. apply Z.le_lt_trans with (Z.abs va + Z.abs vb + 1); [lia|]. apply pow_sum_lt; lia.
    - intros n [] st' HI. eapply wp_mono; [apply (wpV_gcd_body V X t0 t1 t2); [neqs..|exact HI]|].
      intros [[]|r] st'' H; [exact H|]. destruct H as [-> (v & HV')]. split; [done|].
      apply wp_require. eapply wpV_abs; [exact HV'|lk|lk|]. intros st12 HV12. split; [done|].
      wb. eapply wpV_qmul; [exact HV12|lk|mx|]. intros st13 HV13. apply wp_ret.
      assert (0 <= g) by apply Z.gcd_nonneg.
      exists (<[t1 := v]> (<[t0 := g]> (<[c := Z.gcd va vb]> V))), 0. split; [lk|]. split; [vn HV13; f_equal; lia|]. intros st14 HV14.
      eexists _, v. split; [|split; [exact HV14|]]; [lk|]. intros st15 HV15.
      eexists _, g. split; [|split; [exact HV15|]]; [lk|]. intros st16 HV16. apply HQ; [lia|done]. }
  destruct (Z.odd x) eqn:Ox.
  - eapply wpV_neg; [exact HV9|lk|lk|]. intros st10 HV10. split; [done|]. apply (Main _ (- y)); [lia|lia|done|]. vn HV10.
  - eapply wpV_copy; [exact HV9|lk|lk|]. intros st10 HV10. split; [done|]. apply (Main _ x); [lia| |lia|]; [|vn HV10].
    intros _. split; [|done]. by destruct Hodd.
Qed.
(** ** Extended GCD *)
Lemma even_half x : Z.odd x = false -> exists q, x = 2 * q.
Proof. intros H. rewrite <- Z.negb_even in H. apply negb_false_iff, Z.even_spec in H. destruct H as [q ->]. by exists q. Qed.
Lemma quot2 q : Z.quot (2 * q) (2 ^ 1) = q.
Proof. change (2 ^ 1) with 2. rewrite Z.mul_comm. by rewrite Z.quot_mul. Qed.
Lemma wp_when (o : option oid) f (Q : Z -> state -> Prop) st :
  (match o with Some c => wp (f c) Q st | None => Q MP_OK st end) -> wp (when o f) Q st.
Proof. destruct o; simpl; [done|]. by intros; apply wp_ret. Qed.

Section egcd.
Context (V : gmap oid Z) (X : ctx).
Context (A B C D u v ou ov : oid).
Definition eset (vA vB vC vD vu vv vou vov : Z) (V : gmap oid Z) : gmap oid Z :=
  <[ov := vov]> (<[ou := vou]> (<[v := vv]> (<[u := vu]> (<[D := vD]> (<[C := vC]> (<[B := vB]> (<[A := vA]> V))))))).
Hypothesis HN : (A <> B /\ A <> C /\ A <> D /\ A <> u /\ A <> v /\ A <> ou /\ A <> ov) /\ (B <> C /\ B <> D /\ B <> u /\ B <> v /\ B <> ou /\ B <> ov)
  /\ (C <> D /\ C <> u /\ C <> v /\ C <> ou /\ C <> ov) /\ (D <> u /\ D <> v /\ D <> ou /\ D <> ov) /\ (u <> v /\ u <> ou /\ u <> ov) /\ (v <> ou /\ v <> ov) /\ ou <> ov.

(** One halving step, on any four of the handles. *)
Lemma wpV_egcd_half (W : gmap oid Z) (st : state) (w p q : oid) (n vw vp vq vou vov : Z) :
  w <> p -> w <> q -> p <> q -> w <> ou -> w <> ov -> p <> ou -> p <> ov -> q <> ou -> q <> ov -> ou <> ov ->
  (Z.odd vou = true \/ Z.odd vov = true) ->
  W !! ou = Some vou -> W !! ov = Some vov ->
  RV st (<[q := vq]> (<[p := vp]> (<[w := vw]> W))) X -> vp * vou + vq * vov = vw -> 0 < vw -> vw <= n ->
  wp (egcd_half w p q ou ov tt) (fun r st' => match r with
     | inl _ => exists n', 0 <= n' < n /\ exists vw' vp' vq', RV st' (<[q := vq']> (<[p := vp']> (<[w := vw']> W))) X /\ vp' * vou + vq' * vov = vw' /\ 0 < vw' /\ vw' <= n' /\ vw = 2 * vw'
     | inr x => x = MP_OK /\ RV st' (<[q := vq]> (<[p := vp]> (<[w := vw]> W))) X /\ Z.odd vw = true end) st.
Proof.
  intros N1 N2 N3 N4 N5 N6 N7 N8 N9 N10 Hodd Hou Hov HV E Hw Hn. unfold egcd_half.
  wb. eapply wpV_is_even; [exact HV|lk|]. rewrite <- Z.negb_odd, negb_involutive. destruct (Z.odd vw) eqn:Ow.
  { apply wp_ret. done. }
  destruct (even_half _ Ow) as [w' ->].
  wb. eapply wpV_qdiv; [exact HV|lk|lia|]. intros st1 HV1. rewrite quot2 in HV1.
  wb. eapply wpV_is_odd; [exact HV1|lk|]. wb.
  assert (forall st4 vp' vq', RV st4 (<[q := 2 * vq']> (<[p := 2 * vp']> (<[w := w']> W))) X -> vp' * vou + vq' * vov = w' ->
    wp (s_qdiv p 1;; s_qdiv q 1;; Ret (inl tt))%prog (fun (r : unit + Z) st' => match r with
     | inl _ => exists n', 0 <= n' < n /\ exists vw' vp' vq', RV st' (<[q := vq']> (<[p := vp']> (<[w := vw']> W))) X /\ vp' * vou + vq' * vov = vw' /\ 0 < vw' /\ vw' <= n' /\ 2 * w' = 2 * vw'
     | inr x => x = MP_OK /\ RV st' (<[q := vq]> (<[p := vp]> (<[w := 2 * w']> W))) X /\ false = true end) st4) as Fin.
  { intros st4 vp' vq' HV4 E4. wb. eapply wpV_qdiv; [exact HV4|lk|lia|]. intros st5 HV5. rewrite quot2 in HV5.
    wb. eapply wpV_qdiv; [exact HV5|lk|lia|]. intros st6 HV6. rewrite quot2 in HV6. apply wp_ret.
    exists w'. split; [lia|]. exists w', vp', vq'. split; [vn HV6|]. lia. }
  assert (wp (if Z.odd vp then Ret true else mp_int_is_odd q) (fun b st' => st' = st1 /\ b = (Z.odd vp || Z.odd vq)%bool) st1) as Hb.
  { destruct (Z.odd vp); [by apply wp_ret|]. eapply wpV_is_odd; [exact HV1|lk|]. done. }
  eapply wp_mono; [exact Hb|]. intros b st2 [-> ->]. apply wp_requireL.
  assert (Z.odd (vp * vou + vq * vov) = false) as Hpar by (rewrite E, Z.odd_mul; done). rewrite Z.odd_add, !Z.odd_mul in Hpar.
  destruct (Z.odd vp || Z.odd vq)%bool eqn:Ob.
  - apply wp_require. eapply wpV_add; [exact HV1|lk|lk|lk|]. intros st3 HV3. split; [done|].
    apply wp_require. eapply wpV_sub; [exact HV3|lk|lk|lk|]. intros st4 HV4. split; [done|]. apply wp_ret. split; [done|].
    assert (exists p', vp + vov = 2 * p') as [p' Ep]. { apply even_half. rewrite Z.odd_add. destruct (Z.odd vp), (Z.odd vq), (Z.odd vou), (Z.odd vov); naive_solver. }
    assert (exists q', vq - vou = 2 * q') as [q' Eq]. { apply even_half. rewrite Z.odd_sub. destruct (Z.odd vp), (Z.odd vq), (Z.odd vou), (Z.odd vov); naive_solver. }
    rewrite Ep, Eq in HV4. apply Fin with p' q'; [vn HV4|]. nia.
  - apply wp_ret. split; [done|]. apply orb_false_iff in Ob as [O1 O2]. destruct (even_half _ O1) as [p' ->]. destruct (even_half _ O2) as [q' ->].
    apply Fin with p' q'; [vn HV1|]. lia.
Qed.
(** The halving loop. *)
Lemma wpV_egcd_halves (W : gmap oid Z) (st : state) (k : nat) (w p q : oid) (vw vp vq vou vov : Z) (z : Z) (Q : Z -> state -> Prop) :
  w <> p -> w <> q -> p <> q -> w <> ou -> w <> ov -> p <> ou -> p <> ov -> q <> ou -> q <> ov -> ou <> ov ->
  (Z.odd vou = true \/ Z.odd vov = true) ->
  W !! ou = Some vou -> W !! ov = Some vov ->
  RV st (<[q := vq]> (<[p := vp]> (<[w := vw]> W))) X -> vp * vou + vq * vov = vw -> 0 < vw -> vw < 2 ^ Z.of_nat k ->
  (Z.odd vw = true \/ Z.odd z = true) ->
  (forall st' vw' vp' vq', RV st' (<[q := vq']> (<[p := vp']> (<[w := vw']> W))) X -> vp' * vou + vq' * vov = vw' -> 0 < vw' <= vw -> Z.odd vw' = true ->
     Z.gcd vw' z = Z.gcd vw z -> Q MP_OK st') ->
  wp (loop k (egcd_half w p q ou ov) tt) Q st.
Proof.
  intros N1 N2 N3 N4 N5 N6 N7 N8 N9 N10 Hodd Hou Hov HV E Hw Hk Hz HQ.
  eapply wp_loop_n with (n := vw) (I := fun n _ st' => exists vw' vp' vq', RV st' (<[q := vq']> (<[p := vp']> (<[w := vw']> W))) X /\ vp' * vou + vq' * vov = vw' /\ 0 < vw' <= vw /\ vw' <= n
     /\ Z.gcd vw' z = Z.gcd vw z /\ (Z.odd vw' = true \/ Z.odd z = true)); [|done|].
  - exists vw, vp, vq. split_and!; try (done || lia).
  - intros n [] st' (vw' & vp' & vq' & HV' & E' & Hw' & Hn' & Hg' & Hz'). eapply wp_mono; [eapply (wpV_egcd_half W st' w p q n vw' vp' vq' vou vov); (done || lia)|].
    intros [[]|x] st'' H.
    + destruct H as (n' & Hn'' & vw2 & vp2 & vq2 & HV2 & E2 & Hw2 & Hle2 & Heq). exists n'. split; [done|]. exists vw2, vp2, vq2. split; [done|]. split; [done|].
      split; [lia|]. split; [done|]. rewrite Heq in Hz', Hg'. assert (Z.odd z = true) as Oz. { destruct Hz' as [Hz'|]; [|done]. by rewrite Z.odd_mul in Hz'. }
      split; [|by right]. by rewrite <- Hg', gcd_half.
    + destruct H as (-> & HV2 & O2). eapply (HQ _ vw' vp' vq'); (done || lia).
Qed.

Local Notation ES a b c d x y ox oy V := (<[ov := oy]> (<[ou := ox]> (<[v := y]> (<[u := x]> (<[D := d]> (<[C := c]> (<[B := b]> (<[A := a]> V)))))))).
Definition egcd_inv (g o1 o2 n : Z) (st : state) : Prop :=
  exists vA vB vC vD vu vv, RV st (ES vA vB vC vD vu vv o1 o2 V) X /\ 0 < vu /\ 0 < vv /\ vA * o1 + vB * o2 = vu /\ vC * o1 + vD * o2 = vv /\
    (Z.odd vu = true \/ Z.odd vv = true) /\ Z.gcd vu vv = g /\ vu + vv <= n.
Lemma wpV_egcd_body (fuel : nat) (k g o1 o2 n vc : Z) (c : oid) (x y : option oid) (st : state) :
  V !! A = None -> V !! B = None -> V !! C = None -> V !! D = None -> V !! u = None -> V !! v = None -> V !! ou = None -> V !! ov = None ->
  V !! c = Some vc -> live x V -> live y V -> 0 <= k < 2 ^ 30 -> n < 2 ^ Z.of_nat fuel -> (Z.odd o1 = true \/ Z.odd o2 = true) ->
  egcd_inv g o1 o2 n st ->
  wp (egcd_body fuel A B C D u v ou ov k c x y tt) (fun r st' => match r with
     | inl _ => exists n', 0 <= n' < n /\ egcd_inv g o1 o2 n' st'
     | inr res => res = MP_OK /\ exists vA vB s t vu vv, RV st' (ES vA vB s t vu vv o1 o2 (<[c := g * 2 ^ k]> (assign y t (assign x s V)))) X /\ s * o1 + t * o2 = g end) st.
Proof.
  destruct HN as ((? & ? & ? & ? & ? & ? & ?) & (? & ? & ? & ? & ? & ?) & (? & ? & ? & ? & ?) & (? & ? & ? & ?) & (? & ? & ?) & (? & ?) & ?).
  intros FA FB FC FD Fu Fv Fou Fov Hc Hx Hy Hk Hfuel Hodd (vA & vB & vC & vD & vu & vv & HV & Pu & Pv & E1 & E2 & Hpar & Hg & Hn).
  unfold egcd_body. apply wp_requireL.
  eapply (wpV_egcd_halves (ES vA vB vC vD vu vv o1 o2 V) st fuel u A B vu vA vB o1 o2 vv); [neqs..|done|lk|lk|vn HV|done|done|lia|done|].
  intros st1 vu1 vA1 vB1 HV1 E3 Pu1 Ou1 Hg1. split; [done|]. apply wp_requireL.
  eapply (wpV_egcd_halves (ES vA1 vB1 vC vD vu1 vv o1 o2 V) st1 fuel v C D vv vC vD o1 o2 vu1); [neqs..|done|lk|lk|vn HV1|done|done|lia|by right|].
  intros st2 vv1 vC1 vD1 HV2 E4 Pv1 Ov1 Hg2. split; [done|].
  assert (Z.gcd vu1 vv1 = g) as Hg3. { rewrite <- Hg, <- Hg1. rewrite (Z.gcd_comm vu1 vv1), Hg2. apply Z.gcd_comm. }
  wb. eapply wpV_compare; [exact HV2|lk|lk|]. apply wp_requireL.
  assert (forall st6 vA2 vB2 vC2 vD2 vu2 vv2, RV st6 (ES vA2 vB2 vC2 vD2 vu2 vv2 o1 o2 V) X -> 0 <= vu2 -> 0 < vv2 -> vA2 * o1 + vB2 * o2 = vu2 -> vC2 * o1 + vD2 * o2 = vv2 ->
     (Z.odd vu2 = true \/ Z.odd vv2 = true) -> Z.gcd vu2 vv2 = g -> vu2 + vv2 < n ->
    wp (cu <- CMPZ u;
  if cu =? 0 then
    REQUIREL when x (fun x => mp_int_copy C x);;
    REQUIREL when y (fun y => mp_int_copy D y);;
    ok <- s_qmul v (u32 k);
    if negb ok then Ret (inr MP_MEMORY) else
    REQUIREL mp_int_copy v c;;
    Ret (inr MP_OK)
  else Ret (inl tt))%prog (fun r st' => match r with
     | inl _ => exists n', 0 <= n' < n /\ egcd_inv g o1 o2 n' st'
     | inr res => res = MP_OK /\ exists vA vB s t vu vv, RV st' (ES vA vB s t vu vv o1 o2 (<[c := g * 2 ^ k]> (assign y t (assign x s V)))) X /\ s * o1 + t * o2 = g end) st6) as Fin.
  { intros st6 vA2 vB2 vC2 vD2 vu2 vv2 HV6 Pu2 Pv2 E5 E6 Hpar2 Hg4 Hn2. wb. eapply wpV_CMPZ; [exact HV6|lk|].
    destruct (Z.eqb_spec (Z.sgn vu2) 0) as [Z0|Z0]; cycle 1.
    { apply wp_ret. exists (vu2 + vv2). split; [lia|]. exists vA2, vB2, vC2, vD2, vu2, vv2. split_and!; (done || lia). }
    assert (vu2 = 0) as Zu by lia. rewrite Zu in Hg4. rewrite Z.gcd_0_l, Z.abs_eq in Hg4 by lia. rewrite Hg4 in HV6, E6. clear Hg4.
    apply wp_requireL. eapply wp_mono with (Q := fun r st' => r = MP_OK /\ RV st' (ES vA2 vB2 vC2 vD2 vu2 g o1 o2 (assign x vC2 V)) X).
    { apply wp_when. destruct x as [x|]; [|split; [done|exact HV6]]. destruct Hx as [vx Hx]. cbn [assign]. eapply wpV_copy; [exact HV6|lk|lk|]. intros st7 HV7. split; [done|]. vn HV7. }
    intros r st7 [-> HV7]. split; [done|]. apply wp_requireL. eapply wp_mono with (Q := fun r st' => r = MP_OK /\ RV st' (ES vA2 vB2 vC2 vD2 vu2 g o1 o2 (assign y vD2 (assign x vC2 V))) X).
    { apply wp_when. destruct y as [y|]; [|split; [done|exact HV7]]. assert (live (Some y) (assign x vC2 V)) as [vy Hy'].
      { cbn [live] in *. destruct x as [x|]; cbn [assign]; [|done]. rewrite lookup_insert_is_Some. destruct (decide (x = y)); [by left|by right]. }
      cbn [assign]. assert (y <> A /\ y <> B /\ y <> C /\ y <> D /\ y <> u /\ y <> v /\ y <> ou /\ y <> ov) as (? & ? & ? & ? & ? & ? & ? & ?) by (destruct Hy as [? Hy]; split_and!; congruence).
      eapply wpV_copy; [exact HV7|lk|lk|]. intros st8 HV8. split; [done|]. vn HV8. }
    intros r st8 [-> HV8]. split; [done|]. rewrite u32_id by mx.
    wb. eapply wpV_qmul; [exact HV8|lk|mx|]. intros st9 HV9. cbn [negb].
    assert (is_Some (assign y vD2 (assign x vC2 V) !! c)) as [vc' Hc'].
    { destruct y as [y|]; cbn [assign]; [rewrite lookup_insert_is_Some; destruct (decide (y = c)); [by left|right; split; [done|]]|];
       (destruct x as [x|]; cbn [assign]; [rewrite lookup_insert_is_Some; destruct (decide (x = c)); [by left|right; split; [done|]]|]); by eexists. }
    apply wp_requireL. eapply wpV_copy; [exact HV9|lk|lk|]. intros st10 HV10. split; [done|]. apply wp_ret. split; [done|].
    exists vA2, vB2, vC2, vD2, vu2, (g * 2 ^ k). split; [|done]. vn HV10. }
  destruct (Z.leb_spec vv1 vu1) as [L|L].
  - assert (Z.sgn (vu1 - vv1) >=? 0 = true) as -> by lia.
    apply wp_require. eapply wpV_sub; [exact HV2|lk|lk|lk|]. intros st3 HV3. split; [done|].
    apply wp_require. eapply wpV_sub; [exact HV3|lk|lk|lk|]. intros st4 HV4. split; [done|].
    apply wp_require. eapply wpV_sub; [exact HV4|lk|lk|lk|]. intros st5 HV5. split; [done|]. apply wp_ret. split; [done|].
    apply (Fin _ (vA1 - vC1) (vB1 - vD1) vC1 vD1 (vu1 - vv1) vv1); [vn HV5|lia|lia|lia|lia|by right| |lia].
    by rewrite Z.gcd_comm, Z.gcd_sub_diag_r, Z.gcd_comm.
  - assert (Z.sgn (vu1 - vv1) >=? 0 = false) as -> by lia.
    apply wp_require. eapply wpV_sub; [exact HV2|lk|lk|lk|]. intros st3 HV3. split; [done|].
    apply wp_require. eapply wpV_sub; [exact HV3|lk|lk|lk|]. intros st4 HV4. split; [done|].
    apply wp_require. eapply wpV_sub; [exact HV4|lk|lk|lk|]. intros st5 HV5. split; [done|]. apply wp_ret. split; [done|].
    apply (Fin _ vA1 vB1 (vC1 - vA1) (vD1 - vB1) vu1 (vv1 - vu1)); [vn HV5|lia|lia|lia|lia|by left| |lia].
    by rewrite Z.gcd_sub_diag_r.
Qed.
End egcd.

(** [mp_int_egcd]: the coefficients are those of the absolute values. *)
Lemma wpV_egcd (st : state) (V : gmap oid Z) (X : ctx) (a b c : oid) (x y : option oid) (va vb vc : Z) (Q : Z -> state -> Prop) :
  RV st V X -> V !! a = Some va -> V !! b = Some vb -> V !! c = Some vc -> live x V -> live y V -> (is_Some x \/ is_Some y) ->
  (va = 0 \/ vb = 0 -> is_Some x /\ is_Some y) ->
  (va = 0 -> vb = 0 -> Q MP_UNDEF st) ->
  (va = 0 -> vb <> 0 -> forall st', RV st' (assign y 1 (assign x 0 (<[c := Z.abs vb]> V))) X -> Q MP_OK st') ->
  (va <> 0 -> vb = 0 -> forall st', RV st' (assign y 0 (assign x 1 (<[c := Z.abs va]> V))) X -> Q MP_OK st') ->
  (va <> 0 -> vb <> 0 -> forall st' s t, s * Z.abs va + t * Z.abs vb = Z.gcd va vb -> RV st' (<[c := Z.gcd va vb]> (assign y t (assign x s V))) X -> Q MP_OK st') ->
  wp (mp_int_egcd a b c x y) Q st.
Proof.
  intros HV Ha Hb Hc Hx Hy Hxy Hz HU Q1 Q2 HQ. unfold mp_int_egcd. wb. apply wp_assert.
  { rewrite orb_true_iff, !bool_decide_eq_true. done. }
  wb. eapply wpV_CMPZ; [exact HV|exact Ha|]. wb. eapply wpV_CMPZ; [exact HV|exact Hb|].
  assert (forall o w w' W, live o W -> is_Some (W !! w) -> is_Some (assign o w' W !! w)) as Hins.
  { intros [o|] w w' W; cbn [assign live]; [|done]. intros _ Hw. rewrite lookup_insert_is_Some. destruct (decide (o = w)); [by left|by right]. }
  destruct (Z.eqb_spec (Z.sgn va) 0) as [Ea|Ea]; cbn [andb].
  { destruct (Z.eqb_spec (Z.sgn vb) 0) as [Eb|Eb]; cbn [andb]; [apply wp_ret; apply HU; lia|].
    destruct Hz as [[x0 ->] [y0 ->]]; [lia|]. cbn [assign live] in *. destruct Hx as [vx Hx]. destruct Hy as [vy Hy].
    wb. eapply wpV_abs; [exact HV|exact Hb|exact Hc|]. intros st1 HV1. rewrite Z.eqb_refl. cbn [negb].
    assert (is_Some (<[c:=Z.abs vb]> V !! x0)) as [vx' Hx'] by (rewrite lookup_insert_is_Some; destruct (decide (c = x0)); eauto).
    wb. eapply wpV_zero; [exact HV1|exact Hx'|]. intros st2 HV2.
    assert (is_Some (<[x0 := 0]> (<[c:=Z.abs vb]> V) !! y0)) as [vy' Hy'] by (rewrite !lookup_insert_is_Some; destruct (decide (c = y0)), (decide (x0 = y0)); eauto).
    wb. eapply wpV_set_value; [exact HV2|exact Hy'|lia|]. intros st3 HV3. apply wp_ret. apply Q1; [lia|lia|done]. }
  destruct (Z.eqb_spec (Z.sgn vb) 0) as [Eb|Eb].
  { destruct Hz as [[x0 ->] [y0 ->]]; [lia|]. cbn [assign live] in *. destruct Hx as [vx Hx]. destruct Hy as [vy Hy].
    wb. eapply wpV_abs; [exact HV|exact Ha|exact Hc|]. intros st1 HV1. rewrite Z.eqb_refl. cbn [negb].
    assert (is_Some (<[c:=Z.abs va]> V !! x0)) as [vx' Hx'] by (rewrite lookup_insert_is_Some; destruct (decide (c = x0)); eauto).
    wb. eapply wpV_set_value; [exact HV1|exact Hx'|lia|]. intros st2 HV2.
    assert (is_Some (<[x0 := 1]> (<[c:=Z.abs va]> V) !! y0)) as [vy' Hy'] by (rewrite !lookup_insert_is_Some; destruct (decide (c = y0)), (decide (x0 = y0)); eauto).
    wb. eapply wpV_zero; [exact HV2|exact Hy'|]. intros st3 HV3. apply wp_ret. apply Q2; [lia|lia|done]. }
  wb. eapply wpV_used; [exact HV|exact Ha|]. intros na Na1 Na2 _ Na. wb. eapply wpV_used; [exact HV|exact Hb|]. intros nb Nb1 Nb2 _ Nb.
  cbv zeta. set (fuel := Z.to_nat _).
  eapply wpV_with_temp; [exact HV|]. intros A st1 F1 HV1. eapply wpV_with_temp; [exact HV1|]. intros B st2 F2 HV2. fr F2.
  eapply wpV_with_temp; [exact HV2|]. intros C st3 F3 HV3. fr F3. eapply wpV_with_temp; [exact HV3|]. intros D st4 F4 HV4. fr F4.
  eapply wpV_with_temp; [exact HV4|]. intros u st5 F5 HV5. fr F5. eapply wpV_with_temp; [exact HV5|]. intros v st6 F6 HV6. fr F6.
  eapply wpV_with_temp; [exact HV6|]. intros ou st7 F7 HV7. fr F7. eapply wpV_with_temp; [exact HV7|]. intros ov st8 F8 HV8. fr F8.
  apply wp_require. eapply wpV_set_value; [exact HV8|lk|lia|]. intros st9 HV9. split; [done|].
  apply wp_require. eapply wpV_set_value; [exact HV9|lk|lia|]. intros st10 HV10. split; [done|].
  apply wp_require. eapply wpV_copy; [exact HV10|lk|lk|]. intros st11 HV11. split; [done|].
  apply wp_require. eapply wpV_copy; [exact HV11|lk|lk|]. intros st12 HV12. split; [done|].
  wb. eapply wpV_set_pos; [exact HV12|lk|]. intros st13 HV13. wb. eapply wpV_set_pos; [exact HV13|lk|]. intros st14 HV14.
  wb. eapply wpV_dp2k; [exact HV14|lk|lia|]. intros j1 e1 Hj1 O1 E1. wb. eapply wpV_dp2k; [exact HV14|lk|lia|]. intros j2 e2 Hj2 O2 E2.
  rewrite Z.abs_involutive in E1, E2. set (k := MIN j1 j2). assert (0 <= k < 2 ^ 30) as Hk by (unfold k, MIN; destruct (_ <? _); lia).
  destruct (common_two (Z.abs va) (Z.abs vb) j1 e1 j2 e2) as (x' & y' & Ex & Ey & Hx' & Hy' & Hodd); try (done || lia). fold k in Ex, Ey.
  assert (RV st14 (<[ov := 0]> (<[ou := 0]> (<[v := Z.abs vb]> (<[u := Z.abs va]> (<[D := 1]> (<[C := 0]> (<[B := 0]> (<[A := 1]> V)))))))) X) as HW by (vn HV14).
  clear HV1 HV2 HV3 HV4 HV5 HV6 HV7 HV8 HV9 HV10 HV11 HV12 HV13 HV14.
  rewrite u32_id by mx. wb. eapply wpV_qdiv; [exact HW|lk|lia|]. intros st15 HV15. wb. eapply wpV_qdiv; [exact HV15|lk|lia|]. intros st16 HV16.
  rewrite Ex, Ey, !quot_pow_exact in HV16 by lia.
  apply wp_require. eapply wpV_copy; [exact HV16|lk|lk|]. intros st17 HV17. split; [done|].
  apply wp_require. eapply wpV_copy; [exact HV17|lk|lk|]. intros st18 HV18. split; [done|].
  set (g := Z.gcd x' y').
  assert (Z.gcd va vb = 2 ^ k * g) as Eg by (unfold g; rewrite <- gcd_common, <- Ex, <- Ey, Z.gcd_abs_l, Z.gcd_abs_r by lia; done).
  assert (x' + y' < 2 ^ Z.of_nat fuel) as Hf. { unfold fuel. rewrite Z2Nat.id by lia. apply Z.le_lt_trans with (Z.abs va + Z.abs vb + 1); [lia|]. apply pow_sum_lt; lia. }
  eapply wp_loop_n with (n := x' + y') (I := fun n _ st => n <= x' + y' /\ egcd_inv V X A B C D u v ou ov g x' y' n st); [|done|].
  - split; [lia|]. exists 1, 0, 0, 1, x', y'. split; [vn HV18|]. split_and!; (done || lia).
  - intros n [] st19 [Hn HI]. eapply wp_mono.
    { apply (wpV_egcd_body V X A B C D u v ou ov) with (g := g) (o1 := x') (o2 := y') (n := n) (vc := vc); try assumption; [split_and!; neqs|]. exact (Z.le_lt_trans _ _ _ Hn Hf). }
    intros [[]|r] st20 H.
    { destruct H as (n' & Hn' & HI'). exists n'. split; [done|]. split; [lia|done]. }
    destruct H as (-> & vA & vB & s & t & vu & vv & HV20 & Bz).
    set (W := <[c:=g * 2 ^ k]> (assign y t (assign x s V))) in *.
    assert (forall o, V !! o = None -> W !! o = None) as FW.
    { intros o Ho. unfold W. rewrite lookup_insert_ne by congruence. destruct y as [y0|], x as [x0|]; cbn [assign live] in *;
       repeat match goal with H : is_Some _ |- _ => destruct H end; rewrite ?lookup_insert_ne by congruence; done. }
    assert (forall st', RV st' W X -> Q MP_OK st') as HW'.
    { intros st' HR. apply (HQ ltac:(lia) ltac:(lia) st' s t); [rewrite Eg, Ex, Ey, <- Bz; ring|]. rewrite Eg, Z.mul_comm. exact HR. }
    pose proof (FW A F1). pose proof (FW B F2). pose proof (FW C F3). pose proof (FW D F4). pose proof (FW u F5). pose proof (FW v F6). pose proof (FW ou F7).
    pose proof (FW ov F8).
    do 8 (eexists _, _; split; [|split; [eassumption|]]; [lk|]; clear HV20; intros ?st HV20).
    by apply HW'.
Qed.
