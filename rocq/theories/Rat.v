(** The rationals, at the level of stores of integers. *)
From Coq Require Import ZArith List Lia QArith Qcanon Znumtheory Zpow_facts Qpower Qabs.
From stdpp Require Import gmap list.
From Verif Require Import Mem Prog Kern Fp Imath Imrat Wp MemLem Dig KernLem Rel RelWp RelZ Life Basic Basic2 Mult Shift Knuth Divi Powr Spec Public Gcd SpecRat.
Local Open Scope Z_scope.

(** ** Rational numbers *)
Lemma Qred_num_den q : 0 < Zpos (Qden (Qred q)) /\ Z.gcd (Qnum (Qred q)) (Zpos (Qden (Qred q))) = 1.
Proof. split; [lia|]. apply (proj1 (Qred_iff (Qred q))). apply Qred_complete, Qred_correct. Qed.
Lemma Qred_eq q : Qnum (Qred q) * Zpos (Qden q) = Qnum q * Zpos (Qden (Qred q)).
Proof. pose proof (Qred_correct q) as E. unfold Qeq in E. lia. Qed.
Lemma red_unique n d q : 0 < d -> Z.gcd n d = 1 -> n * Zpos (Qden q) = Qnum q * d -> n = Qnum (Qred q) /\ d = Zpos (Qden (Qred q)).
Proof.
  intros Hd Hg He. destruct d as [|p|p]; [lia| |lia]. assert (Qred q = (n # p)) as ->; [|done].
  rewrite <- (proj2 (Qred_iff (n # p))) by done. apply Qred_complete. unfold Qeq. simpl. lia.
Qed.
Lemma frac_eq n d : d <> 0 -> Qnum (frac n d) * d = n * Zpos (Qden (frac n d)).
Proof.
  intros Hd. unfold frac, Qdiv, Qmult, Qinv, inject_Z. destruct d as [|p|p]; [done| |]; cbn [Qnum Qden].
  - change (1 * p)%positive with p. lia.
  - change (1 * p)%positive with p. lia.
Qed.
(** [q] is the quotient [n / d]. *)
Notation quo q n d := (n * Zpos (Qden q) = Qnum q * d) (only parsing).
Lemma quo_red q n d : quo q n d -> d <> 0 -> let g := Z.gcd n d in
  Z.sgn d * (n / g) = Qnum (Qred q) /\ Z.abs (d / g) = Zpos (Qden (Qred q)).
Proof.
  intros E Hd g. assert (0 < g) as Hg. { pose proof (Z.gcd_nonneg n d). assert (Z.gcd n d <> 0) by (intros E0; apply Z.gcd_eq_0_r in E0; lia). unfold g. lia. }
  destruct (Z.gcd_divide_l n d) as [n' En], (Z.gcd_divide_r n d) as [d' Ed]. fold g in En, Ed.
  assert (n / g = n') as E1 by (rewrite En; apply Z.div_mul; lia). assert (d / g = d') as E2 by (rewrite Ed; apply Z.div_mul; lia).
  rewrite E1, E2. assert (d' <> 0) by nia. assert (Z.gcd n' d' = 1) as G. { rewrite <- E1, <- E2. apply Z.gcd_div_gcd; [lia|done]. }
  assert (Z.sgn d = Z.sgn d') as Es by (rewrite Ed, Z.sgn_mul, (Z.sgn_pos g) by lia; lia).
  apply red_unique; [lia| |].
  - rewrite Z.gcd_abs_r, Es. destruct (Z.sgn_spec d') as [[? ->]|[[? ->]|[? ->]]]; [by rewrite Z.mul_1_l|lia|].
    replace (-1 * n') with (- n') by lia. by rewrite Z.gcd_opp_l.
  - rewrite Es. assert (n' * Zpos (Qden q) = Qnum q * d') as E3. { rewrite En, Ed in E. nia. }
    destruct (Z.sgn_spec d') as [[? ->]|[[? ->]|[? ->]]]; nia.
Qed.

Section stores.
Context (V : gmap oid Z).
Lemma set_rat_over r q x y : fst r <> snd r -> set_rat r q (<[snd r := y]> (<[fst r := x]> V)) = set_rat r q V.
Proof. intros N. unfold set_rat. mapeq. Qed.
Lemma rat_at_live r q : rat_at V r q -> rat_live V r.
Proof. intros [H1 H2]. split; by eexists. Qed.
Lemma rat_at_eq r q q' : rat_at V r q -> Qeq q q' -> rat_at V r q'.
Proof. intros [H1 H2] E. apply Qred_complete in E. split; by rewrite <- E. Qed.
Lemma set_rat_eq r q q' : Qeq q q' -> set_rat r q V = set_rat r q' V.
Proof. intros E. apply Qred_complete in E. unfold set_rat. by rewrite E. Qed.
Lemma rat_at_set r q : fst r <> snd r -> rat_at (set_rat r q V) r q.
Proof. intros N. split; unfold set_rat; lk. Qed.
End stores.

(** ** Local integers *)
Lemma RV_newO st V X bb z i : RV st V X -> fresh_obj st (bb, i) -> let o := (bb, i) in
  V !! o = None /\ craw X !! o = None /\ RV (add_obj st o z) V (with_craw X (<[o := z]> (craw X))).
Proof.
  intros (ζ & HZ & Hv) Hi o. destruct (RZ_newO st ζ X bb z i HZ Hi) as (H1 & H2 & H3). split; [by eapply relv_none'|]. split; [done|]. by exists ζ.
Qed.
Lemma RV_delO st V X o z : RV st V X -> craw X !! o = Some z -> RV (del_obj st o) V (with_craw X (delete o (craw X))).
Proof. intros (ζ & HZ & Hv) Ho. exists ζ. split; [by eapply RZ_delO|done]. Qed.
Lemma RV_rawobj st V X o z : RV st V X -> craw X !! o = Some z -> objs st !! o = Some z.
Proof. intros (ζ & HZ & Hv) Ho. by eapply RZ_raw. Qed.
Lemma RV_not_raw st V X o v : RV st V X -> V !! o = Some v -> craw X !! o = None.
Proof. intros (ζ & HZ & Hv) Ho. destruct (relv_some _ _ _ _ Hv Ho) as (z & Hz & _). by eapply RZ_not_raw. Qed.
Lemma RV_raw_none st V X o z : RV st V X -> craw X !! o = Some z -> V !! o = None.
Proof. intros HV Ho. destruct (V !! o) eqn:E; [|done]. apply (RV_not_raw _ _ _ _ _ HV) in E. congruence. Qed.

Lemma wpV_with_init {A} (keep : A -> bool) (init : oid -> prog Z) (fail : Z -> A) (body : oid -> prog A) v0 st V X (Q : A -> state -> Prop) :
  RV st V X ->
  (forall t z st1 (Q' : Z -> state -> Prop), V !! t = None -> craw X !! t = None -> RV st1 V (with_craw X (<[t := z]> (craw X))) ->
     (forall st', RV st' (<[t := v0]> V) X -> Q' MP_OK st') -> wp (init t) Q' st1) ->
  (forall t st1, V !! t = None -> RV st1 (<[t := v0]> V) X ->
     wp (body t) (fun r st2 => keep r = false /\ exists V2 v X2, V2 !! t = None /\ RV st2 (<[t := v]> V2) X2 /\ (forall st3, RV st3 V2 X2 -> Q r st3)) st1) ->
  wp (with_init keep init fail body) Q st.
Proof.
  intros HV Hi HB. unfold with_init. apply wp_NewO. intros z iz Fz. destruct (RV_newO st V X false z _ HV Fz) as (H1 & H2 & H3). set (t := (false, iz)) in *.
  wb. eapply Hi; [done|done|exact H3|]. intros st1 HV1. change (negb (MP_OK =? MP_OK)) with false. cbv iota.
  wb. eapply wp_mono; [by apply HB|]. intros r st2 (-> & V2 & v & X2 & N & HV2 & HQ).
  wb. eapply wpV_clear; [exact HV2|apply lookup_insert|]. intros st3 z3 _ HV3.
  assert (craw X2 !! t = None) as HN by (eapply RV_not_raw; [exact HV2|apply lookup_insert]).
  eapply wp_DelO; [eapply RV_rawobj; [exact HV3|cbn [craw with_craw]; apply lookup_insert]|done|].
  apply wp_ret. apply HQ. eapply RV_delO in HV3; [|cbn [craw with_craw]; apply lookup_insert].
  unfold with_craw in HV3. cbn [craw cmem cglob] in HV3. rewrite !delete_insert in HV3 by done. destruct X2; exact HV3.
Qed.
Lemma wpV_with_zero_g {A} (fail : Z -> A) (body : oid -> prog A) keep st V X (Q : A -> state -> Prop) :
  RV st V X ->
  (forall t st1, V !! t = None -> RV st1 (<[t := 0]> V) X ->
     wp (body t) (fun r st2 => keep r = false /\ exists V2 v X2, V2 !! t = None /\ RV st2 (<[t := v]> V2) X2 /\ (forall st3, RV st3 V2 X2 -> Q r st3)) st1) ->
  wp (with_init keep mp_int_init fail body) Q st.
Proof.
  intros HV HB. eapply wpV_with_init; [exact HV| |exact HB].
  intros t z st1 Q' Ht Hn HV1 HQ. eapply wpV_init; [exact HV1|cbn [craw with_craw]; apply lookup_insert|]. intros st' _ HV'. apply HQ.
  unfold with_craw in HV'. cbn [craw cmem cglob] in HV'. rewrite delete_insert in HV' by done. destruct X; exact HV'.
Qed.
Lemma wpV_with_copy_g {A} old vo (fail : Z -> A) (body : oid -> prog A) keep st V X (Q : A -> state -> Prop) :
  RV st V X -> V !! old = Some vo ->
  (forall t st1, V !! t = None -> RV st1 (<[t := vo]> V) X ->
     wp (body t) (fun r st2 => keep r = false /\ exists V2 v X2, V2 !! t = None /\ RV st2 (<[t := v]> V2) X2 /\ (forall st3, RV st3 V2 X2 -> Q r st3)) st1) ->
  wp (with_init keep (fun t => mp_int_init_copy t old) fail body) Q st.
Proof.
  intros HV Ho HB. eapply wpV_with_init; [exact HV| |exact HB].
  intros t z st1 Q' Ht Hn HV1 HQ. eapply wpV_init_copy; [exact HV1|cbn [craw with_craw]; apply lookup_insert|exact Ho|]. intros st' _ HV'. apply HQ.
  unfold with_craw in HV'. cbn [craw cmem cglob] in HV'. rewrite delete_insert in HV' by done. destruct X; exact HV'.
Qed.
(** The usual case: the caller's memory is as it was, success. *)
Lemma wpV_with_zero (body : oid -> prog Z) st V X (Q : Z -> state -> Prop) :
  RV st V X ->
  (forall t st1, V !! t = None -> RV st1 (<[t := 0]> V) X ->
     wp (body t) (fun r st2 => exists V2 v, V2 !! t = None /\ RV st2 (<[t := v]> V2) X /\ (forall st3, RV st3 V2 X -> Q r st3)) st1) ->
  wp (with_zero body) Q st.
Proof.
  intros HV HB. eapply wpV_with_zero_g; [exact HV|]. intros t st1 Ht HV1. eapply wp_mono; [by apply HB|].
  intros r st2 (V2 & v & H1 & H2 & H3). split; [done|]. by exists V2, v, X.
Qed.
Lemma wpV_with_copy old vo (body : oid -> prog Z) st V X (Q : Z -> state -> Prop) :
  RV st V X -> V !! old = Some vo ->
  (forall t st1, V !! t = None -> RV st1 (<[t := vo]> V) X ->
     wp (body t) (fun r st2 => exists V2 v, V2 !! t = None /\ RV st2 (<[t := v]> V2) X /\ (forall st3, RV st3 V2 X -> Q r st3)) st1) ->
  wp (with_copy old body) Q st.
Proof.
  intros HV Ho HB. eapply wpV_with_copy_g; [exact HV|exact Ho|]. intros t st1 Ht HV1. eapply wp_mono; [by apply HB|].
  intros r st2 (V2 & v & H1 & H2 & H3). split; [done|]. by exists V2, v, X.
Qed.

(** ** Reduction *)
Lemma wpV_set_sign st V X a va s (Q : unit -> state -> Prop) : RV st V X -> V !! a = Some va -> s = 0 \/ s = 1 /\ va <> 0 ->
  (forall st', RV st' (<[a := if s =? 0 then Z.abs va else - Z.abs va]> V) X -> Q tt st') -> wp (set_sign a s) Q st.
Proof.
  intros (ζ & HZ & Hv) Ha Hs HQ. destruct (relv_some _ _ _ _ Hv Ha) as (z & Hz & <- & N & O). destruct (RZ_s01 _ _ _ _ _ HZ Hz) as [M S].
  eapply wpZ_set_sign; [done|done|lia|]. intros st' HZ'. apply HQ. eexists. split; [done|].
  assert (zval z <> 0 -> zm z <> 0) by (intros E1 E2; apply E1; unfold zval; rewrite E2; by destruct (zs z =? 0)). rewrite <- zm_abs by done.
  apply relv_ins; [done| | |done].
  - unfold zval, zput. cbn [zs zm]. done.
  - unfold norm, zput. cbn [zs zm]. intros E. destruct Hs as [->|[_ Hs]]; [done|tauto].
Qed.
Lemma wpV_rat_reduce st V X r n d q (Q : Z -> state -> Prop) : RV st V X -> num r <> den r -> V !! num r = Some n -> V !! den r = Some d -> d <> 0 -> quo q n d ->
  (forall st', RV st' (set_rat r q V) X -> Q MP_OK st') -> wp (s_rat_reduce r) Q st.
Proof.
  intros HV N Hn Hd Hd0 Hq HQ. destruct (quo_red q n d Hq Hd0) as [Rn Rd]. set (g := Z.gcd n d) in *. unfold s_rat_reduce.
  wb. eapply wpV_compare_zero; [exact HV|exact Hn|].
  destruct (Z.eqb_spec (Z.sgn n) 0) as [E|E].
  - apply (proj1 (Z.sgn_null_iff _)) in E. wb. eapply wpV_set_value; [exact HV|exact Hd|lia|]. intros st1 HV1. apply wp_ret. apply HQ.
    assert (Qnum (Qred q) = 0 /\ Zpos (Qden (Qred q)) = 1) as [E1 E2].
    { subst n. rewrite <- Rn, <- Rd. unfold g. rewrite Z.gcd_0_l, Z.div_0_l by lia. split; [lia|]. destruct (Z.abs_spec d) as [[? ->]|[? ->]]; [rewrite Z.div_same by done|replace d with (-1 * - d) at 1 by lia; rewrite Z.div_mul by lia]; lia. }
    unfold set_rat. rewrite E1, E2. subst n. eapply RV_eqV; [exact HV1|]. change (fst r) with (num r). change (snd r) with (den r). mapeq.
  - assert (n <> 0) as Hn0 by (intros ->; done).
    assert (0 < g) as Hg. { pose proof (Z.gcd_nonneg n d). assert (Z.gcd n d <> 0) by (intros E0; apply Z.gcd_eq_0_r in E0; lia). unfold g. lia. }
    destruct (Z.gcd_divide_l n d) as [n' En], (Z.gcd_divide_r n d) as [d' Ed]. fold g in En, Ed.
    assert (n / g = n') as E1 by (rewrite En; apply Z.div_mul; lia). assert (d / g = d') as E2 by (rewrite Ed; apply Z.div_mul; lia). rewrite E1 in Rn. rewrite E2 in Rd.
    assert (n' <> 0) by nia. assert (d' <> 0) by nia.
    eapply wpV_with_zero; [exact HV|]. intros t st1 Ht HV1.
    assert (t <> num r) by congruence. assert (t <> den r) by congruence.
    apply wp_require. eapply wpV_gcd; [exact HV1|lk..|lia|]. intros _ st2 HV2. split; [done|].
    wb. eapply wpV_compare_value; [exact HV2|lk|lia|]. intros st3 HV3. fold g in HV3 |- *.
    apply wp_require. apply wp_mono with (Q := fun r' st' => r' = MP_OK /\ RV st' (<[t := g]> (<[den r := d']> (<[num r := n']> V))) X).
    { destruct (Z.eqb_spec (Z.sgn (g - 1)) 0) as [Eg|Eg]; cbn [negb].
      - apply wp_ret. split; [done|]. assert (g = 1) as Eg1 by lia. rewrite Eg1 in *. assert (n' = n) as -> by lia. assert (d' = d) as -> by lia. vn HV3.
      - apply wp_require. eapply wpV_div; [exact HV3|lk|lk|done|cbn [live]; eexists; lk|done|lia|].
        intros _ st4 HV4. split; [done|]. cbn [assign] in HV4. eapply wpV_div; [exact HV4|lk|lk|done|cbn [live]; eexists; lk|done|lia|].
        intros _ st5 HV5. split; [done|]. cbn [assign] in HV5. rewrite En, Ed in HV5. rewrite !Z.quot_mul in HV5 by lia. vn HV5. }
    intros ? st4 [-> HV4]. split; [done|].
    wb. eapply wpV_sign; [exact HV4|lk|]. wb. eapply wpV_sign; [exact HV4|lk|].
    wb. apply wp_mono with (Q := fun _ st' => RV st' (<[t := g]> (set_rat r q V)) X).
    { assert (Z.sgn d = Z.sgn d') as Es by (rewrite Ed, Z.sgn_mul, (Z.sgn_pos g) by lia; lia). rewrite Es in Rn.
      destruct (Z.eqb_spec (if n' <? 0 then 1 else 0) (if d' <? 0 then 1 else 0)) as [Eq|Eq].
      - wb. eapply wpV_set_sign; [exact HV4|lk|by left|]. intros st5 HV5. eapply wpV_set_sign; [exact HV5|lk|by left|]. intros st6 HV6.
        cbn [Z.eqb MP_ZPOS] in HV6. change (MP_ZPOS =? 0) with true in HV6. cbv iota in HV6. unfold set_rat. rewrite <- Rn, <- Rd. change (fst r) with (num r). change (snd r) with (den r).
        assert (Z.sgn d' * n' = Z.abs n') as -> by (destruct (Z.ltb_spec n' 0), (Z.ltb_spec d' 0); lia). vn HV6.
      - wb. eapply wpV_set_sign; [exact HV4|lk|right; done|]. intros st5 HV5. eapply wpV_set_sign; [exact HV5|lk|by left|]. intros st6 HV6.
        change (MP_ZPOS =? 0) with true in HV6. change (MP_NEG =? 0) with false in HV6. cbv iota in HV6. unfold set_rat. rewrite <- Rn, <- Rd. change (fst r) with (num r). change (snd r) with (den r).
        assert (Z.sgn d' * n' = - Z.abs n') as -> by (destruct (Z.ltb_spec n' 0), (Z.ltb_spec d' 0); lia). vn HV6. }
    intros _ st5 HV5. apply wp_ret. exists (set_rat r q V), g. split; [unfold set_rat; change (fst r) with (num r); change (snd r) with (den r); lk|]. split; [exact HV5|].
    intros st6 HV6. by apply HQ.
Qed.

(** ** Arithmetic *)
Lemma structs_nd rs r s : structs rs -> In r rs -> In s rs -> num r <> den s.
Proof. intros H Hr Hs. apply (H r s Hr Hs). Qed.
Lemma structs_same rs r s : structs rs -> In r rs -> In s rs -> num r = num s <-> den r = den s.
Proof. intros H Hr Hs. apply (H r s Hr Hs). Qed.
Ltac nd2 HS r s := let N := fresh "N" in assert (num r <> den s) as N by (apply (structs_nd _ r s HS); simpl; tauto).
Ltac nd HS := match type of HS with
  | structs [?a] => nd2 HS a a
  | structs [?a; ?b] => nd2 HS a a; nd2 HS a b; nd2 HS b a; nd2 HS b b
  | structs [?a; ?b; ?c] => nd2 HS a a; nd2 HS a b; nd2 HS a c; nd2 HS b a; nd2 HS b b; nd2 HS b c; nd2 HS c a; nd2 HS c b; nd2 HS c c
  end.
Ltac rf := change (@fst oid oid) with num in *; change (@snd oid oid) with den in *.
(** lookups where the keys may coincide *)
Ltac lkc := repeat (rewrite lookup_insert_ne by neqs); match goal with
  | |- <[?k := _]> _ !! ?j = Some _ => destruct (decide (k = j)) as [->|]; [rewrite lookup_insert; reflexivity|rewrite lookup_insert_ne by done; try eassumption]
  | _ => eassumption end.

Lemma rat_quo q : quo q (Qnum (Qred q)) (Zpos (Qden (Qred q))).
Proof. apply Qred_eq. Qed.

Section arith.
Context (st : state) (V : gmap oid Z) (X : ctx).
Implicit Types (Q : Z -> state -> Prop).

Lemma wpV_combine f (fz : Z -> Z -> Z) (fq : Q -> Q -> Q) a b c qa qb Q :
  (forall st V X x y z vx vy vz Q, RV st V X -> V !! x = Some vx -> V !! y = Some vy -> V !! z = Some vz ->
     (forall st', RV st' (<[z := fz vx vy]> V) X -> Q MP_OK st') -> wp (f x y z) Q st) ->
  (forall na da nb db, quo qa na da -> quo qb nb db -> da <> 0 -> db <> 0 -> quo (fq qa qb) (fz (na * db) (nb * da)) (da * db)) ->
  (forall na nb d, quo qa na d -> quo qb nb d -> d <> 0 -> quo (fq qa qb) (fz na nb) d) ->
  RV st V X -> structs [a; b; c] -> rat_at V a qa -> rat_at V b qb -> rat_live V c ->
  (forall st', RV st' (set_rat c (fq qa qb) V) X -> Q MP_OK st') -> wp (s_rat_combine a b c f) Q st.
Proof.
  intros Hf Hq1 Hq2 HV HS [Ha1 Ha2] [Hb1 Hb2] [[c1 Hc1] [c2 Hc2]] HQ. rf. nd HS. unfold s_rat_combine.
  wb. eapply wpV_compare; [exact HV|exact Ha2|exact Hb2|].
  set (da := Zpos (Qden (Qred qa))) in *. set (db := Zpos (Qden (Qred qb))) in *. set (na := Qnum (Qred qa)) in *. set (nb := Qnum (Qred qb)) in *.
  assert (quo qa na da) as Qa by apply rat_quo. assert (quo qb nb db) as Qb by apply rat_quo. assert (da <> 0) by (unfold da; lia). assert (db <> 0) by (unfold db; lia).
  destruct (Z.eqb_spec (Z.sgn (da - db)) 0) as [E|E].
  - assert (db = da) as Ed by lia. apply wp_require. eapply Hf; [exact HV|exact Ha1|exact Hb1|exact Hc1|]. intros st1 HV1. split; [done|].
    apply wp_require. eapply wpV_copy; [exact HV1|lk|lk|]. intros st2 HV2. split; [done|].
    eapply wpV_rat_reduce with (q := fq qa qb); [exact HV2|done|lk|lk|done|apply Hq2; [done| |done]; by rewrite <- Ed|].
    intros st3 HV3. apply HQ. by rewrite set_rat_over in HV3.
  - apply wp_require. eapply wpV_with_copy; [exact HV|exact Ha1|]. intros t0 st1 F0 HV1. eapply wpV_with_copy; [exact HV1|rewrite lookup_insert_ne by congruence; exact Hb1|]. intros t1 st2 F1 HV2. fr F1.
    assert (t0 <> num a /\ t0 <> num b /\ t0 <> num c /\ t0 <> den a /\ t0 <> den b /\ t0 <> den c) as (?&?&?&?&?&?) by (split_and!; congruence).
    assert (t1 <> num a /\ t1 <> num b /\ t1 <> num c /\ t1 <> den a /\ t1 <> den b /\ t1 <> den c) as (?&?&?&?&?&?) by (split_and!; congruence).
    apply wp_require. eapply wpV_mul; [exact HV2|lk|lk|lk|]. intros st3 HV3. split; [done|].
    apply wp_require. eapply wpV_mul; [exact HV3|lk|lk|lk|]. intros st4 HV4. split; [done|].
    apply wp_require. eapply Hf; [exact HV4|lk|lk|lk|]. intros st5 HV5. split; [done|].
    eapply wpV_mul; [exact HV5|lk|lk|lk|]. intros st6 HV6.
    eexists (<[t0 := na * db]> (<[den c := da * db]> (<[num c := fz (na * db) (nb * da)]> V))), (nb * da). split; [lk|]. split; [vn HV6|]. intros st7 HV7.
    eexists (<[den c := da * db]> (<[num c := fz (na * db) (nb * da)]> V)), (na * db). split; [lk|]. split; [exact HV7|]. intros st8 HV8. split; [done|].
    eapply wpV_rat_reduce with (q := fq qa qb); [exact HV8|done|lk|lk|lia|by apply Hq1|].
    intros st9 HV9. apply HQ. by rewrite set_rat_over in HV9.
Qed.
Lemma wpV_rat_add a b c qa qb Q : RV st V X -> structs [a; b; c] -> rat_at V a qa -> rat_at V b qb -> rat_live V c ->
  (forall st', RV st' (set_rat c (qa + qb)%Q V) X -> Q MP_OK st') -> wp (mp_rat_add a b c) Q st.
Proof.
  apply wpV_combine with (fz := Z.add) (fq := Qplus); [intros; by eapply wpV_add| |]; destruct qa as [NA A], qb as [NB B]; unfold Qplus; cbn [Qnum Qden]; rewrite Pos2Z.inj_mul.
  - intros na da nb db E1 E2 _ _. transitivity ((na * Zpos A) * (db * Zpos B) + (nb * Zpos B) * (da * Zpos A)); [ring|rewrite E1, E2; ring].
  - intros na nb d E1 E2 _. transitivity ((na * Zpos A) * Zpos B + (nb * Zpos B) * Zpos A); [ring|rewrite E1, E2; ring].
Qed.
Lemma wpV_rat_sub a b c qa qb Q : RV st V X -> structs [a; b; c] -> rat_at V a qa -> rat_at V b qb -> rat_live V c ->
  (forall st', RV st' (set_rat c (qa - qb)%Q V) X -> Q MP_OK st') -> wp (mp_rat_sub a b c) Q st.
Proof.
  apply wpV_combine with (fz := Z.sub) (fq := Qminus); [intros; by eapply wpV_sub| |]; destruct qa as [NA A], qb as [NB B]; unfold Qminus, Qplus, Qopp; cbn [Qnum Qden]; rewrite Pos2Z.inj_mul.
  - intros na da nb db E1 E2 _ _. transitivity ((na * Zpos A) * (db * Zpos B) - (nb * Zpos B) * (da * Zpos A)); [ring|rewrite E1, E2; ring].
  - intros na nb d E1 E2 _. transitivity ((na * Zpos A) * Zpos B - (nb * Zpos B) * Zpos A); [ring|rewrite E1, E2; ring].
Qed.
End arith.

Lemma wpV_rat_reduce0 st V X r q vd (Q : Z -> state -> Prop) : RV st V X -> num r <> den r -> V !! num r = Some 0 -> V !! den r = Some vd -> Qnum q = 0 ->
  (forall st', RV st' (set_rat r q V) X -> Q MP_OK st') -> wp (s_rat_reduce r) Q st.
Proof.
  intros HV N Hn Hd Hq HQ. unfold s_rat_reduce. wb. eapply wpV_compare_zero; [exact HV|exact Hn|]. change (Z.sgn 0 =? 0) with true. cbv iota.
  wb. eapply wpV_set_value; [exact HV|exact Hd|lia|]. intros st1 HV1. apply wp_ret. apply HQ.
  destruct (red_unique 0 1 q) as [E1 E2]; [lia|done|rewrite Hq; lia|]. unfold set_rat. rewrite <- E1, <- E2. rf. vn HV1.
Qed.
Section arith2.
Context (st : state) (V : gmap oid Z) (X : ctx).
Implicit Types (Q : Z -> state -> Prop).
Lemma wpV_rat_mul a b c qa qb Q : RV st V X -> structs [a; b; c] -> rat_at V a qa -> rat_at V b qb -> rat_live V c ->
  (forall st', RV st' (set_rat c (qa * qb)%Q V) X -> Q MP_OK st') -> wp (mp_rat_mul a b c) Q st.
Proof.
  intros HV HS [Ha1 Ha2] [Hb1 Hb2] [[c1 Hc1] [c2 Hc2]] HQ. rf. nd HS. unfold mp_rat_mul.
  set (da := Zpos (Qden (Qred qa))) in *. set (db := Zpos (Qden (Qred qb))) in *. set (na := Qnum (Qred qa)) in *. set (nb := Qnum (Qred qb)) in *.
  assert (quo qa na da) as Qa by apply rat_quo. assert (quo qb nb db) as Qb by apply rat_quo. assert (da <> 0) by (unfold da; lia). assert (db <> 0) by (unfold db; lia).
  apply wp_require. eapply wpV_mul; [exact HV|lk|lk|lk|]. intros st1 HV1. split; [done|].
  wb. eapply wpV_compare_zero; [exact HV1|lk|].
  assert (quo (qa * qb)%Q (na * nb) (da * db)) as Hq.
  { unfold Qmult. cbn [Qnum Qden]. rewrite Pos2Z.inj_mul. transitivity ((na * Zpos (Qden qa)) * (nb * Zpos (Qden qb))); [ring|rewrite Qa, Qb; ring]. }
  destruct (Z.eqb_spec (Z.sgn (na * nb)) 0) as [E|E]; cbn [negb]; apply wp_require.
  - apply (proj1 (Z.sgn_null_iff _)) in E. apply wp_ret. split; [done|].
    eapply wpV_rat_reduce0 with (q := (qa * qb)%Q); [exact HV1|done|rewrite <- E; lk|lk|nia|]. intros st2 HV2. apply HQ.
    eapply RV_eqV; [exact HV2|]. unfold set_rat. rf. mapeq.
  - eapply wpV_mul; [exact HV1|lk|lk|lk|]. intros st2 HV2. split; [done|].
    eapply wpV_rat_reduce with (q := (qa * qb)%Q); [exact HV2|done|lk|lk|lia|done|]. intros st3 HV3. apply HQ. by rewrite set_rat_over in HV3.
Qed.
Lemma wpV_rat_div a b c qa qb Q : RV st V X -> structs [a; b; c] -> rat_at V a qa -> rat_at V b qb -> rat_live V c ->
  (Qeq qb 0 -> Q MP_UNDEF st) ->
  (~ Qeq qb 0 -> forall st', RV st' (set_rat c (qa / qb)%Q V) X -> Q MP_OK st') -> wp (mp_rat_div a b c) Q st.
Proof.
  intros HV HS [Ha1 Ha2] [Hb1 Hb2] [[c1 Hc1] [c2 Hc2]] HU HQ. rf. nd HS. unfold mp_rat_div, mp_rat_compare_zero.
  set (da := Zpos (Qden (Qred qa))) in *. set (db := Zpos (Qden (Qred qb))) in *. set (na := Qnum (Qred qa)) in *. set (nb := Qnum (Qred qb)) in *.
  assert (quo qa na da) as Qa by apply rat_quo. assert (quo qb nb db) as Qb by apply rat_quo. assert (da <> 0) by (unfold da; lia). assert (db <> 0) by (unfold db; lia).
  wb. eapply wpV_compare_zero; [exact HV|exact Hb1|].
  destruct (Z.eqb_spec (Z.sgn nb) 0) as [E|E].
  { apply wp_ret. apply HU. apply (proj1 (Z.sgn_null_iff _)) in E. unfold Qeq. cbn [Qnum Qden]. nia. }
  assert (nb <> 0) as Nb by (intros E'; rewrite E' in E; done).
  assert (Qnum qb <> 0) as NB by nia.
  assert (~ Qeq qb 0) as Hb0 by (unfold Qeq; cbn [Qnum Qden]; lia). specialize (HQ Hb0).
  assert (quo (qa / qb)%Q (na * db) (da * nb)) as Hq.
  { unfold Qdiv, Qmult, Qinv. destruct qb as [NB' B]. cbn [Qnum Qden] in *. destruct NB' as [|p|p]; [done| |]; cbn [Qnum Qden]; rewrite Pos2Z.inj_mul.
    - transitivity ((na * Zpos (Qden qa)) * (Zpos p * db)); [ring|]. rewrite Qa, <- Qb. ring.
    - transitivity (- ((na * Zpos (Qden qa)) * (Zneg p * db))); [change (Zneg p) with (- Zpos p); ring|]. rewrite Qa, <- Qb. change (Zneg B) with (- Zpos B). ring. }
  apply wp_require. apply wp_mono with (Q := fun r st' => r = MP_OK /\ RV st' (<[den c := da * nb]> (<[num c := na * db]> V)) X).
  2:{ intros ? st1 [-> HV1]. split; [done|]. eapply wpV_rat_reduce with (q := (qa / qb)%Q); [exact HV1|done|lk|lk|lia|done|]. intros st3 HV3. apply HQ. by rewrite set_rat_over in HV3. }
  destruct (bool_decide (num c = num a) || bool_decide (num c = num b))%bool eqn:EB.
  - eapply wpV_with_zero; [exact HV|]. intros t st1 F HV1.
    assert (t <> num a /\ t <> num b /\ t <> num c /\ t <> den a /\ t <> den b /\ t <> den c) as (?&?&?&?&?&?) by (split_and!; congruence).
    apply wp_require. eapply wpV_mul; [exact HV1|lk|lk|lk|]. intros st2 HV2. split; [done|].
    apply wp_require. eapply wpV_mul; [exact HV2|lk|lk|lk|]. intros st3 HV3. split; [done|].
    eapply wpV_copy; [exact HV3|lk|lk|]. intros st4 HV4.
    eexists (<[den c := da * nb]> (<[num c := na * db]> V)), (na * db). split; [lk|]. split; [vn HV4|]. done.
  - apply orb_false_iff in EB as [B1%bool_decide_eq_false B2%bool_decide_eq_false].
    apply wp_require. eapply wpV_mul; [exact HV|lk|lk|lk|]. intros st2 HV2. split; [done|].
    eapply wpV_mul; [exact HV2|lk|lk|lk|]. intros st3 HV3. done.
Qed.
End arith2.

(** ** Copies, signs, reciprocals *)
Lemma set_rat_intro V c q n d : n = Qnum (Qred q) -> d = Zpos (Qden (Qred q)) -> <[den c := d]> (<[num c := n]> V) = set_rat c q V.
Proof. intros -> ->. done. Qed.
Section arith3.
Context (st : state) (V : gmap oid Z) (X : ctx).
Implicit Types (Q : Z -> state -> Prop).
Lemma wpV_rat_copy_pair a c n d Q : RV st V X -> structs [a; c] -> pair_at V a n d -> rat_live V c ->
  (forall st', RV st' (<[den c := d]> (<[num c := n]> V)) X -> Q MP_OK st') -> wp (mp_rat_copy a c) Q st.
Proof.
  intros HV HS [Ha1 Ha2] [[c1 Hc1] [c2 Hc2]] HQ. rf. nd HS. unfold mp_rat_copy.
  apply wp_require. eapply wpV_copy; [exact HV|lk|lk|]. intros st1 HV1. split; [done|].
  eapply wpV_copy; [exact HV1|lk|lk|]. done.
Qed.
Lemma wpV_rat_copy a c q Q : RV st V X -> structs [a; c] -> rat_at V a q -> rat_live V c ->
  (forall st', RV st' (set_rat c q V) X -> Q MP_OK st') -> wp (mp_rat_copy a c) Q st.
Proof. intros HV HS Ha Hc HQ. by eapply wpV_rat_copy_pair. Qed.
Lemma wpV_rat_zero r (Q : unit -> state -> Prop) : RV st V X -> structs [r] -> rat_live V r ->
  (forall st', RV st' (set_rat r 0%Q V) X -> Q tt st') -> wp (mp_rat_zero r) Q st.
Proof.
  intros HV HS [[c1 Hc1] [c2 Hc2]] HQ. rf. nd HS. unfold mp_rat_zero.
  wb. eapply wpV_zero; [exact HV|lk|]. intros st1 HV1. wb. eapply wpV_set_value; [exact HV1|lk|lia|]. intros st2 HV2. apply wp_ret. by apply HQ.
Qed.
Lemma wpV_rat_abs a c q Q : RV st V X -> structs [a; c] -> rat_at V a q -> rat_live V c ->
  (forall st', RV st' (set_rat c (Qabs q) V) X -> Q MP_OK st') -> wp (mp_rat_abs a c) Q st.
Proof.
  intros HV HS [Ha1 Ha2] [[c1 Hc1] [c2 Hc2]] HQ. rf. nd HS. unfold mp_rat_abs.
  apply wp_require. eapply wpV_abs; [exact HV|lk|lk|]. intros st1 HV1. split; [done|].
  eapply wpV_abs; [exact HV1|lk|lk|]. intros st2 HV2. apply HQ. destruct (Qred_num_den q) as [H1 H2]. pose proof (rat_quo q) as H3.
  destruct (red_unique (Z.abs (Qnum (Qred q))) (Zpos (Qden (Qred q))) (Qabs q)) as [E1 E2]; [lia|by rewrite Z.gcd_abs_l| |].
  - destruct q as [n d]. cbn [Qnum Qden Qabs] in *. nia.
  - rewrite Z.abs_eq in HV2 by lia. by rewrite (set_rat_intro _ _ _ _ _ E1 E2) in HV2.
Qed.
Lemma wpV_rat_neg a c q Q : RV st V X -> structs [a; c] -> rat_at V a q -> rat_live V c ->
  (forall st', RV st' (set_rat c (- q)%Q V) X -> Q MP_OK st') -> wp (mp_rat_neg a c) Q st.
Proof.
  intros HV HS [Ha1 Ha2] [[c1 Hc1] [c2 Hc2]] HQ. rf. nd HS. unfold mp_rat_neg.
  apply wp_require. eapply wpV_neg; [exact HV|lk|lk|]. intros st1 HV1. split; [done|].
  eapply wpV_copy; [exact HV1|lk|lk|]. intros st2 HV2. apply HQ. destruct (Qred_num_den q) as [H1 H2]. pose proof (rat_quo q) as H3.
  destruct (red_unique (- (Qnum (Qred q))) (Zpos (Qden (Qred q))) (- q)%Q) as [E1 E2]; [lia|by rewrite Z.gcd_opp_l| |].
  - unfold Qopp. cbn [Qnum Qden]. lia.
  - by rewrite (set_rat_intro _ _ _ _ _ E1 E2) in HV2.
Qed.
End arith3.

Section arith4.
Context (st : state) (V : gmap oid Z) (X : ctx).
Implicit Types (Q : Z -> state -> Prop).
Lemma wpV_rat_recip a c q Q : RV st V X -> structs [a; c] -> rat_at V a q -> rat_live V c ->
  (Qeq q 0 -> Q MP_UNDEF st) ->
  (~ Qeq q 0 -> forall st', RV st' (set_rat c (/ q)%Q V) X -> Q MP_OK st') -> wp (mp_rat_recip a c) Q st.
Proof.
  intros HV HS Ha Hc HU HQ. pose proof Ha as [Ha1 Ha2]. rf. nd HS. unfold mp_rat_recip, mp_rat_compare_zero.
  destruct (Qred_num_den q) as [H1 H2]. pose proof (rat_quo q) as H3.
  wb. eapply wpV_compare_zero; [exact HV|exact Ha1|].
  destruct (Z.eqb_spec (Z.sgn (Qnum (Qred q))) 0) as [E|E].
  { apply wp_ret. apply HU. apply (proj1 (Z.sgn_null_iff _)) in E. unfold Qeq. cbn [Qnum Qden]. nia. }
  assert (Qnum (Qred q) <> 0) as Nb by (intros E'; rewrite E' in E; done). clear E.
  assert (Qnum q <> 0) as NB by nia. assert (~ Qeq q 0) as Hb0 by (unfold Qeq; cbn [Qnum Qden]; lia). specialize (HQ Hb0).
  apply wp_require. eapply wpV_rat_copy; [exact HV|exact HS|exact Ha|exact Hc|]. intros st1 HV1. split; [done|].
  remember (Qnum (Qred q)) as n eqn:En. remember (Zpos (Qden (Qred q))) as d eqn:Ed.
  unfold set_rat in HV1. rf. rewrite <- En, <- Ed in HV1.
  wb. eapply wpV_swap; [exact HV1|lk|lk|]. intros st2 HV2.
  wb. eapply wpV_sign; [exact HV2|lk|]. wb. eapply wpV_sign; [exact HV2|lk|].
  wb. eapply wpV_set_sign; [exact HV2|lk|destruct (n <? 0); [right; lia|by left]|]. intros st3 HV3.
  wb. eapply wpV_set_sign; [exact HV3|lk|destruct (d <? 0); [right; lia|by left]|]. intros st4 HV4.
  apply wp_ret. apply HQ.
  destruct (red_unique (Z.sgn n * d) (Z.abs n) (/ q)%Q) as [E1 E2]; [lia| | |].
  - rewrite Z.gcd_abs_r. destruct (Z.sgn_spec n) as [[? ->]|[[? ->]|[? ->]]]; [by rewrite Z.mul_1_l, Z.gcd_comm|lia|].
    replace (-1 * d) with (- d) by lia. by rewrite Z.gcd_opp_l, Z.gcd_comm.
  - unfold Qinv. destruct q as [N' D']. cbn [Qnum Qden] in *. destruct N' as [|p|p]; [done| |]; cbn [Qnum Qden].
    + assert (0 < n) by nia. rewrite Z.sgn_pos, Z.abs_eq by lia. lia.
    + assert (n < 0) by nia. rewrite Z.sgn_neg, Z.abs_neq by lia. lia.
  - rewrite <- (set_rat_intro _ _ _ _ _ E1 E2). eapply RV_eqV; [exact HV4|].
    assert ((if d <? 0 then 1 else 0) = 0) as -> by (destruct (Z.ltb_spec d 0); lia). change (0 =? 0) with true. cbv iota.
    assert ((if (if n <? 0 then 1 else 0) =? 0 then Z.abs d else - Z.abs d) = Z.sgn n * d) as ->.
    { destruct (Z.ltb_spec n 0); [change (1 =? 0) with false|change (0 =? 0) with true]; cbv iota; lia. }
    mapeq.
Qed.
Lemma wpV_rat_set_value r n d Q : RV st V X -> structs [r] -> rat_live V r -> - 2 ^ 63 < n < 2 ^ 63 -> - 2 ^ 63 < d < 2 ^ 63 ->
  (d = 0 -> Q MP_UNDEF st) ->
  (d <> 0 -> forall st', RV st' (set_rat r (frac n d) V) X -> Q MP_OK st') -> wp (mp_rat_set_value r n d) Q st.
Proof.
  intros HV HS [[c1 Hc1] [c2 Hc2]] Hn Hd HU HQ. rf. nd HS. unfold mp_rat_set_value.
  destruct (Z.eqb_spec d 0) as [E|E]; [by apply wp_ret, HU|].
  apply wp_require. eapply wpV_set_value; [exact HV|lk|done|]. intros st1 HV1. split; [done|].
  apply wp_require. eapply wpV_set_value; [exact HV1|lk|done|]. intros st2 HV2. split; [done|].
  eapply wpV_rat_reduce with (q := frac n d); [exact HV2|done|lk|lk|done|by rewrite frac_eq|]. intros st3 HV3. apply HQ; [done|]. by rewrite set_rat_over in HV3.
Qed.
Lemma wpV_rat_set_uvalue r n d Q : RV st V X -> structs [r] -> rat_live V r -> 0 <= n < 2 ^ 64 -> 0 <= d < 2 ^ 64 ->
  (d = 0 -> Q MP_UNDEF st) ->
  (d <> 0 -> forall st', RV st' (set_rat r (frac n d) V) X -> Q MP_OK st') -> wp (mp_rat_set_uvalue r n d) Q st.
Proof.
  intros HV HS [[c1 Hc1] [c2 Hc2]] Hn Hd HU HQ. rf. nd HS. unfold mp_rat_set_uvalue.
  destruct (Z.eqb_spec d 0) as [E|E]; [by apply wp_ret, HU|].
  apply wp_require. eapply wpV_set_uvalue; [exact HV|lk|done|]. intros st1 HV1. split; [done|].
  apply wp_require. eapply wpV_set_uvalue; [exact HV1|lk|done|]. intros st2 HV2. split; [done|].
  eapply wpV_rat_reduce with (q := frac n d); [exact HV2|done|lk|lk|done|by rewrite frac_eq|]. intros st3 HV3. apply HQ; [done|]. by rewrite set_rat_over in HV3.
Qed.
(** The other operand is an integer. *)
Lemma wpV_rat_add_int a b c qa vb Q : RV st V X -> structs [a; c] -> rat_at V a qa -> V !! b = Some vb -> rat_live V c ->
  (forall st', RV st' (set_rat c (qa + inject_Z vb)%Q V) X -> Q MP_OK st') -> wp (mp_rat_add_int a b c) Q st.
Proof.
  intros HV HS Ha Hb Hc HQ. pose proof Ha as [Ha1 Ha2]. pose proof Hc as [[c1 Hc1] [c2 Hc2]]. rf. nd HS. unfold mp_rat_add_int.
  destruct (Qred_num_den qa) as [H1 H2]. pose proof (rat_quo qa) as H3.
  remember (Qnum (Qred qa)) as n eqn:En. remember (Zpos (Qden (Qred qa))) as d eqn:Ed.
  eapply wpV_with_copy; [exact HV|exact Hb|]. intros t st1 F HV1.
  assert (t <> num a /\ t <> num c /\ t <> den a /\ t <> den c /\ t <> b) as (?&?&?&?&?) by (split_and!; congruence).
  apply wp_require. eapply wpV_mul; [exact HV1|lk|lk|lk|]. intros st2 HV2. split; [done|].
  apply wp_require. eapply wpV_rat_copy_pair; [exact HV2|exact HS|split; rf; lk|split; rf; eexists; lk|]. intros st3 HV3. split; [done|].
  apply wp_require. eapply wpV_add; [exact HV3|lk|lk|lk|]. intros st4 HV4. split; [done|].
  eapply wpV_rat_reduce with (q := (qa + inject_Z vb)%Q); [exact HV4|done|lk|lk|lia| |].
  - unfold Qplus, inject_Z. cbn [Qnum Qden]. rewrite Pos2Z.inj_mul. transitivity ((n * Zpos (Qden qa)) + vb * d * Zpos (Qden qa)); [ring|]. rewrite H3. ring.
  - intros st5 HV5. exists (set_rat c (qa + inject_Z vb)%Q V), (vb * d). split; [unfold set_rat; rf; lk|]. split; [|done].
    unfold set_rat in *. rf. vn HV5.
Qed.
Lemma wpV_rat_sub_int a b c qa vb Q : RV st V X -> structs [a; c] -> rat_at V a qa -> V !! b = Some vb -> rat_live V c ->
  (forall st', RV st' (set_rat c (qa - inject_Z vb)%Q V) X -> Q MP_OK st') -> wp (mp_rat_sub_int a b c) Q st.
Proof.
  intros HV HS Ha Hb Hc HQ. pose proof Ha as [Ha1 Ha2]. pose proof Hc as [[c1 Hc1] [c2 Hc2]]. rf. nd HS. unfold mp_rat_sub_int.
  destruct (Qred_num_den qa) as [H1 H2]. pose proof (rat_quo qa) as H3.
  remember (Qnum (Qred qa)) as n eqn:En. remember (Zpos (Qden (Qred qa))) as d eqn:Ed.
  eapply wpV_with_copy; [exact HV|exact Hb|]. intros t st1 F HV1.
  assert (t <> num a /\ t <> num c /\ t <> den a /\ t <> den c /\ t <> b) as (?&?&?&?&?) by (split_and!; congruence).
  apply wp_require. eapply wpV_mul; [exact HV1|lk|lk|lk|]. intros st2 HV2. split; [done|].
  apply wp_require. eapply wpV_rat_copy_pair; [exact HV2|exact HS|split; rf; lk|split; rf; eexists; lk|]. intros st3 HV3. split; [done|].
  apply wp_require. eapply wpV_sub; [exact HV3|lk|lk|lk|]. intros st4 HV4. split; [done|].
  eapply wpV_rat_reduce with (q := (qa - inject_Z vb)%Q); [exact HV4|done|lk|lk|lia| |].
  - unfold Qminus, Qopp, Qplus, inject_Z. cbn [Qnum Qden]. rewrite Pos2Z.inj_mul. transitivity ((n * Zpos (Qden qa)) - vb * d * Zpos (Qden qa)); [ring|]. rewrite H3. ring.
  - intros st5 HV5. exists (set_rat c (qa - inject_Z vb)%Q V), (vb * d). split; [unfold set_rat; rf; lk|]. split; [|done].
    unfold set_rat in *. rf. vn HV5.
Qed.
(** Here [b] must not be a member of [c] that the copy of [a] overwrites. *)
Lemma wpV_rat_mul_int a b c qa vb Q : RV st V X -> structs [a; c] -> rat_at V a qa -> V !! b = Some vb -> rat_live V c ->
  (a = c \/ b <> num c /\ b <> den c) ->
  (forall st', RV st' (set_rat c (qa * inject_Z vb)%Q V) X -> Q MP_OK st') -> wp (mp_rat_mul_int a b c) Q st.
Proof.
  intros HV HS Ha Hb Hc Hbc HQ. pose proof Ha as [Ha1 Ha2]. pose proof Hc as [[c1 Hc1] [c2 Hc2]]. rf. nd HS. unfold mp_rat_mul_int.
  destruct (Qred_num_den qa) as [H1 H2]. pose proof (rat_quo qa) as H3.
  apply wp_require. eapply wpV_rat_copy; [exact HV|exact HS|exact Ha|exact Hc|]. intros st1 HV1. split; [done|].
  remember (Qnum (Qred qa)) as n eqn:En. remember (Zpos (Qden (Qred qa))) as d eqn:Ed.
  unfold set_rat in HV1. rf. rewrite <- En, <- Ed in HV1.
  assert (<[den c := d]> (<[num c := n]> V) !! b = Some vb) as Hb'.
  { destruct Hbc as [<-|[B1 B2]]; [|lk]. destruct (decide (den a = b)) as [<-|B1]; [lk; congruence|]. destruct (decide (num a = b)) as [<-|B2]; [|lk]. lk. congruence. }
  apply wp_require. eapply wpV_mul; [exact HV1|lk|exact Hb'|lk|]. intros st2 HV2. split; [done|].
  eapply wpV_rat_reduce with (q := (qa * inject_Z vb)%Q); [exact HV2|done|lk|lk|lia| |].
  - unfold Qmult, inject_Z. cbn [Qnum Qden]. rewrite Pos2Z.inj_mul. transitivity ((n * Zpos (Qden qa)) * vb); [ring|]. rewrite H3. ring.
  - intros st5 HV5. apply HQ. unfold set_rat in *. rf. vn HV5.
Qed.
Lemma wpV_rat_div_int a b c qa vb Q : RV st V X -> structs [a; c] -> rat_at V a qa -> V !! b = Some vb -> rat_live V c ->
  (a = c \/ b <> num c /\ b <> den c) ->
  (vb = 0 -> Q MP_UNDEF st) ->
  (vb <> 0 -> forall st', RV st' (set_rat c (qa / inject_Z vb)%Q V) X -> Q MP_OK st') -> wp (mp_rat_div_int a b c) Q st.
Proof.
  intros HV HS Ha Hb Hc Hbc HU HQ. pose proof Ha as [Ha1 Ha2]. pose proof Hc as [[c1 Hc1] [c2 Hc2]]. rf. nd HS. unfold mp_rat_div_int.
  wb. eapply wpV_compare_zero; [exact HV|exact Hb|].
  destruct (Z.eqb_spec (Z.sgn vb) 0) as [E|E].
  { apply (proj1 (Z.sgn_null_iff _)) in E. by apply wp_ret, HU. }
  assert (vb <> 0) as Nb by (intros E'; rewrite E' in E; done). clear E.
  destruct (Qred_num_den qa) as [H1 H2]. pose proof (rat_quo qa) as H3.
  apply wp_require. eapply wpV_rat_copy; [exact HV|exact HS|exact Ha|exact Hc|]. intros st1 HV1. split; [done|].
  remember (Qnum (Qred qa)) as n eqn:En. remember (Zpos (Qden (Qred qa))) as d eqn:Ed.
  unfold set_rat in HV1. rf. rewrite <- En, <- Ed in HV1.
  assert (<[den c := d]> (<[num c := n]> V) !! b = Some vb) as Hb'.
  { destruct Hbc as [<-|[B1 B2]]; [|lk]. destruct (decide (den a = b)) as [<-|B1]; [lk; congruence|]. destruct (decide (num a = b)) as [<-|B2]; [|lk]. lk. congruence. }
  apply wp_require. eapply wpV_mul; [exact HV1|lk|exact Hb'|lk|]. intros st2 HV2. split; [done|].
  eapply wpV_rat_reduce with (q := (qa / inject_Z vb)%Q); [exact HV2|done|lk|lk|lia| |].
  - unfold Qdiv, Qmult, Qinv, inject_Z. destruct vb as [|p|p]; [done| |]; cbn [Qnum Qden]; rewrite Pos2Z.inj_mul.
    + transitivity ((n * Zpos (Qden qa)) * Zpos p); [ring|]. rewrite H3. ring.
    + transitivity ((n * Zpos (Qden qa)) * Zpos p); [ring|]. rewrite H3. change (Zneg p) with (- Zpos p). ring.
  - intros st5 HV5. apply HQ; [done|]. unfold set_rat in *. rf. vn HV5.
Qed.
End arith4.

(** ** Powers *)
Lemma gcd_pow n d k : 0 <= k -> Z.gcd n d = 1 -> Z.gcd (n ^ k) (d ^ k) = 1.
Proof. intros Hk H. apply Zgcd_1_rel_prime. apply Zgcd_1_rel_prime in H. by apply rel_prime_Zpower. Qed.
Lemma quo_pow q n d k : 0 < d -> 0 <= k -> quo q n d -> quo (q ^ k)%Q (n ^ k) (d ^ k).
Proof.
  intros Hd Hk E. destruct q as [N D]. cbn [Qnum Qden] in E. destruct k as [|p|p]; [done| |lia].
  unfold Qpower. rewrite Qpower_decomp_positive. cbn [Qnum Qden]. rewrite Pos2Z.inj_pow, <- !Z.pow_mul_l. by rewrite E.
Qed.
Section powr.
Context (st : state) (V : gmap oid Z) (X : ctx).
Implicit Types (Q : Z -> state -> Prop).
Lemma wpV_rat_expt a k c q Q : RV st V X -> structs [a; c] -> rat_at V a q -> rat_live V c -> k < 2 ^ 32 ->
  (k < 0 -> Q MP_RANGE st) ->
  (0 <= k -> forall st', RV st' (set_rat c (q ^ k)%Q V) X -> Q MP_OK st') -> wp (mp_rat_expt a k c) Q st.
Proof.
  intros HV HS Ha Hc Hk HU HQ. pose proof Ha as [Ha1 Ha2]. pose proof Hc as [[c1 Hc1] [c2 Hc2]]. rf. nd HS. unfold mp_rat_expt.
  destruct (Qred_num_den q) as [H1 H2]. pose proof (rat_quo q) as H3.
  destruct (Z.eqb_spec k 0) as [->|E0].
  { eapply wpV_rat_set_value; [exact HV| |done|lia|lia|lia|].
    - intros r s Hr Hs. apply HS; right; [destruct Hr as [<-|[]]|destruct Hs as [<-|[]]]; by left.
    - intros _ st1 HV1. apply HQ; [lia|done]. }
  destruct (Z.eqb_spec k 1) as [->|E1].
  { eapply wpV_rat_copy; [exact HV|exact HS|exact Ha|exact Hc|]. intros st1 HV1. apply HQ; [lia|]. erewrite set_rat_eq; [exact HV1|]. apply Qpower_1_r. }
  unfold require. wb. eapply wpV_expt; [exact HV|lk|lk| |].
  - intros Hneg. change (MP_RANGE =? MP_OK) with false. cbv iota. apply wp_ret. by apply HU.
  - intros Hk0 st1 HV1. rewrite Z.mod_small in HV1 by lia. rewrite Z.eqb_refl. eapply wpV_expt; [exact HV1|lk|lk|lia|].
    intros _ st2 HV2. rewrite Z.mod_small in HV2 by lia. apply HQ; [done|].
    destruct (red_unique (Qnum (Qred q) ^ k) (Zpos (Qden (Qred q)) ^ k) (q ^ k)%Q) as [E2 E3]; [by apply Z.pow_pos_nonneg|by apply gcd_pow|by apply quo_pow|].
    by rewrite (set_rat_intro _ _ _ _ _ E2 E3) in HV2.
Qed.
End powr.

(** ** Comparison *)
Lemma qordered_intro qa qb : let x := Qnum (Qred qa) * Zpos (Qden (Qred qb)) in let y := Qnum (Qred qb) * Zpos (Qden (Qred qa)) in
  forall r, (r < 0 <-> x < y) -> (r = 0 <-> x = y) -> (r > 0 <-> y < x) -> qordered r qa qb.
Proof.
  intros x y r H1 H2 H3. unfold qordered. rewrite <- (Qred_correct qa), <- (Qred_correct qb) at 1. 
  split; [|split].
  - rewrite H1. done.
  - rewrite H2. rewrite <- (Qred_correct qa), <- (Qred_correct qb). done.
  - rewrite H3. rewrite <- (Qred_correct qa), <- (Qred_correct qb). done.
Qed.
Section cmp.
Context (st : state) (V : gmap oid Z) (X : ctx).
Implicit Types (Q : Z -> state -> Prop).
Lemma wpV_rat_ucmp a b qa qb Q : RV st V X -> rat_at V a qa -> rat_at V b qb ->
  (forall st', RV st' V X -> Q (Z.sgn (Z.abs (Qnum (Qred qa)) * Zpos (Qden (Qred qb)) - Z.abs (Qnum (Qred qb)) * Zpos (Qden (Qred qa)))) st') -> wp (mp_rat_compare_unsigned a b) Q st.
Proof.
  intros HV [Ha1 Ha2] [Hb1 Hb2] HQ. rf. unfold mp_rat_compare_unsigned.
  wb. eapply wpV_compare_unsigned; [exact HV|exact Ha2|exact Hb2|].
  remember (Qnum (Qred qa)) as na. remember (Qnum (Qred qb)) as nb. remember (Zpos (Qden (Qred qa))) as da. remember (Zpos (Qden (Qred qb))) as db.
  assert (0 < da) by lia. assert (0 < db) by lia.
  destruct (Z.eqb_spec (Z.sgn (Z.abs da - Z.abs db)) 0) as [E|E].
  - eapply wpV_compare_unsigned; [exact HV|exact Ha1|exact Hb1|]. assert (db = da) as -> by lia. 
    rewrite <- Z.mul_sub_distr_r, Z.sgn_mul, (Z.sgn_pos da), Z.mul_1_r in HQ by lia. by apply HQ.
  - eapply wpV_with_copy_g; [exact HV|exact Ha1|]. intros t0 st1 F0 HV1. eapply wpV_with_copy_g; [exact HV1|rewrite lookup_insert_ne by congruence; exact Hb1|]. intros t1 st2 F1 HV2. fr F1.
    assert (t0 <> den a /\ t0 <> den b) as (?&?) by (split_and!; congruence). assert (t1 <> den a /\ t1 <> den b) as (?&?) by (split_and!; congruence).
    wb. eapply wpV_mul; [exact HV2|lk|lk|lk|]. intros st3 HV3. change (negb (MP_OK =? MP_OK)) with false. cbv iota.
    wb. eapply wpV_mul; [exact HV3|lk|lk|lk|]. intros st4 HV4. change (negb (MP_OK =? MP_OK)) with false. cbv iota.
    eapply wpV_compare_unsigned; [exact HV4|lk|lk|]. split; [done|]. eexists (<[t0 := na * db]> V), (nb * da), X. split; [lk|]. split; [vn HV4|]. intros st5 HV5.
    split; [done|]. exists V, (na * db), X. split; [done|]. split; [done|]. intros st6 HV6. rewrite !Z.abs_mul, (Z.abs_eq da), (Z.abs_eq db) by lia. by apply HQ.
Qed.
Lemma wpV_rat_compare_unsigned a b qa qb Q : RV st V X -> rat_at V a qa -> rat_at V b qb ->
  (forall st' r, RV st' V X -> qordered r (Qabs qa) (Qabs qb) -> Q r st') -> wp (mp_rat_compare_unsigned a b) Q st.
Proof.
  intros HV Ha Hb HQ. eapply wpV_rat_ucmp; [done..|]. intros st' HV'. apply HQ; [done|]. destruct (Qred_num_den qa) as [A1 A2], (Qred_num_den qb) as [B1 B2].
  pose proof (rat_quo qa) as A3. pose proof (rat_quo qb) as B3.
  destruct (red_unique (Z.abs (Qnum (Qred qa))) (Zpos (Qden (Qred qa))) (Qabs qa)) as [E1 E2]; [lia|by rewrite Z.gcd_abs_l|destruct qa as [n1 d1]; cbn [Qnum Qden Qabs] in *; nia|].
  destruct (red_unique (Z.abs (Qnum (Qred qb))) (Zpos (Qden (Qred qb))) (Qabs qb)) as [E3 E4]; [lia|by rewrite Z.gcd_abs_l|destruct qb as [n2 d2]; cbn [Qnum Qden Qabs] in *; nia|].
  apply qordered_intro; rewrite <- E1, <- E2, <- E3, <- E4; lia.
Qed.
Lemma wpV_rat_compare a b qa qb Q : RV st V X -> rat_at V a qa -> rat_at V b qb ->
  (forall st' r, RV st' V X -> qordered r qa qb -> -1 <= r <= 1 -> Q r st') -> wp (mp_rat_compare a b) Q st.
Proof.
  intros HV Ha Hb HQ. pose proof Ha as [Ha1 Ha2]. pose proof Hb as [Hb1 Hb2]. rf. unfold mp_rat_compare.
  wb. eapply wpV_sign; [exact HV|exact Ha1|]. wb. eapply wpV_sign; [exact HV|exact Hb1|].
  pose proof (qordered_intro qa qb) as HI. cbv zeta in HI.
  remember (Qnum (Qred qa)) as na. remember (Qnum (Qred qb)) as nb. assert (0 < Zpos (Qden (Qred qa))) as Da by lia. assert (0 < Zpos (Qden (Qred qb))) as Db by lia.
  destruct (Z.eqb_spec (if na <? 0 then 1 else 0) (if nb <? 0 then 1 else 0)) as [E|E]; cbn [negb].
  - wb. eapply wpV_rat_ucmp; [done..|]. intros st1 HV1. apply wp_ret. rewrite <- Heqna, <- Heqnb. clear Heqna Heqnb.
    remember (Zpos (Qden (Qred qa))) as da. remember (Zpos (Qden (Qred qb))) as db. change MP_ZPOS with 0.
    apply HQ; [done|apply HI|]; destruct (Z.ltb_spec na 0), (Z.ltb_spec nb 0); try lia; change (1 =? 0) with false; change (0 =? 0) with true; cbv iota;
      rewrite ?(Z.abs_neq na), ?(Z.abs_neq nb), ?(Z.abs_eq na), ?(Z.abs_eq nb) by lia; lia.
  - apply wp_ret. clear Heqna Heqnb. remember (Zpos (Qden (Qred qa))) as da. remember (Zpos (Qden (Qred qb))) as db. change MP_ZPOS with 0.
    apply HQ; [done|apply HI|]; destruct (Z.ltb_spec na 0), (Z.ltb_spec nb 0); try lia; change (1 =? 0) with false; change (0 =? 0) with true; cbv iota; nia.
Qed.
Lemma wpV_rat_is_integer a q (Q : bool -> state -> Prop) : RV st V X -> rat_at V a q ->
  (forall st' b, RV st' V X -> (b = true <-> exists z, Qeq q (inject_Z z)) -> Q b st') -> wp (mp_rat_is_integer a) Q st.
Proof.
  intros HV [Ha1 Ha2] HQ. rf. unfold mp_rat_is_integer. wb. eapply wpV_compare_value; [exact HV|exact Ha2|lia|]. intros st1 HV1. apply wp_ret. apply HQ; [done|].
  rewrite Z.eqb_eq. split.
  - intros E. exists (Qnum (Qred q)). assert (Zpos (Qden (Qred q)) = 1) as E1 by lia. rewrite <- (Qred_correct q) at 1. unfold Qeq, inject_Z. cbn [Qnum Qden]. rewrite E1. lia.
  - intros [z E]. apply Qred_complete in E. rewrite E. destruct (red_unique z 1 (inject_Z z)) as [_ E2]; [lia|apply Z.gcd_1_r|done|]. lia.
Qed.
Lemma wpV_rat_to_ints a n d (Q : Z * option Z * option Z -> state -> Prop) : RV st V X -> pair_at V a n d -> n <> - 2 ^ 63 -> 0 < d ->
  (- 2 ^ 63 < n < 2 ^ 63 -> d < 2 ^ 63 -> forall st', RV st' V X -> Q (MP_OK, Some n, Some d) st') ->
  (~ (- 2 ^ 63 < n < 2 ^ 63 /\ d < 2 ^ 63) -> forall st' x y, RV st' V X -> Q (MP_RANGE, x, y) st') -> wp (mp_rat_to_ints a) Q st.
Proof.
  intros HV [Ha1 Ha2] Hn Hd HQ HU. rf. unfold mp_rat_to_ints. wb. eapply wpV_to_int; [exact HV|exact Ha1|done| |].
  - intros Hr st1 HV1. cbn [fst snd]. change (negb (MP_OK =? MP_OK)) with false. cbv iota. wb. eapply wpV_to_int; [exact HV1|exact Ha2|lia| |].
    + intros Hr' st2 HV2. apply wp_ret. cbn [fst snd]. apply HQ; [done|lia|done].
    + intros Hr' st2 HV2. apply wp_ret. cbn [fst snd]. apply HU; [lia|done].
  - intros Hr st1 HV1. cbn [fst snd]. change (negb (MP_RANGE =? MP_OK)) with true. cbv iota. apply wp_ret. apply HU; [lia|done].
Qed.
End cmp.

(** ** Lifecycle *)
Section life.
Context (st : state) (V : gmap oid Z) (X : ctx).
Implicit Types (Q : Z -> state -> Prop).
Lemma one_red : Zpos (Qden (Qred 0)) = 1 /\ Qnum (Qred 0) = 0. Proof. done. Qed.
Definition unraw (r : rat) (X : ctx) : ctx := with_craw X (delete (den r) (delete (num r) (craw X))).
Lemma wpV_rat_init r zn zd Q : RV st V X -> num r <> den r -> craw X !! num r = Some zn -> craw X !! den r = Some zd ->
  (forall st', V !! num r = None -> V !! den r = None -> RV st' (set_rat r 0%Q V) (unraw r X) -> Q MP_OK st') -> wp (mp_rat_init r) Q st.
Proof.
  intros HV N Hn Hd HQ. unfold mp_rat_init.
  apply wp_require. eapply wpV_init; [exact HV|exact Hn|]. intros st1 N1 HV1. split; [done|].
  wb. eapply wpV_init; [exact HV1|cbn [craw with_craw]; rewrite lookup_delete_ne by done; exact Hd|]. intros st2 N2 HV2. rewrite lookup_insert_ne in N2 by done.
  change (negb (MP_OK =? MP_OK)) with false. cbv iota. eapply wpV_set_value; [exact HV2|lk|lia|]. intros st3 HV3. apply HQ; [done|done|].
  unfold set_rat. change (Zpos (Qden (Qred 0))) with 1. change (Qnum (Qred 0)) with 0. rf. cbn [craw with_craw] in HV3.
  eapply RV_eqV; [|reflexivity]. rewrite insert_insert in HV3. exact HV3.
Qed.
Lemma wpV_rat_init_size r zn zd pn pd Q : RV st V X -> num r <> den r -> craw X !! num r = Some zn -> craw X !! den r = Some zd -> 0 <= pn < RADIX - 1 -> 0 <= pd < RADIX - 1 ->
  (forall st', V !! num r = None -> V !! den r = None -> RV st' (set_rat r 0%Q V) (unraw r X) -> Q MP_OK st') -> wp (mp_rat_init_size r pn pd) Q st.
Proof.
  intros HV N Hn Hd Hpn Hpd HQ. unfold mp_rat_init_size.
  apply wp_require. eapply wpV_init_size; [exact HV|exact Hn|done|]. intros st1 N1 HV1. split; [done|].
  wb. eapply wpV_init_size; [exact HV1|cbn [craw with_craw]; rewrite lookup_delete_ne by done; exact Hd|done|]. intros st2 N2 HV2. rewrite lookup_insert_ne in N2 by done.
  change (negb (MP_OK =? MP_OK)) with false. cbv iota. eapply wpV_set_value; [exact HV2|lk|lia|]. intros st3 HV3. apply HQ; [done|done|].
  unfold set_rat. change (Zpos (Qden (Qred 0))) with 1. change (Qnum (Qred 0)) with 0. rf. cbn [craw with_craw] in HV3. rewrite insert_insert in HV3. exact HV3.
Qed.
Lemma wpV_rat_init_copy r zn zd a q Q : RV st V X -> num r <> den r -> craw X !! num r = Some zn -> craw X !! den r = Some zd -> rat_at V a q ->
  (forall st', V !! num r = None -> V !! den r = None -> RV st' (set_rat r q V) (unraw r X) -> Q MP_OK st') -> wp (mp_rat_init_copy r a) Q st.
Proof.
  intros HV N Hn Hd [Ha1 Ha2] HQ. rf. unfold mp_rat_init_copy.
  apply wp_require. eapply wpV_init_copy; [exact HV|exact Hn|exact Ha1|]. intros st1 N1 HV1. split; [done|].
  wb. eapply wpV_init_copy; [exact HV1|cbn [craw with_craw]; rewrite lookup_delete_ne by done; exact Hd|rewrite lookup_insert_ne by congruence; exact Ha2|]. intros st2 N2 HV2. rewrite lookup_insert_ne in N2 by done.
  change (negb (MP_OK =? MP_OK)) with false. cbv iota. apply wp_ret. apply HQ; [done|done|]. exact HV2.
Qed.
Lemma wpV_rat_clear r vn vd (Q : unit -> state -> Prop) : RV st V X -> num r <> den r -> V !! num r = Some vn -> V !! den r = Some vd ->
  (forall st' zn zd, digits zn = None -> digits zd = None -> RV st' (delete (den r) (delete (num r) V)) (with_craw X (<[den r := zd]> (<[num r := zn]> (craw X)))) -> Q tt st') ->
  wp (mp_rat_clear r) Q st.
Proof.
  intros HV N Hn Hd HQ. unfold mp_rat_clear. wb. eapply wpV_clear; [exact HV|exact Hn|]. intros st1 zn D1 HV1.
  eapply wpV_clear; [exact HV1|rewrite lookup_delete_ne by done; exact Hd|]. intros st2 zd D2 HV2. eapply HQ; [exact D1|exact D2|]. cbn [craw with_craw] in HV2. exact HV2.
Qed.
End life.

Lemma wpV_rat_compare_value st V X r q n d (Q : Z -> state -> Prop) : RV st V X -> rat_at V r q -> - 2 ^ 63 < n < 2 ^ 63 -> - 2 ^ 63 < d < 2 ^ 63 -> d <> 0 ->
  (forall st' x, RV st' V X -> qordered x q (frac n d) -> Q x st') -> wp (mp_rat_compare_value r n d) Q st.
Proof.
  intros HV [Ha1 Ha2] Hn Hd Hd0 HQ. rf. unfold mp_rat_compare_value. apply wp_NewO. intros z1 iz1 Fz1. destruct (RV_newO st V X false z1 _ HV Fz1) as (F1 & C1 & HV1). set (tn := (false, iz1)) in *.
  apply wp_NewO. intros z2 iz2 Fz2. destruct (RV_newO _ _ _ false z2 _ HV1 Fz2) as (F2 & C2 & HV2). set (td := (false, iz2)) in *.
  cbn [craw with_craw] in C2. apply lookup_insert_None in C2 as [C2 N].
  assert (tn <> num r /\ td <> num r /\ tn <> den r /\ td <> den r) as (?&?&?&?) by (split_and!; congruence).
  wb. eapply (wpV_rat_init _ _ _ (tn, td)); [exact HV2|done|unfold num; cbn [craw with_craw fst]; rewrite lookup_insert_ne by done; apply lookup_insert|unfold den; cbn [craw with_craw snd]; apply lookup_insert|].
  intros st3 _ _ HV3. change (negb (MP_OK =? MP_OK)) with false. cbv iota.
  assert (unraw (tn, td) (with_craw (with_craw X (<[tn:=z1]> (craw X))) (<[td:=z2]> (craw (with_craw X (<[tn:=z1]> (craw X)))))) = X) as EX.
  { unfold unraw, with_craw. cbn [craw cmem cglob num den fst snd]. destruct X as [cm cr cg]. cbn [craw cmem cglob] in *. f_equal. unfold num, den. cbn [fst snd].
    rewrite delete_commute, delete_insert by (rewrite lookup_insert_ne by done; done). by rewrite delete_insert. }
  rewrite EX in HV3. clear EX.
  assert (rat_live (set_rat (tn, td) 0%Q V) (tn, td)) as HL. { eapply rat_at_live, rat_at_set. done. }
  wb. eapply wpV_rat_set_value; [exact HV3| |exact HL|done|done|done|].
  { intros x y [<-|[]] [<-|[]]. split; done. }
  intros _ st4 HV4. change (negb (MP_OK =? MP_OK)) with false. cbv iota.
  assert (set_rat (tn, td) (frac n d) (set_rat (tn, td) 0%Q V) = set_rat (tn, td) (frac n d) V) as EV by (unfold set_rat; cbn [fst snd]; mapeq). rewrite EV in HV4. clear EV.
  wb. eapply wpV_rat_compare; [exact HV4|split; rf; unfold set_rat; cbn [fst snd num den]; lk|apply rat_at_set; done|]. intros st5 x HV5 Hx _.
  wb. eapply (wpV_rat_clear _ _ _ (tn, td)); [exact HV5|done|unfold set_rat, num; cbn [fst snd]; lk|unfold set_rat, den; cbn [fst snd]; lk|].
  intros st6 zn zd _ _ HV6. unfold num, den in HV6. cbn [fst snd] in HV6.
  eapply wp_DelO; [eapply RV_rawobj; [exact HV6|cbn [craw with_craw]; apply lookup_insert]|done|].
  eapply RV_delO in HV6; [|cbn [craw with_craw]; apply lookup_insert].
  assert (delete td (<[td := zd]> (<[tn := zn]> (craw X))) !! tn = Some zn) as Hz by (rewrite lookup_delete_ne, lookup_insert_ne by done; apply lookup_insert).
  eapply wp_DelO; [eapply RV_rawobj; [exact HV6|exact Hz]|done|].
  eapply RV_delO in HV6; [|exact Hz].
  apply wp_ret. eapply HQ; [|exact Hx].
  cbn [craw with_craw] in HV6. rewrite (delete_insert (<[tn:=zn]> (craw X))) in HV6 by (rewrite lookup_insert_ne by done; done). rewrite delete_insert in HV6 by done.
  assert (delete td (delete tn (set_rat (tn, td) (frac n d) V)) = V) as EV. { apply map_eq. intros i. unfold set_rat. cbn [fst snd]. destruct (decide (i = td)) as [->|]; [rewrite lookup_delete; done|]. destruct (decide (i = tn)) as [->|]; [rewrite lookup_delete_ne by done; rewrite lookup_delete; done|]. lk. }
  rewrite EV in HV6. destruct X; exact HV6.
Qed.
