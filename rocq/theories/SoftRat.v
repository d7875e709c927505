(** Rational functions in the [NDEBUG] build when requests are refused: rules for
    those that report it. *)
From Coq Require Import ZArith List Lia QArith Qabs.
From stdpp Require Import gmap list.
From Verif Require Import Mem Prog Kern Imath Imrat Wp Rel RelZ Divi Spec SpecRat SpecRef Public Refuse Soft Soft2 Soft6 Gcd Rat.
Local Open Scope Z_scope.
Local Open Scope prog_scope.

Local Ltac wb := apply wp_bind.
Section soft_rat.
Context (st : state) (V : gmap oid Z) (X : ctx).
Implicit Types Q : Z -> state -> Prop.
(** Nothing was changed, or only the numerator of [c] was assigned. *)
Definition half_way (c : rat) (n : Z) Q : Prop :=
  (forall st', RV st' V X -> Q MP_MEMORY st') /\ (forall st', RV st' (<[num c := n]> V) X -> Q MP_MEMORY st').
Lemma sV_rat_copy a c q Q : RV st V X -> structs [a; c] -> rat_at V a q -> rat_live V c -> half_way c (Qnum (Qred q)) Q ->
  (forall st', RV st' (set_rat c q V) X -> Q MP_OK st') -> sw (mp_rat_copy a c) Q st.
Proof.
  intros HV HS [Ha1 Ha2] [[c1 Hc1] [c2 Hc2]] [F1 F2] HQ. rf. nd HS. unfold mp_rat_copy. apply s_req. eapply sV_copy; [exact HV|exact Ha1|exact Hc1| |].
  - right. split; [done|]. by apply F1.
  - intros st1 HV1. left. split; [done|]. eapply sV_copy; [exact HV1|lk|lk| |].
    + by apply F2.
    + intros st2 HV2. by apply HQ.
Qed.
Lemma sV_rat_abs a c q Q : RV st V X -> structs [a; c] -> rat_at V a q -> rat_live V c -> half_way c (Z.abs (Qnum (Qred q))) Q ->
  (forall st', RV st' (<[den c := Zpos (Qden (Qred q))]> (<[num c := Z.abs (Qnum (Qred q))]> V)) X -> Q MP_OK st') -> sw (mp_rat_abs a c) Q st.
Proof.
  intros HV HS [Ha1 Ha2] [[c1 Hc1] [c2 Hc2]] [F1 F2] HQ. rf. nd HS. unfold mp_rat_abs. apply s_req. eapply sV_abs; [exact HV|exact Ha1|exact Hc1| |].
  - right. split; [done|]. by apply F1.
  - intros st1 HV1. left. split; [done|]. eapply sV_abs; [exact HV1|lk|lk| |].
    + by apply F2.
    + intros st2 HV2. by apply HQ.
Qed.
Lemma sV_rat_neg a c q Q : RV st V X -> structs [a; c] -> rat_at V a q -> rat_live V c -> half_way c (- Qnum (Qred q)) Q ->
  (forall st', RV st' (<[den c := Zpos (Qden (Qred q))]> (<[num c := - Qnum (Qred q)]> V)) X -> Q MP_OK st') -> sw (mp_rat_neg a c) Q st.
Proof.
  intros HV HS [Ha1 Ha2] [[c1 Hc1] [c2 Hc2]] [F1 F2] HQ. rf. nd HS. unfold mp_rat_neg. apply s_req. eapply sV_neg; [exact HV|exact Ha1|exact Hc1| |].
  - right. split; [done|]. by apply F1.
  - intros st1 HV1. left. split; [done|]. eapply sV_copy; [exact HV1|lk|lk| |].
    + by apply F2.
    + intros st2 HV2. by apply HQ.
Qed.
(** Zero is assigned without a request. *)
Lemma sV_rat_zero c (Q : unit -> state -> Prop) : RV st V X -> structs [c] -> rat_live V c ->
  (forall st', RV st' (set_rat c 0%Q V) X -> Q tt st') -> sw (mp_rat_zero c) Q st.
Proof.
  intros HV HS [[c1 Hc1] [c2 Hc2]] HQ. rf. nd HS. unfold mp_rat_zero. apply s_quiet; [unfold mp_int_zero; qt|]. eapply wpV_zero; [exact HV|exact Hc1|]. intros st1 HV1.
  apply soft_bind, wp_bind. eapply sV_set_one; [exact HV1|lk|lia|]. intros st2 HV2. apply s_ret. by apply HQ.
Qed.
(** The reciprocal: the copy can be refused, the rest makes no request. *)
Lemma sV_rat_recip a c q Q : RV st V X -> structs [a; c] -> rat_at V a q -> rat_live V c ->
  (Qeq q 0 -> Q MP_UNDEF st) -> (~ Qeq q 0 -> half_way c (Qnum (Qred q)) Q) ->
  (~ Qeq q 0 -> forall st', RV st' (set_rat c (/ q)%Q V) X -> Q MP_OK st') -> sw (mp_rat_recip a c) Q st.
Proof.
  intros HV HS Ha Hc HU HF HQ. pose proof Ha as [Ha1 Ha2]. rf. nd HS. unfold mp_rat_recip, mp_rat_compare_zero.
  destruct (Qred_num_den q) as [H1 H2]. pose proof (rat_quo q) as H3.
  apply s_quiet; [unfold mp_int_compare_zero; qt|]. eapply wpV_compare_zero; [exact HV|exact Ha1|].
  destruct (Z.eqb_spec (Z.sgn (Qnum (Qred q))) 0) as [E|E].
  { apply s_ret. apply HU. apply (proj1 (Z.sgn_null_iff _)) in E. unfold Qeq. cbn [Qnum Qden]. nia. }
  assert (Qnum (Qred q) <> 0) as Nb by (intros E'; rewrite E' in E; done). clear E.
  assert (Qnum q <> 0) as NB by nia. assert (~ Qeq q 0) as Hb0 by (unfold Qeq; cbn [Qnum Qden]; lia). specialize (HQ Hb0). specialize (HF Hb0).
  apply s_req. eapply sV_rat_copy; [exact HV|exact HS|exact Ha|exact Hc| |].
  { destruct HF as [F1 F2]. split; intros st1 HV1; right; (split; [done|]); [by apply F1|by apply F2]. }
  intros st1 HV1. left. split; [done|]. apply quiet_soft; [unfold mp_int_swap; qt|].
  remember (Qnum (Qred q)) as n eqn:En. remember (Zpos (Qden (Qred q))) as d eqn:Ed.
  unfold set_rat in HV1. rf. rewrite <- En, <- Ed in HV1.
  wb. eapply wpV_swap; [exact HV1|lk|lk|]. intros st2 HV2.
  wb. eapply wpV_sign; [exact HV2|lk|]. wb. eapply wpV_sign; [exact HV2|lk|].
  wb. eapply wpV_set_sign; [exact HV2|lk|destruct (n <? 0); [right; lia|by left]|]. intros st3 HV3.
  wb. eapply wpV_set_sign; [exact HV3|lk|destruct (d <? 0); [right; lia|by left]|]. intros st4 HV4.
  apply wp_ret. apply HQ.
  destruct (red_unique (Z.sgn n * d) (Z.abs n) (/ q)%Q) as [E1 E2]; [lia| | |].
  - rewrite Z.gcd_abs_r. destruct (Z.sgn_spec n) as [[? ->]|[[? ->]|[? ->]]]; [by rewrite Z.mul_1_l, Z.gcd_comm|lia|].
    replace (-1 * d) with (- d) by lia. by rewrite Z.gcd_opp_l, Z.gcd_comm.
  - unfold Qinv. destruct q as [N' D']. cbn [Qnum Qden] in *. destruct N' as [|p|p]; [done| |]; cbn [Qnum Qden].
    + assert (0 < n) by nia. rewrite Z.sgn_pos, Z.abs_eq by lia. lia.
    + assert (n < 0) by nia. rewrite Z.sgn_neg, Z.abs_neq by lia. lia.
  - rewrite <- (set_rat_intro _ _ _ _ _ E1 E2). eapply RV_eqV; [exact HV4|].
    assert ((if d <? 0 then 1 else 0) = 0) as -> by (destruct (Z.ltb_spec d 0); lia). change (0 =? 0) with true. cbv iota.
    assert ((if (if n <? 0 then 1 else 0) =? 0 then Z.abs d else - Z.abs d) = Z.sgn n * d) as ->.
    { destruct (Z.ltb_spec n 0); [change (1 =? 0) with false|change (0 =? 0) with true]; cbv iota; lia. }
    mapeq.
Qed.
(** [mp_rat_init] makes no request. *)
Lemma sV_rat_init r zn zd Q : RV st V X -> num r <> den r -> craw X !! num r = Some zn -> craw X !! den r = Some zd ->
  (forall st', RV st' (set_rat r 0%Q V) (unraw r X) -> Q MP_OK st') -> sw (mp_rat_init r) Q st.
Proof.
  intros HV N Hn Hd HQ. unfold mp_rat_init, require. apply s_quiet; [unfold mp_int_init; qt|]. eapply wpV_init; [exact HV|exact Hn|]. intros st1 N1 HV1. change (negb (MP_OK =? MP_OK)) with false. cbv iota.
  apply s_quiet; [unfold mp_int_init; qt|]. eapply wpV_init; [exact HV1|cbn [craw with_craw]; rewrite lookup_delete_ne by done; exact Hd|]. intros st2 N2 HV2.
  change (negb (MP_OK =? MP_OK)) with false. cbv iota. eapply sV_set_one; [exact HV2|lk|lia|]. intros st3 HV3. apply HQ.
  unfold set_rat. change (Zpos (Qden (Qred 0))) with 1. change (Qnum (Qred 0)) with 0. rf. cbn [craw with_craw] in HV3. rewrite insert_insert in HV3. exact HV3.
Qed.
(** Initialisation with storage: done, or both members are blank. *)
Definition refused_rat (r : rat) (zd : mpz) Q : Prop := forall st' zn' zd', digits zn' = None -> (digits zd' = None \/ zd' = zd) ->
  RV st' V (with_craw X (<[den r := zd']> (<[num r := zn']> (craw X)))) -> Q MP_MEMORY st'.
Lemma sV_rat_init_two (f g : oid -> prog Z) (vn vd : Z) (k : prog Z) r zn zd Q : num r <> den r -> craw X !! num r = Some zn -> craw X !! den r = Some zd ->
  (forall Q1, refused_init V X (num r) zn Q1 -> (forall st', V !! num r = None -> RV st' (<[num r := vn]> V) (with_craw X (delete (num r) (craw X))) -> Q1 MP_OK st') -> sw (f (num r)) Q1 st) ->
  (forall st1 Q1, RV st1 (<[num r := vn]> V) (with_craw X (delete (num r) (craw X))) -> refused_init (<[num r := vn]> V) (with_craw X (delete (num r) (craw X))) (den r) zd Q1 ->
     (forall st', V !! den r = None -> RV st' (<[den r := vd]> (<[num r := vn]> V)) (unraw r X) -> Q1 MP_OK st') -> sw (g (den r)) Q1 st1) ->
  refused_rat r zd Q -> (forall st', RV st' (<[den r := vd]> (<[num r := vn]> V)) (unraw r X) -> sw k Q st') ->
  sw (REQUIRE f (num r);; res <- g (den r); if negb (res =? MP_OK) then mp_int_clear (num r);; Ret res else k) Q st.
Proof.
  intros N Hn Hd Hf Hg HF HK. apply s_req. apply Hf.
  - intros st1 HV1. right. split; [done|]. apply (HF st1 (nulled zn) zd); [done|by right|]. rewrite (insert_id _ (den r)); [exact HV1|]. by rewrite lookup_insert_ne.
  - intros st1 N1 HV1. left. split; [done|]. apply soft_bind, wp_bind. apply Hg; [exact HV1| |].
    + intros st2 HV2. change (negb (MP_MEMORY =? MP_OK)) with true. cbv iota. apply s_quiet; [apply q_clear|]. eapply wpV_clear; [exact HV2|apply lookup_insert|].
      intros st3 z Dz HV3. apply s_ret. apply (HF st3 z (nulled zd)); [done|by left|]. rewrite delete_insert in HV3 by done. cbn [craw with_craw cmem cglob] in HV3.
      rewrite (insert_commute _ (den r) (num r)) by done. rewrite <- (insert_delete_insert _ (num r)). rewrite (delete_insert_ne _ (num r) (den r)) by done. exact HV3.
    + intros st2 N2 HV2. change (negb (MP_OK =? MP_OK)) with false. cbv iota. by apply HK.
Qed.
Lemma sV_rat_init_size r zn zd pn pd Q : RV st V X -> num r <> den r -> craw X !! num r = Some zn -> craw X !! den r = Some zd -> 0 <= pn < RADIX - 1 -> 0 <= pd < RADIX - 1 ->
  refused_rat r zd Q -> (forall st', RV st' (set_rat r 0%Q V) (unraw r X) -> Q MP_OK st') -> sw (mp_rat_init_size r pn pd) Q st.
Proof.
  intros HV N Hn Hd H1 H2 HF HQ. unfold mp_rat_init_size. eapply (sV_rat_init_two (fun o => mp_int_init_size o pn) (fun o => mp_int_init_size o pd) 0 0); [done|exact Hn|exact Hd| | |exact HF|].
  - intros Q1 F1 K1. eapply sV_init_size; [exact HV|exact Hn|done|done|done].
  - intros st1 Q1 HV1 F1 K1. eapply sV_init_size; [exact HV1|cbn [craw with_craw]; rewrite lookup_delete_ne by done; exact Hd|done|done|]. intros st' N2 HV2. rewrite lookup_insert_ne in N2 by done. by apply K1.
  - intros st1 HV1. eapply sV_set_one; [exact HV1|lk|lia|]. intros st2 HV2. apply HQ.
    unfold set_rat. change (Zpos (Qden (Qred 0))) with 1. change (Qnum (Qred 0)) with 0. rf. rewrite insert_insert in HV2. exact HV2.
Qed.
Lemma sV_rat_init_copy r zn zd a q Q : RV st V X -> num r <> den r -> craw X !! num r = Some zn -> craw X !! den r = Some zd -> rat_at V a q ->
  refused_rat r zd Q -> (forall st', RV st' (set_rat r q V) (unraw r X) -> Q MP_OK st') -> sw (mp_rat_init_copy r a) Q st.
Proof.
  intros HV N Hn Hd [Ha1 Ha2] HF HQ. rf.
  assert (mp_rat_init_copy r a = (REQUIRE mp_int_init_copy (num r) (num a);; res <- mp_int_init_copy (den r) (den a); if negb (res =? MP_OK) then mp_int_clear (num r);; Ret res else Ret res)) as -> by done.
  apply s_req. eapply sV_init_copy; [exact HV|exact Hn|exact Ha1| |].
  - intros st1 HV1. right. split; [done|]. apply (HF st1 (nulled zn) zd); [done|by right|]. rewrite (insert_id _ (den r)); [exact HV1|]. by rewrite lookup_insert_ne.
  - intros st1 N1 HV1. left. split; [done|]. apply soft_bind, wp_bind. eapply sV_init_copy; [exact HV1|cbn [craw with_craw]; rewrite lookup_delete_ne by done; exact Hd|rewrite lookup_insert_ne by congruence; exact Ha2| |].
    + intros st2 HV2. change (negb (MP_MEMORY =? MP_OK)) with true. cbv iota. apply s_quiet; [apply q_clear|]. eapply wpV_clear; [exact HV2|apply lookup_insert|].
      intros st3 z Dz HV3. apply s_ret. apply (HF st3 z (nulled zd)); [done|by left|]. rewrite delete_insert in HV3 by done. cbn [craw with_craw cmem cglob] in HV3.
      rewrite (insert_commute _ (den r) (num r)) by done. rewrite <- (insert_delete_insert _ (num r)). rewrite (delete_insert_ne _ (num r) (den r)) by done. exact HV3.
    + intros st2 N2 HV2. change (negb (MP_OK =? MP_OK)) with false. cbv iota. apply s_ret. by apply HQ.
Qed.
End soft_rat.
Lemma set_rat_abs V c q : set_rat c (Qabs q) V = <[den c := Zpos (Qden (Qred q))]> (<[num c := Z.abs (Qnum (Qred q))]> V).
Proof.
  destruct (Qred_num_den q) as [H1 H2]. pose proof (rat_quo q) as H3. symmetry.
  destruct (red_unique (Z.abs (Qnum (Qred q))) (Zpos (Qden (Qred q))) (Qabs q)) as [E1 E2]; [lia|by rewrite Z.gcd_abs_l| |].
  - destruct q as [n d]. cbn [Qnum Qden Qabs] in *. nia.
  - by apply set_rat_intro.
Qed.
Lemma set_rat_opp V c q : set_rat c (- q) V = <[den c := Zpos (Qden (Qred q))]> (<[num c := - Qnum (Qred q)]> V).
Proof.
  destruct (Qred_num_den q) as [H1 H2]. pose proof (rat_quo q) as H3. symmetry.
  destruct (red_unique (- (Qnum (Qred q))) (Zpos (Qden (Qred q))) (- q)%Q) as [E1 E2]; [lia|by rewrite Z.gcd_opp_l| |].
  - unfold Qopp. cbn [Qnum Qden]. lia.
  - by apply set_rat_intro.
Qed.
