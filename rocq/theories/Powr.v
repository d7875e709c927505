(** Rules for conversion to small integers, division by small integers and
    powers of two, and exponentiation. *)
From Coq Require Import ZArith List Lia.
From stdpp Require Import gmap list.
From Verif Require Import Mem Prog Kern Imath Wp MemLem Dig KernLem KernMul KernKar KernDig Rel RelWp RelZ Life Basic Basic2 Mult Shift Knuth Divi.
Local Open Scope Z_scope.

Lemma canon2 l v : digs l -> canon l -> val l = v -> v < RADIX * RADIX ->
  (l = [v] /\ 0 <= v < RADIX) \/ exists lo hi, l = [lo; hi] /\ dig lo /\ dig hi /\ v = hi * RADIX + lo.
Proof.
  intros D C E Hv. assert (length l <= 2)%nat as L.
  { pose proof (canon_len l 2 C) as H. rewrite E in H. specialize (H ltac:(rewrite !Bn_S, Bn_0; lia)). lia. }
  destruct l as [|d0 [|d1 [|]]]; [destruct C as [C _]; simpl in C; lia| | |simpl in L; lia].
  - left. apply digs_1 in D. unfold dig in D. cbn in E. assert (d0 = v) as -> by lia. done.
  - right. apply Forall_cons in D as [D0 D1]. apply digs_1 in D1. exists d0, d1. cbn in E. split_and!; try done. lia.
Qed.

Lemma shl16_ok v : 0 <= v -> v * 2 ^ 16 <= SMALL_MAX -> shl16_signed v = Some (v * 2 ^ 16).
Proof. intros H1 H2. unfold shl16_signed. destruct (Z.ltb_spec v 0); [lia|]. simpl orb. destruct (Z.gtb_spec (v * 2 ^ 16) SMALL_MAX); [lia|done]. Qed.

Lemma to_int_loop_S n dz uv : to_int_loop (S n) dz uv =
  match shl16_signed uv with None => Undef | Some uv => match shl16_signed uv with None => Undef | Some uv => (d <- Load dz; to_int_loop n (dz +p (-1)) (Z.lor uv d))%prog end end.
Proof. reflexivity. Qed.

Lemma lor32 x d : 0 <= x -> dig d -> Z.lor (x * 2 ^ 16 * 2 ^ 16) d = x * RADIX + d.
Proof.
  intros Hx Hd. replace (x * 2 ^ 16 * 2 ^ 16) with (Z.shiftl x 32) by (rewrite Z.shiftl_mul_pow2 by lia; change (2 ^ 32) with (2 ^ 16 * 2 ^ 16); ring).
  rewrite lor_shl by (try lia; rewrite pow32; exact Hd). by rewrite pow32.
Qed.

Lemma wpZ_to_int st ζ X o z (Q : Z * option Z -> state -> Prop) :
  RZ st ζ X -> ζ !! o = Some z -> norm z -> zval z <> SMALL_MIN ->
  (SMALL_MIN <= zval z <= SMALL_MAX -> forall st', RZ st' ζ X -> Q (MP_OK, Some (zval z)) st') ->
  (zval z < SMALL_MIN \/ SMALL_MAX < zval z -> forall st', RZ st' ζ X -> Q (MP_RANGE, None) st') ->
  wp (mp_int_to_int o) Q st.
Proof.
  intros HZ Ho Hn Hmin HQ1 HQ2. destruct (RZ_s01 _ _ _ _ _ HZ Ho) as [M S].
  change SMALL_MIN with (- 9223372036854775808) in *. change SMALL_MAX with 9223372036854775807 in *.
  unfold mp_int_to_int. wb. eapply wpZ_sign; [done..|].
  wb. apply (wp_mono _ (fun b st' => RZ st' ζ X /\ (b = true <-> 9223372036854775807 < zval z))).
  { destruct (Z.eqb_spec (zs z) MP_ZPOS) as [E|E].
    - wb. eapply wpZ_compare_value; [done..| |]. { change SMALL_MAX with 9223372036854775807. lia. }
      intros st1 HZ1. apply wp_ret. split; [done|]. change SMALL_MAX with 9223372036854775807. split; intros H; [|apply Z.gtb_lt; lia].
      apply Z.gtb_lt in H. lia.
    - apply wp_ret. split; [done|]. split; [done|]. intros H. unfold zval in H. change MP_ZPOS with 0 in E. destruct (Z.eqb_spec (zs z) 0); lia. }
  intros c1 st1 [HZ1 Hc1].
  wb. apply (wp_mono _ (fun b st' => RZ st' ζ X /\ (b = true <-> (9223372036854775807 < zval z \/ zval z < - 9223372036854775808)))).
  { destruct c1.
    - apply wp_ret. split; [done|]. split; [|done]. intros _. left. by apply Hc1.
    - wb. eapply wpZ_compare_value; [exact HZ1|done|done| |]. { change SMALL_MIN with (- 9223372036854775808). lia. }
      intros st2 HZ2. apply wp_ret. split; [done|]. change SMALL_MIN with (- 9223372036854775808). split; intros H.
      + apply Z.ltb_lt in H. right. lia.
      + apply Z.ltb_lt. destruct H as [H|H]; [|lia]. apply Hc1 in H. done. }
  intros c2 st2 [HZ2 Hc2]. destruct c2.
  { apply wp_ret. apply HQ2; [|done]. destruct Hc2 as [Hc2 _]. destruct Hc2; auto. }
  assert (- 9223372036854775808 < zval z <= 9223372036854775807) as Hr.
  { destruct (Z.lt_ge_cases 9223372036854775807 (zval z)) as [H|H]; [destruct Hc2 as [_ H2]; specialize (H2 (or_introl H)); done|].
    destruct (Z.lt_ge_cases (zval z) (- 9223372036854775808)) as [H'|H']; [destruct Hc2 as [_ H2]; specialize (H2 (or_intror H')); done|]. lia. }
  assert (zm z <= 9223372036854775807) as Hm by (unfold zval in Hr; destruct (zs z =? 0); lia).
  specialize (HQ1 ltac:(lia)). clear HQ2.
  pose proof HZ2 as HZ2'. destruct HZ2' as (σ & HR & Hz). destruct (relz_get _ _ _ _ Hz Ho) as (f & l & Hf & G).
  wb. eapply wpR_used; [done..|]. rewrite (goodw_u _ _ _ G), Nat2Z.id. wb. eapply wpR_digits; [done..|].
  assert (darr (mem st2) (fl f, 0) l) as Hd by (eapply view_darr; [done..|apply G]).
  assert (forall uv, uv = zm z -> (MP_OK, Some (if zs z =? MP_NEG then - uv else uv)) = (MP_OK, Some (zval z))) as Efin.
  { intros uv ->. unfold zval. change MP_NEG with 1. destruct S as [E|E]; rewrite E; done. }
  destruct (canon2 l (zm z)) as [[-> Hz0]|(lo & hi & -> & Dlo & Dhi & Ev)]; [by eapply goodw_dig|apply G|apply G|mx| |]; cbn [length].
  - wb. rewrite to_int_loop_S. rewrite shl16_ok by (change SMALL_MAX with 9223372036854775807; lia). rewrite shl16_ok by (change SMALL_MAX with 9223372036854775807; lia).
    wb. eapply wp_load; [apply darr_cons in Hd as [H1 _]; exact H1|]. apply wp_ret. apply wp_ret. rewrite Efin; [by apply HQ1|]. rewrite lor32 by (done || lia). lia.
  - apply darr_cons in Hd as [H1 Hd]. apply darr_cons in Hd as [H2 _]. unfold dig in Dlo, Dhi.
    wb. rewrite to_int_loop_S. rewrite !shl16_ok by (change SMALL_MAX with 9223372036854775807; lia).
    wb. eapply wp_load; [exact H2|]. rewrite lor32 by (done || lia). rewrite to_int_loop_S.
    rewrite !shl16_ok by (change SMALL_MAX with 9223372036854775807; mx).
    wb. eapply wp_load; [rewrite padd_padd; exact H1|]. apply wp_ret. apply wp_ret. rewrite Efin; [by apply HQ1|]. rewrite lor32 by (done || lia). lia.
Qed.

Lemma to_uint_loop_S n dz uv : to_uint_loop (S n) dz uv = 
  (d <- Load dz; to_uint_loop n (dz +p (-1)) (Z.lor (w64 (Z.shiftl (w64 (Z.shiftl uv 16)) 16)) d))%prog.
Proof. reflexivity. Qed.
Lemma shl1616 x : 0 <= x < RADIX -> w64 (Z.shiftl (w64 (Z.shiftl x 16)) 16) = x * 2 ^ 16 * 2 ^ 16.
Proof.
  intros Hx. rewrite (w64_id (Z.shiftl x 16)) by (rewrite Z.shiftl_mul_pow2 by lia; mx).
  rewrite w64_id; rewrite !Z.shiftl_mul_pow2 by lia; [done|mx].
Qed.

Lemma wpZ_to_uint st ζ X o z (Q : Z * option Z -> state -> Prop) :
  RZ st ζ X -> ζ !! o = Some z -> norm z ->
  (0 <= zval z <= USMALL_MAX -> forall st', RZ st' ζ X -> Q (MP_OK, Some (zval z)) st') ->
  (zval z < 0 \/ USMALL_MAX < zval z -> forall st', RZ st' ζ X -> Q (MP_RANGE, None) st') ->
  wp (mp_int_to_uint o) Q st.
Proof.
  intros HZ Ho Hn HQ1 HQ2. destruct (RZ_s01 _ _ _ _ _ HZ Ho) as [M S].
  change USMALL_MAX with 18446744073709551615 in *.
  unfold mp_int_to_uint. wb. eapply wpZ_sign; [done..|].
  wb. apply (wp_mono _ (fun b st' => RZ st' ζ X /\ (b = true <-> zval z < 0 \/ 18446744073709551615 < zval z))).
  { change MP_NEG with 1. destruct (Z.eqb_spec (zs z) 1) as [E|E].
    - apply wp_ret. split; [done|]. split; [|done]. intros _. left. unfold zval. rewrite E. simpl. unfold norm in Hn. lia.
    - wb. eapply wpZ_compare_uvalue; [done..|change USMALL_MAX with 18446744073709551615; mx|].
      intros st1 HZ1. apply wp_ret. split; [done|]. change USMALL_MAX with 18446744073709551615. split; intros H.
      + apply Z.gtb_lt in H. lia.
      + apply Z.gtb_lt. destruct H as [H|H]; [|lia]. unfold zval in H. destruct (Z.eqb_spec (zs z) 0); lia. }
  intros c2 st2 [HZ2 Hc2]. destruct c2.
  { apply wp_ret. apply HQ2; [|done]. by apply Hc2. }
  assert (0 <= zval z <= 18446744073709551615) as Hr.
  { destruct (Z.lt_ge_cases 18446744073709551615 (zval z)) as [H|H]; [destruct Hc2 as [_ H2]; specialize (H2 (or_intror H)); done|].
    destruct (Z.lt_ge_cases (zval z) 0) as [H'|H']; [destruct Hc2 as [_ H2]; specialize (H2 (or_introl H')); done|]. lia. }
  assert (zm z = zval z) as Hm by (unfold zval in *; destruct (zs z =? 0); lia).
  specialize (HQ1 ltac:(lia)). clear HQ2. rewrite <- Hm in *.
  pose proof HZ2 as HZ2'. destruct HZ2' as (σ & HR & Hz). destruct (relz_get _ _ _ _ Hz Ho) as (f & l & Hf & G).
  wb. eapply wpR_used; [done..|]. rewrite (goodw_u _ _ _ G), Nat2Z.id. wb. eapply wpR_digits; [done..|].
  assert (darr (mem st2) (fl f, 0) l) as Hd by (eapply view_darr; [done..|apply G]).
  destruct (canon2 l (zm z)) as [[-> Hz0]|(lo & hi & -> & Dlo & Dhi & Ev)]; [by eapply goodw_dig|apply G|apply G|mx| |]; cbn [length].
  - wb. rewrite to_uint_loop_S. 
    wb. eapply wp_load; [apply darr_cons in Hd as [H1 _]; exact H1|]. apply wp_ret. apply wp_ret. rewrite shl1616, lor32 by (done || mx). rewrite Z.mul_0_l, Z.add_0_l. by apply HQ1.
  - apply darr_cons in Hd as [H1 Hd]. apply darr_cons in Hd as [H2 _].
    wb. rewrite to_uint_loop_S. 
    wb. eapply wp_load; [exact H2|]. rewrite shl1616, lor32 by (done || mx). rewrite to_uint_loop_S.
    rewrite Z.mul_0_l, Z.add_0_l. rewrite shl1616 by done.
    wb. eapply wp_load; [rewrite padd_padd; exact H1|]. apply wp_ret. apply wp_ret. rewrite lor32 by (done || apply Dhi). rewrite <- Ev. by apply HQ1.
Qed.

Lemma oput_ins (q : option oid) (v : Z) (t : oid) (z : zv) (ζ : gmap oid zv) : q <> Some t -> oput q v (<[t := z]> ζ) = <[t := z]> (oput q v ζ).
Proof.
  intros N. destruct q as [q|]; simpl; [|done]. assert (q <> t) by congruence. rewrite lookup_insert_ne by done.
  destruct (ζ !! q); [|done]. by rewrite insert_commute.
Qed.
Lemma oput_none (q : option oid) (v : Z) (t : oid) (ζ : gmap oid zv) : oown q ζ -> ζ !! t = None -> q <> Some t /\ oput q v ζ !! t = None.
Proof.
  intros O Ht. destruct q as [q|]; [|done]. destruct (O q eq_refl) as (z & Hz & _). assert (q <> t) by congruence. split; [congruence|].
  simpl. rewrite Hz. by rewrite lookup_insert_ne.
Qed.
Lemma oown_ins (q : option oid) (t : oid) (z : zv) (ζ : gmap oid zv) : oown q ζ -> ζ !! t = None -> oown q (<[t := z]> ζ).
Proof. intros O Ht x ->. destruct (O x eq_refl) as (zx & Hx & ?). exists zx. by rewrite lookup_insert_ne by congruence. Qed.

Lemma wpZ_div_value st ζ X a v q za (Q : Z * option Z -> state -> Prop) :
  RZ st ζ X -> ζ !! a = Some za -> oown q ζ -> norm za -> - 2 ^ 63 < v < 2 ^ 63 ->
  (v = 0 -> forall st', RZ st' ζ X -> Q (MP_UNDEF, None) st') ->
  (v <> 0 -> forall st', RZ st' (oput q (Z.quot (zval za) v) ζ) X -> Q (MP_OK, Some (Z.rem (zval za) v)) st') ->
  wp (mp_int_div_value a v q) Q st.
Proof.
  intros HZ Ha Oq Na Hv HQ0 HQ. unfold mp_int_div_value.
  eapply wpZ_with_fake1; [exact HZ|done|]. intros b n st1 Hb HZ1.
  apply wp_NewO. intros z iz Fz. destruct (RZ_newO st1 _ X false z _ HZ1 Fz) as (Ht & Hc & HZ2). set (t := (false, iz)) in *.
  wb. eapply wpZ_init; [exact HZ2|simpl; apply lookup_insert|]. intros st3 _ HZ3. simpl in HZ3. rewrite delete_insert in HZ3 by done.
  assert (with_craw (with_craw X (<[t:=z]> (craw X))) (craw X) = X) as EX by (by destruct X). rewrite EX in HZ3. clear EX.
  assert (a <> b) by congruence. assert (t <> b) as Ntb by (intros E; rewrite E, lookup_insert in Ht; done).
  rewrite lookup_insert_ne in Ht by done. assert (a <> t) by congruence.
  destruct (oput_none q (Z.quot (zval za) v) b ζ Oq Hb) as [Nqb Hqb]. destruct (oput_none q (Z.quot (zval za) v) t ζ Oq Ht) as [Nqt Hqt].
  wb. eapply (wpZ_div _ _ _ a b q (Some t)); [exact HZ3|lk|lk|done| | |done| |].
  { apply oown_ins; [by apply oown_ins|lk]. }
  { intros x [= <-]. exists zzero. rewrite lookup_insert. done. }
  - intros E. simpl in E. assert (v = 0) as Ev by lia. simpl. wb. apply wp_ret.
    wb. eapply wpZ_clear; [exact HZ3|apply lookup_insert|done|]. intros st4 z4 _ HZ4. rewrite delete_insert in HZ4 by lk.
    eapply wp_DelO; [eapply RZ_raw; [exact HZ4|simpl; apply lookup_insert]|done|]. apply wp_ret.
    exists ζ, X. split; [done|]. split.
    + eapply RZ_delO in HZ4; [|simpl; apply lookup_insert]. simpl in HZ4. rewrite delete_insert in HZ4 by done. by destruct X.
    + by apply HQ0.
  - intros E. simpl in E. assert (v <> 0) as Ev by lia. intros st4 HZ4. rewrite fakev_val in HZ4. simpl.
    rewrite (oput_ins q _ t), (oput_ins q _ b) in HZ4 by congruence. unfold oput at 1 in HZ4. rewrite lookup_insert, insert_insert in HZ4.
    pose proof (Z.rem_bound_abs (zval za) v Ev) as Hrb.
    wb. wb. eapply wpZ_to_int; [exact HZ4|apply lookup_insert|apply norm_zset| | |].
    { rewrite zval_zset. change SMALL_MIN with (- 2 ^ 63). lia. }
    2:{ rewrite zval_zset. change SMALL_MIN with (- 2 ^ 63). change SMALL_MAX with (2 ^ 63 - 1). lia. }
    intros _ st5 HZ5. rewrite zval_zset. apply wp_ret.
    wb. eapply wpZ_clear; [exact HZ5|apply lookup_insert|done|]. intros st6 z6 _ HZ6. rewrite delete_insert in HZ6 by lk.
    eapply wp_DelO; [eapply RZ_raw; [exact HZ6|simpl; apply lookup_insert]|done|]. apply wp_ret.
    exists (oput q (Z.quot (zval za) v) ζ), X. split; [done|]. split.
    + eapply RZ_delO in HZ6; [|simpl; apply lookup_insert]. simpl in HZ6. rewrite delete_insert in HZ6 by done. by destruct X.
    + by apply HQ.
Qed.

Definition oupd (o : option oid) (f : zv -> zv) (ζ : gmap oid zv) : gmap oid zv :=
  match o with Some o => alter f o ζ | None => ζ end.
Lemma alter_ins (f : zv -> zv) (o : oid) (z : zv) (ζ : gmap oid zv) : ζ !! o = Some z -> alter f o ζ = <[o := f z]> ζ.
Proof. intros H. apply map_eq. intros i. destruct (decide (o = i)) as [<-|]; [by rewrite lookup_alter, lookup_insert, H|by rewrite lookup_alter_ne, lookup_insert_ne]. Qed.

Lemma wpZ_div_pow2 st ζ X a p2 q r za (Q : Z -> state -> Prop) :
  RZ st ζ X -> ζ !! a = Some za -> q <> r -> oown q ζ -> oown r ζ -> norm za -> 0 <= p2 < RADIX -> (q = Some a -> r = None) ->
  (forall st', RZ st' (oupd r (fun z => zput z (zs za) (zm za mod 2 ^ p2)) (oput q (Z.quot (zval za) (2 ^ p2)) ζ)) X -> Q MP_OK st') ->
  wp (mp_int_div_pow2 a p2 q r) Q st.
Proof.
  intros HZ Ha Nqr Oq Or Na Hp Hal HQ. destruct (RZ_s01 _ _ _ _ _ HZ Ha) as [M S].
  assert (0 < 2 ^ p2) as Hpp by (apply Z.pow_pos_nonneg; lia). assert (0 <= zm za / 2 ^ p2) by (apply Z.div_pos; lia).
  unfold mp_int_div_pow2. wb. apply wp_assert.
  { rewrite bool_decide_eq_false_2 by done. destruct (Z.leb_spec 0 p2); [done|lia]. }
  rewrite u32_id by lia.
  wb. apply (wp_mono _ (fun res st' => res = MP_OK /\ RZ st' (oput q (Z.quot (zval za) (2 ^ p2)) ζ) X)).
  { destruct q as [q|]; simpl; [|by apply wp_ret]. destruct (Oq q eq_refl) as (zq & Hq & Oq'). rewrite Hq.
    wb. eapply wpZ_copy; [done..|]. intros st1 HZ1. rewrite Z.eqb_refl. wb. eapply wpZ_qdiv; [exact HZ1|apply lookup_insert|lia|].
    cbn [zs zm zput]. intros st2 HZ2. apply wp_ret. split; [done|]. rewrite insert_insert in HZ2. eapply RZ_eq; [exact HZ2|]. f_equal. rewrite zput_zput.
    rewrite zput_zset; [|done|by apply z0sgn01|unfold z0sgn; by intros ->]. f_equal. unfold zval, z0sgn.
    destruct (Z.eqb_spec (zm za / 2 ^ p2) 0) as [E|E]; simpl.
    - destruct (zs za =? 0); rewrite ?Z.quot_opp_l, Z.quot_div_nonneg by lia; lia.
    - destruct (zs za =? 0); rewrite ?Z.quot_opp_l, Z.quot_div_nonneg by lia; lia. }
  intros ? st1 (-> & HZ1). rewrite Z.eqb_refl. simpl negb. cbv iota.
  destruct r as [r|]; simpl; [|by apply wp_ret, HQ]. destruct (Or r eq_refl) as (zr & Hr & Or').
  assert (oput q (Z.quot (zval za) (2 ^ p2)) ζ !! a = Some za) as Ha1.
  { destruct q as [q|]; simpl; [|done]. destruct (Oq q eq_refl) as (zq & Hq & _). rewrite Hq, lookup_insert_ne; [done|]. intros ->. by specialize (Hal eq_refl). }
  assert (oput q (Z.quot (zval za) (2 ^ p2)) ζ !! r = Some zr) as Hr1.
  { destruct q as [q|]; simpl; [|done]. destruct (Oq q eq_refl) as (zq & Hq & _). rewrite Hq, lookup_insert_ne; [done|congruence]. }
  wb. eapply wpZ_copy; [exact HZ1|exact Ha1|exact Hr1|done|]. intros st2 HZ2. rewrite Z.eqb_refl. wb. eapply wpZ_qmod; [exact HZ2|apply lookup_insert|lia|].
  cbn [zs zm zput]. intros st3 HZ3. apply wp_ret. apply HQ. rewrite insert_insert in HZ3. eapply RZ_eq; [exact HZ3|].
  simpl. erewrite alter_ins by exact Hr1. done.
Qed.

Lemma wpZ_mul_pow2 st ζ X a p2 c za zc (Q : Z -> state -> Prop) :
  RZ st ζ X -> ζ !! a = Some za -> ζ !! c = Some zc -> zo zc = None -> norm za -> 0 <= p2 < RADIX ->
  (forall st', RZ st' (<[c := zset zc (zval za * 2 ^ p2)]> ζ) X -> Q MP_OK st') ->
  wp (mp_int_mul_pow2 a p2 c) Q st.
Proof.
  intros HZ Ha Hc Oc Na Hp HQ. destruct (RZ_s01 _ _ _ _ _ HZ Ha) as [M S]. unfold mp_int_mul_pow2.
  assert (0 < 2 ^ p2) as Hpp by (apply Z.pow_pos_nonneg; lia).
  wb. apply wp_assert; [apply Z.leb_le; lia|]. rewrite u32_id by lia.
  wb. eapply wpZ_copy; [done..|]. intros st1 HZ1. rewrite Z.eqb_refl. simpl negb. cbv iota. 
  wb. eapply wpZ_qmul; [exact HZ1|apply lookup_insert|done|done|]. intros st2 HZ2. apply wp_ret. apply HQ. rewrite insert_insert in HZ2.
  eapply RZ_eq; [exact HZ2|]. f_equal. cbn [zs zm zput]. rewrite zput_zput. rewrite zput_zset; [|nia|done|].
  - f_equal. unfold zval. destruct (zs za =? 0); lia.
  - intros E. apply Na. nia.
Qed.

(** ** Powers *)
Lemma RZ_nil (st : state) (ζ : gmap oid zv) (X : ctx) (o : oid) (z : zv) (v : Z) : RZ st (<[o := zset z v]> ζ) X -> zo z = None -> RZ st (<[o := zset znil v]> ζ) X.
Proof.
  intros HZ O. eapply RZ_eq; [eapply RZ_weaken with (z' := zset znil v); [exact HZ|apply lookup_insert|done|done|simpl; lia|simpl; lia|done]|].
  by rewrite insert_insert.
Qed.
Lemma zval_sq z : zm z * zm z = zval z * zval z.
Proof. unfold zval. destruct (zs z =? 0); lia. Qed.

Lemma pow_odd_split b v : 0 <= v -> Z.odd v = true -> b ^ v = b * (b * b) ^ (Z.shiftr v 1).
Proof.
  intros Hv E. rewrite Z.shiftr_div_pow2 by lia. change (2 ^ 1) with 2. pose proof (Z.div_mod v 2) as H. rewrite Zmod_odd, E in H.
  replace v with (1 + 2 * (v / 2)) at 1 by lia. rewrite Z.pow_add_r, Z.pow_mul_r by (try apply Z.div_pos; lia).
  rewrite Z.pow_1_r. f_equal. f_equal. rewrite Z.pow_2_r. done.
Qed.
Lemma pow_even_split b v : 0 <= v -> Z.odd v = false -> b ^ v = (b * b) ^ (Z.shiftr v 1).
Proof.
  intros Hv E. rewrite Z.shiftr_div_pow2 by lia. change (2 ^ 1) with 2. pose proof (Z.div_mod v 2) as H. rewrite Zmod_odd, E in H.
  replace v with (2 * (v / 2)) at 1 by lia. rewrite Z.pow_mul_r by (try apply Z.div_pos; lia). f_equal. rewrite Z.pow_2_r. done.
Qed.

Lemma expt_loop_eq fuel v t c : expt_loop fuel v t c = (if v =? 0 then Ret MP_OK else
  match fuel with
  | O => NoFuel
  | S f =>
      REQUIRE (if Z.odd v then mp_int_mul c t c else Ret MP_OK);;
      let v := Z.shiftr v 1 in
      if v =? 0 then Ret MP_OK
      else REQUIRE mp_int_sqr t t;; expt_loop f v t c
  end)%prog.
Proof. by destruct fuel. Qed.

Lemma wpZ_expt_loop fuel v st ζ X t c vc vt (Q : Z -> state -> Prop) :
  RZ st (<[c := zset znil vc]> (<[t := zset znil vt]> ζ)) X -> t <> c -> 0 <= v < 2 ^ Z.of_nat fuel ->
  (forall st' vt', RZ st' (<[c := zset znil (vc * vt ^ v)]> (<[t := zset znil vt']> ζ)) X -> Q MP_OK st') ->
  wp (expt_loop fuel v t c) Q st.
Proof.
  revert v st vc vt. induction fuel as [|f IH]; intros v st vc vt HZ N Hv HQ; rewrite expt_loop_eq.
  { destruct (Z.eqb_spec v 0) as [->|E]; [|simpl in Hv; lia]. apply wp_ret. eapply HQ. by rewrite Z.pow_0_r, Z.mul_1_r. }
  destruct (Z.eqb_spec v 0) as [->|E]. { apply wp_ret. eapply HQ. by rewrite Z.pow_0_r, Z.mul_1_r. }
  cbv zeta. set (vc' := if Z.odd v then vc * vt else vc).
  assert (vc * vt ^ v = vc' * (vt * vt) ^ (Z.shiftr v 1)) as EP.
  { unfold vc'. destruct (Z.odd v) eqn:Eo; [rewrite pow_odd_split by (done || lia)|rewrite pow_even_split by (done || lia)]; ring. }
  assert (0 <= Z.shiftr v 1 < 2 ^ Z.of_nat f) as Hs.
  { rewrite Z.shiftr_div_pow2 by lia. change (2 ^ 1) with 2. split; [apply Z.div_pos; lia|]. apply Z.div_lt_upper_bound; [lia|].
    rewrite Nat2Z.inj_succ, Z.pow_succ_r in Hv by lia. lia. }
  apply wp_require. apply (wp_mono _ (fun r st' => r = MP_OK /\ RZ st' (<[c := zset znil vc']> (<[t := zset znil vt]> ζ)) X)).
  { unfold vc'. destruct (Z.odd v); [|by apply wp_ret]. eapply wpZ_mul; [exact HZ|lk..|done|]. intros st1 HZ1. rewrite !zval_zset, insert_insert in HZ1. done. }
  intros ? st1 (-> & HZ1). split; [done|].
  destruct (Z.eqb_spec (Z.shiftr v 1) 0) as [E1|E1].
  { apply wp_ret. eapply HQ. rewrite EP, E1, Z.pow_0_r, Z.mul_1_r. exact HZ1. }
  apply wp_require. eapply wpZ_sqr; [exact HZ1|lk..|done|]. intros st2 HZ2. split; [done|].
  rewrite zval_sq, zval_zset in HZ2. eapply (IH _ _ vc' (vt * vt)); [|done|done|].
  - eapply RZ_eq; [exact HZ2|]. mapeq.
  - intros st' vt' HZ'. eapply HQ. rewrite EP. exact HZ'.
Qed.

Lemma wpZ_expt st ζ X a b c za zc (Q : Z -> state -> Prop) :
  RZ st ζ X -> ζ !! a = Some za -> ζ !! c = Some zc -> zo zc = None -> norm za -> 
  (b < 0 -> Q MP_RANGE st) ->
  (0 <= b -> forall st', RZ st' (<[c := zset znil (zval za ^ (b mod RADIX))]> ζ) X -> Q MP_OK st') ->
  wp (mp_int_expt a b c) Q st.
Proof.
  intros HZ Ha Hc Oc Na HQ0 HQ. unfold mp_int_expt. destruct (Z.ltb_spec b 0) as [H|H]; [apply wp_ret; auto|].
  destruct (RZ_s01 _ _ _ _ _ HZ Ha) as [M S].
  eapply wpZ_with_temp1; [exact HZ|]. intros t st1 Ht HZ1. assert (t <> a /\ t <> c) as [N1 N2] by (split; congruence).
  apply wp_require. eapply wpZ_copy; [exact HZ1|lk..|done|]. intros st2 HZ2. split; [done|]. rewrite norm_put, insert_insert in HZ2 by done.
  wb. eapply wpZ_set_value; [exact HZ2|lk|done|lia|]. intros st3 HZ3. apply RZ_nil in HZ3; [|done].
  rewrite insert_commute in HZ3 by done. apply RZ_nil in HZ3; [|done]. rewrite insert_commute in HZ3 by done.
  assert (u32 (Z.abs b) = b mod RADIX) as Eb by (rewrite Z.abs_eq by done; done).
  eapply wpZ_expt_loop; [exact HZ3|done| |]. { rewrite Eb. apply (Z.mod_pos_bound b RADIX); mx. }
  intros st4 vt' HZ4. rewrite Eb, Z.mul_1_l in HZ4. eexists (<[c := _]> ζ), (zset znil vt'). split; [lk|]. split; [done|]. split.
  - rewrite insert_commute by done. exact HZ4.
  - by apply HQ.
Qed.

Lemma wpZ_expt_value st ζ X a b c zc (Q : Z -> state -> Prop) :
  RZ st ζ X -> ζ !! c = Some zc -> zo zc = None -> - 2 ^ 63 < a < 2 ^ 63 ->
  (b < 0 -> Q MP_RANGE st) ->
  (0 <= b -> forall st', RZ st' (<[c := zset znil (a ^ (b mod RADIX))]> ζ) X -> Q MP_OK st') ->
  wp (mp_int_expt_value a b c) Q st.
Proof.
  intros HZ Hc Oc Hra HQ0 HQ. unfold mp_int_expt_value. destruct (Z.ltb_spec b 0) as [H|H]; [apply wp_ret; auto|].
  eapply wpZ_with_temp1; [exact HZ|]. intros t st1 Ht HZ1. assert (t <> c) as N2 by congruence.
  apply wp_require. eapply wpZ_set_value; [exact HZ1|lk..|done|lia|]. intros st2 HZ2. split; [done|]. rewrite insert_insert in HZ2.
  wb. eapply wpZ_set_value; [exact HZ2|lk|done|lia|]. intros st3 HZ3. apply RZ_nil in HZ3; [|done].
  rewrite insert_commute in HZ3 by done. apply RZ_nil in HZ3; [|done]. rewrite insert_commute in HZ3 by done.
  assert (u32 (Z.abs b) = b mod RADIX) as Eb by (rewrite Z.abs_eq by done; done).
  eapply wpZ_expt_loop; [exact HZ3|done| |]. { rewrite Eb. apply (Z.mod_pos_bound b RADIX); mx. }
  intros st4 vt' HZ4. rewrite Eb, Z.mul_1_l in HZ4. eexists (<[c := _]> ζ), (zset znil vt'). split; [lk|]. split; [done|]. split.
  - rewrite insert_commute by done. exact HZ4.
  - by apply HQ.
Qed.

(** One digit of the exponent, read from the object [b]. *)
Lemma wpZ_get_digit {A} st ζ X b zb ix (k : Z -> prog A) (Q : A -> state -> Prop) :
  RZ st ζ X -> ζ !! b = Some zb -> (ix < ndig (zm zb))%nat ->
  wp (k ((zm zb / Bn ix) mod RADIX)) Q st ->
  wp (db <- get_digits b; d <- Load (db +p Z.of_nat ix); k d)%prog Q st.
Proof.
  intros (σ & HR & Hz) Hb Hix HQ. destruct (relz_get _ _ _ _ Hz Hb) as (f & l & Hf & G). rewrite <- (goodw_ndig _ _ _ G) in Hix.
  wb. eapply wpR_digits; [done..|]. destruct (lookup_lt_is_Some_2 l ix Hix) as [d Hd].
  assert (darr (mem st) (fl f, 0) l) as Ha by (eapply view_darr; [done..|apply G]).
  pose proof (goodw_dig _ _ _ G) as D.
  wb. eapply (wp_load _ d).
  { rewrite <- (take_drop_middle l ix d Hd) in Ha. apply darr_app in Ha as [_ Ha]. apply darr_cons in Ha as [Ha _].
    rewrite take_length, Nat.min_l in Ha by lia. exact Ha. }
  replace d with ((zm zb / Bn ix) mod RADIX); [done|]. rewrite <- (g_val _ _ _ G), <- val_drop by (done || lia).
  rewrite (drop_S _ _ _ Hd). cbn [val]. pose proof (Forall_lookup_1 _ _ _ _ D Hd) as Dd. unfold dig in Dd.
  rewrite Z.add_mod, Z.mul_comm, Z.mod_mul, Z.add_0_r by mx. rewrite Z.mod_mod by mx. apply Z.mod_small. done.
Qed.

Lemma expt_bits_S n d ix b t c : expt_bits (S n) d ix b t c = (REQUIRE (if Z.odd d then mp_int_mul c t c else Ret MP_OK);;
      let d := Z.shiftr d 1 in
      ub <- get_used b;
      if ((d =? 0) && (ix + 1 =? ub))%bool then Ret MP_OK
      else REQUIRE mp_int_sqr t t;; expt_bits n d ix b t c)%prog.
Proof. done. Qed.
Lemma wpZ_expt_bits n d ix st ζ X b zb t c vc vt (Q : Z -> state -> Prop) :
  RZ st (<[c := zset znil vc]> (<[t := zset znil vt]> ζ)) X -> t <> c -> b <> c -> b <> t -> ζ !! b = Some zb -> 0 <= d < 2 ^ Z.of_nat n ->
  (forall st' vt', (ix + 1 <> Z.of_nat (ndig (zm zb)) -> vt' = vt ^ (2 ^ Z.of_nat n)) ->
     RZ st' (<[c := zset znil (vc * vt ^ d)]> (<[t := zset znil vt']> ζ)) X -> Q MP_OK st') ->
  wp (expt_bits n d ix b t c) Q st.
Proof.
  revert d st vc vt. induction n as [|n IH]; intros d st vc vt HZ N1 N2 N3 Hb Hd HQ.
  { apply wp_ret. simpl in Hd. assert (d = 0) as -> by lia. eapply (HQ _ vt). { intros _. simpl. by rewrite Z.pow_1_r. } by rewrite Z.pow_0_r, Z.mul_1_r. }
  rewrite expt_bits_S. cbv zeta. set (vc' := if Z.odd d then vc * vt else vc).
  assert (vc * vt ^ d = vc' * (vt * vt) ^ (Z.shiftr d 1)) as EP.
  { unfold vc'. destruct (Z.odd d) eqn:Eo; [rewrite pow_odd_split by (done || lia)|rewrite pow_even_split by (done || lia)]; ring. }
  assert (0 <= Z.shiftr d 1 < 2 ^ Z.of_nat n) as Hs.
  { rewrite Z.shiftr_div_pow2 by lia. change (2 ^ 1) with 2. split; [apply Z.div_pos; lia|]. apply Z.div_lt_upper_bound; [lia|].
    rewrite Nat2Z.inj_succ, Z.pow_succ_r in Hd by lia. lia. }
  apply wp_require. apply (wp_mono _ (fun r st' => r = MP_OK /\ RZ st' (<[c := zset znil vc']> (<[t := zset znil vt]> ζ)) X)).
  { unfold vc'. destruct (Z.odd d); [|by apply wp_ret]. eapply wpZ_mul; [exact HZ|lk..|done|]. intros st1 HZ1. rewrite !zval_zset, insert_insert in HZ1. done. }
  intros ? st1 (-> & HZ1). split; [done|].
  wb. eapply wpZ_used; [exact HZ1|lk|]. intros _.
  destruct (Z.eqb_spec (Z.shiftr d 1) 0) as [E1|E1], (Z.eqb_spec (ix + 1) (Z.of_nat (ndig (zm zb)))) as [E2|E2]; simpl andb; cbv iota.
  { apply wp_ret. eapply (HQ _ vt). { congruence. } rewrite EP, E1, Z.pow_0_r, Z.mul_1_r. exact HZ1. }
  all: apply wp_require; (eapply wpZ_sqr; [exact HZ1|lk..|done|]); intros st2 HZ2; (split; [done|]);
    rewrite zval_sq, zval_zset in HZ2; eapply (IH _ _ vc' (vt * vt)); [|done|done|done|done|done|];
    [eapply RZ_eq; [exact HZ2|]; mapeq|];
    intros st' vt' Hvt' HZ'; rewrite <- EP in HZ'; eapply (HQ _ vt'); [|exact HZ']; intros Hne; rewrite (Hvt' Hne);
    rewrite Nat2Z.inj_succ, (Z.pow_succ_r 2) by lia; rewrite Z.pow_mul_r by (try apply Z.pow_nonneg; lia); by rewrite Z.pow_2_r.
Qed.

Lemma expt_digits_eq fuel ix b t c : expt_digits fuel ix b t c = (ub <- get_used b;
  if ix <? ub then
    match fuel with
    | O => NoFuel
    | S f =>
      db <- get_digits b;
      d <- Load (db +p ix);
      REQUIRE expt_bits 32 d ix b t c;;
      expt_digits f (ix + 1) b t c
    end
  else Ret MP_OK)%prog.
Proof. by destruct fuel. Qed.

Lemma wpZ_expt_digits fuel ix st ζ X b zb t c a vt (Q : Z -> state -> Prop) :
  RZ st (<[c := zset znil (a ^ (zm zb mod Bn ix))]> (<[t := zset znil vt]> ζ)) X -> t <> c -> b <> c -> b <> t -> ζ !! b = Some zb -> 
  (ix <= ndig (zm zb))%nat -> (ndig (zm zb) - ix <= fuel)%nat -> ((ix < ndig (zm zb))%nat -> vt = a ^ Bn ix) ->
  (forall st' vt', RZ st' (<[c := zset znil (a ^ zm zb)]> (<[t := zset znil vt']> ζ)) X -> Q MP_OK st') ->
  wp (expt_digits fuel (Z.of_nat ix) b t c) Q st.
Proof.
  intros HZ N1 N2 N3 Hb. assert (0 <= zm zb < Bn (ndig (zm zb))) as Hbb by (eapply (RZ_ndig _ _ _ b); [exact HZ|lk]). 
  revert ix st vt HZ. induction fuel as [|f IH]; intros ix st vt HZ Hix Hf Hvt HQ; rewrite expt_digits_eq; wb; (eapply wpZ_used; [exact HZ|lk|]); intros _.
  { assert (ix = ndig (zm zb)) as -> by lia. rewrite Z.ltb_irrefl. apply wp_ret. eapply HQ. rewrite Z.mod_small in HZ by done. exact HZ. }
  destruct (Z.ltb_spec (Z.of_nat ix) (Z.of_nat (ndig (zm zb)))) as [Hlt|Hge].
  2:{ assert (ix = ndig (zm zb)) as -> by lia. apply wp_ret. eapply HQ. rewrite Z.mod_small in HZ by done. exact HZ. }
  assert (ix < ndig (zm zb))%nat as Hlt' by lia. specialize (Hvt Hlt'). subst vt.
  eapply wpZ_get_digit; [exact HZ|lk|done|]. set (d := (zm zb / Bn ix) mod RADIX).
  assert (0 <= d < RADIX) as Hd by (apply Z.mod_pos_bound; mx). pose proof (Bn_pos ix) as HBp.
  apply wp_require. eapply (wpZ_expt_bits 32 d); [exact HZ|done|done|done|done|exact Hd|]. intros st1 vt1 Hvt1 HZ1. split; [done|].
  assert (Z.of_nat ix + 1 <> Z.of_nat (ndig (zm zb)) -> vt1 = a ^ Bn (S ix)) as Hvt2.
  { intros H. rewrite (Hvt1 H). rewrite <- Z.pow_mul_r; [|by apply Z.lt_le_incl|by apply Z.pow_nonneg]. f_equal. rewrite Bn_S. change (2 ^ Z.of_nat 32) with RADIX. apply Z.mul_comm. }
  clear Hvt1.
  replace (Z.of_nat ix + 1) with (Z.of_nat (S ix)) by lia. eapply (IH _ _ vt1); [|lia|lia| |exact HQ].
  - eapply RZ_eq; [exact HZ1|]. f_equal. f_equal. rewrite <- Z.pow_mul_r by lia. rewrite <- Z.pow_add_r by (try (apply Z.mod_pos_bound; lia); nia). f_equal.
    unfold d. rewrite Bn_S, (Z.mul_comm RADIX). rewrite Z.rem_mul_r by mx. ring.
  - intros H. apply Hvt2. lia.
Qed.

Lemma wpZ_expt_full st ζ X a b c za zb zc (Q : Z -> state -> Prop) :
  RZ st ζ X -> ζ !! a = Some za -> ζ !! b = Some zb -> ζ !! c = Some zc -> zo zc = None -> norm za -> norm zb -> b <> c ->
  (zval zb < 0 -> Q MP_RANGE st) ->
  (0 <= zval zb -> forall st', RZ st' (<[c := zset znil (zval za ^ zval zb)]> ζ) X -> Q MP_OK st') ->
  wp (mp_int_expt_full a b c) Q st.
Proof.
  intros HZ Ha Hb Hc Oc Na Nb Nbc HQ0 HQ. unfold mp_int_expt_full. destruct (RZ_s01 _ _ _ _ _ HZ Hb) as [Mb Sb].
  destruct (RZ_s01 _ _ _ _ _ HZ Ha) as [M S].
  wb. eapply wpZ_sign; [done..|]. change MP_NEG with 1. destruct (Z.eqb_spec (zs zb) 1) as [E|E].
  { apply wp_ret. apply HQ0. unfold zval. rewrite E. simpl. unfold norm in Nb. lia. }
  assert (zval zb = zm zb) as Eb by (unfold zval; destruct (Z.eqb_spec (zs zb) 0); lia). rewrite Eb in *. specialize (HQ Mb).
  wb. eapply wpZ_used; [done..|]. intros _. rewrite Nat2Z.id.
  eapply wpZ_with_temp1; [exact HZ|]. intros t st1 Ht HZ1. assert (t <> a /\ t <> c /\ b <> t) as (N1 & N2 & N3) by (split_and!; congruence).
  apply wp_require. eapply wpZ_copy; [exact HZ1|lk..|done|]. intros st2 HZ2. split; [done|]. rewrite norm_put, insert_insert in HZ2 by done.
  wb. eapply wpZ_set_value; [exact HZ2|lk|done|lia|]. intros st3 HZ3. apply RZ_nil in HZ3; [|done].
  rewrite insert_commute in HZ3 by done. apply RZ_nil in HZ3; [|done]. rewrite insert_commute in HZ3 by done.
  eapply (wpZ_expt_digits _ 0 _ _ _ b zb t c (zval za)); [|done|done|done|done|lia|lia| |].
  - rewrite Bn_0, Z.mod_1_r, Z.pow_0_r. exact HZ3.
  - intros _. by rewrite Bn_0, Z.pow_1_r.
  - intros st4 vt' HZ4. eexists (<[c := _]> ζ), (zset znil vt'). split; [lk|]. split; [done|]. split.
    + rewrite insert_commute by done. exact HZ4.
    + by apply HQ.
Qed.
