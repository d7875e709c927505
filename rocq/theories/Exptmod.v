(** The modular exponentiation functions. *)
From Coq Require Import ZArith List Lia.
From stdpp Require Import gmap list.
From Verif Require Import Mem Prog Kern Imath Wp MemLem Dig KernLem KernMul KernKar KernDig Rel RelWp RelZ Life Basic Basic2 Mult Shift Knuth Divi Powr Spec Public Barrett Embar.
Local Open Scope Z_scope.

Lemma wpZ_GROW (st : state) (ζ : gmap oid zv) (X : ctx) (o : oid) (z : zv) (n : Z) (Q : Z -> state -> Prop) :
  RZ st ζ X -> ζ !! o = Some z -> zo z = None -> 0 <= n < RADIX - 1 ->
  (forall st', RZ st' (<[o := zcap z (Z.to_nat n)]> ζ) X -> Q MP_OK st') ->
  wp (GROW o n) Q st.
Proof.
  intros HZ Ho Oz Hn HQ. eapply wpP_GROW; [by apply RZ_RP|apply lookup_empty|done..|].
  intros st' HP. apply HQ. by eapply RP_RZ.
Qed.
Lemma wpZ_pad (st : state) (ζ : gmap oid zv) (X : ctx) (o : oid) (z : zv) (n : Z) (Q : bool -> state -> Prop) :
  RZ st ζ X -> ζ !! o = Some z -> zo z = None -> 0 <= n < RADIX - 1 ->
  (forall st', RZ st' ζ X -> Q true st') -> wp (s_pad o n) Q st.
Proof.
  intros (σ & HR & Hz) Ho Oz Hn HQ. destruct (relz_get _ _ _ _ Hz Ho) as (f & l & Hf & G).
  eapply wpR_padg; [done..|]. intros st' F HR' G' K Hl _. apply HQ.
  rewrite <- (insert_id ζ o z) by done. eapply RZ_upd; [done|done|by eexists].
Qed.
Lemma wpZ_brmu (st : state) (ζ : gmap oid zv) (X : ctx) (z m : oid) (zz zm_ : zv) (Q : Z -> state -> Prop) :
  RZ st ζ X -> ζ !! z = Some zz -> ζ !! m = Some zm_ -> z <> m -> zo zz = None -> zm zm_ <> 0 ->
  (forall st', RZ st' (<[z := zset zz (Z.quot (if zs zz =? 0 then Bn (2 * ndig (zm zm_)) else - Bn (2 * ndig (zm zm_))) (zval zm_))]> ζ) X -> Q MP_OK st') ->
  wp (s_brmu z m) Q st.
Proof.
  intros HZ Hz Hm N Oz HM HQ. destruct (RZ_ndig _ _ _ _ _ HZ Hm) as [_ LM].
  unfold s_brmu. wb. eapply wpZ_used; [done..|]. intros _. rewrite u32_id by mx.
  wb. eapply wpZ_pad; [done..|mx|]. intros st1 HZ1. cbn [negb].
  wb. eapply wpZ_2expt; [exact HZ1|done|done|mx|]. intros st2 HZ2.
  replace (2 ^ (32 * (Z.of_nat (ndig (zm zm_)) * 2))) with (Bn (2 * ndig (zm zm_))) in HZ2 by (rewrite Bn_pow2; f_equal; lia).
  set (B := Bn (2 * ndig (zm zm_))) in *. assert (0 < B) as HB by apply Bn_pos.
  eapply (wpZ_div st2 _ X z m (Some z) None); [exact HZ2|lk|lk|done|intros x [= <-]; eexists; split; [lk|done]|by intros ?| | |].
  - intros E. cbn [zm zput] in E. lia.
  - done.
  - intros _ st3 HZ3. apply HQ. cbn [oput] in HZ3. rewrite lookup_insert, insert_insert in HZ3.
    unfold zval at 1 in HZ3. cbn [zs zm zput] in HZ3. exact HZ3.
Qed.

(** The value computed: [a ^ b] modulo [m], but 1 when [b] is zero. *)
Definition emval (a b m : Z) : Z := if b =? 0 then 1 else a ^ b mod m.
Lemma acc_emval (zm_ : zv) (va vb vc : Z) : 0 < zm zm_ -> 0 <= vb -> acc zm_ 1 (va mod zm zm_) vb vc -> vc = emval va vb (zm zm_).
Proof.
  intros HM Hb (B & C & L & Z0). unfold emval. destruct (Z.eqb_spec vb 0) as [->|N]; [by apply Z0|].
  rewrite Z.mul_1_l, (pow_mod_l zm_ HM) in C by done. rewrite Z.mod_small in C; [done|]. split; [lia|]. apply L. by right.
Qed.
Lemma mu_pos (zm_ : zv) k : 0 < zm zm_ -> zs zm_ = 0 -> Z.quot (Bn k) (zval zm_) = Bn k / zm zm_ /\ 0 <= Bn k / zm zm_.
Proof.
  intros HM S. unfold zval. rewrite S. cbn. pose proof (Bn_pos k).
  split; [apply Z.quot_div_nonneg; lia|apply Z.div_pos; lia].
Qed.

Lemma wpZ_exptmod (st : state) (ζ : gmap oid zv) (X : ctx) (a b m c : oid) (za zb zm_ zC : zv) (Q : Z -> state -> Prop) :
  RZ st ζ X -> ζ !! a = Some za -> ζ !! b = Some zb -> ζ !! m = Some zm_ -> ζ !! c = Some zC ->
  zo zC = None -> norm za -> norm zm_ -> norm zC -> (0 <= zval zb -> 0 <= zval zm_) ->
  (zval zm_ = 0 -> Q MP_UNDEF st) -> (zval zm_ <> 0 -> zval zb < 0 -> Q MP_RANGE st) ->
  (0 < zval zm_ -> 0 <= zval zb -> forall st', RZ st' (<[c := zset zC (emval (zval za) (zval zb) (zval zm_))]> ζ) X -> Q MP_OK st') ->
  wp (mp_int_exptmod a b m c) Q st.
Proof.
  intros HZ Ha Hb Hm Hc Oc Na Nm Nc Mge HQ0 HQ1 HQ.
  destruct (RZ_s01 _ _ _ _ _ HZ Hm) as [Mm Sm]. destruct (RZ_s01 _ _ _ _ _ HZ Hb) as [Mb Sb].
  unfold mp_int_exptmod. wb. eapply wpZ_CMPZ; [done..|].
  destruct (Z.eqb_spec (Z.sgn (zval zm_)) 0) as [E|E]; [apply wp_ret, HQ0; by apply Z.sgn_null_iff|].
  assert (zval zm_ <> 0) as HM0 by (intros E'; by rewrite E' in E). clear E.
  wb. eapply wpZ_CMPZ; [done..|].
  destruct (Z.ltb_spec (Z.sgn (zval zb)) 0) as [E|E]; [apply wp_ret, HQ1; [done|destruct (Z.sgn_spec (zval zb)) as [[? ?]|[[? ?]|[? ?]]]; lia]|].
  assert (0 <= zval zb) as HB. { destruct (Z.sgn_spec (zval zb)) as [[? ?]|[[? ?]|[? ?]]]; lia. } clear E.
  assert (0 < zval zm_) as HM by (specialize (Mge HB); lia).
  assert (zs zm_ = 0) as Sm0. { unfold zval in HM. destruct (Z.eqb_spec (zs zm_) 0); [done|lia]. }
  assert (zval zm_ = zm zm_) as EM by (unfold zval; by rewrite Sm0).
  assert (zval zb = zm zb) as EB. { unfold zval in *. destruct (Z.eqb_spec (zs zb) 0); [done|lia]. }
  destruct (RZ_ndig _ _ _ _ _ HZ Hm) as [_ LM].
  wb. eapply wpZ_used; [done..|]. intros _.
  assert (0 <= u32 (2 * Z.of_nat (ndig (zm zm_))) < RADIX - 1) as Hn by (rewrite u32_id; mx).
  set (n := u32 _) in *.
  eapply wpZ_with_temp1; [exact HZ|]. intros t0 st1 F0 HZ1.
  eapply wpZ_with_temp1; [exact HZ1|]. intros t1 st2 F1 HZ2. apply lookup_insert_None in F1 as [F1 N01].
  eapply wpZ_with_temp1; [exact HZ2|]. intros t2 st3 F2 HZ3. apply lookup_insert_None in F2 as [F2 N12]. apply lookup_insert_None in F2 as [F2 N02].
  assert (a <> t0 /\ a <> t1 /\ a <> t2) as (Na0 & Na1 & Na2) by (split_and!; congruence).
  assert (b <> t0 /\ b <> t1 /\ b <> t2) as (Nb0 & Nb1 & Nb2) by (split_and!; congruence).
  assert (c <> t0 /\ c <> t1 /\ c <> t2) as (Nc0 & Nc1 & Nc2) by (split_and!; congruence).
  assert (m <> t0 /\ m <> t1 /\ m <> t2) as (Nm0 & Nm1 & Nm2) by (split_and!; congruence).
  apply wp_require. eapply (wpZ_GROW st3 _ X t0); [exact HZ3|lk|done|done|]. intros st4 HZ4. split; [done|].
  apply wp_require. eapply (wpZ_GROW st4 _ X t1); [exact HZ4|lk|done|done|]. intros st5 HZ5. split; [done|].
  set (al := (bool_decide (c = b) || bool_decide (c = m))%bool).
  cbv zeta. set (s := if al then t2 else c).
  set (zw := zcap zzero (Z.to_nat n)) in *.
  apply wp_require. eapply (wp_mono _ (fun r st' => r = MP_OK /\ exists z2, zo z2 = None /\
    RZ st' (<[t0 := zw]> (<[t1 := zw]> (<[t2 := z2]> ζ))) X)).
  { destruct al.
    - eapply (wpZ_GROW st5 _ X t2); [exact HZ5|lk|done|done|]. intros st6 HZ6. split; [done|]. eexists. split; [|eapply RZ_eq; [exact HZ6|mapeq]]; done.
    - apply wp_ret. split; [done|]. exists zzero. split; [done|]. eapply RZ_eq; [exact HZ5|mapeq]. }
  intros r st6 (-> & z2 & Oz2 & HZ6). split; [done|]. clear dependent st1 st2. clear dependent st3 st4 st5.
  assert (s <> t0 /\ s <> t1 /\ s <> b /\ s <> m) as (Ns0 & Ns1 & Nsb & Nsm).
  { unfold s, al. repeat case_bool_decide; simpl; split_and!; congruence. }
  assert (zo zw = None) as Ow by done.
  apply wp_require. eapply (wpZ_mod st6 _ X a m t0); [exact HZ6|lk|lk|lk|done|done|done|lia|].
  intros _ st7 HZ7. rewrite mod_val_pos in HZ7 by done. split; [done|].
  apply wp_require. eapply (wpZ_brmu st7 _ X t1 m); [exact HZ7|lk|lk|done|done|lia|].
  intros st8 HZ8. split; [done|]. change (zs zw =? 0) with true in HZ8. cbv iota in HZ8.
  destruct (mu_pos zm_ (2 * ndig (zm zm_)) ltac:(lia) Sm0) as [Emu Pmu]. rewrite Emu in HZ8. set (μ := _ / _) in *.
  pose proof (Z.mod_pos_bound (zval za) (zval zm_) HM) as Ba.
  set (z0 := zset zw (zval za mod zval zm_)) in *. assert (zs z0 = 0 /\ zm z0 = zval za mod zval zm_) as [Ez0s Ez0].
  { unfold z0, zset. destruct (Z.ltb_spec (zval za mod zval zm_) 0); [lia|]. split; [done|]. cbn [zm zput]. lia. }
  set (z1 := zset zw μ) in *. assert (zm z1 = μ) as Ez1. { unfold z1, zset. cbn [zm zput]. lia. }
  assert (exists zS, (<[t0 := z0]> (<[t1 := z1]> (<[t2 := z2]> ζ))) !! s = Some zS /\ zo zS = None) as (zS & HS & OS).
  { unfold s. destruct al; eexists; (split; [lk|done]). }
  assert (RZ st8 (<[t0 := z0]> (<[t1 := z1]> (<[t2 := z2]> ζ))) X) as HZ8' by (eapply RZ_eq; [exact HZ8|mapeq]). clear st7 HZ7 HZ8.
  apply wp_require. eapply (wpZ_embar st8 _ X t0 b m t1 s); [exact HZ8'|lk|lk|lk|lk|exact HS|congruence|congruence|congruence|congruence|congruence|congruence|congruence|done|done|done|done|lia| | |].
  { rewrite Ez1. done. } { rewrite Ez0. lia. }
  intros st9 va vc HZ9 A. split; [done|]. rewrite Ez0, EM in A. apply acc_emval in A; [|lia|lia]. rewrite <- EB, <- EM in A.
  assert (0 <= vc) as Hvc. { rewrite A. unfold emval. destruct (_ =? _); [lia|]. apply Z.mod_pos_bound. lia. }
  rewrite <- A in HQ. rewrite A in Hvc.
  apply wp_require. eapply (wp_mono _ (fun r st' => r = MP_OK /\ exists z0' z1' z2', zo z0' = None /\ zo z1' = None /\ zo z2' = None /\
    RZ st' (<[t2 := z2']> (<[t1 := z1']> (<[t0 := z0']> (<[c := zset zC vc]> ζ)))) X)).
  { assert (zset zC vc = zput zC 0 vc) as EzC. { unfold zset. rewrite A. destruct (Z.ltb_spec (emval (zval za) (zval zb) (zval zm_)) 0); [lia|]. by rewrite Z.abs_eq. }
    unfold s in *. destruct al.
    - eapply (wpZ_copy st9 _ X t2 c); [exact HZ9|lk|lk|done|]. cbn [zs zm zput]. intros st10 HZ10. split; [done|].
      eexists _, _, _. split; [|split; [|split; [|eapply RZ_eq; [exact HZ10|rewrite EzC; mapeq]]]]; [done|done|]. rewrite lookup_insert_ne in HS by done. rewrite lookup_insert_ne in HS by done. rewrite lookup_insert in HS. injection HS as <-. done.
    - rewrite !lookup_insert_ne, Hc in HS by done. injection HS as <-.
      eapply (wpZ_copy st9 _ X c c); [exact HZ9|lk|lk|done|]. cbn [zs zm zput]. intros st10 HZ10. split; [done|].
      eexists _, _, _. split; [|split; [|split; [|eapply RZ_eq; [exact HZ10|rewrite EzC; mapeq]]]]; done. }
  intros r st10 (-> & z0' & z1' & z2' & O0 & O1 & O2 & HZ10). split; [done|]. apply wp_ret.
  eexists _, _. split; [|split; [|split; [exact HZ10|]]]; [lk|done|]. intros st11 HZ11.
  eexists _, _. split; [|split; [|split; [exact HZ11|]]]; [lk|done|]. intros st12 HZ12.
  eexists _, _. split; [|split; [|split; [exact HZ12|]]]; [lk|done|]. intros st13 HZ13. apply HQ; [done|done|exact HZ13].
Qed.

Lemma wpZ_exptmod_evalue (st : state) (ζ : gmap oid zv) (X : ctx) (a : oid) (v : Z) (m c : oid) (za zm_ zC : zv) (Q : Z -> state -> Prop) :
  RZ st ζ X -> ζ !! a = Some za -> ζ !! m = Some zm_ -> ζ !! c = Some zC ->
  zo zC = None -> norm za -> norm zm_ -> norm zC -> (0 <= v -> 0 <= zval zm_) -> - 2 ^ 63 < v < 2 ^ 63 ->
  (zval zm_ = 0 -> forall st', RZ st' ζ X -> Q MP_UNDEF st') -> (zval zm_ <> 0 -> v < 0 -> forall st', RZ st' ζ X -> Q MP_RANGE st') ->
  (0 < zval zm_ -> 0 <= v -> forall st', RZ st' (<[c := zset zC (emval (zval za) v (zval zm_))]> ζ) X -> Q MP_OK st') ->
  wp (mp_int_exptmod_evalue a v m c) Q st.
Proof.
  intros HZ Ha Hm Hc Oc Na Nm Nc Mge Hv HQ0 HQ1 HQ. unfold mp_int_exptmod_evalue. eapply wpZ_with_fake1; [done..|].
  intros t n st1 Ht HZ1. assert (a <> t) by congruence. assert (c <> t) by congruence. assert (m <> t) by congruence.
  eapply (wpZ_exptmod st1 _ X a t m c); [exact HZ1|lk|lk|lk|lk|done|done|done|done|by rewrite fakev_val| | |]; rewrite ?fakev_val.
  - intros E. exists ζ, X. split; [done|]. split; [done|]. by apply HQ0.
  - intros E E2. exists ζ, X. split; [done|]. split; [done|]. by apply HQ1.
  - intros E E2 st2 HZ2. specialize (HQ E E2). fin_fake c t HZ2 HQ.
Qed.
Lemma wpZ_exptmod_bvalue (st : state) (ζ : gmap oid zv) (X : ctx) (v : Z) (b m c : oid) (zb zm_ zC : zv) (Q : Z -> state -> Prop) :
  RZ st ζ X -> ζ !! b = Some zb -> ζ !! m = Some zm_ -> ζ !! c = Some zC ->
  zo zC = None -> norm zm_ -> norm zC -> (0 <= zval zb -> 0 <= zval zm_) -> - 2 ^ 63 < v < 2 ^ 63 ->
  (zval zm_ = 0 -> forall st', RZ st' ζ X -> Q MP_UNDEF st') -> (zval zm_ <> 0 -> zval zb < 0 -> forall st', RZ st' ζ X -> Q MP_RANGE st') ->
  (0 < zval zm_ -> 0 <= zval zb -> forall st', RZ st' (<[c := zset zC (emval v (zval zb) (zval zm_))]> ζ) X -> Q MP_OK st') ->
  wp (mp_int_exptmod_bvalue v b m c) Q st.
Proof.
  intros HZ Hb Hm Hc Oc Nm Nc Mge Hv HQ0 HQ1 HQ. unfold mp_int_exptmod_bvalue. eapply wpZ_with_fake1; [done..|].
  intros t n st1 Ht HZ1. assert (b <> t) by congruence. assert (c <> t) by congruence. assert (m <> t) by congruence.
  eapply (wpZ_exptmod st1 _ X t b m c); [exact HZ1|lk|lk|lk|lk|done|apply fakev_norm|done|done|done| | |]; rewrite ?fakev_val.
  - intros E. exists ζ, X. split; [done|]. split; [done|]. by apply HQ0.
  - intros E E2. exists ζ, X. split; [done|]. split; [done|]. by apply HQ1.
  - intros E E2 st2 HZ2. specialize (HQ E E2). fin_fake c t HZ2 HQ.
Qed.
Lemma wpZ_exptmod_known (st : state) (ζ : gmap oid zv) (X : ctx) (a b m mu c : oid) (za zb zm_ zmu zC : zv) (Q : Z -> state -> Prop) :
  RZ st ζ X -> ζ !! a = Some za -> ζ !! b = Some zb -> ζ !! m = Some zm_ -> ζ !! mu = Some zmu -> ζ !! c = Some zC ->
  c <> mu -> zo zC = None -> norm za -> norm zm_ -> norm zC -> (0 <= zval zb -> 0 <= zval zm_) ->
  (0 < zval zm_ -> 0 <= zval zb -> zm zmu = Bn (2 * ndig (zm zm_)) / zm zm_) ->
  (zval zm_ = 0 -> Q MP_UNDEF st) -> (zval zm_ <> 0 -> zval zb < 0 -> Q MP_RANGE st) ->
  (0 < zval zm_ -> 0 <= zval zb -> forall st', RZ st' (<[c := zset zC (emval (zval za) (zval zb) (zval zm_))]> ζ) X -> Q MP_OK st') ->
  wp (mp_int_exptmod_known a b m mu c) Q st.
Proof.
  intros HZ Ha Hb Hm Hmu Hc Ncu Oc Na Nm Nc Mge Emu HQ0 HQ1 HQ.
  destruct (RZ_s01 _ _ _ _ _ HZ Hm) as [Mm Sm]. destruct (RZ_s01 _ _ _ _ _ HZ Hb) as [Mb Sb].
  unfold mp_int_exptmod_known. wb. eapply wpZ_CMPZ; [done..|].
  destruct (Z.eqb_spec (Z.sgn (zval zm_)) 0) as [E|E]; [apply wp_ret, HQ0; by apply Z.sgn_null_iff|].
  assert (zval zm_ <> 0) as HM0 by (intros E'; by rewrite E' in E). clear E.
  wb. eapply wpZ_CMPZ; [done..|].
  destruct (Z.ltb_spec (Z.sgn (zval zb)) 0) as [E|E]; [apply wp_ret, HQ1; [done|destruct (Z.sgn_spec (zval zb)) as [[? ?]|[[? ?]|[? ?]]]; lia]|].
  assert (0 <= zval zb) as HB. { destruct (Z.sgn_spec (zval zb)) as [[? ?]|[[? ?]|[? ?]]]; lia. } clear E.
  assert (0 < zval zm_) as HM by (specialize (Mge HB); lia). specialize (Emu HM HB).
  assert (zs zm_ = 0) as Sm0. { unfold zval in HM. destruct (Z.eqb_spec (zs zm_) 0); [done|lia]. }
  assert (zval zm_ = zm zm_) as EM by (unfold zval; by rewrite Sm0).
  assert (zval zb = zm zb) as EB. { unfold zval in *. destruct (Z.eqb_spec (zs zb) 0); [done|lia]. }
  destruct (RZ_ndig _ _ _ _ _ HZ Hm) as [_ LM].
  wb. eapply wpZ_used; [done..|]. intros _.
  assert (0 <= u32 (2 * Z.of_nat (ndig (zm zm_))) < RADIX - 1) as Hn by (rewrite u32_id; mx).
  set (n := u32 _) in *.
  eapply wpZ_with_temp1; [exact HZ|]. intros t0 st1 F0 HZ1.
  eapply wpZ_with_temp1; [exact HZ1|]. intros t1 st2 F1 HZ2. apply lookup_insert_None in F1 as [F1 N01].
  assert (a <> t0 /\ a <> t1) as (Na0 & Na1) by (split_and!; congruence).
  assert (b <> t0 /\ b <> t1) as (Nb0 & Nb1) by (split_and!; congruence).
  assert (c <> t0 /\ c <> t1) as (Nc0 & Nc1) by (split_and!; congruence).
  assert (m <> t0 /\ m <> t1) as (Nm0 & Nm1) by (split_and!; congruence).
  assert (mu <> t0 /\ mu <> t1) as (Nu0 & Nu1) by (split_and!; congruence).
  apply wp_require. eapply (wpZ_GROW st2 _ X t0); [exact HZ2|lk|done|done|]. intros st4 HZ4. split; [done|].
  set (al := (bool_decide (c = b) || bool_decide (c = m))%bool).
  cbv zeta. set (s := if al then t1 else c).
  set (zw := zcap zzero (Z.to_nat n)) in *.
  apply wp_require. eapply (wp_mono _ (fun r st' => r = MP_OK /\ exists z2, zo z2 = None /\
    RZ st' (<[t0 := zw]> (<[t1 := z2]> ζ)) X)).
  { destruct al.
    - eapply (wpZ_GROW st4 _ X t1); [exact HZ4|lk|done|done|]. intros st6 HZ6. split; [done|]. eexists. split; [|eapply RZ_eq; [exact HZ6|mapeq]]; done.
    - apply wp_ret. split; [done|]. exists zzero. split; [done|]. eapply RZ_eq; [exact HZ4|mapeq]. }
  intros r st6 (-> & z2 & Oz2 & HZ6). split; [done|]. clear dependent st1 st2. clear dependent st4.
  assert (s <> t0 /\ s <> b /\ s <> m /\ s <> mu) as (Ns0 & Nsb & Nsm & Nsu).
  { unfold s, al. repeat case_bool_decide; simpl; split_and!; congruence. }
  assert (zo zw = None) as Ow by done.
  apply wp_require. eapply (wpZ_mod st6 _ X a m t0); [exact HZ6|lk|lk|lk|done|done|done|lia|].
  intros _ st7 HZ7. rewrite mod_val_pos in HZ7 by done. split; [done|].
  pose proof (Z.mod_pos_bound (zval za) (zval zm_) HM) as Ba.
  set (z0 := zset zw (zval za mod zval zm_)) in *. assert (zs z0 = 0 /\ zm z0 = zval za mod zval zm_) as [Ez0s Ez0].
  { unfold z0, zset. destruct (Z.ltb_spec (zval za mod zval zm_) 0); [lia|]. split; [done|]. cbn [zm zput]. lia. }
  rewrite insert_insert in HZ7.
  assert (exists zS, (<[t0 := z0]> (<[t1 := z2]> ζ)) !! s = Some zS /\ zo zS = None) as (zS & HS & OS).
  { unfold s. destruct al; eexists; (split; [lk|done]). }
  apply wp_require. eapply (wpZ_embar st7 _ X t0 b m mu s); [exact HZ7|lk|lk|lk|lk|exact HS|congruence|congruence|congruence|congruence|congruence|congruence|congruence|done|done|done|done|lia|done| |].
  { rewrite Ez0. lia. }
  intros st9 va vc HZ9 A. split; [done|]. rewrite Ez0, EM in A. apply acc_emval in A; [|lia|lia]. rewrite <- EB, <- EM in A.
  assert (0 <= vc) as Hvc. { rewrite A. unfold emval. destruct (_ =? _); [lia|]. apply Z.mod_pos_bound. lia. }
  rewrite <- A in HQ. rewrite A in Hvc.
  apply wp_require. eapply (wp_mono _ (fun r st' => r = MP_OK /\ exists z0' z2', zo z0' = None /\ zo z2' = None /\
    RZ st' (<[t1 := z2']> (<[t0 := z0']> (<[c := zset zC vc]> ζ))) X)).
  { assert (zset zC vc = zput zC 0 vc) as EzC. { unfold zset. rewrite A. destruct (Z.ltb_spec (emval (zval za) (zval zb) (zval zm_)) 0); [lia|]. by rewrite Z.abs_eq. }
    unfold s in *. destruct al.
    - eapply (wpZ_copy st9 _ X t1 c); [exact HZ9|lk|lk|done|]. cbn [zs zm zput]. intros st10 HZ10. split; [done|].
      eexists _, _. split; [|split; [|eapply RZ_eq; [exact HZ10|rewrite EzC; mapeq]]]; [done|]. rewrite lookup_insert_ne in HS by done. rewrite lookup_insert in HS. injection HS as <-. done.
    - rewrite !lookup_insert_ne, Hc in HS by done. injection HS as <-.
      eapply (wpZ_copy st9 _ X c c); [exact HZ9|lk|lk|done|]. cbn [zs zm zput]. intros st10 HZ10. split; [done|].
      eexists _, _. split; [|split; [|eapply RZ_eq; [exact HZ10|rewrite EzC; mapeq]]]; done. }
  intros r st10 (-> & z0' & z2' & O0 & O2 & HZ10). split; [done|]. apply wp_ret.
  eexists _, _. split; [|split; [|split; [exact HZ10|]]]; [lk|done|]. intros st12 HZ12.
  eexists _, _. split; [|split; [|split; [exact HZ12|]]]; [lk|done|]. intros st13 HZ13. apply HQ; [done|done|exact HZ13].
Qed.
Lemma wpZ_redux_const (st : state) (ζ : gmap oid zv) (X : ctx) (m c : oid) (zm_ zC : zv) (Q : Z -> state -> Prop) :
  RZ st ζ X -> ζ !! m = Some zm_ -> ζ !! c = Some zC -> m <> c -> zo zC = None -> zm zm_ <> 0 ->
  (forall st', RZ st' (<[c := zset zC (Z.quot (if zs zC =? 0 then Bn (2 * ndig (zm zm_)) else - Bn (2 * ndig (zm zm_))) (zval zm_))]> ζ) X -> Q MP_OK st') ->
  wp (mp_int_redux_const m c) Q st.
Proof.
  intros HZ Hm Hc N Oc HM HQ. unfold mp_int_redux_const. wb. apply wp_assert; [by rewrite bool_decide_eq_false_2|].
  eapply wpZ_brmu; [done..|congruence|done|done|done].
Qed.

(** ** Over the values *)
Lemma barrett_const_Bn m : 0 < m -> barrett_const m = Bn (2 * ndig m) / m.
Proof.
  intros Hm. unfold barrett_const. rewrite Bn_pow2. unfold ndig. destruct (Z.leb_spec m 0); [lia|].
  pose proof (Z.log2_nonneg m). pose proof (Z.div_pos (Z.log2 m) 32 ltac:(lia) ltac:(lia)). do 2 f_equal. lia.
Qed.
Lemma emval_pow a b m : 0 < m -> 0 <= b -> b <> 0 \/ m <> 1 -> emval a b m = a ^ b mod m.
Proof. intros ? ? Hx. unfold emval. destruct (Z.eqb_spec b 0) as [->|]; [|done]. rewrite Z.pow_0_r, Z.mod_1_l; lia. Qed.
Section V.
Context (st : state) (V : gmap oid Z) (X : ctx) .
Implicit Types (a b c m mu : oid) (Q : Z -> state -> Prop).
Lemma wpV_exptmod a b m c va vb vm vc Q : RV st V X -> V !! a = Some va -> V !! b = Some vb -> V !! m = Some vm -> V !! c = Some vc ->
  (0 <= vb -> 0 <= vm) -> (vm = 0 -> Q MP_UNDEF st) -> (vm <> 0 -> vb < 0 -> Q MP_RANGE st) ->
  (0 < vm -> 0 <= vb -> forall st', RV st' (<[c := emval va vb vm]> V) X -> Q MP_OK st') ->
  wp (mp_int_exptmod a b m c) Q st.
Proof. vstart. eapply wpZ_exptmod; [done..|]. eauto using RV_set. Qed.
Lemma wpV_exptmod_evalue a v m c va vm vc Q : RV st V X -> V !! a = Some va -> V !! m = Some vm -> V !! c = Some vc -> - 2 ^ 63 < v < 2 ^ 63 ->
  (0 <= v -> 0 <= vm) -> (vm = 0 -> forall st', RV st' V X -> Q MP_UNDEF st') -> (vm <> 0 -> v < 0 -> forall st', RV st' V X -> Q MP_RANGE st') ->
  (0 < vm -> 0 <= v -> forall st', RV st' (<[c := emval va v vm]> V) X -> Q MP_OK st') ->
  wp (mp_int_exptmod_evalue a v m c) Q st.
Proof.
  vstart. eapply wpZ_exptmod_evalue; [done..| | |]; eauto using RV_set, RV_same.
Qed.
Lemma wpV_exptmod_bvalue v b m c vb vm vc Q : RV st V X -> V !! b = Some vb -> V !! m = Some vm -> V !! c = Some vc -> - 2 ^ 63 < v < 2 ^ 63 ->
  (0 <= vb -> 0 <= vm) -> (vm = 0 -> forall st', RV st' V X -> Q MP_UNDEF st') -> (vm <> 0 -> vb < 0 -> forall st', RV st' V X -> Q MP_RANGE st') ->
  (0 < vm -> 0 <= vb -> forall st', RV st' (<[c := emval v vb vm]> V) X -> Q MP_OK st') ->
  wp (mp_int_exptmod_bvalue v b m c) Q st.
Proof.
  vstart. eapply wpZ_exptmod_bvalue; [done..| | |]; eauto using RV_set, RV_same.
Qed.
Lemma wpV_exptmod_known a b m mu c va vb vm vμ vc Q : RV st V X -> V !! a = Some va -> V !! b = Some vb -> V !! m = Some vm -> V !! mu = Some vμ -> V !! c = Some vc ->
  c <> mu -> (0 <= vb -> 0 <= vm) -> (0 < vm -> 0 <= vb -> Z.abs vμ = barrett_const vm) -> (vm = 0 -> Q MP_UNDEF st) -> (vm <> 0 -> vb < 0 -> Q MP_RANGE st) ->
  (0 < vm -> 0 <= vb -> forall st', RV st' (<[c := emval va vb vm]> V) X -> Q MP_OK st') ->
  wp (mp_int_exptmod_known a b m mu c) Q st.
Proof.
  intros HV Ha Hb Hm Hmu Hc N Hs Hμ HQ0 HQ1 HQ. destruct HV as (ζ & HZ & Hv).
  destruct (relv_some _ _ _ _ Hv Ha) as (za & ? & <- & ? & ?). destruct (relv_some _ _ _ _ Hv Hb) as (zb & ? & <- & ? & ?).
  destruct (relv_some _ _ _ _ Hv Hm) as (zm_ & Hm' & <- & ? & ?). destruct (relv_some _ _ _ _ Hv Hmu) as (zmu & Hu' & <- & ? & ?).
  destruct (relv_some _ _ _ _ Hv Hc) as (zC & ? & <- & ? & ?).
  destruct (RZ_s01 _ _ _ _ _ HZ Hm') as [Mm Sm]. destruct (RZ_s01 _ _ _ _ _ HZ Hu') as [Mu Su].
  eapply (wpZ_exptmod_known st ζ X a b m mu c); [done..| |done|done|].
  - intros HM HB. rewrite zm_abs by done. rewrite (Hμ HM HB). assert (zm zm_ = zval zm_) as ->. { rewrite zm_abs by done. lia. } by apply barrett_const_Bn.
  - intros E1 E2 st' HZ'. apply HQ; [done|done|]. by eapply RV_set.
Qed.
Lemma wpV_redux_const m c vm vc Q : RV st V X -> V !! m = Some vm -> V !! c = Some vc -> m <> c -> 0 < vm ->
  (forall st', RV st' (<[c := if vc <? 0 then - barrett_const vm else barrett_const vm]> V) X -> Q MP_OK st') ->
  wp (mp_int_redux_const m c) Q st.
Proof.
  intros HV Hm Hc N HM HQ. destruct HV as (ζ & HZ & Hv).
  destruct (relv_some _ _ _ _ Hv Hm) as (zm_ & Hm' & <- & ? & ?). destruct (relv_some _ _ _ _ Hv Hc) as (zC & Hc' & <- & Nc & Oc).
  destruct (RZ_s01 _ _ _ _ _ HZ Hm') as [Mm Sm]. destruct (RZ_s01 _ _ _ _ _ HZ Hc') as [Mc Sc].
  assert (zs zm_ = 0) as Sm0. { unfold zval in HM. destruct (Z.eqb_spec (zs zm_) 0); [done|lia]. }
  assert (zval zm_ = zm zm_) as EM by (unfold zval; by rewrite Sm0).
  eapply (wpZ_redux_const st ζ X m c); [done..|lia|]. intros st' HZ'. apply HQ. eapply RV_set; [|exact Hv|done].
  destruct (mu_pos zm_ (2 * ndig (zm zm_)) ltac:(lia) Sm0) as [Emu Pmu].
  rewrite EM, barrett_const_Bn by lia.
  assert ((zval zC <? 0) = negb (zs zC =? 0)) as ->.
  { unfold zval, norm in *. destruct (Z.eqb_spec (zs zC) 0) as [E|E]; cbn [negb]; [apply Z.ltb_ge; lia|apply Z.ltb_lt].
    destruct (Z.eq_dec (zm zC) 0) as [E0|]; [by apply Nc in E0|lia]. }
  destruct (zs zC =? 0); cbn [negb].
  - by rewrite Emu in HZ'.
  - rewrite Z.quot_opp_l, Emu in HZ' by lia. done.
Qed.
End V.
