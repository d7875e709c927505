(** Modular exponentiation. *)
From Coq Require Import ZArith List Lia.
From stdpp Require Import gmap list.
From Verif Require Import Mem Prog Kern Imath Wp MemLem Dig KernLem KernMul KernKar KernDig Rel RelWp RelZ Life Basic Basic2 Mult Shift Knuth Divi Powr Barrett.
Local Open Scope Z_scope.

(** ** Assigning a small value, other objects staying in place *)
Lemma wpS_set_value (st : state) (σ : gmap oid fobj) (ζ : gmap oid zv) (X : ctx) (c : oid) (v : Z) (zc : zv) (Q : Z -> state -> Prop) :
  R st σ X -> relz σ ζ -> ζ !! c = Some zc -> zo zc = None -> - 2 ^ 63 < v < 2 ^ 63 ->
  (forall st' F, R st' (<[c := F]> σ) X -> good F (zset zc v) -> Q MP_OK st') ->
  wp (mp_int_set_value c v) Q st.
Proof.
  intros HR Hz Hc Oc Hv HQ. unfold mp_int_set_value, with_fake, with_local. apply wp_NewE. intros n Fn.
  destruct (R_newB st σ X (Ext n) (replicate 2 None) HR) as [Hcn HR1]; [exact Fn|done|].
  apply wp_NewO. intros z iz Fz.
  destruct (R_newO _ σ _ false z _ HR1 Fz) as (H1 & H2 & HR2). set (t := (false, iz)) in *.
  wb. wb. eapply (wpR_fake _ σ _ t n z v); [exact HR2|simpl; apply lookup_insert|simpl; apply lookup_insert|done|].
  intros st' f HR3 Hgood. simpl in HR3. rewrite !delete_insert in HR3 by done.
  assert (R st' (<[t:=f]> σ) X) as HR3' by (destruct X; exact HR3). clear HR3.
  pose proof (relz_none _ _ _ Hz H1) as Ht. assert (c <> t) as Nct by congruence.
  eapply (wpS_copy st' _ (<[t := fakev (sgnbit v) (Z.abs v) n]> ζ) X t c); [exact HR3'|by apply relz_ins|apply lookup_insert|by rewrite lookup_insert_ne|done|].
  intros st2 F HR4 GF.
  assert (<[c := F]> (<[t := f]> σ) !! t = Some f) as Hf2 by (by rewrite lookup_insert_ne, lookup_insert by done).
  destruct Hgood as [ds G]. pose proof (g_own _ _ _ G) as Ho. simpl in Ho.
  eapply wp_DelO; [by eapply R_get|done|].
  pose proof (R_delFake _ _ _ _ _ _ HR4 Hf2 Ho) as HR5.
  eapply wp_DelE; [eapply (R_ctx _ _ _ HR5); simpl; apply lookup_insert|]. apply wp_ret.
  eapply (R_delB _ _ _ (Ext n)) in HR5; [|simpl; apply lookup_insert].
  simpl in HR5. rewrite delete_insert in HR5.
  - rewrite delete_insert_ne, delete_insert in HR5 by done. eapply HQ; [destruct X; exact HR5|].
    cbn [zs zm fakev] in GF. exact GF.
  - destruct (cmem X !! Ext n) eqn:E; [|done]. exfalso. by eapply (R_ctx_own _ _ _ HR4).
Qed.
Lemma wpP_set_value (st : state) (ζ : gmap oid zv) (X : ctx) (π : gmap oid fobj) (c : oid) (v : Z) (zc : zv) (Q : Z -> state -> Prop) :
  RP st ζ X π -> π !! c = None -> ζ !! c = Some zc -> zo zc = None -> - 2 ^ 63 < v < 2 ^ 63 ->
  (forall st', RP st' (<[c := zset zc v]> ζ) X π -> Q MP_OK st') ->
  wp (mp_int_set_value c v) Q st.
Proof.
  intros (σ & HR & Hz & Hp) Hpc Hc ? ? HQ. eapply wpS_set_value; [done..|]. intros st' F HR' G. apply HQ. by eapply RP_upd.
Qed.
Lemma wpP_with_temp (st : state) (ζ : gmap oid zv) (X : ctx) (π : gmap oid fobj) (body : oid -> prog Z) (Q : Z -> state -> Prop) :
  RP st ζ X π ->
  (forall t st1, ζ !! t = None -> π !! t = None -> RP st1 (<[t := zzero]> ζ) X π ->
     wp (body t) (fun r st2 => exists ζ2 zt, ζ2 !! t = None /\ zo zt = None /\ RZ st2 (<[t := zt]> ζ2) X /\
                    (forall st3, RZ st3 ζ2 X -> Q r st3)) st1) ->
  wp (with_temp body) Q st.
Proof.
  intros (σ & HR & Hz & Hp) HB. eapply wpR_with_temp; [exact HR|]. intros t st1 Ht HR1.
  assert (π !! t = None) as Hpt. { destruct (π !! t) eqn:E; [|done]. apply Hp in E. congruence. }
  eapply wp_mono; [apply HB; [by eapply relz_none|done|]|].
  { eapply RP_upd; [exact HR1|exact Hz|apply good_init|done|done]. }
  intros r st2 (ζ2 & zt & N & O & (σ2 & HR2 & Hz2) & HQ). destruct (relz_get _ _ _ _ Hz2 (lookup_insert _ _ _)) as (f & l & Hf & G).
  exists σ2, f. split_and!; [done|by eapply goodw_own|done|]. intros st3 HR3. apply HQ. exists (delete t σ2). split; [done|].
  rewrite <- (delete_insert ζ2 t zt) by done. by apply relz_del.
Qed.
Definition zcap (z : zv) (n : nat) : zv := Zv (zs z) (zm z) (Nat.max (zc z) n) (zi z) (zo z).
Lemma wpP_GROW (st : state) (ζ : gmap oid zv) (X : ctx) (π : gmap oid fobj) (o : oid) (z : zv) (n : Z) (Q : Z -> state -> Prop) :
  RP st ζ X π -> π !! o = None -> ζ !! o = Some z -> zo z = None -> 0 <= n < RADIX - 1 ->
  (forall st', RP st' (<[o := zcap z (Z.to_nat n)]> ζ) X π -> Q MP_OK st') ->
  wp (GROW o n) Q st.
Proof.
  intros (σ & HR & Hz & Hp) Hpo Ho Oz Hn HQ. destruct (relz_get _ _ _ _ Hz Ho) as (f & l & Hf & G).
  unfold GROW. wb. eapply wpR_padg; [done..|]. intros st' F HR' G' K Hl _. apply wp_ret. apply HQ. eapply RP_upd; [done|done| |done|done].
  exists l. destruct G'. constructor; cbn [zs zm zc zi zo zcap]; try done. lia.
Qed.
Lemma wpP_zero_all (st : state) (ζ : gmap oid zv) (X : ctx) (π : gmap oid fobj) (o : oid) (z : zv) (Q : unit -> state -> Prop) :
  RP st ζ X π -> π !! o = None -> ζ !! o = Some z -> zm z = 0 ->
  (forall st', RP st' (<[o := Zv (zs z) 0 (zc z) (zc z) (zo z)]> ζ) X π -> Q tt st') ->
  wp (zero_all o) Q st.
Proof.
  intros (σ & HR & Hz & Hp) Hpo Ho Mz HQ. destruct (relz_get _ _ _ _ Hz Ho) as (f & l & Hf & G).
  unfold zero_all. wb. eapply wpR_digits; [done..|]. wb. eapply wpR_alloc; [done..|].
  eapply wp_ZERO; [done|eapply R_valid; [done..|simpl; lia]|].
  pose proof (R_wr0 _ _ _ o f (replicate (length (fc f)) 0) HR Hf ltac:(by rewrite replicate_length)) as HR1.
  rewrite replicate_length, drop_all, app_nil_r in HR1. apply HQ. eapply RP_upd; [exact HR1|done| |done|done].
  pose proof (goodw_ndig _ _ _ G) as Ln. rewrite Mz in Ln. change (ndig 0) with 1%nat in Ln.
  destruct (goodw_len _ _ _ _ _ _ _ HR Hf G) as [L1 L2]. pose proof (goodw_u _ _ _ G) as Hu.
  exists [0]. destruct G. constructor; cbn [zs zm zc zi zo fs fu fc fl]; try done.
  - constructor; cbn [fu fc]; [by rewrite Hu, Ln| |by apply Forall_singleton, dig_0].
    destruct (length (fc f)) as [|n] eqn:E; [lia|]. by eexists.
  - apply canon_sing.
  - by rewrite fmap_length, replicate_length.
  - intros i Hi. exists 0. split; [|apply dig_0]. rewrite list_lookup_fmap, lookup_replicate_2; [done|]. lia.
Qed.
Lemma zput_eta z : zs z = 0 -> zput z 0 (zm z) = z.
Proof. intros H. unfold zput. rewrite <- H. by destruct z. Qed.

Lemma wpZ_embar (st : state) (ζ : gmap oid zv) (X : ctx) (a b m mu c : oid) (za zb zm_ zmu zC : zv) (Q : Z -> state -> Prop) :
  RZ st ζ X -> ζ !! a = Some za -> ζ !! b = Some zb -> ζ !! m = Some zm_ -> ζ !! mu = Some zmu -> ζ !! c = Some zC ->
  a <> c -> a <> b -> c <> b -> m <> a -> m <> c -> mu <> a -> mu <> c -> zo za = None -> zo zC = None ->
  zs za = 0 -> zs zm_ = 0 -> 0 < zm zm_ -> zm zmu = Bn (2 * ndig (zm zm_)) / zm zm_ -> zm za < zm zm_ ->
  (forall st' va vc, RZ st' (<[a := zput za 0 va]> (<[c := zput zC 0 vc]> ζ)) X -> acc zm_ 1 (zm za) (zm zb) vc -> Q MP_OK st') ->
  wp (s_embar a b m mu c) Q st.
Proof.
  intros HZ Ha Hb Hm Hmu Hc Nac Nab Ncb Nma Nmc Nua Nuc Oa Oc Sa Sm HM Eμ Hlt HQ.
  destruct (RZ_ndig _ _ _ _ _ HZ Hmu) as [_ Lμ]. destruct (RZ_s01 _ _ _ _ _ HZ Ha) as [Ma _].
  unfold s_embar. wb. eapply wpZ_used; [done..|]. intros _.
  destruct HZ as (σ & HR & Hz). destruct (relz_get _ _ _ _ Hz Hb) as (fb & lb & Hfb & Gb).
  wb. eapply wpR_digits; [done..|]. wb. eapply wpR_used; [done..|]. rewrite (goodw_u _ _ _ Gb).
  set (π := {[ b := fb ]} : gmap oid fobj).
  assert (RP st ζ X π) as HP. { exists σ. split_and!; [done..|]. intros o f Hof. apply lookup_singleton_Some in Hof as [<- <-]. done. }
  assert (π !! a = None) as Pa by (by apply lookup_singleton_ne). assert (π !! c = None) as Pc by (by apply lookup_singleton_ne).
  clear σ HR Hz Hfb. set (uμ := ndig (zm zmu)) in *. rewrite u32_id by mx.
  eapply wpP_with_temp; [exact HP|]. intros t0 st1 F0 P0 HP1.
  eapply wpP_with_temp; [exact HP1|]. intros t1 st2 F1 P1 HP2. apply lookup_insert_None in F1 as [F1 N01].
  eapply wpP_with_temp; [exact HP2|]. intros t2 st3 F2 P2 HP3. apply lookup_insert_None in F2 as [F2 N12]. apply lookup_insert_None in F2 as [F2 N02].
  assert (a <> t0 /\ a <> t1 /\ a <> t2) as (Na0 & Na1 & Na2) by (split_and!; congruence).
  assert (c <> t0 /\ c <> t1 /\ c <> t2) as (Nc0 & Nc1 & Nc2) by (split_and!; congruence).
  assert (m <> t0 /\ m <> t1 /\ m <> t2) as (Nm0 & Nm1 & Nm2) by (split_and!; congruence).
  assert (mu <> t0 /\ mu <> t1 /\ mu <> t2) as (Nu0 & Nu1 & Nu2) by (split_and!; congruence).
  apply wp_require. eapply (wpP_GROW st3 _ X π t0); [exact HP3|done|lk|done|mx|]. intros st4 HP4. split; [done|].
  apply wp_require. eapply (wpP_GROW st4 _ X π t1); [exact HP4|done|lk|done|mx|]. intros st5 HP5. split; [done|].
  apply wp_require. eapply (wpP_GROW st5 _ X π t2); [exact HP5|done|lk|done|mx|]. intros st6 HP6. split; [done|].
  wb. eapply (wpP_zero_all st6 _ X π t0); [exact HP6|done|lk|done|]. intros st7 HP7.
  wb. eapply (wpP_zero_all st7 _ X π t1); [exact HP7|done|lk|done|]. intros st8 HP8.
  wb. eapply (wpP_zero_all st8 _ X π t2); [exact HP8|done|lk|done|]. intros st9 HP9.
  wb. eapply (wpP_set_value st9 _ X π c 1); [exact HP9|done|lk|done|done|]. intros st10 HP10.
  cbn [zs zm zc zi zo zcap zzero] in HP10. set (nn := Nat.max 1 (Z.to_nat (4 * Z.of_nat uμ))) in HP10.
  set (zt := Zv 0 0 nn nn None) in HP10.
  assert (ESt ζ X π a c t0 t1 t2 za zC zt zt zt st10 (zm za) 1) as HE.
  { exists 0, 0, 0, 0. eapply RP_map; [exact HP10|]. change (zset zC 1) with (zput zC 0 1). change (zput zt 0 0) with zt. rewrite (zput_eta za Sa). mapeq. }
  clear dependent st1 st2. clear dependent st3 st4 st5 st6 st7 st8 st9. 
  destruct (exists_last (l := lb)) as (l & top & El). { intros ->. destruct (g_canon _ _ _ Gb) as [Hl _]. simpl in Hl. lia. }
  pose proof (goodw_dig _ _ _ Gb) as Dl. rewrite El in Dl. apply digs_app in Dl as [Dl Dt]. apply Forall_cons in Dt as [Dt _].
  assert (Z.of_nat (length lb) - 1 = Z.of_nat (length l)) as Ell by (rewrite El, app_length; simpl; lia). rewrite !Ell, Nat2Z.id.
  assert (fc fb = (Some <$> lb) ++ drop (length lb) (fc fb)) as Cb.
  { destruct (v_c _ _ (g_view _ _ _ Gb)) as [r Er]. rewrite Er at 2. rewrite drop_app_alt by (by rewrite fmap_length). done. }
  assert (π !! b = Some fb) as Pb by apply lookup_singleton.
  assert (4 * ndig (zm zmu) <= zi zt)%nat as IZ. { cbn [zi zt]. unfold nn. fold uμ. lia. }
  apply wp_require. rewrite <- (padd_0 (fl fb, 0)) at 1.
  eapply (emb_digits ζ X π a m mu c t0 t1 t2 za zm_ zmu zC zt zt zt) with (pre := []) (b := b) (fb := fb) (top := top) (va := zm za) (vc := 1); try done.
  { simpl. rewrite <- El. exact Cb. } { lia. }
  intros st11 vc1 HE1 A1. split; [done|].
  wb. eapply emb_load with (b := b) (fb := fb) (pre := l) (d := top) (suf := []); try exact HE1; try done; try (rewrite <- El; exact Cb).
  pose proof (Z.mod_pos_bound (zm za ^ Bn (length l)) (zm zm_) ltac:(lia)) as Bm. pose proof (Bn_pos (length l)) as Bl.
  pose proof (val_bounds l Dl) as Bvl.
  eapply (emb_top ζ X π a m mu c t0 t1 t2 za zm_ zmu zC zt zt zt) with (va := zm za ^ Bn (length l) mod zm zm_) (vc := vc1); try done.
  { apply A1. }
  intros st12 va vc (v0 & v1 & s2 & v2 & HP12) A2. apply RP_RZ in HP12.
  assert (acc zm_ 1 (zm za) (zm zb) vc) as A.
  { rewrite <- (g_val _ _ _ Gb), El, val_snoc. eapply acc_trans; try exact A1; try exact A2; try reflexivity; try done; try lia; apply Dt. }
  eexists (<[t0 := _]> (<[t1 := _]> (<[a := zput za 0 va]> (<[c := zput zC 0 vc]> ζ)))), _. split; [|split; [|split]]; [|
    |eapply RZ_eq; [exact HP12|mapeq]|]; [lk|done|].
  intros st13 HZ13. eexists (<[t0 := _]> (<[a := zput za 0 va]> (<[c := zput zC 0 vc]> ζ))), _. split; [|split; [|split]]; [|
    |eapply RZ_eq; [exact HZ13|mapeq]|]; [lk|done|].
  intros st14 HZ14. eexists (<[a := zput za 0 va]> (<[c := zput zC 0 vc]> ζ)), _. split; [|split; [|split]]; [|
    |eapply RZ_eq; [exact HZ14|mapeq]|]; [lk|done|].
  intros st15 HZ15. by eapply HQ.
Qed.
