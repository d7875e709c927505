(** Rules for long division, [mp_int_div] and [mp_int_mod]. *)
From Coq Require Import ZArith List Lia.
From stdpp Require Import gmap list.
From Verif Require Import Mem Prog Kern Imath Wp MemLem Dig KernLem KernMul KernKar KernDig Rel RelWp RelZ Life Basic Basic2 Mult Shift Knuth.
Local Open Scope Z_scope.

Lemma wp_require {Q : Z -> state -> Prop} e k st : wp e (fun r st' => r = MP_OK /\ wp k Q st') st -> wp (require e k) Q st.
Proof. intros H. unfold require. wb. eapply wp_mono; [exact H|]. intros r st' [-> H']. by rewrite Z.eqb_refl. Qed.

Lemma wpZ_udiv_knuth st ζ X u v zu zv (Q : Z -> state -> Prop) :
  RZ st ζ X -> u <> v -> ζ !! u = Some zu -> ζ !! v = Some zv -> zo zu = None -> zo zv = None ->
  zm zv <> 0 -> zm zv <= zm zu ->
  (forall st', RZ st' (<[v := zset zv (zm zu mod zm zv)]> (<[u := zset zu (zm zu / zm zv)]> ζ)) X -> Q MP_OK st') ->
  wp (s_udiv_knuth u v) Q st.
Proof.
  intros HZ Huv Hu Hv Ou Ov Hv0 Hle HQ.
  destruct (RZ_ndig _ _ _ _ _ HZ Hu) as [Bu Mu]. destruct (RZ_ndig _ _ _ _ _ HZ Hv) as [Bv Mv].
  assert (0 < zm zv) as Hvp by lia.
  assert (0 <= zm zu / zm zv) as Hq0 by (apply Z.div_pos; lia). pose proof (Z.mod_pos_bound (zm zu) (zm zv) Hvp) as Hr0.
  unfold s_udiv_knuth. wb. eapply wpZ_set_sign; [exact HZ|exact Hu|by left|]. intros st1 HZ1.
  wb. eapply wpZ_set_sign; [exact HZ1|rewrite lookup_insert_ne by done; exact Hv|by left|]. intros st2 HZ2.
  wb. eapply wpZ_used; [exact HZ2|apply lookup_insert|]. intros _. cbn [zm zput].
  set (n := ndig (zm zv)) in *.
  destruct (Z.eqb_spec (Z.of_nat n) 1) as [En|En].
  { (* one digit *)
    assert (n = 1%nat) as En1 by lia. destruct HZ2 as (σ & HR & Hz).
    destruct (relz_get _ _ _ _ Hz (lookup_insert _ _ _)) as (f & l & Hf & G). cbn [zput] in G.
    assert (exists d, l = [d]) as [d ->]. { pose proof (goodw_ndig _ _ _ G) as L. cbn [zm zput] in L. fold n in L. destruct l as [|d [|]]; [|by exists d|]; simpl in L; lia. }
    pose proof (g_val _ _ _ G) as Vd. cbn [zm zput val] in Vd. rewrite Z.mul_0_r, Z.add_0_r in Vd.
    pose proof (goodw_dig _ _ _ G) as Dd. apply digs_1 in Dd.
    wb. eapply wpR_digits; [exact HR|exact Hf|]. wb. eapply wpR_load0; [exact HR|exact Hf|apply G|apply G|]. intros d0 ds' E _. injection E as <- _. unfold dig in Dd. rewrite Vd in *.
    wb. eapply wpZ_ddiv; [by exists σ|rewrite lookup_insert_ne by done; apply lookup_insert|lia|]. intros st3 HZ3. cbn [zm zput zs] in *.
    wb. eapply wpZ_set_value; [exact HZ3|rewrite lookup_insert_ne by done; apply lookup_insert|done|mx|]. intros st4 HZ4. apply wp_ret. apply HQ.
    rewrite zput_zput, zset_zput in HZ4. rewrite (insert_commute _ u v) in HZ4 by done. rewrite !insert_insert in HZ4.
    change MP_ZPOS with 0 in HZ4. by rewrite (zput_zset zu 0 (zm zu / zm zv)) in HZ4 by auto. }
  assert (2 <= n)%nat as Hn2. { pose proof (ndig_pos (zm zv)). lia. }
  assert (n <= ndig (zm zu))%nat as Hnm by (apply ndig_mono; lia).
  wb. eapply wpZ_used; [exact HZ2|rewrite lookup_insert_ne by done; apply lookup_insert|]. intros _. cbn [zm zput].
  set (uu := ndig (zm zu)) in *. set (m := (uu - n)%nat).
  replace (u32 (Z.of_nat uu - Z.of_nat n)) with (Z.of_nat m) by (rewrite u32_id; mx).
  wb. apply wp_assert; [apply Z.ltb_lt; lia|].
  wb. eapply wpZ_norm; [exact HZ2|exact Huv|rewrite lookup_insert_ne by done; apply lookup_insert|apply lookup_insert|done|done|done|].
  cbn [zm zs zput]. fold n. intros st3 k Hk Hnorm HZ3.
  rewrite (insert_commute _ u v) in HZ3 by done. rewrite !zput_zput, !insert_insert in HZ3. change MP_ZPOS with 0 in HZ3.
  set (ζ1 := <[v := _]> _) in HZ3. destruct HZ3 as (σ & HR & Hz).
  assert (ζ1 !! u = Some (zput zu 0 (zm zu * 2 ^ k))) as Hu1 by (unfold ζ1; rewrite lookup_insert_ne by done; apply lookup_insert).
  destruct (relz_get _ _ _ _ Hz Hu1) as (fu0 & lu & Hfu & Gu).
  destruct (relz_get _ _ _ _ Hz (lookup_insert _ _ _)) as (fv0 & lv & Hfv & Gv).
  set (V := zm zv * 2 ^ k) in *. pose proof (g_val _ _ _ Gv) as EV. cbn [zm zput] in EV.
  pose proof (g_val _ _ _ Gu) as EU. cbn [zm zput] in EU.
  destruct (goodw_len _ _ _ _ _ _ _ HR Hfu Gu) as [Lu1 Lu2]. destruct (goodw_len _ _ _ _ _ _ _ HR Hfv Gv) as [Lv1 Lv2].
  assert (0 < 2 ^ k) as Hpk by (apply Z.pow_pos_nonneg; lia).
  assert (length lv = n) as Llv.
  { rewrite (goodw_ndig _ _ _ Gv). cbn [zm zput]. apply Nat.le_antisymm; [apply ndig_le; [pose proof (Bn_pos (n-1)); lia|lia]|].
    pose proof (ndig_bound V ltac:(lia)) as HB. assert (Bn (n - 1) < Bn (ndig V)) as HB2.
    { pose proof (Bn_pos (n - 1)). change (2 ^ 31) with 2147483648 in *. lia. } apply Bn_lt_inv in HB2. lia. }
  assert (length lu = uu \/ length lu = S uu) as Llu.
  { rewrite (goodw_ndig _ _ _ Gu). cbn [zm zput].
    assert (uu <= ndig (zm zu * 2 ^ k))%nat by (apply ndig_mono; nia).
    assert (ndig (zm zu * 2 ^ k) <= S uu)%nat; [|lia]. apply ndig_le; [|lia]. rewrite Bn_S.
    assert (2 ^ k <= RADIX) as Hk32 by (change RADIX with (2 ^ 32); apply Z.pow_le_mono_r; lia). split; [nia|].
    pose proof (Bn_pos uu). fold uu in Bu. nia. }
  assert (k = 0 -> length lu = uu) as Lk0.
  { intros ->. rewrite (goodw_ndig _ _ _ Gu). cbn [zm zput]. by rewrite Z.mul_1_r. }
  wb. eapply wpR_used; [exact HR|exact Hfu|]. rewrite (goodw_u _ _ _ Gu).
  replace (u32 (Z.of_nat m + Z.of_nat n + 1)) with (Z.of_nat (S uu)) by (rewrite u32_id; mx).
  (* the zero digit above u *)
  apply wp_require.
  apply (wp_mono _ (fun res st' => res = MP_OK /\ exists F U r, R st' (<[u := F]> σ) X /\ fs F = 0 /\ fu F = Z.of_nat (S uu) /\
     fc F = (Some <$> U) ++ r /\ digs U /\ length U = S uu /\ val U = zm zu * 2 ^ k /\ owned F /\ keeps fu0 F)).
  { destruct (negb _) eqn:E1 in |- *; [|destruct (Z.eqb_spec k 0) as [Ek|Ek]]; [| |].
    1,2: rewrite ?orb_true_r; cbn [orb];
      assert (length lu = uu) as Elu by
       (try (by apply Lk0); apply negb_true_iff, Z.eqb_neq in E1; lia);
      eapply (wpR_topzero _ _ _ u fu0 lu); [exact HR|exact Hfu|apply Gu|lia|by eapply goodw_own|lia|lia|];
      intros st4 F r HR4 Fs Fu Fc FO FK; wb; eapply wpR_set_used; [exact HR4|apply lookup_insert|]; intros st5 HR5; rewrite insert_insert in HR5;
      apply wp_ret; split; [done|]; eexists _, (lu ++ [0]), r; split; [exact HR5|]; cbn [fs fu fc fl];
      split_and!; [rewrite Fs; apply Gu|done|exact Fc|apply digs_app; split; [by eapply goodw_dig|constructor; [apply dig_0|done]]|
         rewrite app_length; simpl; lia|rewrite val_snoc; lia|done|eapply keeps_trans; [exact FK|apply keeps_same]].
    cbn [orb]. apply negb_false_iff, Z.eqb_eq in E1. apply wp_ret. split; [done|].
    destruct (v_c _ _ (g_view _ _ _ Gu)) as [r Er]. exists fu0, lu, r. rewrite insert_id by done.
    split_and!; [done|apply Gu|rewrite (goodw_u _ _ _ Gu); lia|exact Er|by eapply goodw_dig|lia|done|by eapply goodw_own|apply keeps_refl]. }
  intros ? st4 (-> & F0 & U & ru & HR4 & Fs0 & Fu0 & Fc0 & DU & LU & VU & FO0 & FK0). split; [done|].
  (* the zero digit above v *)
  replace (u32 (Z.of_nat n + 1)) with (Z.of_nat n + 1) by (rewrite u32_id; mx).
  eapply (wpR_topzero _ _ _ v fv0 lv); [exact HR4|by rewrite lookup_insert_ne|apply Gv|lia|by eapply goodw_own|lia|lia|].
  intros st5 Fv rvc HR5 Fvs Fvu Fvc FvO FvK. set (σ5 := <[v := Fv]> _) in HR5.
  assert (σ5 !! u = Some F0) as Hu5 by (unfold σ5; rewrite lookup_insert_ne by done; apply lookup_insert).
  assert (σ5 !! v = Some Fv) as Hv5 by apply lookup_insert.
  eapply wpR_with_temp; [exact HR5|]. intros q st6 Hq5 HR6.
  assert (u <> q /\ v <> q) as [Huq Hvq] by (split; congruence).
  eapply wpR_with_temp; [exact HR6|]. intros t st7 Ht6 HR7.
  assert (t <> q) as Htq by (intros ->; by rewrite lookup_insert in Ht6). rewrite lookup_insert_ne in Ht6 by done.
  assert (u <> t /\ v <> t) as [Hut Hvt] by (split; congruence).
  apply wp_require. unfold GROW. wb. eapply wpR_pad; [exact HR7|rewrite lookup_insert_ne by done; apply lookup_insert|done|by exists 0|rewrite u32_id; mx|].
  intros st8 kq bq Oq Lq _ HR8. apply wp_ret. split; [done|]. cbn [fs fu fc fl] in *. rewrite u32_id in Lq by mx.
  apply wp_require. unfold GROW. wb. eapply wpR_pad; [exact HR8|rewrite lookup_insert_ne by done; apply lookup_insert|done|by exists 0|mx|].
  intros st9 kt bt Ot Lt _ HR9. apply wp_ret. split; [done|]. cbn [fs fu fc fl] in *.
  rewrite (insert_commute _ t q), insert_insert in HR9 by done. rewrite (insert_commute _ q t), insert_insert in HR9 by done.
  set (cq := [Some 0] ++ replicate kq None) in *. set (ct := [Some 0] ++ replicate kt None) in *.
  set (Fq := Fo 0 1 cq bq) in *. set (Ft := Fo 0 1 ct bt) in *. set (σ9 := <[t := Ft]> _) in HR9.
  assert (length cq = S kq) as Lcq by (unfold cq; simpl; by rewrite replicate_length).
  assert (length ct = S kt) as Lct by (unfold ct; simpl; by rewrite replicate_length).
  cbn [length] in Lq, Lt.
  (* the window r *)
  apply wp_NewO. intros z iz Fz. destruct (R_newO st9 σ9 X false z _ HR9 Fz) as (H1 & H2 & HR10). set (r := (false, iz)) in *.
  set (X0 := with_craw X _) in HR10.
  set (FU := Fo (fs F0) (Z.of_nat (m + n + 1)) ((Some <$> U) ++ ru) (fl F0)).
  assert (σ9 !! u = Some F0) as Hu9 by (unfold σ9; rewrite !lookup_insert_ne by done; done).
  assert (σ9 !! v = Some Fv) as Hv9 by (unfold σ9; rewrite !lookup_insert_ne by done; done).
  assert (σ9 !! q = Some Fq) as Hq9 by (unfold σ9; rewrite lookup_insert_ne by done; apply lookup_insert).
  assert (σ9 !! t = Some Ft) as Ht9 by apply lookup_insert.
  wb. eapply wpR_digits; [exact HR10|exact Hu9|]. wb. eapply wpR_alloc; [exact HR10|exact Hu9|].
  assert (craw X0 !! r = Some z) as Hr0' by (unfold X0; rewrite craw_wcr; apply lookup_insert).
  wb. eapply wp_set_digits; [eapply R_get_raw; [exact HR10|exact Hr0']|].
  wb. eapply wp_set_used; [rewrite objs_set_objs; apply lookup_insert|].
  wb. eapply wp_set_sign; [rewrite objs_set_objs; apply lookup_insert|].
  wb. eapply wp_set_alloc; [rewrite objs_set_objs; apply lookup_insert|].
  rewrite !set_objs_set_objs, !objs_set_objs, !insert_insert. cbn [digits alloc used sign].
  set (au := Z.of_nat (length (fc F0))).
  match goal with |- wp _ _ (set_objs _ (<[r := ?z']> _)) => pose proof (R_set_raw _ _ _ r _ z' HR10 Hr0') as HR11 end.
  unfold X0 in HR11. rewrite wcr_wcr, craw_wcr, insert_insert in HR11.
  set (st11 := set_objs _ _) in HR11 |- *. change (add_obj st9 r z) with (add_obj st9 r z) in *.
  wb. eapply wpR_digits; [exact HR11|exact Ht9|]. wb. eapply wpR_alloc; [exact HR11|exact Ht9|]. cbn [fc fl].
  change (fl Ft) with bt. change (fc Ft) with ct.
  wb. eapply (wp_ZERO _ (length ct)); [done|eapply (R_valid _ _ _ t Ft 0 _ HR11 Ht9); [lia|simpl Z.to_nat; cbn [fc]; unfold Ft; cbn [fc]; lia]|].
  pose proof (R_wr0 _ _ _ t Ft (replicate (length ct) 0) HR11 Ht9) as HR12.
  rewrite replicate_length in HR12. specialize (HR12 ltac:(unfold Ft; cbn [fc]; lia)).
  change (fc Ft) with ct in HR12. change (fl Ft) with bt in HR12. rewrite drop_all, app_nil_r in HR12. set (ct12 := Some <$> replicate (length ct) 0) in HR12.
  set (st12 := set_mem st11 _) in HR12 |- *.
  assert (length ct12 = length ct) as Lct12 by (unfold ct12; rewrite fmap_length, replicate_length; done).
  assert (Z.to_nat (Z.of_nat m + 1) = (m + 1)%nat) as Em by lia. rewrite Em.
  assert (uu = (m + n)%nat) as Euu by lia.
  wb. eapply (wp_knuth_loop σ9 X u v q t r n m au V (zm zu * 2 ^ k) F0 Fv lv rvc bq bt); try done.
  { by eapply goodw_dig. }
  { lia. }
  { exists (<[t := Fo 0 1 ct12 bt]> σ9), U, ru, [], (take (m + 1) cq), (drop (m + 1) cq), 1, 1, ct12. split_and!.
    - unfold kraw. replace (Z.of_nat (m + 1) - 1) with (Z.of_nat m) by lia. 
      change (Some (fl F0, Z.of_nat m)) with (Some ((fl F0, 0) +p Z.of_nat m)). exact HR12.
    - intros o Ho1 Ho2 Ho3. by rewrite lookup_insert_ne.
    - rewrite lookup_insert_ne by done. rewrite Hu9. replace (Z.of_nat (m + n + 1)) with (fu F0) by lia. rewrite <- Fc0. by destruct F0.
    - done.
    - lia.
    - intros s k'. rewrite <- Fc0. apply keeps_same.
    - rewrite lookup_insert_ne by done. rewrite Hq9. unfold Fq. rewrite fmap_nil, app_nil_l, take_drop. done.
    - rewrite take_length. lia.
    - simpl. lia.
    - constructor.
    - apply lookup_insert.
    - lia.
    - rewrite val_drop by (done || lia). rewrite VU. apply Z.div_lt_upper_bound; [apply Bn_pos|].
      assert (zm zu < Bn (m + 1) * Bn (n - 1)) as Hzu by (rewrite <- Bn_add; replace (m + 1 + (n - 1))%nat with uu by lia; apply Bu).
      assert (2 ^ k * Bn (n - 1) <= V) as HVk.
      { assert (2 ^ k <= 2 ^ 31) by (apply Z.pow_le_mono_r; lia). pose proof (Bn_pos (n - 1)). nia. }
      pose proof (Bn_pos (m + 1)). nia.
    - cbn [val]. lia. }
  clear HR12 HR11 HR10 HR9 HR8 HR7 HR6 HR5 HR4.
  intros st13 (σp & U' & ru' & Qh & cq' & rq & fuq & ut & ct' & HR13 & Hout & Hu13 & DU' & LU' & KU & Hq13 & Lcq' & LQh & DQh & Ht13 & Lct' & Hinv & Hrel).
  replace (m + 1 - 0)%nat with (m + 1)%nat in LQh by lia. destruct cq' as [|]; [|done]. rewrite app_nil_l in Hq13. rewrite drop_0 in Hinv.
  rewrite Bn_0, Z.mul_1_r in Hrel. set (X13 := with_craw X _) in HR13.
  pose proof (val_bounds _ DU') as HU'0.
  assert (0 < V) as HVp by nia.
  destruct (Z.div_mod_unique V (val Qh) (zm zu * 2 ^ k / V) (val U') ((zm zu * 2 ^ k) mod V)) as [EQh EUm];
    [left; lia|left; apply Z.mod_pos_bound; lia|rewrite <- Z.div_mod by lia; lia|].
  unfold V in EQh, EUm. rewrite Z.div_mul_cancel_r in EQh by lia. rewrite Z.mul_mod_distr_r in EUm by lia.
  (* q *)
  wb. eapply wpR_set_used; [exact HR13|exact Hq13|]. intros st14 HR14. cbn [fs fu fc fl] in HR14.
  wb. eapply (wpR_CLAMP _ _ _ q _ Qh); [exact HR14|apply lookup_insert| |lia|].
  { constructor; cbn [fu fc]; [rewrite u32_id; mx|by eexists|done]. }
  intros st15 dq kq' Cdq Ddq Vdq _ HR15 Vwq. cbn [fs fu fc fl] in *. rewrite insert_insert in HR15.
  (* u *)
  wb. eapply (wpR_CLAMP _ _ _ u _ U'); [exact HR15|rewrite lookup_insert_ne by done; exact Hu13| |lia|].
  { constructor; cbn [fu fc]; [lia|by eexists|done]. }
  intros st16 du ku Cdu Ddu Vdu _ HR16 Vwu. cbn [fs fu fc fl] in *.
  set (Fq16 := Fo 0 (Z.of_nat (length dq)) _ bq) in *. rewrite Fs0 in *.
  assert (X13 = with_craw X (<[r := kraw au F0 0 (Z.of_nat n + 1)]> (craw X))) as EX by done.
  wb. apply (wp_mono _ (fun _ st' => exists ds cells, R st' (<[u := Fo 0 (Z.of_nat (length ds)) cells (fl F0)]> (<[q := Fq16]> σp)) X13 /\ canon ds /\
      val ds = zm zu mod zm zv /\ view (Fo 0 (Z.of_nat (length ds)) cells (fl F0)) ds /\ forall s u, keeps F0 (Fo s u cells (fl F0)))).
  { destruct (Z.eqb_spec k 0) as [Ek|Ek].
    - apply wp_ret. eexists du, _. split; [exact HR16|]. split_and!; [done|rewrite Vdu, EUm, Ek; lia|done|apply KU].
    - eapply (wpR_qdiv _ _ _ u _ du); [exact HR16|apply lookup_insert|done|done|lia|]. cbn [fs fu fc fl].
      intros st17 ds cells Cds Vds HR17 Vw17 K17. rewrite insert_insert in HR17. assert (forall x, z0sgn x 0 = 0) as Ez by (intros x; unfold z0sgn; by destruct (x =? 0)).
      rewrite Ez in *. exists ds, cells. split; [exact HR17|]. split_and!; [done| |done|].
      + rewrite Vds, Vdu, EUm. apply Z.div_mul. lia.
      + intros s u0. eapply keeps_trans; [apply KU|apply K17]. }
  intros _ st17 (ds & cells & HR17 & Cds & Vds & Vwds & Kds).
  assert (σp !! v = Some Fv) as Hv17 by (rewrite Hout; done).
  (* copies *)
  destruct (v_c _ _ (g_view _ _ _ Gv)) as [rv0 Erv0].
  assert (1 <= length ds)%nat as Lds by (destruct ds; [by destruct Cds|simpl; lia]).
  wb. eapply (wpR_copy _ _ _ u v _ Fv ds); [exact HR17|done|apply lookup_insert|done|done|rewrite !lookup_insert_ne by done; exact Hv17|done| |].
  { rewrite Fvc. destruct lv as [|d0 lv']; [simpl in Lv1; lia|]. by exists d0. }
  intros st18 Fv18 HR18 Vw18 Fs18 O18 K18. cbn [fs] in Fs18.
  assert (1 <= length dq)%nat as Ldq by (destruct dq; [by destruct Cdq|simpl; lia]).
  wb. eapply (wpR_copy _ _ _ q u Fq16 (Fo 0 (Z.of_nat (length ds)) cells (fl F0)) dq);
    [exact HR18|done|rewrite (lookup_insert_ne _ v), (lookup_insert_ne _ u) by done; apply lookup_insert|done|done|rewrite lookup_insert_ne by done; apply lookup_insert|exact FO0| |].
  { destruct (v_c _ _ Vwds) as [rr Err]. cbn [fc] in Err |- *. rewrite Err. destruct ds as [|d0 ds']; [simpl in Lds; lia|]. by exists d0. }
  intros st19 Fu19 HR19 Vw19 Fs19 O19 K19. unfold Fq16 in Fs19. cbn [fs] in Fs19.
  (* end of the scope of r *)
  assert (craw X13 !! r = Some (kraw au F0 0 (Z.of_nat n + 1))) as Hr13 by (unfold X13; rewrite craw_wcr; apply lookup_insert).
  eapply wp_DelO; [eapply R_get_raw; [exact HR19|exact Hr13]|done|]. apply wp_ret.
  eapply R_delO in HR19; [|exact Hr13]. unfold X13 in HR19. rewrite wcr_wcr, craw_wcr, delete_insert in HR19 by done.
  replace (with_craw X (craw X)) with X in HR19 by (by destruct X).
  set (σ19 := <[u := Fu19]> _) in HR19.
  assert (σ19 !! t = Some (Fo 0 ut ct' bt)) as Ht19 by (unfold σ19; rewrite !lookup_insert_ne by done; done).
  eexists σ19, _. split; [exact Ht19|]. split; [exact Ot|]. split; [exact HR19|]. intros st20 HR20.
  eexists (delete t σ19), Fq16. split; [rewrite lookup_delete_ne by done; unfold σ19; rewrite !lookup_insert_ne by done; rewrite ?lookup_insert_ne by done; apply lookup_insert|].
  split; [exact Oq|]. split; [exact HR20|]. intros st21 HR21. apply HQ. eexists. split; [exact HR21|].
  intros o. destruct (decide (o = u)) as [->|Hou].
  { rewrite !lookup_delete_ne by done. unfold σ19. rewrite lookup_insert. rewrite lookup_insert_ne, lookup_insert by done.
    rewrite <- (ufakev_put zu) by done. rewrite <- EQh, <- Vdq.
    change (zput zu 0 (val dq)) with (zput (zput zu 0 (zm zu * 2 ^ k)) 0 (val dq)).
    eapply (good_intro fu0 _ _ dq); [by eexists| |done|done|done|done|by left].
    eapply keeps_trans; [exact FK0|]. eapply keeps_trans; [apply (Kds 0 (Z.of_nat (length ds)))|exact K19]. }
  destruct (decide (o = v)) as [->|Hov].
  { rewrite !lookup_delete_ne by done. unfold σ19. rewrite lookup_insert_ne, lookup_insert, lookup_insert by done.
    rewrite <- (ufakev_put zv) by lia. rewrite <- Vds.
    change (zput zv 0 (val ds)) with (zput (zput zv 0 V) 0 (val ds)).
    eapply (good_intro fv0 _ _ ds); [by eexists| |done|done|done|done|by left]. eapply keeps_trans; [exact FvK|exact K18]. }
  rewrite !(lookup_insert_ne _ _ o) by done. specialize (Hz o). unfold ζ1 in Hz. rewrite !(lookup_insert_ne _ _ o) in Hz by done.
  destruct (decide (o = q)) as [->|Hoq].
  { rewrite lookup_delete. unfold σ5 in Hq5. rewrite !lookup_insert_ne in Hq5 by done. by rewrite Hq5 in Hz. }
  destruct (decide (o = t)) as [->|Hot].
  { rewrite lookup_delete_ne, lookup_delete by done. unfold σ5 in Ht6. rewrite !lookup_insert_ne in Ht6 by done. by rewrite Ht6 in Hz. }
  rewrite !lookup_delete_ne by done. unfold σ19. rewrite !lookup_insert_ne by done. rewrite Hout by done.
  unfold σ9, σ5. rewrite !lookup_insert_ne by done. exact Hz.
Qed.

(** ** Maps *)
Ltac neqs := solve [assumption | apply not_eq_sym; assumption | congruence].
Ltac lk1 := match goal with
  | |- context [@insert _ _ _ _ ?k _ ?m !! ?j] => first [constr_eq k j; rewrite (lookup_insert m k) | rewrite (lookup_insert_ne m k j) by neqs]
  | |- context [@delete _ _ _ ?k ?m !! ?j] => first [constr_eq k j; rewrite (lookup_delete m k) | rewrite (lookup_delete_ne m k j) by neqs]
  end.
Ltac lk := repeat lk1; try eassumption; try reflexivity.
(** equality of two maps built by insertions and deletions *)
Ltac mapeq_case i := match goal with
  | |- context [@insert _ _ _ _ ?k _ _ !! i] => first [constr_eq k i; fail 1 | destruct (decide (k = i)); [subst i|]]
  | |- context [@delete _ _ _ ?k _ !! i] => first [constr_eq k i; fail 1 | destruct (decide (k = i)); [subst i|]]
  | |- context [@insert _ _ _ _ ?k _ _ !! ?j] => first [constr_eq k j; fail 1 | destruct (decide (k = j)) as [e|]; [try congruence; subst|]]
  | |- context [@delete _ _ _ ?k _ !! ?j] => first [constr_eq k j; fail 1 | destruct (decide (k = j)) as [e|]; [try congruence; subst|]]
  end.
Ltac mapeq_go i := repeat lk1; repeat (mapeq_case i; repeat lk1).
Ltac mapeq := let i := fresh "i" in apply map_eq; intros i; mapeq_go i; try congruence; try reflexivity.

Lemma wpZ_with_temp1 st ζ X (body : oid -> prog Z) (Q : Z -> state -> Prop) :
  RZ st ζ X ->
  (forall t st1, ζ !! t = None -> RZ st1 (<[t := zzero]> ζ) X ->
     wp (body t) (fun r st2 => exists ζ2 zt, ζ2 !! t = None /\ zo zt = None /\ RZ st2 (<[t := zt]> ζ2) X /\
                    (forall st3, RZ st3 ζ2 X -> Q r st3)) st1) ->
  wp (with_temp body) Q st.
Proof.
  intros HZ H. eapply wpZ_with_temp; [exact HZ|]. intros t st1 Ht HZ1. eapply wp_mono; [by apply H|].
  intros r st2 (ζ2 & zt & H1 & H2 & H3 & H4). exists (<[t := zt]> ζ2), zt. rewrite lookup_insert, delete_insert by done. done.
Qed.

(** The value [v] is stored in the output [o], when there is one. *)
Definition oput (o : option oid) (v : Z) (ζ : gmap oid zv) : gmap oid zv :=
  match o with
  | Some o => match ζ !! o with Some z => <[o := zset z v]> ζ | None => ζ end
  | None => ζ
  end.
Definition oown (o : option oid) (ζ : gmap oid zv) : Prop :=
  forall x, o = Some x -> exists z, ζ !! x = Some z /\ zo z = None.

Lemma wpZ_resign st ζ X o z s (Q : unit -> state -> Prop) :
  RZ st ζ X -> ζ !! o = Some z -> (s = 0 \/ s = 1) ->
  (forall st', RZ st' (<[o := zset z (if s =? 0 then zm z else - zm z)]> ζ) X -> Q tt st') -> wp (resign o s) Q st.
Proof.
  intros HZ Ho Hs HQ. destruct (RZ_s01 _ _ _ _ _ HZ Ho) as [Hm _]. unfold resign. wb. eapply wpZ_set_sign; [done..|]. intros st1 HZ1.
  wb. eapply wpZ_CMPZ; [exact HZ1|apply lookup_insert|]. unfold zval; cbn [zs zm zput].
  destruct (Z.eqb_spec (Z.sgn (if s =? 0 then zm z else - zm z)) 0) as [E|E].
  - eapply wpZ_set_sign; [exact HZ1|apply lookup_insert|by left|]. intros st2 HZ2. rewrite insert_insert in HZ2. apply HQ.
    assert (zm z = 0) as E0 by (destruct (s =? 0); lia). cbn [zm zput] in HZ2. rewrite zput_zput, E0 in HZ2. rewrite E0. by destruct (s =? 0).
  - apply wp_ret. apply HQ. rewrite <- zput_zset; [done|done|done|]. intros E0. rewrite E0 in E. by destruct (s =? 0).
Qed.

Lemma quot_rem_mags a b : 
  0 <= zm a -> (zs a = 0 \/ zs a = 1) -> 0 < zm b -> (zs b = 0 \/ zs b = 1) ->
  Z.quot (zval a) (zval b) = (if (if zs a =? zs b then 0 else 1) =? 0 then zm a / zm b else - (zm a / zm b)) /\
  Z.rem (zval a) (zval b) = (if zs a =? 0 then zm a mod zm b else - (zm a mod zm b)).
Proof.
  intros Ha Sa Hb Sb. unfold zval. destruct Sa as [Ea|Ea], Sb as [Eb|Eb]; rewrite Ea, Eb; simpl;
  rewrite ?Z.quot_opp_l, ?Z.quot_opp_r, ?Z.rem_opp_l, ?Z.rem_opp_r, ?Z.quot_opp_l, ?Z.rem_opp_l, ?Z.quot_div_nonneg, ?Z.rem_mod_nonneg by lia; lia.
Qed.

Lemma wpZ_div_core st ζ X a b qo ro za zb zq zr (k : prog Z) (Q : Z -> state -> Prop) :
  RZ st ζ X -> ζ !! a = Some za -> ζ !! b = Some zb -> ζ !! qo = Some zq -> ζ !! ro = Some zr -> zo zq = None -> zo zr = None ->
  qo <> b -> ro <> a -> qo <> ro -> zm zb <> 0 -> zm zb <= zm za ->
  (forall st', RZ st' (<[qo := zset zq (Z.quot (zval za) (zval zb))]> (<[ro := zset zr (Z.rem (zval za) (zval zb))]> ζ)) X -> wp k Q st') ->
  wp (REQUIRE mp_int_copy a qo;; REQUIRE mp_int_copy b ro;; REQUIRE s_udiv_knuth qo ro;; resign ro (zs za);; 
      resign qo (if zs za =? zs zb then MP_ZPOS else MP_NEG);; k)%prog Q st.
Proof.
  intros HZ Ha Hb Hq Hr Oq Or N1 N2 N3 Hb0 Hle HQ.
  destruct (RZ_s01 _ _ _ _ _ HZ Ha) as [Ma Sa]. destruct (RZ_s01 _ _ _ _ _ HZ Hb) as [Mb Sb].
  destruct (quot_rem_mags za zb) as [EQ ER]; [done|done|lia|done|].
  apply wp_require. eapply wpZ_copy; [done..|]. intros st1 HZ1. split; [done|].
  apply wp_require. eapply wpZ_copy; [exact HZ1|lk..|exact Or|]. intros st2 HZ2. split; [done|].
  apply wp_require. eapply wpZ_udiv_knuth; [exact HZ2|done|lk..|exact Oq|exact Or|done|done|]. cbn [zm zput]. intros st3 HZ3. split; [done|].
  pose proof (Z.mod_pos_bound (zm za) (zm zb) ltac:(lia)). assert (0 <= zm za / zm zb) by (apply Z.div_pos; lia).
  wb. eapply wpZ_resign; [exact HZ3|lk|exact Sa|]. intros st4 HZ4.
  wb. eapply wpZ_resign; [exact HZ4|lk|destruct (zs za =? zs zb); [by left|by right]|]. intros st5 HZ5. apply HQ. rewrite EQ, ER.
  match goal with H : RZ _ ?A _ |- RZ _ ?B _ => replace B with A; [done|] end.
  mapeq. 
  - f_equal. rewrite zset_zset, zset_zput. f_equal. cbn [zm zset zput]. rewrite Z.abs_eq by done. done.
  - f_equal. rewrite zset_zset, zset_zput. f_equal. cbn [zm zset zput]. rewrite Z.abs_eq by lia. done.
Qed.

Lemma RZ_eq st ζ ζ' X : RZ st ζ X -> ζ = ζ' -> RZ st ζ' X.
Proof. by intros ? <-. Qed.

Definition div_post (st : state) (ζ : gmap oid zv) (X : ctx) (q r : option oid) (va vb : Z) (st' : state) : Prop :=
  RZ st' (oput r (Z.rem va vb) (oput q (Z.quot va vb) ζ)) X.

Lemma zset_opp_zput z s m : 0 <= m -> (s = 0 \/ s = 1) -> (m = 0 -> s = 0) -> zset z (if s =? 0 then m else - m) = zput z s m.
Proof. intros. by rewrite zput_zset. Qed.

Lemma norm_put z za : 0 <= zm za -> (zs za = 0 \/ zs za = 1) -> norm za -> zput z (zs za) (zm za) = zset z (zval za).
Proof. intros. unfold zval. by rewrite zput_zset. Qed.

Lemma wpZ_div st ζ X a b q r za zb (Q : Z -> state -> Prop) :
  RZ st ζ X -> ζ !! a = Some za -> ζ !! b = Some zb -> q <> r -> oown q ζ -> oown r ζ -> norm za ->
  (zm zb = 0 -> Q MP_UNDEF st) ->
  (zm zb <> 0 -> forall st', RZ st' (oput r (Z.rem (zval za) (zval zb)) (oput q (Z.quot (zval za) (zval zb)) ζ)) X -> Q MP_OK st') ->
  wp (mp_int_div a b q r) Q st.
Proof.
  intros HZ Ha Hb Nqr Oq Or Na HQ0 HQ.
  destruct (RZ_s01 _ _ _ _ _ HZ Ha) as [Ma Sa]. destruct (RZ_s01 _ _ _ _ _ HZ Hb) as [Mb Sb].
  unfold mp_int_div. wb. apply wp_assert; [by rewrite bool_decide_eq_false_2|].
  wb. eapply wpZ_sign; [done..|]. wb. eapply wpZ_sign; [done..|]. wb. eapply wpZ_CMPZ; [exact HZ|exact Hb|].
  destruct (Z.eqb_spec (Z.sgn (zval zb)) 0) as [E|E].
  { apply wp_ret. apply HQ0. unfold zval in E. destruct (zs zb =? 0); lia. }
  assert (zm zb <> 0) as Hb0. { intros E0. apply E. unfold zval. rewrite E0. by destruct (zs zb =? 0). }
  specialize (HQ Hb0). clear HQ0 E.
  destruct (quot_rem_mags za zb) as [EQ ER]; [done|done|lia|done|].
  wb. eapply wpZ_ucmp; [exact HZ|exact Ha|exact Hb|].
  destruct (Z.ltb_spec (Z.sgn (zm za - zm zb)) 0) as [Hlt|Hge].
  { (* |a| < |b| *)
    rewrite Z.div_small in EQ by lia. rewrite Z.mod_small in ER by lia.
    assert (Z.quot (zval za) (zval zb) = 0) as EQ' by (rewrite EQ; by destruct (_ =? _)).
    assert (Z.rem (zval za) (zval zb) = zval za) as ER' by done. rewrite EQ', ER' in HQ. clear EQ ER EQ' ER'.
    wb. destruct r as [r|]; simpl.
    - destruct (Or r eq_refl) as (zr & Hr & Or').
      eapply wpZ_copy; [done..|]. intros st1 HZ1. rewrite Z.eqb_refl. simpl. wb. rewrite norm_put in HZ1 by done.
      destruct q as [q|]; simpl in *.
      + destruct (Oq q eq_refl) as (zq & Hq & Oq'). assert (q <> r) as Nqr' by congruence.
        eapply wpZ_zero; [exact HZ1|lk|]. intros st2 HZ2. apply wp_ret. apply HQ. rewrite Hq. rewrite lookup_insert_ne, Hr by done.
        by rewrite insert_commute by done.
      + apply wp_ret. apply wp_ret. apply HQ. by rewrite Hr.
    - apply wp_ret. rewrite Z.eqb_refl. simpl. wb. destruct q as [q|]; simpl in *.
      + destruct (Oq q eq_refl) as (zq & Hq & Oq').
        eapply wpZ_zero; [exact HZ|lk|]. intros st2 HZ2. apply wp_ret. apply HQ. by rewrite Hq.
      + apply wp_ret. apply wp_ret. by apply HQ. }
  destruct (Z.eqb_spec (Z.sgn (zm za - zm zb)) 0) as [Heq|Hne].
  { (* |a| = |b| *)
    assert (zm za = zm zb) as Em by lia. rewrite Em, Z.div_same in EQ by done. rewrite Em, Z.mod_same in ER by done.
    assert (Z.rem (zval za) (zval zb) = 0) as ER' by (rewrite ER; destruct (zs za =? 0); reflexivity). rewrite EQ, ER' in HQ. clear EQ ER ER'.
    assert (forall st1 ζ1 (Q' : unit -> state -> Prop), RZ st1 ζ1 X -> oown q ζ1 -> (forall st', RZ st' (oput q (if (if zs za =? zs zb then 0 else 1) =? 0 then 1 else - (1)) ζ1) X -> Q' tt st') ->
        wp (whenu q (fun q => mp_int_zero q;; d <- get_digits q; Store d 1;; if zs za =? zs zb then Ret tt else set_sign q MP_NEG)%prog) Q' st1) as HqW.
    { intros st1 ζ1 Q' HZ1 Oq1 HQ'. destruct q as [q|]; simpl in *; [|by apply wp_ret, HQ'].
      destruct (Oq1 q eq_refl) as (zq & Hq & Oq'). rewrite Hq in HQ'.
      wb. eapply wpZ_zero; [exact HZ1|exact Hq|]. intros st2 (σ2 & HR2 & Hz2).
      destruct (relz_get _ _ _ _ Hz2 (lookup_insert _ _ _)) as (f & l & Hf & G). destruct (goodw_hd _ _ _ G) as [d0 Hd0].
      wb. eapply wpR_digits; [exact HR2|exact Hf|]. wb. eapply wp_store; [by eapply R_load0|]. rewrite <- wr_1.
      pose proof (R_wr0 _ _ _ q f [1] HR2 Hf ltac:(pose proof (R_len _ _ _ HR2 _ _ Hf); simpl; lia)) as HR3.
      assert (good (Fo (fs f) (fu f) ((Some <$> [1]) ++ drop (length [1]) (fc f)) (fl f)) (zset zq 1)) as G1.
      { assert (length l = 1%nat) as Ll by (rewrite (goodw_ndig _ _ _ G); done).
        assert (dig 1) as D1 by (unfold dig; mx).
        pose proof (good_digit _ _ _ q f _ 1 0 HR2 Hf ltac:(by eexists) D1 ltac:(by left)) as G1.
        rewrite (goodw_u _ _ _ G), Ll, (g_sign _ _ _ G). exact G1. }
      pose proof (RZ_upd _ _ _ _ _ _ _ HR3 Hz2 G1) as HZ3. rewrite insert_insert in HZ3.
      destruct (zs za =? zs zb) eqn:E; [apply wp_ret; apply HQ'; exact HZ3|].
      eapply wpZ_set_sign; [exact HZ3|apply lookup_insert|by right|]. intros st4 HZ4. rewrite insert_insert in HZ4. apply HQ'. exact HZ4. }
    wb. destruct r as [r|]; simpl.
    - destruct (Or r eq_refl) as (zr & Hr & Or'). eapply wpZ_zero; [exact HZ|exact Hr|]. intros st1 HZ1.
      wb. eapply HqW; [exact HZ1| |].
      { intros x ->. destruct (Oq x eq_refl) as (zx & Hx & Ox). exists zx. rewrite lookup_insert_ne by congruence. done. }
      intros st2 HZ2. apply wp_ret. apply HQ. eapply RZ_eq; [exact HZ2|]. destruct q as [q|]; simpl.
      + destruct (Oq q eq_refl) as (zq & Hq & Oq'). assert (q <> r) by congruence.
        rewrite Hq. rewrite !lookup_insert_ne by done. rewrite Hq, Hr. mapeq.
      + by rewrite Hr.
    - apply wp_ret. wb. eapply HqW; [exact HZ|done|]. intros st1 HZ1. apply wp_ret. by apply HQ. }
  assert (zm zb < zm za) as Hgt by lia. clear Hge Hne.
  eapply wpZ_with_temp1; [exact HZ|]. intros t0 st1 Ht0 HZ1.
  eapply wpZ_with_temp1; [exact HZ1|]. intros t1 st2 Ht1 HZ2.
  assert (t1 <> t0) as Nt by (intros ->; by rewrite lookup_insert in Ht1). rewrite lookup_insert_ne in Ht1 by done.
  assert (t0 <> a /\ t0 <> b /\ t1 <> a /\ t1 <> b) as (? & ? & ? & ?) by (split_and!; congruence).
  assert (forall x z, ζ !! x = Some z -> t0 <> x /\ t1 <> x) as Nx by (intros x z Hx; split; congruence).
  set (ζf := oput r (Z.rem (zval za) (zval zb)) (oput q (Z.quot (zval za) (zval zb)) ζ)) in HQ.
  assert (ζf !! t0 = None /\ ζf !! t1 = None) as [Hf0 Hf1].
  { unfold ζf, oput. destruct q as [q|], r as [r|]; try done.
    - destruct (Oq q eq_refl) as (zq & Hq & _), (Or r eq_refl) as (zr & Hr & _). destruct (Nx _ _ Hq), (Nx _ _ Hr). rewrite Hq. rewrite lookup_insert_ne by congruence. rewrite Hr. split; lk.
    - destruct (Oq q eq_refl) as (zq & Hq & _). destruct (Nx _ _ Hq). rewrite Hq. split; lk.
    - destruct (Or r eq_refl) as (zr & Hr & _). destruct (Nx _ _ Hr). rewrite Hr. split; lk. }
  (* it suffices to end with the result, whatever the temporaries hold *)
  assert (forall (p : prog Z), wp p (fun res st' => res = MP_OK /\ exists z0 z1, zo z0 = None /\ zo z1 = None /\ RZ st' (<[t1 := z1]> (<[t0 := z0]> ζf)) X) st2 ->
     wp p (fun r1 st3 => exists ζ2 zt, ζ2 !! t1 = None /\ zo zt = None /\ RZ st3 (<[t1 := zt]> ζ2) X /\ (forall st4, RZ st4 ζ2 X ->
        exists ζ3 zt0, ζ3 !! t0 = None /\ zo zt0 = None /\ RZ st4 (<[t0 := zt0]> ζ3) X /\ (forall st5, RZ st5 ζ3 X -> Q r1 st5))) st2) as Hfin.
  { intros p Hp. eapply wp_mono; [exact Hp|]. intros res st' (-> & z0 & z1 & O0 & O1 & HZ'). exists (<[t0 := z0]> ζf), z1.
    split; [lk|]. split; [done|]. split; [done|]. intros st4 HZ4. exists ζf, z0. done. }
  apply Hfin. clear Hfin.
  wb. eapply wpZ_isp2; [exact HZ2|lk|done| |].
  - (* a power of two *)
    intros j Hj Ej. destruct (Z.ltb_spec j 0) as [|_]; [lia|]. rewrite u32_id by mx.
    rewrite Ej in EQ, ER.
    assert (0 < 2 ^ j) as Hpj by (apply Z.pow_pos_nonneg; lia). pose proof (Z.mod_pos_bound (zm za) (2 ^ j) Hpj). assert (0 <= zm za / 2 ^ j) by (apply Z.div_pos; lia).
    assert ((if zs za =? zs zb then MP_ZPOS else MP_NEG) = 0 \/ (if zs za =? zs zb then MP_ZPOS else MP_NEG) = 1) as Hs01 by (destruct (zs za =? zs zb); auto).
    destruct q as [q|]; simpl when; simpl whenu.
    + destruct (Oq q eq_refl) as (zq & Hq & Oq'). destruct (Nx _ _ Hq) as [? ?].
      apply wp_require. eapply wpZ_copy; [exact HZ2|lk..|done|]. intros st3 HZ3. split; [done|].
      destruct r as [r|]; simpl when; simpl whenu.
      * destruct (Or r eq_refl) as (zr & Hr & Or'). destruct (Nx _ _ Hr) as [? ?]. assert (q <> r) by congruence.
        assert (exists za', (<[q:=zput zq (zs za) (zm za)]> (<[t1:=zzero]> (<[t0:=zzero]> ζ))) !! a = Some za' /\ zs za' = zs za /\ zm za' = zm za) as (za' & Ha' & Es & Em).
        { destruct (decide (q = a)) as [->|]; [eexists; lk; split; [done|done]|]. exists za. lk. done. }
        apply wp_require. eapply wpZ_copy; [exact HZ3|exact Ha'|lk..|done|]. rewrite Es, Em. intros st4 HZ4. split; [done|].
        wb. eapply wpZ_qdiv; [exact HZ4|lk|lia|]. intros st5 HZ5. cbn [zs zm zput] in HZ5.
        wb. eapply wpZ_qmod; [exact HZ5|lk|lia|]. intros st6 HZ6. cbn [zs zm zput] in HZ6.
        wb. eapply wpZ_resign; [exact HZ6|lk|done|]. intros st7 HZ7. cbn [zs zm zput] in HZ7.
        wb. eapply wpZ_resign; [exact HZ7|lk|done|]. intros st8 HZ8. cbn [zs zm zput] in HZ8.
        apply wp_require. unfold mp_int_copy at 1. rewrite bool_decide_eq_true_2 by done. apply wp_ret. split; [done|].
        apply wp_require. unfold mp_int_copy at 1. rewrite bool_decide_eq_true_2 by done. apply wp_ret. split; [done|].
        apply wp_ret. split; [done|]. exists zzero, zzero. split; [done|]. split; [done|]. eapply RZ_eq; [exact HZ8|].
        unfold ζf, oput. rewrite Hq. rewrite lookup_insert_ne, Hr by done. rewrite EQ, ER. mapeq.
      * apply wp_require, wp_ret. split; [done|].
        wb. eapply wpZ_qdiv; [exact HZ3|lk|lia|]. intros st5 HZ5. cbn [zs zm zput] in HZ5.
        wb. apply wp_ret. wb. apply wp_ret.
        wb. eapply wpZ_resign; [exact HZ5|lk|done|]. intros st8 HZ8. cbn [zs zm zput] in HZ8.
        apply wp_require. unfold mp_int_copy at 1. rewrite bool_decide_eq_true_2 by done. apply wp_ret. split; [done|].
        apply wp_require, wp_ret. split; [done|].
        apply wp_ret. split; [done|]. exists zzero, zzero. split; [done|]. split; [done|]. eapply RZ_eq; [exact HZ8|].
        unfold ζf, oput. rewrite Hq. rewrite EQ. mapeq.
    + apply wp_require, wp_ret. split; [done|].
      destruct r as [r|]; simpl when; simpl whenu.
      * destruct (Or r eq_refl) as (zr & Hr & Or'). destruct (Nx _ _ Hr) as [? ?].
        apply wp_require. eapply wpZ_copy; [exact HZ2|lk..|done|]. intros st4 HZ4. split; [done|]. wb. apply wp_ret.
        wb. eapply wpZ_qmod; [exact HZ4|lk|lia|]. intros st6 HZ6. cbn [zs zm zput] in HZ6.
        wb. eapply wpZ_resign; [exact HZ6|lk|done|]. intros st7 HZ7. cbn [zs zm zput] in HZ7.
        wb. apply wp_ret. apply wp_require, wp_ret. split; [done|].
        apply wp_require. unfold mp_int_copy at 1. rewrite bool_decide_eq_true_2 by done. apply wp_ret. split; [done|].
        apply wp_ret. split; [done|]. exists zzero, zzero. split; [done|]. split; [done|]. eapply RZ_eq; [exact HZ7|].
        unfold ζf, oput. rewrite Hr. rewrite ER. mapeq.
      * congruence.
  - (* long division *)
    intros _. change (-1 <? 0) with true. cbv iota.
    set (qout := match q with Some q => if bool_decide (b = q) then t0 else q | None => t0 end).
    set (rout := match r with Some r => if bool_decide (a = r) then t1 else r | None => t1 end).
    set (ζ2 := <[t1 := zzero]> (<[t0 := zzero]> ζ)) in *.
    assert (exists zq, ζ2 !! qout = Some zq /\ zo zq = None /\ qout <> b /\ qout <> t1 /\ (qout = t0 \/ q = Some qout)) as (zq & Hq & Oq' & Nq1 & Nq2 & Cq).
    { unfold qout, ζ2. destruct q as [q|]; [|exists zzero; split_and!; [lk|done|done|congruence|by left]].
      case_bool_decide; [exists zzero; split_and!; [lk|done|congruence|congruence|by left]|].
      destruct (Oq q eq_refl) as (zq & Hq & Oq'). destruct (Nx _ _ Hq) as [? ?]. exists zq; split_and!; [lk|done|congruence|congruence|by right]. }
    assert (exists zr, ζ2 !! rout = Some zr /\ zo zr = None /\ rout <> a /\ rout <> t0 /\ (rout = t1 \/ r = Some rout)) as (zr & Hr & Or' & Nr1 & Nr2 & Cr).
    { unfold rout, ζ2. destruct r as [r|]; [|exists zzero; split_and!; [lk|done|done|congruence|by left]].
      case_bool_decide; [exists zzero; split_and!; [lk|done|congruence|congruence|by left]|].
      destruct (Or r eq_refl) as (zr & Hr & Or'). destruct (Nx _ _ Hr) as [? ?]. exists zr; split_and!; [lk|done|congruence|congruence|by right]. }
    assert (qout <> rout) as Nqr2.
    { intros E. destruct Cq as [E1|E1], Cr as [E2|E2]; congruence. }
    eapply (wpZ_div_core _ _ _ a b qout rout); [exact HZ2|unfold ζ2; lk..|exact Hq|exact Hr|done|done|done|done|done|done|lia|].
    intros st3 HZ3. set (vq := Z.quot _ _) in *. set (vr := Z.rem _ _) in *. clearbody vq vr.
    apply wp_require.
    assert (exists ζ4, ζ4 = (match q with Some q => <[q := zset (default zzero (ζ !! q)) vq]> | None => id end) (<[qout := zset zq vq]> (<[rout := zset zr vr]> ζ2))) as [ζ4 E4] by eauto.
    apply (wp_mono _ (fun res st' => res = MP_OK /\ RZ st' ζ4 X)).
    { destruct q as [q|]; simpl when.
      - destruct (Oq q eq_refl) as (zq1 & Hq1 & Oq1). destruct (Nx _ _ Hq1) as [? ?]. rewrite Hq1 in E4. simpl in E4.
        unfold qout in *. case_bool_decide as Ebq.
        + subst q. destruct (decide (rout = b)) as [Erb|Erb].
          * exfalso. destruct Cr as [E|E]; [congruence|]. 
            (* r = b = q *) congruence.
          * eapply wpZ_copy; [exact HZ3|lk|unfold ζ2; lk|done|]. intros st4 HZ4. split; [done|]. subst ζ4.
            change (zput zq1 (zs (zset zq vq)) (zm (zset zq vq))) with (zset zq1 vq) in HZ4. exact HZ4.
        + unfold mp_int_copy. rewrite bool_decide_eq_true_2 by done. apply wp_ret. split; [done|]. subst ζ4.
          unfold ζ2 in Hq. rewrite !lookup_insert_ne in Hq by congruence. rewrite Hq1 in Hq. injection Hq as <-. rewrite insert_insert. done.
      - apply wp_ret. split; [done|]. by subst ζ4. }
    intros ? st4 (-> & HZ4). split; [done|]. apply wp_require.
    assert (exists ζ5, ζ5 = (match r with Some r => <[r := zset (default zzero (ζ !! r)) vr]> | None => id end) ζ4) as [ζ5 E5] by eauto.
    apply (wp_mono _ (fun res st' => res = MP_OK /\ RZ st' ζ5 X)).
    { assert (ζ4 !! rout = Some (zset zr vr)) as Hr4.
      { subst ζ4. destruct q as [q|]; simpl; [|lk]. rewrite lookup_insert_ne; [lk|]. destruct Cr as [E|E]; [|congruence]. rewrite E.
        destruct (Oq q eq_refl) as (zq1 & Hq1 & Oq1). destruct (Nx _ _ Hq1). congruence. }
      destruct r as [r|]; simpl when.
      - destruct (Or r eq_refl) as (zr1 & Hr1 & Or1). destruct (Nx _ _ Hr1) as [? ?]. rewrite Hr1 in E5. simpl in E5.
        unfold rout in *. case_bool_decide as Ear.
        + subst r. assert (exists zx, ζ4 !! a = Some zx /\ zo zx = None /\ forall v, zset zx v = zset zr1 v) as (zx & Hx & Ox & Ex).
          { subst ζ4. destruct q as [q|]; simpl.
            - rewrite lookup_insert_ne by congruence. destruct (decide (qout = a)) as [E|E].
              + exfalso. destruct Cq as [E'|E']; congruence.
              + exists zr1. unfold ζ2. rewrite !lookup_insert_ne by congruence. done.
            - exists zr1. unfold qout, ζ2. rewrite !lookup_insert_ne by congruence. done. }
          eapply wpZ_copy; [exact HZ4|exact Hr4|exact Hx|done|]. intros st5 HZ5. split; [done|]. subst ζ5.
          change (zput zx (zs (zset zr vr)) (zm (zset zr vr))) with (zset zx vr) in HZ5. rewrite Ex in HZ5. exact HZ5.
        + unfold mp_int_copy. rewrite bool_decide_eq_true_2 by done. apply wp_ret. split; [done|]. subst ζ5.
          rewrite insert_id; [done|]. rewrite Hr4. unfold ζ2 in Hr. rewrite !lookup_insert_ne in Hr by congruence. congruence.
      - apply wp_ret. split; [done|]. by subst ζ5. }
    intros ? st5 (-> & HZ5). split; [done|]. apply wp_ret. split; [done|].
    exists (if decide (qout = t0) then zset zq vq else zzero), (if decide (rout = t1) then zset zr vr else zzero).
    assert (zo zzero = None) as O0 by done. split; [case_decide; done|]. split; [case_decide; done|]. eapply RZ_eq; [exact HZ5|].
    subst ζ5 ζ4. unfold ζf, oput, ζ2. destruct q as [q|], r as [r|]; simpl.
    + destruct (Oq q eq_refl) as (zq1 & Hq1 & Oq1). destruct (Nx _ _ Hq1) as [? ?].
      destruct (Or r eq_refl) as (zr1 & Hr1 & Or1). destruct (Nx _ _ Hr1) as [? ?]. assert (q <> r) by congruence.
      rewrite Hq1, Hr1. rewrite (lookup_insert_ne _ q r), Hr1 by done. simpl. unfold qout, rout in *. 
      case_bool_decide; case_bool_decide; repeat case_decide; try congruence; mapeq.
    + destruct (Oq q eq_refl) as (zq1 & Hq1 & Oq1). destruct (Nx _ _ Hq1) as [? ?]. 
      rewrite Hq1. simpl. unfold qout, rout in *. case_bool_decide; repeat case_decide; try congruence; mapeq.
    + destruct (Or r eq_refl) as (zr1 & Hr1 & Or1). destruct (Nx _ _ Hr1) as [? ?].
      rewrite Hr1. simpl. unfold qout, rout in *. case_bool_decide; repeat case_decide; try congruence; mapeq.
    + congruence.
Qed.

Definition mod_val (a m : Z) : Z := let r := Z.rem a m in if r <? 0 then r + m else r.
Lemma mod_val_pos a m : 0 < m -> mod_val a m = a mod m.
Proof.
  intros Hm. unfold mod_val. pose proof (Z.quot_rem' a m) as E. destruct (Z.ltb_spec (Z.rem a m) 0) as [H|H].
  - pose proof (Z.rem_bound_pos_neg a m) as B. assert (a < 0) by (destruct (Z.lt_ge_cases a 0); [done|]; pose proof (Z.rem_bound_pos a m); lia).
    pose proof (Z.rem_bound_neg_pos a m). apply (Z.mod_unique _ _ (Z.quot a m - 1)); lia.
  - pose proof (Z.rem_bound_abs a m). apply (Z.mod_unique _ _ (Z.quot a m)); lia.
Qed.

Lemma wpZ_mod st ζ X a m c za zm' zc (Q : Z -> state -> Prop) :
  RZ st ζ X -> ζ !! a = Some za -> ζ !! m = Some zm' -> ζ !! c = Some zc -> zo zc = None -> norm za -> norm zm' ->
  (zm zm' = 0 -> forall st', RZ st' ζ X -> Q MP_UNDEF st') ->
  (zm zm' <> 0 -> forall st', RZ st' (<[c := zset zc (mod_val (zval za) (zval zm'))]> ζ) X -> Q MP_OK st') ->
  wp (mp_int_mod a m c) Q st.
Proof.
  intros HZ Ha Hm Hc Oc Na Nm HQ0 HQ. unfold mp_int_mod.
  eapply wpZ_with_temp1; [exact HZ|]. intros t st1 Ht HZ1.
  assert (t <> a /\ t <> m /\ t <> c) as (Nt1 & Nt2 & Nt3) by (split_and!; congruence).
  set (out := if bool_decide (m = c) then t else c).
  assert (exists zt, <[t := zzero]> ζ !! out = Some zt /\ zo zt = None /\ out <> m) as (zt & Hout & Oo & No).
  { unfold out. case_bool_decide; [exists zzero|exists zc]; (split; [lk|]); split; try done; congruence. }
  unfold require. wb. eapply (wpZ_div _ _ _ a m None (Some out)); [exact HZ1|lk|lk|done|done| |done| |].
  { intros x [= <-]. by eexists. }
  { intros E. simpl. apply wp_ret. exists ζ, zzero. split; [done|]. split; [done|]. split; [done|]. by apply HQ0. }
  intros E st2 HZ2. specialize (HQ E). simpl. unfold oput in HZ2. rewrite Hout in HZ2. set (vr := Z.rem _ _) in *.
  wb. eapply wpZ_CMPZ; [exact HZ2|lk|]. rewrite zval_zset.
  unfold mod_val in HQ. fold vr in HQ. cbv zeta in HQ.
  destruct (Z.ltb_spec (Z.sgn vr) 0) as [Hn|Hn].
  - destruct (Z.ltb_spec vr 0) as [_|]; [|lia]. wb.
    assert (exists zc', <[out := zset zt vr]> (<[t := zzero]> ζ) !! c = Some zc' /\ zo zc' = None /\ forall v, zset zc' v = zset zc v) as (zc' & Hc' & Oc' & Ec).
    { unfold out in *. case_bool_decide; [exists zc; split; [lk|done]|]. rewrite lookup_insert_ne in Hout by done. rewrite Hc in Hout. injection Hout as <-.
      exists (zset zc vr). split; [lk|done]. }
    eapply wpZ_add; [exact HZ2|lk|lk|exact Hc'|done|apply norm_zset|done|]. rewrite zval_zset, Ec. intros st3 HZ3. simpl. apply wp_ret.
    exists (<[c := zset zc (vr + zval zm')]> ζ), (if decide (out = t) then zset zt vr else zzero). split; [lk|].
    assert (zo zzero = None) by done. split; [case_decide; done|]. split; [|exact HQ]. eapply RZ_eq; [exact HZ3|].
    unfold out in *. case_bool_decide; case_decide; try congruence; mapeq.
  - destruct (Z.ltb_spec vr 0) as [|_]; [lia|]. wb.
    assert (exists zc', <[out := zset zt vr]> (<[t := zzero]> ζ) !! c = Some zc' /\ zo zc' = None /\ forall s m, zput zc' s m = zput zc s m) as (zc' & Hc' & Oc' & Ec).
    { unfold out in *. case_bool_decide; [exists zc; split; [lk|done]|]. rewrite lookup_insert_ne in Hout by done. rewrite Hc in Hout. injection Hout as <-.
      exists (zset zc vr). split; [lk|done]. }
    eapply wpZ_copy; [exact HZ2|lk|exact Hc'|done|]. rewrite Ec. intros st3 HZ3. simpl. apply wp_ret.
    exists (<[c := zset zc vr]> ζ), (if decide (out = t) then zset zt vr else zzero). split; [lk|].
    assert (zo zzero = None) by done. split; [case_decide; done|]. split; [|exact HQ]. eapply RZ_eq; [exact HZ3|].
    unfold out in *. case_bool_decide; case_decide; try congruence; mapeq.
Qed.
