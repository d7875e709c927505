(** Rules for copying, comparison, negation, addition and subtraction. *)
From Coq Require Import ZArith List Lia.
From stdpp Require Import gmap list.
From Verif Require Import Mem Prog Kern Imath Wp MemLem Dig KernLem KernMul KernKar Rel RelWp RelZ Life.
Local Open Scope Z_scope.

Lemma MAXD_val : MAXD = 33554432. Proof. reflexivity. Qed.
Ltac mx := rewrite ?RADIX_val, ?MAXD_val in *; lia.

Lemma relz_get σ ζ o z : relz σ ζ -> ζ !! o = Some z -> exists f ds, σ !! o = Some f /\ goodw f z ds.
Proof. intros H Ho. destruct (relz_some _ _ _ _ H Ho) as (f & ? & ds & ?). eauto. Qed.
Lemma goodw_hd f z ds : goodw f z ds -> exists d, fc f !! 0%nat = Some (Some d).
Proof. intros G. destruct (view_hd f ds) as (d & r & Hf & _); [apply G|apply G|]. rewrite Hf. by exists d. Qed.
Lemma goodw_len st σ X o f z ds : R st σ X -> σ !! o = Some f -> goodw f z ds ->
  (1 <= length ds)%nat /\ Z.of_nat (length ds) <= Z.of_nat (length (fc f)) <= MAXD.
Proof.
  intros HR Ho G. pose proof (R_len _ _ _ HR _ _ Ho). pose proof (view_len f ds (g_view _ _ _ G)).
  pose proof (proj1 (g_canon _ _ _ G)). lia.
Qed.
Lemma goodw_dig f z ds : goodw f z ds -> digs ds.
Proof. intros G. apply G. Qed.
Lemma goodw_u f z ds : goodw f z ds -> fu f = Z.of_nat (length ds).
Proof. intros G. apply G. Qed.
Lemma goodw_own f z ds : goodw f z ds -> zo z = None -> owned f.
Proof. intros G E. pose proof (g_own _ _ _ G) as H. by rewrite E in H. Qed.

(** s_pad for a good object *)
Lemma wpR_padg st σ X o f z ds n (Q : bool -> state -> Prop) :
  R st σ X -> σ !! o = Some f -> goodw f z ds -> zo z = None -> 0 <= n < RADIX - 1 ->
  (forall st' F, R st' (<[o := F]> σ) X -> goodw F z ds -> keeps f F -> n <= Z.of_nat (length (fc F)) ->
     (n <= Z.of_nat (length (fc f)) -> F = f) -> Q true st') ->
  wp (s_pad o n) Q st.
Proof.
  intros HR Ho G Hown Hn HQ. pose proof (goodw_own _ _ _ G Hown) as Hof.
  eapply wpR_pad; [done|done|done|by eapply goodw_hd|done|].
  intros st' k b Hob Hl Hle HR'. pose proof (keeps_pad f (fs f) (fu f) k b Hof Hob) as K.
  eapply HQ; [exact HR'| |done| |].
  - destruct G. constructor; simpl; try done.
    + by apply view_pad.
    + rewrite app_length. lia.
    + intros i Hi. destruct (g_ini i Hi) as (d & Hd & ?). exists d. split; [|done]. by apply lookup_app_l_Some.
    + by rewrite Hown.
  - simpl. rewrite app_length, replicate_length. lia.
  - intros Hx. destruct (Hle Hx) as [-> ->]. simpl. rewrite app_nil_r. by destruct f.
Qed.

(** ** mp_int_copy *)
Lemma wpS_copy st σ ζ X a c za zc (Q : Z -> state -> Prop) :
  R st σ X -> relz σ ζ -> ζ !! a = Some za -> ζ !! c = Some zc -> zo zc = None ->
  (forall st' F, R st' (<[c := F]> σ) X -> good F (zput zc (zs za) (zm za)) -> Q MP_OK st') ->
  wp (mp_int_copy a c) Q st.
Proof.
  intros HR Hz Ha Hc Hown HQ. unfold mp_int_copy. case_bool_decide as Hac.
  { subst c. apply wp_ret. destruct (relz_some _ _ _ _ Hz Ha) as (f & Hf & Hg). eapply (HQ _ f); [by rewrite insert_id|].
    assert (zc = za) as -> by congruence. by rewrite zput_id. }
  destruct (relz_get _ _ _ _ Hz Ha) as (fa & la & Hfa & Ga). destruct (relz_get _ _ _ _ Hz Hc) as (fc0 & lc & Hfc & Gc).
  destruct (goodw_len _ _ _ _ _ _ _ HR Hfa Ga) as [La1 La2].
  wb. eapply wpR_used; [done..|]. rewrite (goodw_u _ _ _ Ga).
  wb. eapply wpR_padg; [done..| |]. { mx. }
  intros st1 F HR1 GF K HlF _. simpl.
  assert (<[c := F]> σ !! a = Some fa) as Hfa1 by (by rewrite lookup_insert_ne).
  wb. eapply wpR_digits; [done..|]. wb. eapply wpR_digits; [exact HR1|apply lookup_insert|].
  wb. eapply (wp_COPY_d la).
  { done. }
  { eapply view_darr; [done..|]. apply Ga. }
  { eapply R_valid; [exact HR1|apply lookup_insert|done|lia]. }
  { left. simpl. eapply R_fl_ne; [exact HR1|done|apply lookup_insert|done]. }
  pose proof (R_wr0 _ _ _ c F la HR1 (lookup_insert _ _ _) ltac:(lia)) as HR2. rewrite insert_insert in HR2.
  wb. eapply wpR_set_used; [exact HR2|apply lookup_insert|]. simpl. intros st3 HR3. rewrite insert_insert in HR3.
  wb. eapply wpR_sign; [exact HR3|rewrite lookup_insert_ne by done; done|].
  wb. eapply wpR_set_sign; [exact HR3|apply lookup_insert|]. simpl. intros st4 HR4. rewrite insert_insert in HR4.
  apply wp_ret. eapply HQ; [done|].
  eapply (good_intro fc0 zc _ la); [by eexists| |constructor; simpl; [done|by eexists|by eapply goodw_dig]|apply Ga|apply Ga|apply Ga|apply Ga].
  eapply keeps_trans; [done|]. apply keeps_wr0; [by eapply goodw_dig|lia].
Qed.
Lemma wpZ_copy st ζ X a c za zc (Q : Z -> state -> Prop) :
  RZ st ζ X -> ζ !! a = Some za -> ζ !! c = Some zc -> zo zc = None ->
  (forall st', RZ st' (<[c := zput zc (zs za) (zm za)]> ζ) X -> Q MP_OK st') ->
  wp (mp_int_copy a c) Q st.
Proof.
  intros (σ & HR & Hz) Ha Hc Hown HQ. eapply wpS_copy; [done..|]. intros st' F HR' G. apply HQ. by eapply RZ_upd.
Qed.

(** ** mp_int_zero and storing a single digit *)
Lemma wpR_zero st σ X o f (Q : unit -> state -> Prop) :
  R st σ X -> σ !! o = Some f ->
  (forall st', R st' (<[o := Fo 0 1 ((Some <$> [0]) ++ drop 1 (fc f)) (fl f)]> σ) X -> Q tt st') ->
  wp (mp_int_zero o) Q st.
Proof.
  intros HR Ho HQ. pose proof (R_len _ _ _ HR _ _ Ho) as Hl.
  unfold mp_int_zero. wb. eapply wpR_digits; [done..|].
  destruct (lookup_lt_is_Some_2 (fc f) 0) as [c Hc]; [lia|].
  wb. eapply wp_store; [by eapply R_load0|]. rewrite <- wr_1.
  pose proof (R_wr0 _ _ _ o f [0] HR Ho ltac:(simpl; lia)) as HR1.
  wb. eapply wpR_set_used; [exact HR1|apply lookup_insert|]. simpl. intros st2 HR2. rewrite insert_insert in HR2.
  eapply wpR_set_sign; [exact HR2|apply lookup_insert|]. simpl. intros st3 HR3. rewrite insert_insert in HR3.
  by apply HQ.
Qed.
Lemma good_digit st σ X o f z d s : R st σ X -> σ !! o = Some f -> good f z -> dig d -> (s = 0 \/ s = 1) ->
  good (Fo s 1 ((Some <$> [d]) ++ drop 1 (fc f)) (fl f)) (zput z s d).
Proof.
  intros HR Ho G Hd Hs. pose proof (R_len _ _ _ HR _ _ Ho) as Hl.
  eapply (good_intro f z _ [d]); [done| | |apply canon_sing|simpl; lia|done|done].
  - apply (keeps_wr0 f s 1 [d]); [by apply Forall_singleton|simpl; lia].
  - constructor; simpl; [done|by eexists|by apply Forall_singleton].
Qed.
Lemma wpZ_zero st ζ X o z (Q : unit -> state -> Prop) :
  RZ st ζ X -> ζ !! o = Some z ->
  (forall st', RZ st' (<[o := zset z 0]> ζ) X -> Q tt st') -> wp (mp_int_zero o) Q st.
Proof.
  intros (σ & HR & Hz) Ho HQ. destruct (relz_some _ _ _ _ Hz Ho) as (f & Hf & Hg).
  eapply wpR_zero; [done..|]. intros st' HR'. apply HQ. eapply RZ_upd; [done..|].
  eapply (good_digit _ _ _ _ _ _ 0 0 HR Hf Hg); [apply dig_0|by left].
Qed.

(** ** Negation and absolute value *)
Lemma wpZ_abs st ζ X a c za zc (Q : Z -> state -> Prop) :
  RZ st ζ X -> ζ !! a = Some za -> ζ !! c = Some zc -> zo zc = None ->
  (forall st', RZ st' (<[c := zset zc (Z.abs (zval za))]> ζ) X -> Q MP_OK st') ->
  wp (mp_int_abs a c) Q st.
Proof.
  intros HZ Ha Hc Hown HQ. destruct (RZ_s01 _ _ _ _ _ HZ Ha) as [Hm Hs].
  unfold mp_int_abs. wb. eapply wpZ_copy; [done..|]. intros st1 HZ1.
  simpl. wb. eapply wpZ_set_sign; [exact HZ1|apply lookup_insert|by left|]. intros st2 HZ2.
  apply wp_ret. apply HQ. rewrite insert_insert in HZ2. rewrite zput_zput in HZ2. simpl in HZ2.
  replace (zset zc (Z.abs (zval za))) with (zput zc MP_ZPOS (zm za)); [done|].
  rewrite zput_zset by auto. f_equal. unfold zval, MP_ZPOS. destruct Hs as [-> | ->]; simpl; lia.
Qed.
Lemma wpZ_neg st ζ X a c za zc (Q : Z -> state -> Prop) :
  RZ st ζ X -> ζ !! a = Some za -> ζ !! c = Some zc -> zo zc = None -> norm za ->
  (forall st', RZ st' (<[c := zset zc (- zval za)]> ζ) X -> Q MP_OK st') ->
  wp (mp_int_neg a c) Q st.
Proof.
  intros HZ Ha Hc Hown Hn HQ. destruct (RZ_s01 _ _ _ _ _ HZ Ha) as [Hm Hs].
  unfold mp_int_neg. wb. eapply wpZ_copy; [done..|]. intros st1 HZ1. simpl.
  assert (exists za', (<[c := zput zc (zs za) (zm za)]> ζ) !! a = Some za' /\ zs za' = zs za) as (za' & Ha' & Hsa).
  { destruct (decide (a = c)) as [->|]; [rewrite lookup_insert; by eexists|]. rewrite lookup_insert_ne by done. eauto. }
  wb. eapply wpZ_CMPZ; [exact HZ1|apply lookup_insert|].
  assert (zval (zput zc (zs za) (zm za)) = zval za) as -> by done.
  destruct (Z.eqb_spec (Z.sgn (zval za)) 0) as [H0|H0].
  - wb. apply wp_ret. apply wp_ret. apply HQ.
    assert (zval za = 0) as Hv by (by apply Z.sgn_null_iff). rewrite Hv. change (- 0) with 0.
    unfold zval in Hv. destruct Hs as [Hs|Hs]; rewrite Hs in *; simpl in Hv.
    + change (0 =? 0) with true in Hv. cbv iota in Hv. rewrite Hv in HZ1. done.
    + change (1 =? 0) with false in Hv. cbv iota in Hv. unfold norm in Hn. lia.
  - wb. wb. eapply wpZ_sign; [exact HZ1|done|]. rewrite Hsa.
    eapply wpZ_set_sign; [exact HZ1|apply lookup_insert|destruct Hs as [-> | ->]; auto|]. intros st2 HZ2.
    apply wp_ret. apply HQ. rewrite insert_insert, zput_zput in HZ2. simpl in HZ2.
    assert (zm za <> 0). { unfold zval in H0. intros He. rewrite He in H0. destruct (zs za =? 0); done. }
    rewrite zput_zset in HZ2; [|done|destruct Hs as [-> | ->]; auto|lia].
    replace (- zval za) with (if 1 - zs za =? 0 then zm za else - zm za); [done|].
    unfold zval. destruct Hs as [-> | ->]; simpl; lia.
Qed.

(** ** Addition and subtraction *)
Lemma view_pad_any (σ : gmap oid fobj) c fc0 F a fa za la zc lc : σ !! a = Some fa -> goodw fa za la -> σ !! c = Some fc0 ->
  goodw fc0 zc lc -> goodw F zc lc ->
  exists fa1, <[c := F]> σ !! a = Some fa1 /\ view fa1 la /\ fs fa1 = zs za.
Proof.
  intros Ha Ga Hc Gc GF. destruct (decide (a = c)) as [->|Hne].
  - assert (fa = fc0) as -> by congruence. rewrite lookup_insert. exists F. split; [done|].
    assert (la = lc) as ->.
    { destruct Ga, Gc. destruct g_view as [U [r Hr] D]. destruct g_view0 as [U' [r' Hr'] D'].
      rewrite Hr in Hr'. apply app_inj_1 in Hr' as [He _]; [|rewrite !fmap_length; lia].
      by apply (inj (fmap Some)) in He. }
    split; [apply GF|]. rewrite (g_sign _ _ _ GF). rewrite <- (g_sign _ _ _ Ga). by rewrite (g_sign _ _ _ Gc).
  - rewrite lookup_insert_ne by done. exists fa. split; [done|]. split; [apply Ga|apply Ga].
Qed.

Lemma wpZ_add_mags st ζ X a b c za zb zc (Q : Z -> state -> Prop) :
  RZ st ζ X -> ζ !! a = Some za -> ζ !! b = Some zb -> ζ !! c = Some zc -> zo zc = None ->
  (forall st', RZ st' (<[c := zput zc (zs za) (zm za + zm zb)]> ζ) X -> Q MP_OK st') ->
  wp (add_mags a b c) Q st.
Proof.
  intros (σ & HR & Hz) Ha Hb Hc Hown HQ.
  destruct (relz_get _ _ _ _ Hz Ha) as (fa & la & Hfa & Ga).
  destruct (relz_get _ _ _ _ Hz Hb) as (fb & lb & Hfb & Gb).
  destruct (relz_get _ _ _ _ Hz Hc) as (fc0 & lc & Hfc & Gc).
  destruct (goodw_len _ _ _ _ _ _ _ HR Hfa Ga) as [La1 La2].
  destruct (goodw_len _ _ _ _ _ _ _ HR Hfb Gb) as [Lb1 Lb2].
  unfold add_mags. wb. eapply wpR_used; [done..|]. wb. eapply wpR_used; [done..|].
  rewrite (goodw_u _ _ _ Ga), (goodw_u _ _ _ Gb).
  set (mx_ := Nat.max (length la) (length lb)).
  assert (MAX (Z.of_nat (length la)) (Z.of_nat (length lb)) = Z.of_nat mx_) as ->.
  { unfold MAX. destruct (Z.gtb_spec (Z.of_nat (length lb)) (Z.of_nat (length la))); lia. }
  wb. eapply wpR_padg; [done..| |]. { mx. }
  intros st1 F HR1 GF K HlF _. cbn [negb].
  destruct (view_pad_any σ c fc0 F a fa za la zc lc) as (fa1 & Hfa1 & Va1 & Sa1); [done..|].
  destruct (view_pad_any σ c fc0 F b fb zb lb zc lc) as (fb1 & Hfb1 & Vb1 & Sb1); [done..|].
  pose proof (lookup_insert σ c F) as HF.
  wb. eapply wpR_digits; [done..|]. wb. eapply wpR_digits; [done..|]. wb. eapply wpR_digits; [done..|].
  wb. eapply (wp_s_uadd la lb); [done|done|by eapply view_darr|by eapply view_darr|
     eapply R_valid; [done|done|done|lia]|apply Va1|apply Vb1|by apply ahead_base|by apply ahead_base|].
  intros w ls Hls Dls Hw Hval. fold mx_ in Hls, Hval.
  pose proof (R_wr0 _ _ _ c F ls HR1 HF ltac:(lia)) as HR2. rewrite insert_insert in HR2.
  assert (keeps fc0 (Fo (fs F) (fu F) ((Some <$> ls) ++ drop (length ls) (fc F)) (fl F))) as K2.
  { eapply keeps_trans; [done|]. apply keeps_wr0; [done|lia]. }
  assert (forall z1 F1, zs zc = zs zc -> exists f1, (<[c := Fo (fs F) z1 F1 (fl F)]> σ) !! a = Some f1 /\ fs f1 = zs za) as Hsa.
  { intros z1 F1 _. destruct (decide (a = c)) as [->|].
    - rewrite lookup_insert. eexists; split; [done|]. simpl. rewrite lookup_insert in Hfa1. congruence.
    - rewrite lookup_insert_ne by done. rewrite lookup_insert_ne in Hfa1 by done. eauto. }
  destruct (Z.eqb_spec w 0) as [->|Hw1].
  - wb. eapply wpR_set_used; [exact HR2|apply lookup_insert|]. simpl. intros st3 HR3. rewrite insert_insert in HR3.
    edestruct Hsa as (f1 & Hf1 & Hs1); [done|].
    wb. eapply wpR_sign; [exact HR3|exact Hf1|]. rewrite Hs1.
    wb. eapply wpR_set_sign; [exact HR3|apply lookup_insert|]. simpl. intros st4 HR4. rewrite insert_insert in HR4.
    apply wp_ret. apply HQ. eapply RZ_upd; [done..|].
    assert (val ls = zm za + zm zb) as Hv.
    { rewrite <- (g_val _ _ _ Ga), <- (g_val _ _ _ Gb). lia. }
    eapply (good_intro fc0 zc _ ls); [by eexists| |constructor; simpl; [lia|by eexists|done]| |done|done|apply Ga].
    + exact (keeps_trans _ _ _ K2 (keeps_same _ (zs za) (Z.of_nat mx_))).
    + split; [lia|]. intros Hgt. rewrite Hv, <- (g_val _ _ _ Ga), <- (g_val _ _ _ Gb).
      pose proof (val_bounds la (goodw_dig _ _ _ Ga)). pose proof (val_bounds lb (goodw_dig _ _ _ Gb)).
      pose proof (proj2 (g_canon _ _ _ Ga)) as Ca. pose proof (proj2 (g_canon _ _ _ Gb)) as Cb.
      rewrite Hls in *. unfold mx_ in *. destruct (Nat.max_spec (length la) (length lb)) as [[? E]|[? E]]; rewrite E in *.
      * specialize (Cb ltac:(lia)). lia.
      * specialize (Ca ltac:(lia)). lia.
  - assert (w = 1) as -> by lia.
    rewrite (u32_id (Z.of_nat mx_ + 1)) by mx.
    set (F2 := Fo (fs F) (fu F) ((Some <$> ls) ++ drop (length ls) (fc F)) (fl F)) in *.
    (* the sum does not depend on the old contents of c any more *)
    set (z2 := Zv (fs F) (val ls) (RelZ.zc zc) (zi zc) None).
    wb. eapply (wpR_pad _ _ _ c F2); [exact HR2|apply lookup_insert| | |mx|].
    { pose proof (goodw_own _ _ _ GF Hown) as Ho. exact Ho. }
    { destruct ls as [|d ls']; [simpl in Hls; lia|]. by exists d. }
    intros st3 k b' Hob Hl2 _ HR3. rewrite insert_insert in HR3. cbn [negb].
    wb. eapply wpR_digits; [exact HR3|apply lookup_insert|].
    set (F3 := Fo (fs F2) (fu F2) (fc F2 ++ replicate k None) b') in *.
    assert (length (fc F2) = length (fc F)) as HlF2.
    { unfold F2. simpl. rewrite app_length, fmap_length, drop_length. lia. }
    assert (mx_ < length (fc F3))%nat as Hlt.
    { change (fc F3) with (fc F2 ++ replicate k None). rewrite app_length, replicate_length. lia. }
    destruct (lookup_lt_is_Some_2 (fc F3) mx_ Hlt) as [c0 Hc0].
    wb. eapply wp_store; [by eapply R_load; [exact HR3|apply lookup_insert|exact Hc0]|].
    pose proof (R_write _ _ _ c F3 (Z.of_nat mx_) [Some 1] HR3 (lookup_insert _ _ _)) as HR4.
    rewrite insert_insert, wr_1, Nat2Z.id in HR4.
    wb. eapply wpR_set_used; [exact HR4|apply lookup_insert|]. simpl. intros st5 HR5. rewrite insert_insert in HR5.
    assert (exists f1, (<[c := Fo (fs F) (Z.of_nat mx_ + 1) (<[mx_:=Some 1]> (fc F3)) b']> σ) !! a = Some f1 /\ fs f1 = zs za) as (f1 & Hf1 & Hs1).
    { destruct (decide (a = c)) as [->|].
      - rewrite lookup_insert. eexists; split; [done|]. simpl. rewrite lookup_insert in Hfa1. congruence.
      - rewrite lookup_insert_ne by done. rewrite lookup_insert_ne in Hfa1 by done. eauto. }
    wb. eapply wpR_sign; [exact HR5|exact Hf1|]. rewrite Hs1.
    wb. eapply wpR_set_sign; [exact HR5|apply lookup_insert|]. simpl. intros st6 HR6. rewrite insert_insert in HR6.
    apply wp_ret. apply HQ. eapply RZ_upd; [done..|].
    assert (val (ls ++ [1]) = zm za + zm zb) as Hv.
    { rewrite <- (g_val _ _ _ Ga), <- (g_val _ _ _ Gb), val_snoc, Hls. lia. }
    eapply (good_intro fc0 zc _ (ls ++ [1])); [by eexists| | | |done|done|apply Ga].
    + eapply keeps_trans; [exact K2|]. eapply keeps_trans; [apply (keeps_pad F2 (fs F2) (fu F2) k b'); [|exact Hob]|].
      { pose proof (goodw_own _ _ _ GF Hown) as Ho. exact Ho. }
      fold F3. apply (keeps_ins F3 (zs za) (Z.of_nat mx_ + 1) mx_ [1]). by apply Forall_singleton, dig_1.
    + constructor; simpl.
      * rewrite app_length. simpl. lia.
      * exists (drop (mx_ + 1) (fc F3)). unfold F3, F2. simpl.
        rewrite <- !app_assoc. rewrite insert_app_r_alt by (rewrite fmap_length; lia). rewrite fmap_length, Hls, Nat.sub_diag.
        rewrite fmap_app, <- app_assoc. f_equal. unfold F3, F2 in Hlt. simpl in Hlt.
        rewrite <- app_assoc in Hlt. rewrite !app_length, fmap_length, Hls in Hlt.
        rewrite drop_app_ge by (rewrite fmap_length; lia). rewrite fmap_length, Hls.
        replace (mx_ + 1 - mx_)%nat with 1%nat by lia.
        destruct (drop mx_ (fc F) ++ replicate k None) as [|x l] eqn:E; [|done].
        exfalso. apply (f_equal length) in E. rewrite app_length in E. simpl in E. lia.
      * apply Forall_app. split; [done|]. by apply Forall_singleton, dig_1.
    + apply canon_snoc; [done|apply dig_1|done].
Qed.

(** The common part of the subtraction branches. *)
Lemma wpR_usub_into' {A} st σ X c F x y fx fy lx ly (k : prog A) (Q : A -> state -> Prop) :
  R st (<[c := F]> σ) X ->
  (<[c := F]> σ) !! x = Some fx -> view fx lx -> canon lx ->
  (<[c := F]> σ) !! y = Some fy -> view fy ly -> canon ly ->
  val ly <= val lx -> (length lx <= length (fc F))%nat ->
  (forall st' ds cells, canon ds -> val ds = val lx - val ly ->
     R st' (<[c := Fo (fs F) (Z.of_nat (length ds)) cells (fl F)]> σ) X ->
     view (Fo (fs F) (Z.of_nat (length ds)) cells (fl F)) ds ->
     (forall s u, keeps F (Fo s u cells (fl F))) -> drop (length lx) cells = drop (length lx) (fc F) -> wp k Q st') ->
  wp (dx <- get_digits x; dy <- get_digits y; dc <- get_digits c;
      ux <- get_used x; uy <- get_used y;
      s_usub dx dy dc ux uy;;
      ux <- get_used x; set_used c ux;;
      CLAMP c;; k)%prog Q st.
Proof.
  intros HR Hx Vx Cx Hy Vy Cy Hle Hlen HQ. pose proof (lookup_insert σ c F) as HF.
  wb. eapply wpR_digits; [done..|]. wb. eapply wpR_digits; [done..|]. wb. eapply wpR_digits; [done..|].
  wb. eapply wpR_used; [done..|]. wb. eapply wpR_used; [done..|]. rewrite (v_u _ _ Vx), (v_u _ _ Vy).
  assert (length ly <= length lx)%nat as Hll.
  { destruct (Nat.le_gt_cases (length ly) (length lx)) as [|Hgt]; [done|].
    pose proof (canon_len_lt lx ly (v_d _ _ Vx) Cy Hgt (proj1 Cx)). lia. }
  wb. eapply (wp_s_usub lx ly); [done|done|done|by eapply view_darr|by eapply view_darr|
     eapply R_valid; [done|done|done|lia]|apply Vx|apply Vy|by apply ahead_base|by apply ahead_base|done|].
  intros ls Lls Dls Vls.
  pose proof (R_wr0 _ _ _ c F ls HR HF ltac:(lia)) as HR2. rewrite insert_insert in HR2.
  set (cells := (Some <$> ls) ++ drop (length ls) (fc F)) in *.
  assert (forall s u, keeps F (Fo s u cells (fl F))) as K2.
  { intros s u. apply keeps_wr0; [done|lia]. }
  assert (exists f1, (<[c := Fo (fs F) (fu F) cells (fl F)]> σ) !! x = Some f1 /\ fu f1 = Z.of_nat (length lx)) as (f1 & Hf1 & Hu1).
  { destruct (decide (x = c)) as [->|].
    - rewrite lookup_insert. eexists; split; [done|]. simpl. rewrite lookup_insert in Hx. rewrite <- (v_u _ _ Vx). congruence.
    - rewrite lookup_insert_ne by done. rewrite lookup_insert_ne in Hx by done. exists fx. split; [done|apply Vx]. }
  wb. eapply wpR_used; [exact HR2|done|]. rewrite Hu1.
  wb. eapply wpR_set_used; [exact HR2|apply lookup_insert|]. simpl. intros st3 HR3. rewrite insert_insert in HR3.
  wb. eapply (wpR_CLAMP _ _ _ c _ ls); [exact HR3|apply lookup_insert| |destruct Cx; lia|].
  { constructor; simpl; [lia|by eexists|done]. }
  simpl. intros st4 ds n Hc Hd Hv _ HR4 V4. rewrite insert_insert in HR4.
  eapply HQ; try done; [lia|]. unfold cells. rewrite drop_app_alt by (rewrite fmap_length; lia). by rewrite Lls.
Qed.
Lemma wpR_usub_into {A} st σ X c F x y fx fy lx ly (k : prog A) (Q : A -> state -> Prop) :
  R st (<[c := F]> σ) X ->
  (<[c := F]> σ) !! x = Some fx -> view fx lx -> canon lx ->
  (<[c := F]> σ) !! y = Some fy -> view fy ly -> canon ly ->
  val ly <= val lx -> (length lx <= length (fc F))%nat ->
  (forall st' ds cells, canon ds -> val ds = val lx - val ly ->
     R st' (<[c := Fo (fs F) (Z.of_nat (length ds)) cells (fl F)]> σ) X ->
     view (Fo (fs F) (Z.of_nat (length ds)) cells (fl F)) ds ->
     (forall s u, keeps F (Fo s u cells (fl F))) -> wp k Q st') ->
  wp (dx <- get_digits x; dy <- get_digits y; dc <- get_digits c;
      ux <- get_used x; uy <- get_used y;
      s_usub dx dy dc ux uy;;
      ux <- get_used x; set_used c ux;;
      CLAMP c;; k)%prog Q st.
Proof. intros. eapply wpR_usub_into'; try done. eauto. Qed.

Lemma zval_sgn z : 0 <= zm z -> (zs z = 0 \/ zs z = 1) -> zval z = (1 - 2 * zs z) * zm z.
Proof. intros ? [E|E]; unfold zval; rewrite E; simpl; lia. Qed.

Lemma wpZ_add st ζ X a b c za zb zc (Q : Z -> state -> Prop) :
  RZ st ζ X -> ζ !! a = Some za -> ζ !! b = Some zb -> ζ !! c = Some zc -> zo zc = None ->
  norm za -> norm zb ->
  (forall st', RZ st' (<[c := zset zc (zval za + zval zb)]> ζ) X -> Q MP_OK st') ->
  wp (mp_int_add a b c) Q st.
Proof.
  intros HZ Ha Hb Hc Hown Na Nb HQ.
  destruct (RZ_s01 _ _ _ _ _ HZ Ha) as [Hma Hsa]. destruct (RZ_s01 _ _ _ _ _ HZ Hb) as [Hmb Hsb].
  pose proof (zval_sgn za Hma Hsa) as Eva. pose proof (zval_sgn zb Hmb Hsb) as Evb. unfold norm in Na, Nb.
  unfold mp_int_add. wb. eapply wpZ_sign; [done..|]. wb. eapply wpZ_sign; [done..|].
  destruct (Z.eqb_spec (zs za) (zs zb)) as [Hs|Hs].
  { eapply wpZ_add_mags; [done..|]. intros st' HZ'. apply HQ.
    rewrite zput_zset in HZ'; [|lia|done|].
    - replace (zval za + zval zb) with (if zs za =? 0 then zm za + zm zb else - (zm za + zm zb)); [done|].
      rewrite Eva, Evb. destruct (Z.eqb_spec (zs za) 0); nia.
    - intros. apply Na. lia. }
  wb. eapply wpZ_ucmp; [done..|].
  destruct (Z.eqb_spec (Z.sgn (zm za - zm zb)) 0) as [H0|H0].
  { apply Z.sgn_null_iff in H0. wb. eapply wpZ_zero; [done..|]. intros st' HZ'. apply wp_ret. apply HQ.
    replace (zval za + zval zb) with 0; [done|]. rewrite Eva, Evb. nia. }
  destruct HZ as (σ & HR & Hz).
  destruct (relz_get _ _ _ _ Hz Ha) as (fa & la & Hfa & Ga).
  destruct (relz_get _ _ _ _ Hz Hb) as (fb & lb & Hfb & Gb).
  destruct (relz_get _ _ _ _ Hz Hc) as (fc0 & lc & Hfc & Gc).
  assert (forall x y zx zy fx fy lx ly, zm zy < zm zx -> zs zx <> zs zy ->
    0 <= zm zx -> (zs zx = 0 \/ zs zx = 1) -> (zs zy = 0 \/ zs zy = 1) ->
    ζ !! x = Some zx -> ζ !! y = Some zy ->
    σ !! x = Some fx -> goodw fx zx lx -> σ !! y = Some fy -> goodw fy zy ly ->
    (forall st', RZ st' (<[c := zset zc (zval zx + zval zy)]> ζ) X -> Q MP_OK st') ->
    wp (ux <- get_used x;
      ok <- s_pad c ux;
      if negb ok then Ret MP_MEMORY else
      dx <- get_digits x; dy <- get_digits y; dc <- get_digits c;
      ux <- get_used x; uy <- get_used y;
      s_usub dx dy dc ux uy;;
      ux <- get_used x; set_used c ux;;
      CLAMP c;;
      s <- get_sign x; set_sign c s;;
      Ret MP_OK)%prog Q st) as Hmain.
  { clear Ga Gb Hfa Hfb Ha Hb HQ. intros x y zx zy fx fy lx ly Hlt Hne Hmx Hsx Hsy Hx Hy Hfx Gx Hfy Gy HQ.
    destruct (goodw_len _ _ _ _ _ _ _ HR Hfx Gx) as [Lx1 Lx2].
    wb. eapply wpR_used; [done..|]. rewrite (goodw_u _ _ _ Gx).
    wb. eapply wpR_padg; [done..| |]. { mx. }
    intros st1 F HR1 GF K HlF _. cbn [negb].
    destruct (view_pad_any σ c fc0 F x fx zx lx zc lc) as (fx1 & Hfx1 & Vx1 & Sx1); [done..|].
    destruct (view_pad_any σ c fc0 F y fy zy ly zc lc) as (fy1 & Hfy1 & Vy1 & Sy1); [done..|].
    eapply (wpR_usub_into st1 σ X c F x y fx1 fy1 lx ly); try done; [apply Gx|apply Gy| |lia|].
    { rewrite (g_val _ _ _ Gx), (g_val _ _ _ Gy). lia. }
    intros st2 ds cells Cds Vds HR2 V2 K2.
    assert (exists f1, (<[c := Fo (fs F) (Z.of_nat (length ds)) cells (fl F)]> σ) !! x = Some f1 /\ fs f1 = zs zx) as (f1 & Hf1 & Hs1).
    { destruct (decide (x = c)) as [->|].
      - rewrite lookup_insert. eexists; split; [done|]. simpl. rewrite lookup_insert in Hfx1. congruence.
      - rewrite lookup_insert_ne by done. rewrite lookup_insert_ne in Hfx1 by done. eauto. }
    wb. eapply wpR_sign; [exact HR2|done|]. rewrite Hs1.
    wb. eapply wpR_set_sign; [exact HR2|apply lookup_insert|]. simpl. intros st3 HR3. rewrite insert_insert in HR3.
    apply wp_ret. apply HQ. eapply RZ_upd; [exact HR3|exact Hz|].
    rewrite (g_val _ _ _ Gx), (g_val _ _ _ Gy) in Vds.
    assert (0 <= zm zy) by (apply (good_m0 fy); by eexists).
    replace (zset zc (zval zx + zval zy)) with (zput zc (zs zx) (zm zx - zm zy)).
    - eapply (good_intro fc0 zc _ ds); [by eexists|exact (keeps_trans _ _ _ K (K2 _ _))| |done|done|done|done].
      exact (view_sign _ _ (zs zx) V2).
    - rewrite zput_zset; [|lia|done|lia]. f_equal. rewrite !zval_sgn by done. destruct Hsx as [E|E], Hsy as [E'|E']; rewrite E, E' in *; simpl; lia. }
  destruct (Z.ltb_spec (Z.sgn (zm za - zm zb)) 0) as [Hlt|Hge].
  - cbv zeta. eapply (Hmain b a zb za fb fa lb la); try done.
    + apply Z.sgn_neg_iff in Hlt. lia.
    + intros st' HZ'. apply HQ. by rewrite (Z.add_comm (zval za)).
  - cbv zeta. eapply (Hmain a b za zb fa fb la lb); try done.
    assert (0 < Z.sgn (zm za - zm zb)) as Hp by lia. apply Z.sgn_pos_iff in Hp. lia.
Qed.

Lemma wpZ_sub st ζ X a b c za zb zc (Q : Z -> state -> Prop) :
  RZ st ζ X -> ζ !! a = Some za -> ζ !! b = Some zb -> ζ !! c = Some zc -> zo zc = None ->
  norm za -> norm zb ->
  (forall st', RZ st' (<[c := zset zc (zval za - zval zb)]> ζ) X -> Q MP_OK st') ->
  wp (mp_int_sub a b c) Q st.
Proof.
  intros HZ Ha Hb Hc Hown Na Nb HQ.
  destruct (RZ_s01 _ _ _ _ _ HZ Ha) as [Hma Hsa]. destruct (RZ_s01 _ _ _ _ _ HZ Hb) as [Hmb Hsb].
  pose proof (zval_sgn za Hma Hsa) as Eva. pose proof (zval_sgn zb Hmb Hsb) as Evb. unfold norm in Na, Nb.
  pose proof HZ as (σ & HR & Hz).
  destruct (relz_get _ _ _ _ Hz Ha) as (fa & la & Hfa & Ga).
  destruct (relz_get _ _ _ _ Hz Hb) as (fb & lb & Hfb & Gb).
  destruct (relz_get _ _ _ _ Hz Hc) as (fc0 & lc & Hfc & Gc).
  destruct (goodw_len _ _ _ _ _ _ _ HR Hfa Ga) as [La1 La2].
  destruct (goodw_len _ _ _ _ _ _ _ HR Hfb Gb) as [Lb1 Lb2].
  unfold mp_int_sub. wb. eapply wpR_used; [done..|]. wb. eapply wpR_used; [done..|].
  wb. eapply wpZ_sign; [done..|]. wb. eapply wpZ_sign; [done..|].
  rewrite (goodw_u _ _ _ Ga), (goodw_u _ _ _ Gb).
  destruct (Z.eqb_spec (zs za) (zs zb)) as [Hs|Hs]; cbn [negb].
  2:{ eapply wpZ_add_mags; [done..|]. intros st' HZ'. apply HQ.
    destruct (decide (zm za + zm zb = 0)) as [E0|E0].
    { assert (zm za = 0) as Ea by lia. assert (zm zb = 0) as Eb by lia. lia. }
    rewrite zput_zset in HZ'; [|lia|done|lia].
    replace (zval za - zval zb) with (if zs za =? 0 then zm za + zm zb else - (zm za + zm zb)); [done|].
    rewrite Eva, Evb. destruct (Z.eqb_spec (zs za) 0); nia. }
  set (mx_ := Nat.max (length la) (length lb)).
  assert (MAX (Z.of_nat (length la)) (Z.of_nat (length lb)) = Z.of_nat mx_) as ->.
  { unfold MAX. destruct (Z.gtb_spec (Z.of_nat (length lb)) (Z.of_nat (length la))); lia. }
  wb. eapply wpR_padg; [done..| |]. { mx. }
  intros st1 F HR1 GF K HlF _. cbn [negb].
  destruct (view_pad_any σ c fc0 F a fa za la zc lc) as (fa1 & Hfa1 & Va1 & Sa1); [done..|].
  destruct (view_pad_any σ c fc0 F b fb zb lb zc lc) as (fb1 & Hfb1 & Vb1 & Sb1); [done..|].
  wb. eapply wpR_ucmp; [exact HR1|exact Hfa1|exact Va1|apply Ga|exact Hfb1|exact Vb1|apply Gb|].
  rewrite (g_val _ _ _ Ga), (g_val _ _ _ Gb).
  cbv zeta. wb. eapply wpR_sign; [done..|]. rewrite Sa1.
  set (cmp := Z.sgn (zm za - zm zb)).
  destruct (Z.geb_spec cmp 0) as [Hge|Hlt].
  - assert (zm zb <= zm za) as Hle. { unfold cmp in Hge. destruct (Z.sgn_spec (zm za - zm zb)) as [[? E]|[[? E]|[? E]]]; lia. }
    eapply (wpR_usub_into st1 σ X c F a b fa1 fb1 la lb); try done; [apply Ga|apply Gb| |lia|].
    { by rewrite (g_val _ _ _ Ga), (g_val _ _ _ Gb). }
    intros st2 ds cells Cds Vds HR2 V2 K2.
    rewrite (g_val _ _ _ Ga), (g_val _ _ _ Gb) in Vds.
    wb. eapply wpR_set_sign; [exact HR2|apply lookup_insert|]. simpl. intros st3 HR3. rewrite insert_insert in HR3.
    apply wp_ret. apply HQ. eapply RZ_upd; [exact HR3|exact Hz|].
    replace (zset zc (zval za - zval zb)) with (zput zc (if ((zs za =? MP_NEG) && negb (cmp =? 0))%bool then 1 - MP_ZPOS else MP_ZPOS) (zm za - zm zb)).
    + eapply (good_intro fc0 zc _ ds); [by eexists|exact (keeps_trans _ _ _ K (K2 _ _))| |done|done|done|].
      * exact (view_sign _ _ _ V2).
      * destruct ((zs za =? MP_NEG) && negb (cmp =? 0))%bool; unfold MP_ZPOS; lia.
    + assert (cmp = 0 <-> zm za = zm zb) as Hc0. { unfold cmp. rewrite Z.sgn_null_iff. lia. }
      unfold MP_NEG, MP_ZPOS. rewrite zput_zset; [|lia| |].
      * f_equal. rewrite Eva, Evb, <- Hs. destruct Hsa as [-> | ->], (Z.eqb_spec cmp 0); simpl; lia.
      * destruct (_ && _)%bool; lia.
      * intros. destruct (Z.eqb_spec cmp 0); [by rewrite andb_false_r|]. lia.
  - assert (zm za < zm zb) as Hle. { unfold cmp in Hlt. apply Z.sgn_neg_iff in Hlt. lia. }
    eapply (wpR_usub_into st1 σ X c F b a fb1 fa1 lb la); try done; [apply Gb|apply Ga| |lia|].
    { rewrite (g_val _ _ _ Ga), (g_val _ _ _ Gb). lia. }
    intros st2 ds cells Cds Vds HR2 V2 K2.
    rewrite (g_val _ _ _ Ga), (g_val _ _ _ Gb) in Vds.
    wb. eapply wpR_set_sign; [exact HR2|apply lookup_insert|]. simpl. intros st3 HR3. rewrite insert_insert in HR3.
    apply wp_ret. apply HQ. eapply RZ_upd; [exact HR3|exact Hz|].
    assert (cmp =? 0 = false) as E0 by (apply Z.eqb_neq; lia). rewrite E0 in *.
    replace (zset zc (zval za - zval zb)) with (zput zc (if ((zs za =? MP_NEG) && negb false)%bool then 1 - MP_NEG else MP_NEG) (zm zb - zm za)).
    + eapply (good_intro fc0 zc _ ds); [by eexists|exact (keeps_trans _ _ _ K (K2 _ _))| |done|done|done|].
      * exact (view_sign _ _ _ V2).
      * destruct ((zs za =? MP_NEG) && negb false)%bool; unfold MP_NEG; lia.
    + unfold MP_NEG. rewrite zput_zset; [|lia| |lia].
      * f_equal. rewrite Eva, Evb, <- Hs. destruct Hsa as [-> | ->]; simpl; lia.
      * destruct (_ && _)%bool; lia.
Qed.
