(** The [NDEBUG] build when requests are refused, continued: sums, whose output is
    not a number any more when the second request of a carry is refused, but can
    still be released. *)
From Coq Require Import ZArith List Lia.
From stdpp Require Import gmap list.
From Verif Require Import Mem Prog Kern Imath Exec Wp MemLem Dig KernLem Rel RelWp RelZ Life Basic Basic2 Mult Shift Knuth Divi Powr Spec SpecHist Public Refuse Gcd Soft Soft2 Dig.
Local Open Scope Z_scope.
Local Open Scope prog_scope.

(** Everything is in order except [c], which owns its storage but holds no number. *)
Definition ruined (st : state) (ζ : gmap oid zv) (X : ctx) (c : oid) : Prop :=
  exists σ f, R st σ X /\ σ !! c = Some f /\ owned f /\ relz (delete c σ) (delete c ζ).
Lemma RZ_ruined st ζ X c z : RZ st ζ X -> ζ !! c = Some z -> zo z = None -> ruined st ζ X c.
Proof.
  intros (σ & HR & Hz) Hc Ho. destruct (relz_get _ _ _ _ Hz Hc) as (f & l & Hf & G). exists σ, f. split; [done|]. split; [done|]. split; [by eapply goodw_own|]. by apply relz_del.
Qed.
Lemma ruined_clear st ζ X c (Q : unit -> state -> Prop) : ruined st ζ X c ->
  (forall st' z, digits z = None -> RZ st' (delete c ζ) (with_craw X (<[c := z]> (craw X))) -> Q tt st') -> wp (mp_int_clear c) Q st.
Proof. intros (σ & f & HR & Hc & Ho & Hz) HQ. eapply wpR_clear; [done..|]. intros st' z Hd HR'. eapply HQ; [done|]. by exists (delete c σ). Qed.

Lemma sZ_add_mags st ζ X a b c za zb zc (Q : Z -> state -> Prop) :
  RZ st ζ X -> ζ !! a = Some za -> ζ !! b = Some zb -> ζ !! c = Some zc -> zo zc = None ->
  (forall st', ruined st' ζ X c -> Q MP_MEMORY st') ->
  (forall st', RZ st' (<[c := zput zc (zs za) (zm za + zm zb)]> ζ) X -> Q MP_OK st') ->
  sw (add_mags a b c) Q st.
Proof.
  intros HZ Ha Hb Hc Hown HX HQ.
  pose proof HZ as (σ & HR & Hz).
  destruct (relz_get _ _ _ _ Hz Ha) as (fa & la & Hfa & Ga).
  destruct (relz_get _ _ _ _ Hz Hb) as (fb & lb & Hfb & Gb).
  destruct (relz_get _ _ _ _ Hz Hc) as (fc0 & lc & Hfc & Gc).
  destruct (goodw_len _ _ _ _ _ _ _ HR Hfa Ga) as [La1 La2].
  destruct (goodw_len _ _ _ _ _ _ _ HR Hfb Gb) as [Lb1 Lb2].
  unfold add_mags. sqt. eapply wpR_used; [done..|]. sqt. eapply wpR_used; [done..|].
  rewrite (goodw_u _ _ _ Ga), (goodw_u _ _ _ Gb).
  set (mx_ := Nat.max (length la) (length lb)).
  assert (MAX (Z.of_nat (length la)) (Z.of_nat (length lb)) = Z.of_nat mx_) as ->.
  { unfold MAX. destruct (Z.gtb_spec (Z.of_nat (length lb)) (Z.of_nat (length la))); lia. }
  apply soft_bind, wp_bind. apply sf_pad; [eapply wpR_padg; [done..| |]; [mx|]|].
  2:{ intros ok st' [-> ->]. cbn [negb]. apply s_ret. apply HX. by eapply RZ_ruined. }
  intros st1 F HR1 GF K HlF _. cbn [negb].
  destruct (view_pad_any σ c fc0 F a fa za la zc lc) as (fa1 & Hfa1 & Va1 & Sa1); [done..|].
  destruct (view_pad_any σ c fc0 F b fb zb lb zc lc) as (fb1 & Hfb1 & Vb1 & Sb1); [done..|].
  pose proof (lookup_insert σ c F) as HF.
  sqt. eapply wpR_digits; [done..|]. sqt. eapply wpR_digits; [done..|]. sqt. eapply wpR_digits; [done..|].
  sqt. eapply (wp_s_uadd la lb); [done|done|by eapply view_darr|by eapply view_darr|
     eapply R_valid; [done|done|done|lia]|apply Va1|apply Vb1|by apply ahead_base|by apply ahead_base|].
  intros w ls Hls Dls Hw Hval. fold mx_ in Hls, Hval.
  pose proof (R_wr0 _ _ _ c F ls HR1 HF ltac:(lia)) as HR2. rewrite insert_insert in HR2.
  assert (keeps fc0 (Fo (fs F) (fu F) ((Some <$> ls) ++ drop (length ls) (fc F)) (fl F))) as K2.
  { eapply keeps_trans; [done|]. apply keeps_wr0; [done|lia]. }
  assert (forall z1 F1, zs zc = zs zc -> exists f1, (<[c := Fo (fs F) z1 F1 (fl F)]> σ) !! a = Some f1 /\ fs f1 = zs za) as Hsa.
  { intros z1 F1 _. destruct (decide (a = c)) as [->|].
    - rewrite lookup_insert. eexists; split; [done|]. simpl. rewrite lookup_insert in Hfa1. congruence.
    - rewrite lookup_insert_ne by done. rewrite lookup_insert_ne in Hfa1 by done. eauto. }
  destruct (Z.eqb_spec w 0) as [->|Hw1].
  - sqt. eapply wpR_set_used; [exact HR2|apply lookup_insert|]. simpl. intros st3 HR3. rewrite insert_insert in HR3.
    edestruct Hsa as (f1 & Hf1 & Hs1); [done|].
    sqt. eapply wpR_sign; [exact HR3|exact Hf1|]. rewrite Hs1.
    sqt. eapply wpR_set_sign; [exact HR3|apply lookup_insert|]. simpl. intros st4 HR4. rewrite insert_insert in HR4.
    apply s_ret. apply HQ. eapply RZ_upd; [done..|].
    assert (val ls = zm za + zm zb) as Hv.
    { rewrite <- (g_val _ _ _ Ga), <- (g_val _ _ _ Gb). lia. }
    eapply (good_intro fc0 zc _ ls); [by eexists| |constructor; simpl; [lia|by eexists|done]| |done|done|apply Ga].
    + exact (keeps_trans _ _ _ K2 (keeps_same _ (zs za) (Z.of_nat mx_))).
    + split; [lia|]. intros Hgt. rewrite Hv, <- (g_val _ _ _ Ga), <- (g_val _ _ _ Gb).
      pose proof (val_bounds la (goodw_dig _ _ _ Ga)). pose proof (val_bounds lb (goodw_dig _ _ _ Gb)).
      pose proof (proj2 (g_canon _ _ _ Ga)) as Ca. pose proof (proj2 (g_canon _ _ _ Gb)) as Cb.
      rewrite Hls in *. unfold mx_ in *. destruct (Nat.max_spec (length la) (length lb)) as [[? E]|[? E]]; rewrite E in *.
      * specialize (Cb ltac:(lia)). lia.
      * specialize (Ca ltac:(lia)). lia.
  - assert (w = 1) as -> by lia.
    rewrite (u32_id (Z.of_nat mx_ + 1)) by mx.
    set (F2 := Fo (fs F) (fu F) ((Some <$> ls) ++ drop (length ls) (fc F)) (fl F)) in *.
    (* the sum does not depend on the old contents of c any more *)
    set (z2 := Zv (fs F) (val ls) (RelZ.zc zc) (zi zc) None).
    apply soft_bind, wp_bind. apply sf_pad.
    2:{ intros ok st' [-> ->]. cbn [negb]. apply s_ret. apply HX. eexists _, F2. split; [exact HR2|]. split; [apply lookup_insert|].
        split; [exact (goodw_own _ _ _ GF Hown)|]. rewrite delete_insert_delete. by apply relz_del. }
    eapply (wpR_pad _ _ _ c F2); [exact HR2|apply lookup_insert| | |mx|].
    { pose proof (goodw_own _ _ _ GF Hown) as Ho. exact Ho. }
    { destruct ls as [|d ls']; [simpl in Hls; lia|]. by exists d. }
    intros st3 k b' Hob Hl2 _ HR3. rewrite insert_insert in HR3. cbn [negb].
    sqt. eapply wpR_digits; [exact HR3|apply lookup_insert|].
    set (F3 := Fo (fs F2) (fu F2) (fc F2 ++ replicate k None) b') in *.
    assert (length (fc F2) = length (fc F)) as HlF2.
    { unfold F2. simpl. rewrite app_length, fmap_length, drop_length. lia. }
    assert (mx_ < length (fc F3))%nat as Hlt.
    { change (fc F3) with (fc F2 ++ replicate k None). rewrite app_length, replicate_length. lia. }
    destruct (lookup_lt_is_Some_2 (fc F3) mx_ Hlt) as [c0 Hc0].
    sqt. eapply wp_store; [by eapply R_load; [exact HR3|apply lookup_insert|exact Hc0]|].
    pose proof (R_write _ _ _ c F3 (Z.of_nat mx_) [Some 1] HR3 (lookup_insert _ _ _)) as HR4.
    rewrite insert_insert, wr_1, Nat2Z.id in HR4.
    sqt. eapply wpR_set_used; [exact HR4|apply lookup_insert|]. simpl. intros st5 HR5. rewrite insert_insert in HR5.
    assert (exists f1, (<[c := Fo (fs F) (Z.of_nat mx_ + 1) (<[mx_:=Some 1]> (fc F3)) b']> σ) !! a = Some f1 /\ fs f1 = zs za) as (f1 & Hf1 & Hs1).
    { destruct (decide (a = c)) as [->|].
      - rewrite lookup_insert. eexists; split; [done|]. simpl. rewrite lookup_insert in Hfa1. congruence.
      - rewrite lookup_insert_ne by done. rewrite lookup_insert_ne in Hfa1 by done. eauto. }
    sqt. eapply wpR_sign; [exact HR5|exact Hf1|]. rewrite Hs1.
    sqt. eapply wpR_set_sign; [exact HR5|apply lookup_insert|]. simpl. intros st6 HR6. rewrite insert_insert in HR6.
    apply s_ret. apply HQ. eapply RZ_upd; [done..|].
    assert (val (ls ++ [1]) = zm za + zm zb) as Hv.
    { rewrite <- (g_val _ _ _ Ga), <- (g_val _ _ _ Gb), val_snoc, Hls. lia. }
    eapply (good_intro fc0 zc _ (ls ++ [1])); [by eexists| | | |done|done|apply Ga].
    + eapply keeps_trans; [exact K2|]. eapply keeps_trans; [apply (keeps_pad F2 (fs F2) (fu F2) k b'); [|exact Hob]|].
      { pose proof (goodw_own _ _ _ GF Hown) as Ho. exact Ho. }
      fold F3. apply (keeps_ins F3 (zs za) (Z.of_nat mx_ + 1) mx_ [1]). by apply Forall_singleton, dig_1.
    + constructor; simpl.
      * rewrite app_length. simpl. lia.
      * exists (drop (mx_ + 1) (fc F3)). unfold F3, F2. simpl.
        rewrite <- !app_assoc. rewrite insert_app_r_alt by (rewrite fmap_length; lia). rewrite fmap_length, Hls, Nat.sub_diag.
        rewrite fmap_app, <- app_assoc. f_equal. unfold F3, F2 in Hlt. simpl in Hlt.
        rewrite <- app_assoc in Hlt. rewrite !app_length, fmap_length, Hls in Hlt.
        rewrite drop_app_ge by (rewrite fmap_length; lia). rewrite fmap_length, Hls.
        replace (mx_ + 1 - mx_)%nat with 1%nat by lia.
        destruct (drop mx_ (fc F) ++ replicate k None) as [|x l] eqn:E; [|done].
        exfalso. apply (f_equal length) in E. rewrite app_length in E. simpl in E. lia.
      * apply Forall_app. split; [done|]. by apply Forall_singleton, dig_1.
    + apply canon_snoc; [done|apply dig_1|done].
Qed.
Section rd.
Local Transparent wp bind Load Prog.Store getO setO getG assert.
Local Arguments bind {A B} !p f : simpl nomatch.
Local Arguments wp {A} !p Q st.
Lemma rd_cdig n : forall p q, reader (cdig_loop n p q).
Proof. induction n; cbn [cdig_loop]; intros; [exact I|]. rd. apply IHn. Qed.
Lemma rd_ucmp a b : reader (s_ucmp a b).
Proof. unfold s_ucmp, s_cdig. rd. apply rd_cdig. Qed.
Lemma RZ_sign st ζ X o z : RZ st ζ X -> ζ !! o = Some z -> exists m, objs st !! o = Some m /\ sign m = zs z.
Proof.
  intros HZ Ho. pose proof (wpZ_sign st ζ X o z (fun s _ => s = zs z) HZ Ho eq_refl) as HW. unfold get_sign, getO in HW. cbn [bind wp] in HW.
  destruct (objs st !! o) as [m|]; [by exists m|destruct HW].
Qed.
End rd.
Lemma sZ_add st ζ X a b c za zb zc (Q : Z -> state -> Prop) :
  RZ st ζ X -> ζ !! a = Some za -> ζ !! b = Some zb -> ζ !! c = Some zc -> zo zc = None -> norm za -> norm zb ->
  (forall st', ruined st' ζ X c -> Q MP_MEMORY st') ->
  (forall st', RZ st' (<[c := zset zc (zval za + zval zb)]> ζ) X -> Q MP_OK st') ->
  sw (mp_int_add a b c) Q st.
Proof.
  intros HZ Ha Hb Hc Hown Na Nb HX HQ. pose proof (wpZ_add st ζ X a b c za zb zc Q HZ Ha Hb Hc Hown Na Nb HQ) as HW.
  destruct (RZ_s01 _ _ _ _ _ HZ Ha) as [Hma Hsa]. destruct (RZ_s01 _ _ _ _ _ HZ Hb) as [Hmb Hsb].
  pose proof (zval_sgn za Hma Hsa) as Eva. pose proof (zval_sgn zb Hmb Hsb) as Evb. unfold norm in Na, Nb.
  destruct (RZ_sign _ _ _ _ _ HZ Ha) as (ma & Oa & Ma). destruct (RZ_sign _ _ _ _ _ HZ Hb) as (mb & Ob & Mb).
  unfold mp_int_add in *. destruct (sf_get _ sign _ _ _ HW) as (m1 & E1 & HW1 & G). apply G. clear HW G.
  destruct (sf_get _ sign _ _ _ HW1) as (m2 & E2 & HW & G). apply G. clear HW1 G. rewrite Oa in E1. rewrite Ob in E2. injection E1 as <-. injection E2 as <-. rewrite Ma, Mb in *.
  destruct (Z.eqb_spec (zs za) (zs zb)) as [Hs|Hs].
  { eapply sZ_add_mags; [done..|]. intros st' HZ'. apply HQ.
    rewrite zput_zset in HZ'; [|lia|done|].
    - replace (zval za + zval zb) with (if zs za =? 0 then zm za + zm zb else - (zm za + zm zb)); [done|].
      rewrite Eva, Evb. destruct (Z.eqb_spec (zs za) 0); nia.
    - intros. apply Na. lia. }
  assert (forall r st', untouched st r st' -> Q r st') as HF. { intros r st' [-> ->]. apply HX. by eapply RZ_ruined. }
  clear -HW HF. revert st Q HW HF. match goal with |- forall st Q, wp ?p Q st -> _ -> _ => change (softens p untouched) end.
  apply sf_read; [apply rd_ucmp|]. intros cmp. destruct (cmp =? 0); [apply sf_quiet; qt|]. cbv zeta. srd.
  eapply sf_bind_quiet; [apply wf_pad|apply sf_pad|intros [|]; left; cbn [negb]; qt|].
  intros st Q ok st' [-> ->] HQ. cbn [negb]. apply s_ret. by apply HQ.
Qed.
Lemma sZ_sub st ζ X a b c za zb zc (Q : Z -> state -> Prop) :
  RZ st ζ X -> ζ !! a = Some za -> ζ !! b = Some zb -> ζ !! c = Some zc -> zo zc = None -> norm za -> norm zb ->
  (forall st', ruined st' ζ X c -> Q MP_MEMORY st') ->
  (forall st', RZ st' (<[c := zset zc (zval za - zval zb)]> ζ) X -> Q MP_OK st') ->
  sw (mp_int_sub a b c) Q st.
Proof.
  intros HZ Ha Hb Hc Hown Na Nb HX HQ. pose proof (wpZ_sub st ζ X a b c za zb zc Q HZ Ha Hb Hc Hown Na Nb HQ) as HW.
  destruct (RZ_s01 _ _ _ _ _ HZ Ha) as [Hma Hsa]. destruct (RZ_s01 _ _ _ _ _ HZ Hb) as [Hmb Hsb].
  pose proof (zval_sgn za Hma Hsa) as Eva. pose proof (zval_sgn zb Hmb Hsb) as Evb. unfold norm in Na, Nb.
  destruct (RZ_sign _ _ _ _ _ HZ Ha) as (ma & Oa & Ma). destruct (RZ_sign _ _ _ _ _ HZ Hb) as (mb & Ob & Mb).
  destruct (Z.eq_dec (zs za) (zs zb)) as [Hs|Hs].
  { apply sf_sub; [done|]. intros r st' [-> HE]. rewrite (HE ma mb Oa Ob ltac:(congruence)). apply HX. by eapply RZ_ruined. }
  unfold mp_int_sub. sqt. eapply wpZ_used; [done..|intros _]. sqt. eapply wpZ_used; [done..|intros _].
  sqt. eapply wpZ_sign; [done..|]. sqt. eapply wpZ_sign; [done..|]. rewrite (proj2 (Z.eqb_neq _ _)) by done. cbn [negb].
  eapply sZ_add_mags; [done..|]. intros st' HZ'. apply HQ.
    destruct (decide (zm za + zm zb = 0)) as [E0|E0].
    { assert (zm za = 0) as Ea by lia. assert (zm zb = 0) as Eb by lia. lia. }
    rewrite zput_zset in HZ'; [|lia|done|lia].
    replace (zval za - zval zb) with (if zs za =? 0 then zm za + zm zb else - (zm za + zm zb)); [done|].
    rewrite Eva, Evb. destruct (Z.eqb_spec (zs za) 0); nia.
Qed.

(** ** Small operands *)
Lemma ruined_fake st ζ X c t n s v : ruined st (<[t := fakev s v n]> ζ) X c -> ζ !! t = None -> c <> t ->
  exists σ f, σ !! t = Some f /\ fl f = Ext n /\ R st σ X /\ forall st3, R st3 (delete t σ) X -> ruined st3 ζ X c.
Proof.
  intros (σ & fc1 & HR & Hc & Ho & Hz) Ht Hne. rewrite delete_insert_ne in Hz by done.
  destruct (relz_some _ _ _ _ Hz (lookup_insert _ _ _)) as (f & Hf & l & G). rewrite lookup_delete_ne in Hf by done. exists σ, f. split; [done|].
  split; [exact (g_own _ _ _ G)|]. split; [done|]. intros st3 HR3. exists (delete t σ), fc1. split; [done|]. split; [by rewrite lookup_delete_ne|]. split; [done|].
  apply (relz_del _ _ t) in Hz. rewrite delete_insert in Hz by (by rewrite lookup_delete_ne). by rewrite delete_commute.
Qed.
Lemma sR_with_fake {A} st ζ X v (body : oid -> prog A) (Q : A -> state -> Prop) :
  RZ st ζ X -> - 2 ^ 63 < v < 2 ^ 63 ->
  (forall t n st1, ζ !! t = None -> RZ st1 (<[t := fakev (sgnbit v) (Z.abs v) n]> ζ) X ->
     sw (body t) (fun r st2 => exists σ f, σ !! t = Some f /\ fl f = Ext n /\ R st2 σ X /\ (forall st3, R st3 (delete t σ) X -> Q r st3)) st1) ->
  sw (with_fake v body) Q st.
Proof.
  intros (σ & HR & Hz) Hv HB. unfold with_fake, with_local. cbn [soft]. apply wp_NewE. intros n Fn.
  destruct (R_newB st σ X (Ext n) (replicate 2 None) HR) as [Hc HR1]; [exact Fn|done|].
  apply wp_NewO. intros z iz Fz.
  destruct (R_newO _ σ _ false z _ HR1 Fz) as (H1 & H2 & HR2). set (t := (false, iz)) in *.
  apply soft_bind, wp_bind. apply s_quiet; [qt|]. eapply (wpR_fake _ _ _ t n z); [exact HR2|simpl; apply lookup_insert|simpl; apply lookup_insert|done|].
  intros st' f HR3 Hgood. simpl in HR3. rewrite !delete_insert in HR3 by done.
  assert (R st' (<[t:=f]> σ) X) as HR3' by (destruct X; exact HR3).
  eapply wp_mono; [apply (HB t n)|].
  { by eapply relz_none. }
  { by eapply RZ_upd. }
  intros r st2 (σ2 & f2 & Hf2 & Ho & HR4 & HQ).
  cbn [soft]. eapply wp_DelO; [by eapply R_get|done|].
  pose proof (R_delFake _ _ _ _ _ _ HR4 Hf2 Ho) as HR5.
  eapply wp_DelE; [eapply (R_ctx _ _ _ HR5); simpl; apply lookup_insert|]. apply wp_ret. apply HQ.
  eapply (R_delB _ _ _ (Ext n)) in HR5; [|simpl; apply lookup_insert].
  simpl in HR5. rewrite delete_insert in HR5.
  - destruct X; exact HR5.
  - destruct (cmem X !! Ext n) eqn:E; [|done]. exfalso. by eapply (R_ctx_own _ _ _ HR4).
Qed.
Lemma RZ_fake st ζ X t n s v : RZ st (<[t := fakev s v n]> ζ) X -> ζ !! t = None ->
  exists σ f, σ !! t = Some f /\ fl f = Ext n /\ R st σ X /\ forall st3, R st3 (delete t σ) X -> RZ st3 ζ X.
Proof.
  intros (σ & HR & Hz) Ht. destruct (relz_some _ _ _ _ Hz (lookup_insert _ _ _)) as (f & Hf & l & G). exists σ, f. split; [done|].
  split; [exact (g_own _ _ _ G)|]. split; [done|]. intros st3 HR3. exists (delete t σ). split; [done|].
  apply (relz_del _ _ t) in Hz. by rewrite delete_insert in Hz.
Qed.

(** ** Stores of values *)
Definition spoilt (st : state) (V : gmap oid Z) (X : ctx) (c : oid) : Prop := exists ζ, ruined st ζ X c /\ relv ζ V.
Lemma spoilt_clear st V X c (Q : unit -> state -> Prop) : spoilt st V X c ->
  (forall st' z, digits z = None -> RV st' (delete c V) (with_craw X (<[c := z]> (craw X))) -> Q tt st') -> wp (mp_int_clear c) Q st.
Proof. intros (ζ & HX & Hv) HQ. eapply ruined_clear; [done|]. intros st' z Hd HZ. eapply HQ; [done|]. exists (delete c ζ). split; [done|]. by apply relv_del. Qed.
Section V.
Context (st : state) (V : gmap oid Z) (X : ctx) (c : oid) (vc : Z) (Q : Z -> state -> Prop).
Hypotheses (HV : RV st V X) (Hc : V !! c = Some vc) (HX : forall st', spoilt st' V X c -> Q MP_MEMORY st').
Lemma sV_add_spoilt a b va vb : V !! a = Some va -> V !! b = Some vb -> (forall st', RV st' (<[c := va + vb]> V) X -> Q MP_OK st') -> sw (mp_int_add a b c) Q st.
Proof.
  intros Ha Hb HQ. destruct HV as (ζ & HZ & Hv). destruct (relv_some _ _ _ _ Hv Ha) as (za & Ha' & <- & Na & _). destruct (relv_some _ _ _ _ Hv Hb) as (zb & Hb' & <- & Nb & _). destruct (relv_some _ _ _ _ Hv Hc) as (zc & Hc' & _ & _ & O).
  eapply sZ_add; [done..| |].
  - intros st' H'. apply HX. by exists ζ.
  - intros st' H'. apply HQ. by eapply RV_set.
Qed.
Lemma sV_sub_spoilt a b va vb : V !! a = Some va -> V !! b = Some vb -> (forall st', RV st' (<[c := va - vb]> V) X -> Q MP_OK st') -> sw (mp_int_sub a b c) Q st.
Proof.
  intros Ha Hb HQ. destruct HV as (ζ & HZ & Hv). destruct (relv_some _ _ _ _ Hv Ha) as (za & Ha' & <- & Na & _). destruct (relv_some _ _ _ _ Hv Hb) as (zb & Hb' & <- & Nb & _). destruct (relv_some _ _ _ _ Hv Hc) as (zc & Hc' & _ & _ & O).
  eapply sZ_sub; [done..| |].
  - intros st' H'. apply HX. by exists ζ.
  - intros st' H'. apply HQ. by eapply RV_set.
Qed.
Lemma sV_add_value_spoilt a v va : V !! a = Some va -> - 2 ^ 63 < v < 2 ^ 63 -> (forall st', RV st' (<[c := va + v]> V) X -> Q MP_OK st') -> sw (mp_int_add_value a v c) Q st.
Proof.
  intros Ha Hr HQ. destruct HV as (ζ & HZ & Hv). destruct (relv_some _ _ _ _ Hv Ha) as (za & Ha' & <- & Na & _). destruct (relv_some _ _ _ _ Hv Hc) as (zc & Hc' & _ & _ & O).
  unfold mp_int_add_value. eapply sR_with_fake; [done..|]. intros t n st1 Ht HZ1. assert (a <> t) by congruence. assert (c <> t) by congruence.
  eapply sZ_add; [exact HZ1|by rewrite lookup_insert_ne|apply lookup_insert|by rewrite lookup_insert_ne|done|done|apply fakev_norm| |].
  - intros st' H'. apply ruined_fake in H' as (σ & f & H1 & H2 & H3 & H4); [|done..]. exists σ, f. split_and!; try done. intros st3 HR3. apply HX. exists ζ. split; [by apply H4|done].
  - intros st' HZ'. rewrite fakev_val in HZ'. rewrite (insert_commute _ c t) in HZ' by done. apply RZ_fake in HZ' as (σ & f & H1 & H2 & H3 & H4); [|by rewrite lookup_insert_ne].
    exists σ, f. split_and!; try done. intros st3 HR3. apply HQ. eapply RV_set; [by apply H4|done..].
Qed.
Lemma sV_sub_value_spoilt a v va : V !! a = Some va -> - 2 ^ 63 < v < 2 ^ 63 -> (forall st', RV st' (<[c := va - v]> V) X -> Q MP_OK st') -> sw (mp_int_sub_value a v c) Q st.
Proof.
  intros Ha Hr HQ. destruct HV as (ζ & HZ & Hv). destruct (relv_some _ _ _ _ Hv Ha) as (za & Ha' & <- & Na & _). destruct (relv_some _ _ _ _ Hv Hc) as (zc & Hc' & _ & _ & O).
  unfold mp_int_sub_value. eapply sR_with_fake; [done..|]. intros t n st1 Ht HZ1. assert (a <> t) by congruence. assert (c <> t) by congruence.
  eapply sZ_sub; [exact HZ1|by rewrite lookup_insert_ne|apply lookup_insert|by rewrite lookup_insert_ne|done|done|apply fakev_norm| |].
  - intros st' H'. apply ruined_fake in H' as (σ & f & H1 & H2 & H3 & H4); [|done..]. exists σ, f. split_and!; try done. intros st3 HR3. apply HX. exists ζ. split; [by apply H4|done].
  - intros st' HZ'. rewrite fakev_val in HZ'. rewrite (insert_commute _ c t) in HZ' by done. apply RZ_fake in HZ' as (σ & f & H1 & H2 & H3 & H4); [|by rewrite lookup_insert_ne].
    exists σ, f. split_and!; try done. intros st3 HR3. apply HQ. eapply RV_set; [by apply H4|done..].
Qed.
End V.
