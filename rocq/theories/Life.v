(** Rules for initialisation, clearing and local variables. *)
From Coq Require Import ZArith List Lia.
From stdpp Require Import gmap list.
From Verif Require Import Mem Prog Kern Imath Wp MemLem Dig KernLem KernMul KernKar Rel RelWp RelZ.
Local Open Scope Z_scope.

Lemma set_objs_id st : set_objs st (objs st) = st. Proof. by destruct st. Qed.
Lemma R_objs_eq st σ X o z : R st σ X -> objs st !! o = Some z -> set_objs st (<[o := z]> (objs st)) = st.
Proof. intros _ H. by rewrite insert_id, set_objs_id. Qed.
Lemma R_sng_raw st σ X o z : R st σ X -> craw X !! o = Some z -> exists c, mem st !! Sng o = Some [c].
Proof.
  intros HR Ho. destruct (proj1 (R_sng _ _ _ HR o)) as [l Hl].
  { exists z. by eapply R_get_raw. }
  pose proof (R_sng1 _ _ _ HR _ _ Hl). destruct l as [|c [|]]; try done. eauto.
Qed.

(** ** mp_int_init *)
Lemma wpR_init st σ X o z (Q : Z -> state -> Prop) :
  R st σ X -> craw X !! o = Some z ->
  (forall st', R st' (<[o := Fo 0 1 [Some 0] (Sng o)]> σ) (with_craw X (delete o (craw X))) -> Q MP_OK st') ->
  wp (mp_int_init o) Q st.
Proof.
  intros HR Ho HQ. destruct (R_sng_raw _ _ _ _ _ HR Ho) as [c Hc].
  pose proof (R_get_raw _ _ _ _ _ HR Ho) as Hg. pose proof (R_raw_None _ _ _ _ _ HR Ho) as HN.
  unfold mp_int_init. wb. eapply wp_store.
  { by rewrite (load_blk _ _ [c]). }
  rewrite <- wr_1. 
  assert (HR1 : R (set_mem st (wr (mem st) (Sng o, 0) [Some 0])) σ X).
  { apply R_swrite; [done|]. intros f. by rewrite HN. }
  wb. eapply wp_set_digits; [done|]. wb. eapply wp_set_alloc; [simpl; apply lookup_insert|].
  wb. eapply wp_set_used; [simpl; apply lookup_insert|]. wb. eapply wp_set_sign; [simpl; apply lookup_insert|].
  apply wp_ret. simpl. apply HQ. rewrite !set_objs_set_objs, !insert_insert.
  eapply (R_init_sng _ _ _ o z (Some 0) 0 1) in HR1; [exact HR1|done|].
  simpl. apply (wr_lookup_eq (mem st) (Sng o, 0) [Some 0] [c]). done.
Qed.
Definition zzero : zv := Zv 0 0 1 1 None.
Lemma good_init o : good (Fo 0 1 [Some 0] (Sng o)) zzero.
Proof.
  exists [0]. constructor; simpl; try done; [|apply canon_sing|auto|].
  - constructor; simpl; [done|by exists []|by apply Forall_singleton, dig_0].
  - intros i Hi. assert (i = 0)%nat as -> by lia. exists 0. split; [done|apply dig_0].
Qed.
Lemma wpZ_init st ζ X o z (Q : Z -> state -> Prop) :
  RZ st ζ X -> craw X !! o = Some z ->
  (forall st', ζ !! o = None -> RZ st' (<[o := zzero]> ζ) (with_craw X (delete o (craw X))) -> Q MP_OK st') ->
  wp (mp_int_init o) Q st.
Proof.
  intros (σ & HR & Hz) Ho HQ. eapply wpR_init; [done..|]. intros st' HR'. apply HQ.
  - eapply relz_none; [done|]. by eapply R_raw_None.
  - eapply RZ_upd; [done..|]. apply good_init.
Qed.

(** ** mp_int_clear *)
Lemma wpR_clear st σ X o f (Q : unit -> state -> Prop) :
  R st σ X -> σ !! o = Some f -> owned f ->
  (forall st' z, digits z = None -> R st' (delete o σ) (with_craw X (<[o := z]> (craw X))) -> Q tt st') ->
  wp (mp_int_clear o) Q st.
Proof.
  intros HR Ho Hown HQ. unfold mp_int_clear. wb. eapply wp_getO; [by eapply R_get|]. simpl.
  pose proof (R_loc _ _ _ HR _ _ Ho) as Hloc. 
  set (z := Mpz None (Z.of_nat (length (fc f))) (fu f) (fs f)).
  pose proof (R_uninit _ _ _ o f z HR Ho) as HR1.
  wb. unfold ptr_eqb. case_bool_decide as Hs.
  - apply wp_ret. eapply wp_set_digits; [by eapply R_get|]. apply (HQ _ z); [done|].
    injection Hs as Hs. unfold release in HR1. rewrite Hs in HR1. exact HR1.
  - unfold owned in Hown. unfold loc_ok in Hloc. destruct (fl f) as [|h|] eqn:E; [subst; done| |done].
    unfold s_free. assert (live_heap st (Hp h, 0) = Some (fc f)) as Hl.
    { simpl. rewrite <- E. by eapply R_mem. }
    eapply wp_Free; [done|]. apply wp_ret. simpl. eapply wp_set_digits; [simpl; by eapply R_get|].
    apply (HQ _ z); [done|]. simpl.
    unfold release in HR1. rewrite E in HR1.
    eapply (R_delB _ _ _ (Hp h) (fc f)) in HR1; [|simpl; apply lookup_insert].
    simpl in HR1. unfold with_cmem in HR1. simpl in HR1. rewrite delete_insert in HR1; [exact HR1|].
    destruct (cmem X !! Hp h) eqn:E'; [|done]. exfalso. by eapply (R_ctx_own _ _ _ HR).
Qed.
Lemma wpZ_clear st ζ X o zz (Q : unit -> state -> Prop) :
  RZ st ζ X -> ζ !! o = Some zz -> zo zz = None ->
  (forall st' z, digits z = None -> RZ st' (delete o ζ) (with_craw X (<[o := z]> (craw X))) -> Q tt st') ->
  wp (mp_int_clear o) Q st.
Proof.
  intros (σ & HR & Hz) Ho Hown HQ. destruct (relz_some _ _ _ _ Hz Ho) as (f & Hf & ds & []).
  rewrite Hown in g_own. eapply wpR_clear; [done..|]. intros st' z Hn HR'. apply (HQ _ z Hn).
  eexists. split; [done|]. by apply relz_del.
Qed.
(** Clearing a cleared integer does nothing. *)
Lemma wpZ_clear_again st ζ X o z (Q : unit -> state -> Prop) :
  RZ st ζ X -> craw X !! o = Some z -> digits z = None -> Q tt st -> wp (mp_int_clear o) Q st.
Proof.
  intros (σ & HR & Hz) Ho Hn HQ. unfold mp_int_clear. wb. eapply wp_getO; [by eapply R_get_raw|].
  rewrite Hn. by apply wp_ret.
Qed.

(** ** Temporaries *)
Lemma RZ_newO st ζ X bb z i :
  RZ st ζ X -> fresh_obj st (bb, i) -> let o := (bb, i) in
  ζ !! o = None /\ craw X !! o = None /\ RZ (add_obj st o z) ζ (with_craw X (<[o := z]> (craw X))).
Proof.
  intros (σ & HR & Hz) Hi o. destruct (R_newO st σ X bb z i HR Hi) as (H1 & H2 & H3). fold o in H1, H2, H3.
  split; [by eapply relz_none|]. split; [done|]. by exists σ.
Qed.
Lemma RZ_delO st ζ X o z :
  RZ st ζ X -> craw X !! o = Some z -> RZ (del_obj st o) ζ (with_craw X (delete o (craw X))).
Proof. intros (σ & HR & Hz) Ho. exists σ. split; [by eapply R_delO|done]. Qed.
Lemma RZ_raw st ζ X o z : RZ st ζ X -> craw X !! o = Some z -> objs st !! o = Some z.
Proof. intros (σ & HR & Hz) Ho. by eapply R_get_raw. Qed.
Lemma RZ_not_raw st ζ X o z : RZ st ζ X -> ζ !! o = Some z -> craw X !! o = None.
Proof. intros (σ & HR & Hz) Ho. destruct (relz_some _ _ _ _ Hz Ho) as (f & Hf & _). by eapply R_raw. Qed.
Lemma RZ_raw_none st ζ X o z : RZ st ζ X -> craw X !! o = Some z -> ζ !! o = None.
Proof. intros (σ & HR & Hz) Ho. eapply relz_none; [done|]. by eapply R_raw_None. Qed.

Lemma wpZ_with_temp st ζ X (body : oid -> prog Z) (Q : Z -> state -> Prop) :
  RZ st ζ X ->
  (forall t st1, ζ !! t = None -> RZ st1 (<[t := zzero]> ζ) X ->
     wp (body t) (fun r st2 => exists ζ2 zt, ζ2 !! t = Some zt /\ zo zt = None /\ RZ st2 ζ2 X /\
                    (forall st3, RZ st3 (delete t ζ2) X -> Q r st3)) st1) ->
  wp (with_temp body) Q st.
Proof.
  intros HZ HB. unfold with_temp. apply wp_NewO. intros z iz Fz.
  destruct (RZ_newO st ζ X false z _ HZ Fz) as (H1 & H2 & H3). set (t := (false, iz)) in *.
  wb. eapply wpZ_init; [exact H3|simpl; apply lookup_insert|]. intros st1 _ HZ1. simpl in HZ1.
  rewrite delete_insert in HZ1 by done. unfold with_craw in HZ1. simpl in HZ1.
  assert (RZ st1 (<[t:=zzero]> ζ) X) as HZ1' by (destruct X; exact HZ1).
  wb. eapply wp_mono; [by apply HB|]. intros r st2 (ζ2 & zt & Ht & Hown & HZ2 & HQ).
  wb. eapply wpZ_clear; [done..|]. intros st3 z3 _ HZ3.
  eapply wp_DelO; [eapply RZ_raw; [exact HZ3|simpl; apply lookup_insert]|done|].
  apply wp_ret. apply HQ. eapply RZ_delO in HZ3; [|simpl; apply lookup_insert].
  unfold with_craw in HZ3. simpl in HZ3. rewrite delete_insert in HZ3 by (by eapply RZ_not_raw).
  destruct X; exact HZ3.
Qed.

(** ** mp_int_alloc, mp_int_free *)
Lemma wpZ_alloc st ζ X (Q : option oid -> state -> Prop) :
  RZ st ζ X -> Q None st ->
  (forall o st', o.1 = true -> ζ !! o = None -> craw X !! o = None -> RZ st' (<[o := zzero]> ζ) X -> Q (Some o) st') ->
  wp mp_int_alloc Q st.
Proof.
  intros HZ HN HQ. unfold mp_int_alloc. apply wp_MallocO; [by apply wp_ret|]. intros z iz Fz.
  destruct (RZ_newO st ζ X true z _ HZ Fz) as (H1 & H2 & H3). set (t := (true, iz)) in *.
  wb. eapply wpZ_init; [exact H3|simpl; apply lookup_insert|]. intros st1 _ HZ1. simpl in HZ1.
  rewrite delete_insert in HZ1 by done. apply wp_ret. apply HQ; try done. destruct X; exact HZ1.
Qed.
Lemma wpZ_free st ζ X o zz (Q : unit -> state -> Prop) :
  RZ st ζ X -> ζ !! o = Some zz -> zo zz = None -> o.1 = true ->
  (forall st', RZ st' (delete o ζ) X -> Q tt st') ->
  wp (mp_int_free o) Q st.
Proof.
  intros HZ Ho Hown Hb HQ. unfold mp_int_free. wb. eapply wpZ_clear; [done..|].
  intros st' z _ HZ'. eapply wp_FreeO; [eapply RZ_raw; [exact HZ'|simpl; apply lookup_insert]|done|].
  apply wp_ret. apply HQ. eapply RZ_delO in HZ'; [|simpl; apply lookup_insert].
  unfold with_craw in HZ'. simpl in HZ'. rewrite delete_insert in HZ' by (by eapply RZ_not_raw).
  destruct X; exact HZ'.
Qed.

(** ** Small values as temporary integers *)
Lemma wp_s_uvpack v t (Q : Z -> state -> Prop) st :
  0 <= v < RADIX * RADIX -> 0 <= t.2 -> valid (mem st) t 2 ->
  (forall ds, canon ds -> digs ds -> val ds = v -> (length ds <= 2)%nat ->
     Q (Z.of_nat (length ds)) (set_mem st (wrd (mem st) t ds))) ->
  wp (s_uvpack v t) Q st.
Proof.
  intros Hv Ht Hval HQ. apply valid_S in Hval as [[c0 H0] Hval]. apply valid_S in Hval as [[c1 H1] _].
  unfold s_uvpack. destruct (Z.eqb_spec v 0) as [->|Hv0].
  { wb. eapply wp_store; [done|]. apply wp_ret. apply (HQ [0]); [apply canon_sing|by apply Forall_singleton, dig_0|done|simpl; lia]. }
  simpl. destruct (Z.eqb_spec v 0) as [|_]; [done|]. rewrite padd_0. wb. eapply wp_store; [done|].
  assert (v = u32 v + RADIX * (v / 2 ^ 32)) as Hdm.
  { unfold u32. rewrite pow32. rewrite Z.add_comm. apply Z.div_mod. by rewrite RADIX_val. }
  pose proof (u32_dig v) as Hlo.
  assert (0 <= v / 2 ^ 32 < RADIX) as Hhi by exact (upper_bound v RADIX Hv).
  destruct (Z.eqb_spec (v / 2 ^ 32) 0) as [Hz|Hnz].
  { apply wp_ret. apply (HQ [u32 v]); [apply canon_sing|by apply Forall_singleton| |simpl; lia].
    simpl. rewrite Hz in Hdm. lia. }
  replace (0 + 1) with 1 by lia.
  wb. eapply (wp_store _ _ c1).
  { rewrite mem_set_mem. rewrite load_store_ne; [done| |done]. intros He.
    apply (f_equal snd) in He. rewrite padd_snd in He. lia. }
  assert (v / 2 ^ 32 / 2 ^ 32 = 0) as Hz. { apply Z.div_small. rewrite pow32 in Hhi |- *. done. }
  destruct (Z.eqb_spec (v / 2 ^ 32 / 2 ^ 32) 0) as [_|]; [|done].
  apply wp_ret. rewrite set_mem_set_mem, mem_set_mem, <- wr_1.
  rewrite (u32_id (v / 2 ^ 32)) by done.
  specialize (HQ [u32 v; v / 2 ^ 32]). 
  assert (wrd (mem st) t [u32 v; v / 2 ^ 32] = wr (store (mem st) t (Some (u32 v))) (t +p 1) [Some (v / 2 ^ 32)]) as He.
  { unfold wrd. simpl. by rewrite <- wr_cons. }
  rewrite He in HQ. apply HQ.
  - apply (canon_snoc [u32 v]); [by apply Forall_singleton|done|done].
  - by repeat constructor; apply Hlo || apply Hhi.
  - simpl. lia.
  - simpl. lia.
Qed.

(** The object made by [s_fake]: external array [n]. *)
Definition fakev (s v : Z) (n : positive) : zv := Zv s v 2 0 (Some n).

Lemma R_delFake st σ X o f n : R st σ X -> σ !! o = Some f -> fl f = Ext n ->
  R (del_obj st o) (delete o σ) (with_cmem X (<[Ext n := fc f]> (cmem X))).
Proof.
  intros HR Ho He. pose proof (R_uninit _ _ _ o f (Mpz None 0 0 0) HR Ho) as H1.
  unfold release in H1. rewrite He in H1.
  eapply (R_delO _ _ _ o) in H1; [|simpl; apply lookup_insert].
  unfold with_craw in H1. simpl in H1. rewrite delete_insert in H1 by (by eapply R_raw).
  unfold del_obj in *. simpl in *. by rewrite delete_insert_delete in H1.
Qed.

Lemma wpR_ufake st σ X t n z v (Q : unit -> state -> Prop) :
  R st σ X -> craw X !! t = Some z -> cmem X !! Ext n = Some [None; None] -> 0 <= v < RADIX * RADIX ->
  (forall st' f, R st' (<[t := f]> σ) (Ctx (delete (Ext n) (cmem X)) (delete t (craw X)) (cglob X)) ->
      good f (fakev 0 v n) -> Q tt st') ->
  wp (s_ufake t v (Ext n, 0)) Q st.
Proof.
  intros HR Ht Hn Hv HQ. pose proof (R_get_raw _ _ _ _ _ HR Ht) as Hg.
  pose proof (R_ctx _ _ _ HR _ _ Hn) as Hm.
  unfold s_ufake. wb. apply wp_s_uvpack; [done|done| |].
  { intros i Hi. rewrite (load_blk _ _ [None; None]); [|done|simpl; lia]. simpl. apply lookup_lt_is_Some. simpl. lia. }
  intros ds Hc Hd Hval Hl.
  eapply (R_cwrite _ _ _ (Ext n) _ 0 (Some <$> ds)) in HR as HR1; [|done].
  change (Z.to_nat 0) with 0%nat in HR1. rewrite list_inserts_0 in HR1 by (rewrite fmap_length; simpl; lia).
  rewrite fmap_length in HR1.
  wb. eapply wp_set_used; [done|]. wb. eapply wp_set_alloc; [simpl; apply lookup_insert|].
  wb. eapply wp_set_sign; [simpl; apply lookup_insert|]. eapply wp_set_digits; [simpl; apply lookup_insert|].
  simpl. rewrite !set_objs_set_objs, !insert_insert.
  set (cells := (Some <$> ds) ++ drop (length ds) [None; None]) in *.
  assert (length cells = 2%nat) as Hlc.
  { unfold cells. rewrite app_length, fmap_length, drop_length. simpl. lia. }
  eapply (R_init_blk _ _ _ t z (Ext n) cells 0 (Z.of_nat (length ds))) in HR1;
    [|done|simpl; apply lookup_insert|rewrite Hlc; unfold MAXD; lia].
  unfold mpz_of in HR1. simpl in HR1. rewrite Hlc in HR1. rewrite delete_insert_delete in HR1.
  eapply HQ; [exact HR1|]. exists ds. constructor; simpl; try done; try auto with lia.
  - constructor; simpl; [done|by eexists|done].
Qed.

Lemma wpZ_with_local {A} st ζ X v (body : oid -> prog A) mk s (Q : A -> state -> Prop) :
  RZ st ζ X -> 
  (forall t n z σ st1 X1 (Q1 : unit -> state -> Prop), R st1 σ X1 -> craw X1 !! t = Some z ->
     cmem X1 !! Ext n = Some [None; None] ->
     (forall st' f, R st' (<[t := f]> σ) (Ctx (delete (Ext n) (cmem X1)) (delete t (craw X1)) (cglob X1)) ->
      good f (fakev s v n) -> Q1 tt st') -> wp (mk t (Ext n, 0)) Q1 st1) ->
  (forall t n st1, ζ !! t = None -> RZ st1 (<[t := fakev s v n]> ζ) X ->
     wp (body t) (fun r st2 => exists ζ2 zt X2, ζ2 !! t = Some zt /\ zo zt = Some n /\ RZ st2 ζ2 X2 /\
                    (forall st3, RZ st3 (delete t ζ2) X2 -> Q r st3)) st1) ->
  wp (with_local (fun vtmp vbuf => bind (mk vtmp vbuf) (fun _ => body vtmp))) Q st.
Proof.
  intros (σ & HR & Hz) Hmk HB. unfold with_local. apply wp_NewE. intros n Fn.
  destruct (R_newB st σ X (Ext n) (replicate 2 None) HR) as [Hc HR1]; [exact Fn|done|].
  apply wp_NewO. intros z iz Fz.
  destruct (R_newO _ σ _ false z _ HR1 Fz) as (H1 & H2 & HR2). set (t := (false, iz)) in *.
  wb. wb. eapply (Hmk t n z); [exact HR2|simpl; apply lookup_insert|simpl; apply lookup_insert|].
  intros st' f HR3 Hgood. simpl in HR3. rewrite !delete_insert in HR3 by done.
  assert (R st' (<[t:=f]> σ) X) as HR3' by (destruct X; exact HR3).
  eapply wp_mono; [apply (HB t n)|].
  { by eapply relz_none. }
  { by eapply RZ_upd. }
  intros r st2 (ζ2 & zt & X2 & Ht & Hown & (σ2 & HR4 & Hz2) & HQ).
  destruct (relz_some _ _ _ _ Hz2 Ht) as (f2 & Hf2 & ds & G). pose proof (g_own _ _ _ G) as Ho. rewrite Hown in Ho.
  eapply wp_DelO; [by eapply R_get|done|].
  pose proof (R_delFake _ _ _ _ _ _ HR4 Hf2 Ho) as HR5.
  eapply wp_DelE; [eapply (R_ctx _ _ _ HR5); simpl; apply lookup_insert|]. apply wp_ret. apply HQ.
  eapply (R_delB _ _ _ (Ext n)) in HR5; [|simpl; apply lookup_insert].
  simpl in HR5. rewrite delete_insert in HR5.
  - exists (delete t σ2). split; [destruct X2; exact HR5|by apply relz_del].
  - destruct (cmem X2 !! Ext n) eqn:E; [|done]. exfalso. by eapply (R_ctx_own _ _ _ HR4).
Qed.
Lemma wpZ_with_ufake {A} st ζ X v (body : oid -> prog A) (Q : A -> state -> Prop) :
  RZ st ζ X -> 0 <= v < RADIX * RADIX ->
  (forall t n st1, ζ !! t = None -> RZ st1 (<[t := fakev 0 v n]> ζ) X ->
     wp (body t) (fun r st2 => exists ζ2 zt X2, ζ2 !! t = Some zt /\ zo zt = Some n /\ RZ st2 ζ2 X2 /\
                    (forall st3, RZ st3 (delete t ζ2) X2 -> Q r st3)) st1) ->
  wp (with_ufake v body) Q st.
Proof.
  intros HZ Hv HB. unfold with_ufake.
  apply (wpZ_with_local st ζ X v body (fun vtmp vbuf => s_ufake vtmp v vbuf) 0 Q HZ); [|done].
  intros. by eapply wpR_ufake.
Qed.
Definition sgnbit (v : Z) : Z := if v <? 0 then 1 else 0.
Lemma wpR_fake st1 σ X1 t n z v (Q1 : unit -> state -> Prop) :
  R st1 σ X1 -> craw X1 !! t = Some z -> cmem X1 !! Ext n = Some [None; None] -> - 2 ^ 63 < v < 2 ^ 63 ->
  (forall st' f, R st' (<[t := f]> σ) (Ctx (delete (Ext n) (cmem X1)) (delete t (craw X1)) (cglob X1)) ->
      good f (fakev (sgnbit v) (Z.abs v) n) -> Q1 tt st') -> wp (s_fake t v (Ext n, 0)) Q1 st1.
Proof.
  intros HR Ht Hn Hv HQ. unfold s_fake. unfold SMALL_MIN.
  destruct (Z.eqb_spec v (- 2 ^ 63)) as [|_]; [lia|].
  wb. eapply wpR_ufake; [done..| |]. { rewrite RADIX_val. lia. }
  intros st' f HR' G. unfold sgnbit in *. destruct (Z.ltb_spec v 0) as [Hlt|Hge].
  - eapply wpR_set_sign; [exact HR'|apply lookup_insert|]. intros st2 HR2. rewrite insert_insert in HR2.
    eapply HQ; [exact HR2|]. pose proof G as [ds G']. unfold fakev.
    apply (good_intro f (fakev 0 (Z.abs v) n) (Fo 1 (fu f) (fc f) (fl f)) ds 1 (Z.abs v)); try done.
    + apply keeps_same.
    + apply view_sign. apply G'.
    + apply G'.
    + apply G'.
    + by right.
  - apply wp_ret. by eapply HQ.
Qed.
Lemma wpZ_with_fake {A} st ζ X v (body : oid -> prog A) (Q : A -> state -> Prop) :
  RZ st ζ X -> - 2 ^ 63 < v < 2 ^ 63 ->
  (forall t n st1, ζ !! t = None -> RZ st1 (<[t := fakev (sgnbit v) (Z.abs v) n]> ζ) X ->
     wp (body t) (fun r st2 => exists ζ2 zt X2, ζ2 !! t = Some zt /\ zo zt = Some n /\ RZ st2 ζ2 X2 /\
                    (forall st3, RZ st3 (delete t ζ2) X2 -> Q r st3)) st1) ->
  wp (with_fake v body) Q st.
Proof.
  intros HZ Hv HB. unfold with_fake.
  apply (wpZ_with_local st ζ X (Z.abs v) body (fun vtmp vbuf => s_fake vtmp v vbuf) (sgnbit v) Q HZ); [|done].
  intros t n z σ st1 X1 Q1 HR Ht Hn HQ. by eapply wpR_fake.
Qed.
