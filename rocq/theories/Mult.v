(** Rules for multiplication and squaring of integers. *)
From Coq Require Import ZArith List Lia.
From stdpp Require Import gmap list.
From Verif Require Import Mem Prog Kern Imath Wp MemLem Dig KernLem KernMul KernKar Rel RelWp RelZ Life Basic Basic2.
Local Open Scope Z_scope.

(** ** Output buffers *)
(** The output buffer [b] of [c] holds [cells]: a fresh block or the array of [c]. *)
Definition buf (fresh : bool) (st : state) (σ : gmap oid fobj) (X : ctx) (c : oid) (F : fobj) (b : base) (cells : list cell) : Prop :=
  if fresh then R st σ (with_cmem X (<[b := cells]> (cmem X))) /\ cmem X !! b = None /\ (exists h, b = Hp h) /\
                σ !! c = Some F /\ Z.of_nat (length cells) <= MAXD
  else R st (<[c := Fo (fs F) (fu F) cells b]> σ) X /\ fl F = b.

Lemma buf_mem fresh st σ X c F b cells : buf fresh st σ X c F b cells -> mem st !! b = Some cells.
Proof.
  destruct fresh.
  - intros (HR & _). apply (R_ctx _ _ _ HR). simpl. apply lookup_insert.
  - intros (HR & _). exact (R_mem _ _ _ HR c (Fo (fs F) (fu F) cells b) (lookup_insert _ _ _)).
Qed.
Lemma buf_glob fresh st σ X c F b cells : buf fresh st σ X c F b cells -> 8 <= multiply_threshold (glob st).
Proof. destruct fresh; intros (HR & _); rewrite (R_glob _ _ _ HR); apply (R_ok _ _ _ HR). Qed.
Lemma buf_write fresh st σ X c F b cells l : buf fresh st σ X c F b cells -> (length l <= length cells)%nat ->
  buf fresh (set_mem st (wrd (mem st) (b, 0) l)) σ X c F b ((Some <$> l) ++ drop (length l) cells).
Proof.
  intros H Hl. destruct fresh.
  - destruct H as (HR & Hb & Hh & Hc & Hm). split; [|split; [done|split; [done|split; [done|]]]].
    + eapply (R_cwrite _ _ _ b cells 0 (Some <$> l)) in HR; [|simpl; apply lookup_insert].
      change (Z.to_nat 0) with 0%nat in HR. rewrite list_inserts_0, fmap_length in HR by (by rewrite fmap_length).
      unfold with_cmem in *. simpl in HR. rewrite insert_insert in HR. exact HR.
    + rewrite app_length, fmap_length, drop_length. lia.
  - destruct H as (HR & Hb). split; [|done].
    pose proof (R_wr0 _ _ _ c _ l HR (lookup_insert _ _ _) Hl) as HR2. rewrite insert_insert in HR2. exact HR2.
Qed.
(** An input is intact, and away from the buffer. *)
Lemma buf_input (fresh : bool) st σ X c F b cells x fx : buf fresh st σ X c F b cells -> (fresh = false -> x <> c) ->
  σ !! x = Some fx ->
  objs st !! x = Some (mpz_of fx) /\ mem st !! fl fx = Some (fc fx) /\ fl fx <> b.
Proof.
  intros H Hne Hx. destruct fresh.
  - destruct H as (HR & Hb & _). split; [by eapply R_get|]. split; [by eapply R_mem|].
    eapply (R_ctx_own _ _ _ HR); [|done]. simpl. apply lookup_insert.
  - specialize (Hne eq_refl). destruct H as (HR & Hb).
    assert (<[c:=Fo (fs F) (fu F) cells b]> σ !! x = Some fx) as Hx' by (by rewrite lookup_insert_ne).
    split; [by eapply R_get|]. split; [by eapply R_mem|].
    eapply (R_fl_ne _ _ _ x c fx (Fo (fs F) (fu F) cells b)); [exact HR|done|apply lookup_insert|done].
Qed.
Lemma darr_view (m : memory) f ds : m !! fl f = Some (fc f) -> view f ds -> darr m (fl f, 0) ds.
Proof. intros Hm [_ [r Hr] _]. apply (carr_blk m (fl f) (fc f) [] (Some <$> ds) r); done. Qed.
Lemma valid_blk (m : memory) b cells k : m !! b = Some cells -> (k <= length cells)%nat -> valid m (b, 0) k.
Proof.
  intros Hm Hk i Hi. rewrite (load_blk _ _ cells); [|done|simpl; lia]. simpl. apply lookup_lt_is_Some. lia.
Qed.

Lemma wpR_out_buffer (fresh : bool) st σ X c fc0 zc lc n (Q : option ptr * Z -> state -> Prop) :
  R st σ X -> σ !! c = Some fc0 -> goodw fc0 zc lc -> zo zc = None -> 0 < n < RADIX - 1 ->
  (forall st' b cells p, buf fresh st' σ X c fc0 b cells \/ 
        (exists F, fresh = false /\ buf fresh st' σ X c F b cells /\ fs F = fs fc0 /\ fu F = fu fc0 /\ owned F) ->
     n <= Z.of_nat (length cells) <= MAXD -> (fresh = true -> p = Z.of_nat (length cells)) ->
     (fresh = false -> (length (fc fc0) <= length cells)%nat) ->
     Q (Some (b, 0), p) st') ->
  wp (out_buffer fresh c n) Q st.
Proof.
  intros HR Hc Gc Hown Hn HQ. unfold out_buffer. destruct fresh.
  - wb. apply wp_getG. rewrite (R_glob _ _ _ HR). destruct (R_ok _ _ _ HR) as [Hg _].
    set (p := MAX _ _). assert (n <= p) as Hnp.
    { unfold p, MAX. pose proof (round_prec n ltac:(lia)). destruct (Z.gtb_spec (default_precision (cglob X)) (s_round_prec n)); lia. }
    clearbody p. wb. apply wp_s_alloc. intros Hmax i Hi. apply wp_ret.
    destruct (R_newB st σ X (Hp i) (blank p) HR) as [Hcb HR1]; [exact Hi|done|].
    assert (Z.of_nat (length (blank p)) = p) as Lb by (unfold blank; rewrite replicate_length; lia).
    apply (HQ _ _ (blank p)); [left|lia|lia|done].
    split; [exact HR1|]. split; [done|]. split; [eauto|]. split; [done|]. lia.
  - wb. eapply wpR_padg; [done..|lia|]. intros st' F HR' GF K HF _. cbn [negb].
    wb. eapply wpR_digits; [exact HR'|apply lookup_insert|]. apply wp_ret.
    pose proof (R_len _ _ _ HR' _ _ (lookup_insert _ _ _)) as Hlen.
    apply (HQ _ _ (fc F)); [right|lia|done|intros _; apply K]. exists F. split; [done|]. split; [split; [|done]; destruct F; exact HR'|].
    split; [by rewrite (g_sign _ _ _ GF), (g_sign _ _ _ Gc)|]. split; [by rewrite (goodw_u _ _ _ GF), (goodw_u _ _ _ Gc)|].
    by eapply goodw_own.
Qed.
(** After installing the buffer, [c] owns it. *)
Lemma wpR_install fresh st σ X c F b cells p (Q : unit -> state -> Prop) :
  buf fresh st σ X c F b cells -> owned F -> (fresh = true -> p = Z.of_nat (length cells)) -> (1 <= length cells)%nat ->
  (forall st' , R st' (<[c := Fo (fs F) (fu F) cells b]> σ) X -> owned (Fo (fs F) (fu F) cells b) -> Q tt st') ->
  wp (install c (b, 0) p) Q st.
Proof.
  intros H Hown Hpp Hl HQ. unfold install. destruct fresh.
  - rewrite (Hpp eq_refl). destruct H as (HR & Hb & [h ->] & Hc & Hm).
    wb. eapply wpR_digits; [done..|]. pose proof (R_loc _ _ _ HR _ _ Hc) as Hloc.
    assert (fl F <> Hp h) as Hne. { eapply (R_ctx_own _ _ _ HR); [|done]. simpl. apply lookup_insert. }
    unfold ptr_eqb. rewrite bool_decide_eq_false_2 by congruence.
    pose proof (R_own _ _ _ c F (Hp h) cells (fs F) (fu F) HR Hc) as HR1. simpl in HR1.
    specialize (HR1 (lookup_insert _ _ _) ltac:(lia)). rewrite delete_insert in HR1 by done.
    wb. case_bool_decide as Hs.
    + apply wp_ret. injection Hs as Hs.
      wb. eapply wp_set_digits; [by eapply R_get|]. eapply wp_set_alloc; [simpl; apply lookup_insert|].
      rewrite set_objs_set_objs, objs_set_objs, insert_insert. apply HQ; [|done].
      unfold release in HR1. rewrite Hs in HR1. destruct X. exact HR1.
    + unfold owned in Hown. unfold loc_ok in Hloc. destruct (fl F) as [|h'|] eqn:E; [subst; done| |done].
      unfold s_free. assert (live_heap st (Hp h', 0) = Some (fc F)) as Hlv.
      { simpl. rewrite <- E. by eapply R_mem. }
      eapply wp_Free; [done|]. apply wp_ret. simpl.
      wb. eapply wp_set_digits; [simpl; by eapply R_get|]. eapply wp_set_alloc; [simpl; apply lookup_insert|].
      rewrite set_objs_set_objs, objs_set_objs, insert_insert. simpl. apply HQ; [|done].
      unfold release in HR1. rewrite E in HR1.
      eapply (R_delB _ _ _ (Hp h') (fc F)) in HR1; [|simpl; apply lookup_insert].
      simpl in HR1. unfold with_cmem in HR1. simpl in HR1. rewrite delete_insert in HR1; [destruct X; exact HR1|].
      destruct (cmem X !! Hp h') eqn:E'; [|done]. exfalso. eapply (R_ctx_own _ _ _ HR (Hp h') _ c F); [simpl; rewrite lookup_insert_ne by congruence; exact E'|done|done].
  - destruct H as (HR & Hb). wb. eapply wpR_digits; [exact HR|apply lookup_insert|]. simpl.
    unfold ptr_eqb. rewrite bool_decide_eq_true_2 by done. apply wp_ret. apply HQ; [done|].
    unfold owned in *. simpl. by rewrite <- Hb.
Qed.

Definition znil : zv := Zv 0 0 0 0 None.
Lemma good_nil F ds s m : view F ds -> canon ds -> val ds = m -> fs F = s -> (s = 0 \/ s = 1) -> owned F ->
  good F (zput znil s m).
Proof. intros. exists ds. constructor; simpl; try done; [lia|]. intros; lia. Qed.

(** What is known of the array of [c] when the product has been stored. *)
Definition zroom (fresh : bool) (z : zv) : zv := Zv 0 0 (if fresh then 0%nat else zc z) 0 None.
Lemma good_room (fresh : bool) F z ds s m : view F ds -> canon ds -> val ds = m -> fs F = s -> (s = 0 \/ s = 1) -> owned F ->
  (fresh = false -> (zc z <= length (fc F))%nat) -> good F (zput (zroom fresh z) s m).
Proof. intros. exists ds. constructor; simpl; try done; [destruct fresh; [lia|auto]|]. intros; lia. Qed.
Lemma RZ_noroom st ζ X c fresh z v : RZ st (<[c := zset (zroom fresh z) v]> ζ) X -> RZ st (<[c := zset znil v]> ζ) X.
Proof.
  intros H. eapply (RZ_weaken _ _ _ c _ (zset znil v)) in H; [|apply lookup_insert|done|done|simpl; lia|simpl; lia|done].
  by rewrite insert_insert in H.
Qed.

Lemma kfoot_osize n : Z.of_nat n <= MAXD -> u32 (4 * (u32 (Z.of_nat n + 1) / 2)) = Z.of_nat (kfoot n).
Proof.
  intros H. unfold kfoot. rewrite (u32_id (Z.of_nat n + 1)) by mx.
  assert (2 * ((n + 1) / 2) <= n + 1)%nat by apply Nat.mul_div_le, Nat.neq_succ_0.
  rewrite Nat2Z.inj_mul, Nat2Z.inj_div, Nat2Z.inj_add. change (Z.of_nat 4) with 4. change (Z.of_nat 1) with 1. change (Z.of_nat 2) with 2.
  apply u32_id. assert (2 * ((Z.of_nat n + 1) / 2) <= Z.of_nat n + 1) by (apply Z.mul_div_le; lia).
  assert (0 <= (Z.of_nat n + 1) / 2) by (apply Z.div_pos; lia). mx.
Qed.
Lemma kfoot_ge n : (2 * n <= kfoot n)%nat.
Proof. unfold kfoot. pose proof (Nat.div_mod (n + 1) 2 ltac:(lia)). pose proof (Nat.mod_upper_bound (n + 1) 2 ltac:(lia)). lia. Qed.
Lemma kfoot_le n : (kfoot n <= 2 * n + 2)%nat.
Proof. unfold kfoot. pose proof (Nat.div_mod (n + 1) 2 ltac:(lia)). lia. Qed.

(** ** Multiplication *)
Lemma wpZ_mul_room st ζ X a b c za zb zc (Q : Z -> state -> Prop) :
  RZ st ζ X -> ζ !! a = Some za -> ζ !! b = Some zb -> ζ !! c = Some zc -> zo zc = None ->
  let fr := (bool_decide (c = a) || bool_decide (c = b))%bool in
  (forall st', RZ st' (<[c := zset (zroom fr zc) (zval za * zval zb)]> ζ) X -> Q MP_OK st') ->
  wp (mp_int_mul a b c) Q st.
Proof.
  intros HZ Ha Hb Hc Hown fr HQ.
  destruct (RZ_s01 _ _ _ _ _ HZ Ha) as [Hma Hsa]. destruct (RZ_s01 _ _ _ _ _ HZ Hb) as [Hmb Hsb].
  unfold mp_int_mul. wb. eapply wpZ_compare_zero; [done..|].
  assert (zval za * zval zb = 0 -> wp (mp_int_zero c;; Ret MP_OK)%prog Q st) as Hzero.
  { intros E. wb. eapply wpZ_zero; [done..|]. intros st' HZ'. apply wp_ret. apply HQ. rewrite E.
    eapply (RZ_weaken _ _ _ c _ (zset (zroom fr zc) 0)) in HZ'; [|apply lookup_insert|done|done|simpl; destruct fr; lia|simpl; lia|done].
    by rewrite insert_insert in HZ'. }
  destruct (Z.eqb_spec (Z.sgn (zval za)) 0) as [E0|E0].
  { wb. apply wp_ret. simpl. apply Hzero. rewrite Z.sgn_null_iff in E0. rewrite E0. lia. }
  wb. eapply wpZ_compare_zero; [done..|]. destruct (Z.eqb_spec (Z.sgn (zval zb)) 0) as [E1|E1].
  { simpl. apply Hzero. rewrite Z.sgn_null_iff in E1. rewrite E1. lia. }
  simpl orb. cbv iota. rewrite Z.sgn_null_iff in E0, E1.
  wb. eapply wpZ_sign; [done..|]. wb. eapply wpZ_sign; [done..|].
  set (os := if zs za =? zs zb then MP_ZPOS else MP_NEG).
  assert (os = 0 \/ os = 1) as Hos by (unfold os; destruct (zs za =? zs zb); auto).
  assert (zset (zroom fr zc) (zval za * zval zb) = zput (zroom fr zc) os (zm za * zm zb)) as Eres.
  { assert (zm za <> 0). { intros E. apply E0. unfold zval. rewrite E. by destruct (zs za =? 0). }
    assert (zm zb <> 0). { intros E. apply E1. unfold zval. rewrite E. by destruct (zs zb =? 0). }
    rewrite zput_zset; [|nia|done|nia]. f_equal. rewrite !zval_sgn by done. unfold os, MP_ZPOS, MP_NEG.
    destruct Hsa as [->| ->], Hsb as [->| ->]; simpl; lia. }
  rewrite Eres in HQ. clearbody os. clear Hzero Eres.
  destruct HZ as (σ & HR & Hz).
  destruct (relz_get _ _ _ _ Hz Ha) as (fa & la & Hfa & Ga).
  destruct (relz_get _ _ _ _ Hz Hb) as (fb & lb & Hfb & Gb).
  destruct (relz_get _ _ _ _ Hz Hc) as (fc0 & lc & Hfc & Gc).
  destruct (goodw_len _ _ _ _ _ _ _ HR Hfa Ga) as [La1 La2].
  destruct (goodw_len _ _ _ _ _ _ _ HR Hfb Gb) as [Lb1 Lb2].
  wb. eapply wpR_used; [done..|]. wb. eapply wpR_used; [done..|].
  rewrite (goodw_u _ _ _ Ga), (goodw_u _ _ _ Gb).
  set (M := Nat.max (length la) (length lb)).
  assert (MAX (Z.of_nat (length la)) (Z.of_nat (length lb)) = Z.of_nat M) as ->.
  { unfold MAX. destruct (Z.gtb_spec (Z.of_nat (length lb)) (Z.of_nat (length la))); lia. }
  rewrite kfoot_osize by lia. pose proof (kfoot_ge M) as Kg. pose proof (kfoot_le M) as Kl.
  change (bool_decide (c = a) || bool_decide (c = b))%bool with fr.
  rename fr into fresh.
  assert (fresh = false -> a <> c /\ b <> c) as Hfr.
  { unfold fresh. rewrite orb_false_iff, !bool_decide_eq_false. intuition congruence. }
  clearbody fresh. wb. eapply wpR_out_buffer; [done..|mx|].
  intros st1 bb cells p HB Hlc Hp Hroom. cbn [fst snd].
  assert (exists F, buf fresh st1 σ X c F bb cells /\ owned F) as (F & HB1 & HoF).
  { destruct HB as [HB|(F & ? & HB & ? & ? & ?)]; [exists fc0; split; [done|by eapply goodw_own]|eauto]. }
  clear HB.
  wb. eapply (wp_ZERO _ (kfoot M)); [done|eapply valid_blk; [by eapply buf_mem|lia]|].
  eapply (buf_write _ _ _ _ _ _ _ _ (replicate (kfoot M) 0)) in HB1; [|rewrite replicate_length; lia].
  set (st2 := set_mem st1 _) in *. set (cells2 := _ ++ _) in HB1.
  assert (length cells2 = length cells) as Lc2.
  { unfold cells2. rewrite app_length, fmap_length, drop_length, replicate_length. lia. }
  destruct (buf_input _ _ _ _ _ _ _ _ a fa HB1) as (Oa & Ma & Na); [intros; by apply Hfr|done|].
  destruct (buf_input _ _ _ _ _ _ _ _ b fb HB1) as (Ob & Mb & Nb); [intros; by apply Hfr|done|].
  wb. eapply wp_get_digits; [exact Oa|done|]. wb. eapply wp_get_digits; [exact Ob|done|].
  wb. eapply (wp_s_kmul la lb (replicate (kfoot M - (length la + length lb)) 0)); [done|done| | | | | | | | | | | |].
  { apply darr_view; [done|apply Ga]. }
  { apply darr_view; [done|apply Gb]. }
  { by eapply goodw_dig. }
  { by eapply goodw_dig. }
  { apply digs_zeros. }
  { rewrite <- replicate_add. replace (length la + length lb + _)%nat with (kfoot M) by lia.
    eapply (carr_blk _ bb cells2 [] _ (drop (kfoot M) cells)); [by eapply buf_mem|].
    unfold cells2. by rewrite replicate_length. }
  { rewrite replicate_length. fold M. lia. }
  { left. simpl. congruence. }
  { left. simpl. congruence. }
  { by eapply buf_glob. }
  { fold M. mx. }
  intros ld G' Lld Dld Vld _ _ HG. rewrite (HG _ eq_refl). clear HG G'. cbn [negb].
  set (l := ld ++ _).
  assert (length l = kfoot M) as Ll by (unfold l; rewrite app_length, replicate_length; lia).
  assert (digs l) as Dl by (unfold l; apply digs_app; split; [done|apply digs_zeros]).
  assert (val l = zm za * zm zb) as Vl.
  { unfold l. rewrite val_app, val_zeros, Vld, (g_val _ _ _ Ga), (g_val _ _ _ Gb). lia. }
  clearbody l. eapply (buf_write _ _ _ _ _ _ _ _ l) in HB1; [|lia].
  set (st3 := set_mem st2 _) in *. set (cells3 := (Some <$> l) ++ _) in HB1.
  assert (length cells3 = length cells) as Lc3.
  { unfold cells3. rewrite app_length, fmap_length, drop_length. lia. }
  wb. eapply wpR_install; [exact HB1|done|rewrite Lc3; done|lia|]. intros st4 HR4 Ho4.
  wb. eapply wpR_set_used; [exact HR4|apply lookup_insert|]. intros st5 HR5. rewrite insert_insert in HR5. cbn [fs fu fc fl] in HR5.
  wb. eapply (wpR_CLAMP _ _ _ c _ l); [exact HR5|apply lookup_insert| |lia|].
  { constructor; cbn [fs fu fc fl]; [by rewrite Ll|by eexists|done]. }
  intros st6 ds n Hcd Hdd Hvd _ HR6 V6. cbn [fs fu fc fl] in *. rewrite insert_insert in HR6.
  wb. eapply wpR_set_sign; [exact HR6|apply lookup_insert|]. intros st7 HR7. cbn [fs fu fc fl] in *. rewrite insert_insert in HR7.
  apply wp_ret. apply HQ. eapply RZ_upd; [exact HR7|done|].
  eapply (good_room _ _ _ ds); [exact (view_sign _ _ _ V6)|done|lia|done|done|done|].
  intros Ef. specialize (Hroom Ef). pose proof (g_cap _ _ _ Gc). cbn [fc]. lia.
Qed.

Lemma wpZ_mul st ζ X a b c za zb zc (Q : Z -> state -> Prop) :
  RZ st ζ X -> ζ !! a = Some za -> ζ !! b = Some zb -> ζ !! c = Some zc -> zo zc = None ->
  (forall st', RZ st' (<[c := zset znil (zval za * zval zb)]> ζ) X -> Q MP_OK st') ->
  wp (mp_int_mul a b c) Q st.
Proof. intros HZ Ha Hb Hc Hown HQ. eapply wpZ_mul_room; [done..|]. intros st' HZ'. apply HQ. by eapply RZ_noroom. Qed.

Lemma wpZ_mul_value st ζ X a v c za zc (Q : Z -> state -> Prop) :
  RZ st ζ X -> ζ !! a = Some za -> ζ !! c = Some zc -> zo zc = None -> - 2 ^ 63 < v < 2 ^ 63 ->
  (forall st', RZ st' (<[c := zset znil (zval za * v)]> ζ) X -> Q MP_OK st') ->
  wp (mp_int_mul_value a v c) Q st.
Proof.
  intros HZ Ha Hc Hown Hv HQ. unfold mp_int_mul_value. eapply wpZ_with_fake1; [done..|].
  intros t n st1 Ht HZ1. assert (a <> t) by congruence. assert (c <> t) by congruence.
  eapply wpZ_mul; [exact HZ1|by rewrite lookup_insert_ne|apply lookup_insert|by rewrite lookup_insert_ne|done|].
  intros st' HZ'. rewrite fakev_val in HZ'. fin_fake c t HZ' HQ.
Qed.

Lemma wpZ_mul_value_room st ζ X a v c za zc (Q : Z -> state -> Prop) :
  RZ st ζ X -> ζ !! a = Some za -> ζ !! c = Some zc -> zo zc = None -> - 2 ^ 63 < v < 2 ^ 63 -> a <> c ->
  (forall st', RZ st' (<[c := zset (zroom false zc) (zval za * v)]> ζ) X -> Q MP_OK st') ->
  wp (mp_int_mul_value a v c) Q st.
Proof.
  intros HZ Ha Hc Hown Hv Nac HQ. unfold mp_int_mul_value. eapply wpZ_with_fake1; [done..|].
  intros t n st1 Ht HZ1. assert (a <> t) by congruence. assert (c <> t) by congruence.
  eapply wpZ_mul_room; [exact HZ1|by rewrite lookup_insert_ne|apply lookup_insert|by rewrite lookup_insert_ne|done|].
  rewrite !bool_decide_eq_false_2 by congruence. cbn [orb].
  intros st' HZ'. rewrite fakev_val in HZ'. fin_fake c t HZ' HQ.
Qed.

(** ** Squaring *)
Lemma wpZ_sqr_room st ζ X a c za zc (Q : Z -> state -> Prop) :
  RZ st ζ X -> ζ !! a = Some za -> ζ !! c = Some zc -> zo zc = None ->
  let fr := bool_decide (a = c) in
  (forall st', RZ st' (<[c := zset (zroom fr zc) (zm za * zm za)]> ζ) X -> Q MP_OK st') ->
  wp (mp_int_sqr a c) Q st.
Proof.
  intros HZ Ha Hc Hown fr HQ.
  destruct (RZ_s01 _ _ _ _ _ HZ Ha) as [Hma Hsa].
  unfold mp_int_sqr.
  assert (zset (zroom fr zc) (zm za * zm za) = zput (zroom fr zc) MP_ZPOS (zm za * zm za)) as Eres.
  { rewrite zput_zset; [done|nia|by left|done]. }
  rewrite Eres in HQ. clear Eres.
  destruct HZ as (σ & HR & Hz).
  destruct (relz_get _ _ _ _ Hz Ha) as (fa & la & Hfa & Ga).
  destruct (relz_get _ _ _ _ Hz Hc) as (fc0 & lc & Hfc & Gc).
  destruct (goodw_len _ _ _ _ _ _ _ HR Hfa Ga) as [La1 La2].
  wb. eapply wpR_used; [done..|]. rewrite (goodw_u _ _ _ Ga).
  set (M := length la) in *. rewrite kfoot_osize by lia. pose proof (kfoot_ge M) as Kg. pose proof (kfoot_le M) as Kl.
  change (bool_decide (a = c)) with fr.
  rename fr into fresh.
  assert (fresh = false -> a <> c) as Hfr.
  { unfold fresh. by rewrite bool_decide_eq_false. }
  clearbody fresh. wb. eapply wpR_out_buffer; [done..|mx|].
  intros st1 bb cells p HB Hlc Hp Hroom. cbn [fst snd].
  assert (exists F, buf fresh st1 σ X c F bb cells /\ owned F) as (F & HB1 & HoF).
  { destruct HB as [HB|(F & ? & HB & ? & ? & ?)]; [exists fc0; split; [done|by eapply goodw_own]|eauto]. }
  clear HB.
  wb. eapply (wp_ZERO _ (kfoot M)); [done|eapply valid_blk; [by eapply buf_mem|lia]|].
  eapply (buf_write _ _ _ _ _ _ _ _ (replicate (kfoot M) 0)) in HB1; [|rewrite replicate_length; lia].
  set (st2 := set_mem st1 _) in *. set (cells2 := _ ++ _) in HB1.
  assert (length cells2 = length cells) as Lc2.
  { unfold cells2. rewrite app_length, fmap_length, drop_length, replicate_length. lia. }
  destruct (buf_input _ _ _ _ _ _ _ _ a fa HB1) as (Oa & Ma & Na); [intros; by apply Hfr|done|].
  wb. eapply wp_get_digits; [exact Oa|done|].
  wb. eapply (wp_s_ksqr la (replicate (kfoot M - 2 * length la) 0)); [done| | | | | | | | |].
  { apply darr_view; [done|apply Ga]. }
  { by eapply goodw_dig. }
  { apply digs_zeros. }
  { rewrite <- replicate_add. replace (2 * length la + _)%nat with (kfoot M) by lia.
    eapply (carr_blk _ bb cells2 [] _ (drop (kfoot M) cells)); [by eapply buf_mem|].
    unfold cells2. by rewrite replicate_length. }
  { rewrite replicate_length. fold M. lia. }
  { left. simpl. congruence. }
  { by eapply buf_glob. }
  { fold M. mx. }
  intros ld Lld Dld Vld.
  set (l := ld ++ _).
  assert (length l = kfoot M) as Ll by (unfold l; rewrite app_length, replicate_length; lia).
  assert (digs l) as Dl by (unfold l; apply digs_app; split; [done|apply digs_zeros]).
  assert (val l = zm za * zm za) as Vl.
  { unfold l. rewrite val_app, val_zeros, Vld, (g_val _ _ _ Ga). lia. }
  clearbody l. eapply (buf_write _ _ _ _ _ _ _ _ l) in HB1; [|lia].
  set (st3 := set_mem st2 _) in *. set (cells3 := (Some <$> l) ++ _) in HB1.
  assert (length cells3 = length cells) as Lc3.
  { unfold cells3. rewrite app_length, fmap_length, drop_length. lia. }
  wb. eapply wpR_install; [exact HB1|done|rewrite Lc3; done|lia|]. intros st4 HR4 Ho4.
  wb. eapply wpR_set_used; [exact HR4|apply lookup_insert|]. intros st5 HR5. rewrite insert_insert in HR5. cbn [fs fu fc fl] in HR5.
  wb. eapply (wpR_CLAMP _ _ _ c _ l); [exact HR5|apply lookup_insert| |lia|].
  { constructor; cbn [fs fu fc fl]; [by rewrite Ll|by eexists|done]. }
  intros st6 ds n Hcd Hdd Hvd _ HR6 V6. cbn [fs fu fc fl] in *. rewrite insert_insert in HR6.
  wb. eapply wpR_set_sign; [exact HR6|apply lookup_insert|]. intros st7 HR7. cbn [fs fu fc fl] in *. rewrite insert_insert in HR7.
  apply wp_ret. apply HQ. eapply RZ_upd; [exact HR7|done|].
  eapply (good_room _ _ _ ds); [exact (view_sign _ _ _ V6)|done|lia|done|by left|done|].
  intros Ef. specialize (Hroom Ef). pose proof (g_cap _ _ _ Gc). cbn [fc]. lia.
Qed.
Lemma wpZ_sqr st ζ X a c za zc (Q : Z -> state -> Prop) :
  RZ st ζ X -> ζ !! a = Some za -> ζ !! c = Some zc -> zo zc = None ->
  (forall st', RZ st' (<[c := zset znil (zm za * zm za)]> ζ) X -> Q MP_OK st') ->
  wp (mp_int_sqr a c) Q st.
Proof. intros HZ Ha Hc Hown HQ. eapply wpZ_sqr_room; [done..|]. intros st' HZ'. apply HQ. by eapply RZ_noroom. Qed.
