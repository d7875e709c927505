(** Between the specification's [Rep] and the relation [RZ] of the proofs. *)
From Coq Require Import ZArith List Lia.
From stdpp Require Import gmap list.
From Verif Require Import Mem Prog Kern Imath Wp MemLem Dig KernLem KernMul KernKar Rel RelWp RelZ Life Basic Basic2 Mult Shift Knuth Divi Powr Spec.
Local Open Scope Z_scope.

Lemma digits_value_val ds : digits_value ds = val ds.
Proof. induction ds as [|d ds IH]; cbn [digits_value val]; [done|]. by rewrite IH, <- pow32. Qed.

Definition relv (ζ : gmap oid zv) (V : gmap oid Z) : Prop :=
  forall o, match ζ !! o, V !! o with
            | Some z, Some v => zval z = v /\ norm z /\ zo z = None
            | None, None => True
            | _, _ => False
            end.
Definition RV (st : state) (V : gmap oid Z) (X : ctx) : Prop := exists ζ, RZ st ζ X /\ relv ζ V.

Definition world_of (X : ctx) : world := World (cmem X) (craw X) (cglob X).
Definition ctx_of (W : world) : ctx := Ctx (bufs W) (blanks W) (tunables W).
Lemma world_ctx W : world_of (ctx_of W) = W. Proof. by destruct W. Qed.

Lemma canon_iff ds : digs ds -> canon ds <-> (1 <= length ds)%nat /\ (1 < Z.of_nat (length ds) -> last ds <> Some 0).
Proof.
  intros D. split.
  - intros C. split; [apply C|]. intros Hl E. destruct ds as [|d0 ds0] using rev_ind; [done|]. rewrite last_snoc in E. injection E as ->.
    apply digs_app in D as [D0 _]. apply canon_last in C; [done|done|apply dig_0|]. intros ->. simpl in Hl. lia.
  - intros [H1 H2]. destruct ds as [|d ds] using rev_ind; [simpl in H1; lia|]. clear IHds. rewrite last_snoc in H2. apply digs_app in D as [D0 Dd].
    destruct ds as [|d0 ds]; [apply canon_sing|]. apply canon_snoc; [done|by apply digs_1|]. intros ->. apply H2; [rewrite app_length; simpl; lia|done].
Qed.
Lemma relv_some (ζ : gmap oid zv) V o v : relv ζ V -> V !! o = Some v -> exists z, ζ !! o = Some z /\ zval z = v /\ norm z /\ zo z = None.
Proof. intros H Ho. specialize (H o). rewrite Ho in H. destruct (ζ !! o) as [z|]; [|done]. exists z. by split. Qed.
Lemma relv_none (ζ : gmap oid zv) V o : relv ζ V -> V !! o = None -> ζ !! o = None.
Proof. intros H Ho. specialize (H o). rewrite Ho in H. by destruct (ζ !! o). Qed.
Lemma relv_none' (ζ : gmap oid zv) V o : relv ζ V -> ζ !! o = None -> V !! o = None.
Proof. intros H Ho. specialize (H o). rewrite Ho in H. by destruct (V !! o). Qed.
Lemma relv_some' (ζ : gmap oid zv) V o z : relv ζ V -> ζ !! o = Some z -> V !! o = Some (zval z) /\ norm z /\ zo z = None.
Proof. intros H Ho. specialize (H o). rewrite Ho in H. destruct (V !! o) as [v|]; [|done]. destruct H as [<- ?]. done. Qed.

(** From the proofs to the specification. *)
Lemma RV_Rep st V X : RV st V X -> Rep st V (world_of X).
Proof.
  intros (ζ & (σ & HR & Hz) & Hv).
  assert (forall o v, V !! o = Some v -> exists z f ds, ζ !! o = Some z /\ zval z = v /\ norm z /\ zo z = None /\ σ !! o = Some f /\ goodw f z ds) as HV.
  { intros o v Ho. destruct (relv_some _ _ _ _ Hv Ho) as (z & Hzo & E & N & O). destruct (relz_get _ _ _ _ Hz Hzo) as (f & ds & Hf & G). eauto 10. }
  assert (forall o v, V !! o = Some v -> exists f, σ !! o = Some f /\ block_of st o = Some (fl f)) as HB.
  { intros o v Ho. destruct (HV o v Ho) as (z & f & ds & _ & _ & _ & _ & Hf & _). exists f. split; [done|]. unfold block_of. by rewrite (R_get _ _ _ _ _ HR Hf). }
  constructor; simpl.
  - intros o v Ho. destruct (HV o v Ho) as (z & f & ds & Hzo & E & N & O & Hf & G). exists (fl f). pose proof G as G'. destruct G as [[Vu [r Vc] Vd] Gc Gv Gs Gb _ _ Gown].
    rewrite O in Gown. apply canon_iff in Gc as [Gc1 Gc2]; [|done]. pose proof (R_len _ _ _ HR _ _ Hf) as Hlen. split.
    + exists (Z.of_nat (length (fc f))), (fu f), (fs f), ds, r. split_and!.
      * apply (R_get _ _ _ _ _ HR Hf).
      * rewrite (R_mem _ _ _ HR _ _ Hf). by rewrite Vc.
      * by rewrite Vc, app_length, fmap_length.
      * lia.
      * done.
      * lia.
      * done.
      * rewrite Vu. done.
      * rewrite Gs, digits_value_val, Gv. unfold zval in E. destruct Gb as [Gb|Gb]; rewrite Gb in *; simpl in E; [left|right]; split; [done..|].
        change (1 =? 0) with false in E. cbv iota in E. split; [done|]. intros E0. unfold norm in N. specialize (N ltac:(lia)). lia.
    + pose proof (R_loc _ _ _ HR _ _ Hf) as L. unfold loc_ok in L. unfold owned in Gown. destruct (fl f); [left; congruence|right; eauto|done].
  - intros o1 o2 v1 v2 H1 H2 E. destruct (HB _ _ H1) as (f1 & F1 & E1), (HB _ _ H2) as (f2 & F2 & E2). rewrite E1, E2 in E. simplify_eq. by eapply (R_inj _ _ _ HR).
  - intros o Ho. rewrite (R_objs _ _ _ HR), (relz_none' _ _ _ Hz); [done|]. by eapply relv_none.
  - intros o v Ho. destruct (HB _ _ Ho) as (f & F & _). by eapply (R_raw _ _ _ HR).
  - apply (R_ctx _ _ _ HR).
  - intros b l o v Hb Ho. destruct (HB _ _ Ho) as (f & F & E). split; [|by eapply (R_ctx_sng _ _ _ HR)]. rewrite E. intros [= Eb]. by eapply (R_ctx_own _ _ _ HR).
  - apply (R_ctx_sng _ _ _ HR).
  - intros b l Hb. destruct (R_all _ _ _ HR _ _ Hb) as [(o & f & F & <-)|[[o ->]|H]]; [left|right; left|right; by right].
    + destruct (V !! o) as [v|] eqn:Eo.
      * exists o, v. split; [done|]. unfold block_of. by rewrite (R_get _ _ _ _ _ HR F).
      * apply (relv_none _ _ _ Hv), (relz_none' _ _ _ Hz) in Eo. congruence.
    + exists o. split; [done|]. apply (R_sng _ _ _ HR). eauto.
  - intros o Ho. apply (R_sng _ _ _ HR) in Ho as [l Hl]. pose proof (R_sng1 _ _ _ HR _ _ Hl) as H1. destruct l as [|c [|]]; simpl in H1; try lia. eauto.
  - apply (R_glob _ _ _ HR).
  - apply (R_ok _ _ _ HR).
Qed.

(** And back. *)
Definition grab (st : state) (o : oid) : fobj :=
  match objs st !! o with
  | Some (Mpz (Some (b, _)) _ u s) => Fo s u (default [] (mem st !! b)) b
  | _ => Fo 0 0 [] (Sng o)
  end.
Lemma Rep_RV st V W : Rep st V W -> RV st V (ctx_of W).
Proof.
  intros H.
  assert (forall o v, V !! o = Some v -> exists ds, goodw (grab st o) (zset znil v) ds /\ objs st !! o = Some (mpz_of (grab st o)) /\
     mem st !! fl (grab st o) = Some (fc (grab st o)) /\
     1 <= Z.of_nat (length (fc (grab st o))) <= MAXD /\ loc_ok o (fl (grab st o)) /\ block_of st o = Some (fl (grab st o))) as HF.
  { intros o v E. destruct (rep_holds _ _ _ H _ _ E) as (b & (al & us & sg & ds & rest & E1 & E2 & -> & E4 & -> & E6 & E7 & E8 & E9) & Hb).
    exists ds. unfold grab, block_of. rewrite E1, E2. simpl. assert (0 <= val ds) as Hval by (apply val_bounds; done). rewrite !digits_value_val in E9.
    split_and!; simpl.
    - constructor; simpl; try done.
      + constructor; simpl; eauto.
      + apply canon_iff; [done|]. split; [lia|done].
      + lia.
      + destruct E9 as [[-> ->]|(-> & -> & N)]; [destruct (Z.ltb_spec (val ds) 0)|destruct (Z.ltb_spec (- val ds) 0)]; lia.
      + destruct (v <? 0); [by right|by left].
      + lia.
      + lia.
      + unfold owned. destruct Hb as [->|[n ->]]; done.
    - unfold mpz_of. simpl. by rewrite app_length, fmap_length.
    - done.
    - rewrite app_length, fmap_length. lia.
    - rewrite app_length, fmap_length. lia.
    - unfold loc_ok. destruct Hb as [->|[n ->]]; done.
    - done. }
  set (σ := map_imap (fun o (v : Z) => Some (grab st o)) V).
  assert (forall o f, σ !! o = Some f -> exists v, V !! o = Some v /\ f = grab st o) as HS.
  { intros o f. unfold σ. rewrite map_lookup_imap. destruct (V !! o) as [v|]; simpl; [|done]. intros [= <-]. eauto. }
  assert (forall o, V !! o = None -> σ !! o = None) as HN by (intros o Ho; unfold σ; by rewrite map_lookup_imap, Ho).
  assert (forall o v, V !! o = Some v -> σ !! o = Some (grab st o)) as HP by (intros o v Ho; unfold σ; by rewrite map_lookup_imap, Ho).
  exists ((fun v => zset znil v) <$> V). split.
  - exists σ. split.
    + constructor.
      * intros o. destruct (V !! o) as [v|] eqn:E.
        -- rewrite (HP _ _ E). by destruct (HF _ _ E) as (ds & _ & ? & _).
        -- rewrite (HN _ E). by apply (rep_others _ _ _ H).
      * intros o f Hf. apply HS in Hf as (v & E & _). by eapply (rep_blanks _ _ _ H).
      * intros o f Hf. apply HS in Hf as (v & E & ->). by destruct (HF _ _ E) as (ds & _ & _ & ? & _).
      * intros o f Hf. apply HS in Hf as (v & E & ->). by destruct (HF _ _ E) as (ds & _ & _ & _ & ? & _).
      * intros o f Hf. apply HS in Hf as (v & E & ->). by destruct (HF _ _ E) as (ds & _ & _ & _ & _ & ? & _).
      * intros o1 o2 f1 f2 H1 H2 Ef. apply HS in H1 as (v1 & E1 & ->), H2 as (v2 & E2 & ->). eapply (rep_apart _ _ _ H); [done..|].
        destruct (HF _ _ E1) as (d1 & _ & _ & _ & _ & _ & ->), (HF _ _ E2) as (d2 & _ & _ & _ & _ & _ & ->). by rewrite Ef.
      * intros o. split; [intros Ho; destruct (rep_sng _ _ _ H o Ho); eauto|]. intros [l Hl].
        destruct (rep_all _ _ _ H _ _ Hl) as [(o' & v & E & Eb)|[(o' & E & Hi)|[l' Hl']]].
        -- destruct (HF _ _ E) as (ds & _ & Ho & _ & _ & L & Eb'). rewrite Eb in Eb'. injection Eb' as Eb'. rewrite <- Eb' in L. simpl in L. subst o'. eauto.
        -- by injection E as ->.
        -- by apply (rep_bufs_sng _ _ _ H _ _ o) in Hl'.
      * intros o l Hl. destruct (rep_all _ _ _ H _ _ Hl) as [(o' & v & E & Eb)|[(o' & E & Hi)|[l' Hl']]].
        -- destruct (HF _ _ E) as (ds & _ & Ho & _ & _ & L & Eb'). rewrite Eb in Eb'. injection Eb' as Eb'. rewrite <- Eb' in L. simpl in L. subst o'.
           destruct (rep_sng _ _ _ H o) as [c Hc]; [eauto|]. by simplify_eq.
        -- injection E as <-. destruct (rep_sng _ _ _ H o Hi) as [c Hc]. by simplify_eq.
        -- by apply (rep_bufs_sng _ _ _ H _ _ o) in Hl'.
      * apply (rep_bufs _ _ _ H).
      * intros b l o f Hb Hf Eb. apply HS in Hf as (v & E & ->). destruct (HF _ _ E) as (ds & _ & _ & _ & _ & _ & E'). 
        destruct (rep_bufs_apart _ _ _ H b l o v Hb E) as [N _]. apply N. by rewrite E', Eb.
      * apply (rep_bufs_sng _ _ _ H).
      * intros b l Hl. destruct (rep_all _ _ _ H _ _ Hl) as [(o' & v & E & Eb)|[(o' & E & Hi)|Hb]]; [left|right; left|right; by right]; [|eauto].
        exists o', (grab st o'). split; [by eapply HP|]. destruct (HF _ _ E) as (ds & _ & _ & _ & _ & _ & E'). congruence.
      * apply (rep_glob _ _ _ H).
      * apply (rep_tun _ _ _ H).
    + intros o. rewrite lookup_fmap. destruct (V !! o) as [v|] eqn:E; simpl.
      * rewrite (HP _ _ E). destruct (HF _ _ E) as (ds & G & _). by exists ds.
      * by rewrite (HN _ E).
  - intros o. rewrite lookup_fmap. destruct (V !! o) as [v|]; simpl; [|done]. split; [apply zval_zset|]. split; [apply norm_zset|done].
Qed.

Lemma wp_calls {A} (p : prog A) st (Q : A -> state -> Prop) : wp p Q st -> calls p st Q.
Proof. intros H orc t. apply wp_sound with (orc := orc) (t := t) in H. unfold ends_in in H. by destruct (run true orc p t st). Qed.
Lemma wp_calls_ndebug {A} (p : prog A) st (Q : A -> state -> Prop) : wp p Q st -> calls_ndebug p st Q.
Proof.
  intros H orc t N. apply wp_sound with (orc := orc) (t := t) in H. unfold ends_in in H. destruct (run true orc p t st) eqn:Hr; try done; [|by destruct (N n)].
  by rewrite (run_nd_agrees _ _ _ _ _ _ _ Hr).
Qed.

(** How a rule of the proofs becomes a theorem of the specification. *)
Lemma by_rule {A} (p : prog A) st V W (Q : A -> state -> Prop) :
  Rep st V W -> (forall st1, RV st1 V (ctx_of W) -> wp p Q st1) -> calls p st Q.
Proof. intros H Hp. apply wp_calls, Hp. by apply Rep_RV. Qed.
Lemma RV_done st V W : RV st V (ctx_of W) -> Rep st V W.
Proof. intros H. apply RV_Rep in H. by rewrite world_ctx in H. Qed.

(** Store-level updates *)
Lemma relv_ins (ζ : gmap oid zv) V o z v : relv ζ V -> zval z = v -> norm z -> zo z = None -> relv (<[o := z]> ζ) (<[o := v]> V).
Proof. intros H ? ? ? o'. destruct (decide (o = o')) as [<-|N]; [by rewrite !lookup_insert|]. rewrite !lookup_insert_ne by done. apply H. Qed.
Lemma relv_del (ζ : gmap oid zv) V o : relv ζ V -> relv (delete o ζ) (delete o V).
Proof. intros H o'. destruct (decide (o = o')) as [<-|N]; [by rewrite !lookup_delete|]. rewrite !lookup_delete_ne by done. apply H. Qed.
Lemma RV_set (st : state) (ζ : gmap oid zv) (V : gmap oid Z) (X : ctx) (o : oid) (z : zv) (v : Z) : RZ st (<[o := zset z v]> ζ) X -> relv ζ V -> zo z = None -> RV st (<[o := v]> V) X.
Proof. intros HZ Hv O. eexists. split; [done|]. apply relv_ins; [done|apply zval_zset|apply norm_zset|done]. Qed.
Lemma relv_oput (ζ : gmap oid zv) V q v : relv ζ V -> live q V -> relv (oput q v ζ) (assign q v V).
Proof.
  destruct q as [q|]; simpl; [|done]. intros Hv [v' Hq]. destruct (relv_some _ _ _ _ Hv Hq) as (z & -> & _ & _ & O).
  apply relv_ins; [done|apply zval_zset|apply norm_zset|done].
Qed.
Lemma live_oown (ζ : gmap oid zv) V q : relv ζ V -> live q V -> oown q ζ.
Proof. intros Hv Hl x ->. destruct Hl as [v Hl]. destruct (relv_some _ _ _ _ Hv Hl) as (z & Hz & _ & _ & O). eauto. Qed.
Lemma live_assign q r v V : live q V -> live q (assign r v V).
Proof. destruct q as [q|], r as [r|]; simpl; try done. intros [x H]. destruct (decide (r = q)) as [->|]; [rewrite lookup_insert|rewrite lookup_insert_ne by done]; eauto. Qed.
Lemma RV_same (st : state) (ζ : gmap oid zv) (V : gmap oid Z) (X : ctx) : RZ st ζ X -> relv ζ V -> RV st V X.
Proof. by exists ζ. Qed.

Ltac vstart := intros; match goal with HV : RV _ _ _ |- _ => let ζ := fresh "ζ" in let HZ := fresh "HZ" in let Hv := fresh "Hv" in destruct HV as (ζ & HZ & Hv);
  repeat match goal with
  | Ho : ?V !! ?o = Some ?v, H : relv _ ?V |- _ => lazymatch goal with | _ : ζ !! o = Some _ |- _ => fail | _ => idtac end;
      let z := fresh "z" in destruct (relv_some _ _ _ _ H Ho) as (z & ? & ? & ? & ?) end end; subst.
Ltac vend := intros; match goal with HQ : forall st', RV st' _ _ -> ?Q _ st' |- ?Q _ _ => apply HQ; (eapply RV_set; done) || (eapply RV_same; done) end.

Lemma ordered_sgn x y : ordered (Z.sgn (x - y)) x y.
Proof. unfold ordered. destruct (Z.sgn_spec (x - y)) as [[? ->]|[[? ->]|[? ->]]]; lia. Qed.

Section ops.
Context (st : state) (V : gmap oid Z) (X : ctx).
Implicit Types (a b c : oid) (va vb vc : Z) (Q : Z -> state -> Prop).

Lemma wpV_init o z Q : RV st V X -> craw X !! o = Some z ->
  (forall st', V !! o = None -> RV st' (<[o := 0]> V) (with_craw X (delete o (craw X))) -> Q MP_OK st') -> wp (mp_int_init o) Q st.
Proof. intros (ζ & HZ & Hv) Ho HQ. eapply wpZ_init; [done..|]. intros st' Hn HZ'. apply HQ; [by eapply relv_none'|]. eexists. split; [done|]. by apply relv_ins. Qed.
Lemma wpV_init_size o z n Q : RV st V X -> craw X !! o = Some z -> 0 <= n < RADIX - 1 ->
  (forall st', V !! o = None -> RV st' (<[o := 0]> V) (with_craw X (delete o (craw X))) -> Q MP_OK st') -> wp (mp_int_init_size o n) Q st.
Proof. intros (ζ & HZ & Hv) Ho Hn HQ. eapply wpZ_init_size; [done..|]. intros st' Hn' HZ'. apply HQ; [by eapply relv_none'|]. eexists. split; [done|]. by apply relv_ins. Qed.
Lemma wpV_init_copy o z a va Q : RV st V X -> craw X !! o = Some z -> V !! a = Some va ->
  (forall st', V !! o = None -> RV st' (<[o := va]> V) (with_craw X (delete o (craw X))) -> Q MP_OK st') -> wp (mp_int_init_copy o a) Q st.
Proof.
  intros (ζ & HZ & Hv) Ho Ha HQ. destruct (relv_some _ _ _ _ Hv Ha) as (za & Hza & <- & N & O). eapply wpZ_init_copy; [done..|]. intros st' Hn' HZ'.
  apply HQ; [by eapply relv_none'|]. eexists. split; [done|]. by apply relv_ins.
Qed.
Lemma wpV_init_value o z v Q : RV st V X -> craw X !! o = Some z -> - 2 ^ 63 < v < 2 ^ 63 ->
  (forall st', V !! o = None -> RV st' (<[o := v]> V) (with_craw X (delete o (craw X))) -> Q MP_OK st') -> wp (mp_int_init_value o v) Q st.
Proof. intros (ζ & HZ & Hv) Ho Hr HQ. eapply wpZ_init_value; [done..|]. intros st' Hn' HZ'. apply HQ; [by eapply relv_none'|]. by eapply RV_set. Qed.
Lemma wpV_init_uvalue o z v Q : RV st V X -> craw X !! o = Some z -> 0 <= v < 2 ^ 64 ->
  (forall st', V !! o = None -> RV st' (<[o := v]> V) (with_craw X (delete o (craw X))) -> Q MP_OK st') -> wp (mp_int_init_uvalue o v) Q st.
Proof. intros (ζ & HZ & Hv) Ho Hr HQ. eapply wpZ_init_uvalue; [done..|]. intros st' Hn' HZ'. apply HQ; [by eapply relv_none'|]. by eapply RV_set. Qed.
Lemma wpV_clear o v (Q : unit -> state -> Prop) : RV st V X -> V !! o = Some v ->
  (forall st' z, digits z = None -> RV st' (delete o V) (with_craw X (<[o := z]> (craw X))) -> Q tt st') -> wp (mp_int_clear o) Q st.
Proof. intros (ζ & HZ & Hv) Ho HQ. destruct (relv_some _ _ _ _ Hv Ho) as (za & Hza & <- & N & O). eapply wpZ_clear; [done..|]. intros st' z Hd HZ'. eapply HQ; [done|]. eexists. split; [done|]. by apply relv_del. Qed.
Lemma wpV_clear_again o z (Q : unit -> state -> Prop) : RV st V X -> craw X !! o = Some z -> digits z = None -> Q tt st -> wp (mp_int_clear o) Q st.
Proof. intros (ζ & HZ & Hv) Ho Hd HQ. by eapply wpZ_clear_again. Qed.
Lemma wpV_alloc (Q : option oid -> state -> Prop) : RV st V X -> Q None st ->
  (forall o st', o.1 = true -> V !! o = None -> craw X !! o = None -> RV st' (<[o := 0]> V) X -> Q (Some o) st') -> wp mp_int_alloc Q st.
Proof. intros (ζ & HZ & Hv) HQ0 HQ. eapply wpZ_alloc; [done..|]. intros o st' H1 H2 H3 HZ'. apply HQ; [done|by eapply relv_none'|done|]. eexists. split; [done|]. by apply relv_ins. Qed.
Lemma wpV_free o v (Q : unit -> state -> Prop) : RV st V X -> V !! o = Some v -> o.1 = true ->
  (forall st', RV st' (delete o V) X -> Q tt st') -> wp (mp_int_free o) Q st.
Proof. intros (ζ & HZ & Hv) Ho H1 HQ. destruct (relv_some _ _ _ _ Hv Ho) as (za & Hza & <- & N & O). eapply wpZ_free; [done..|]. intros st' HZ'. eapply HQ. eexists. split; [done|]. by apply relv_del. Qed.

Lemma wpV_copy a c va vc Q : RV st V X -> V !! a = Some va -> V !! c = Some vc ->
  (forall st', RV st' (<[c := va]> V) X -> Q MP_OK st') -> wp (mp_int_copy a c) Q st.
Proof. vstart. eapply wpZ_copy; [done..|]. intros st' HZ'. apply H2. eexists. split; [done|]. by apply relv_ins. Qed.
Lemma wpV_zero a va (Q : unit -> state -> Prop) : RV st V X -> V !! a = Some va ->
  (forall st', RV st' (<[a := 0]> V) X -> Q tt st') -> wp (mp_int_zero a) Q st.
Proof. vstart. eapply wpZ_zero; [done..|]. vend. Qed.
Lemma wpV_abs a c va vc Q : RV st V X -> V !! a = Some va -> V !! c = Some vc ->
  (forall st', RV st' (<[c := Z.abs va]> V) X -> Q MP_OK st') -> wp (mp_int_abs a c) Q st.
Proof. vstart. eapply wpZ_abs; [done..|]. vend. Qed.
Lemma wpV_neg a c va vc Q : RV st V X -> V !! a = Some va -> V !! c = Some vc ->
  (forall st', RV st' (<[c := - va]> V) X -> Q MP_OK st') -> wp (mp_int_neg a c) Q st.
Proof. vstart. eapply wpZ_neg; [done..|]. vend. Qed.
Lemma wpV_swap a c va vc (Q : unit -> state -> Prop) : RV st V X -> V !! a = Some va -> V !! c = Some vc ->
  (forall st', RV st' (<[c := va]> (<[a := vc]> V)) X -> Q tt st') -> wp (mp_int_swap a c) Q st.
Proof. vstart. eapply wpZ_swap; [done..|]. intros st' HZ'. apply H2. eexists. split; [done|]. apply relv_ins; [by apply relv_ins|done..]. Qed.
Lemma wpV_set_value c v vc Q : RV st V X -> V !! c = Some vc -> - 2 ^ 63 < v < 2 ^ 63 ->
  (forall st', RV st' (<[c := v]> V) X -> Q MP_OK st') -> wp (mp_int_set_value c v) Q st.
Proof. vstart. eapply wpZ_set_value; [done..|]. vend. Qed.
Lemma wpV_set_uvalue c v vc Q : RV st V X -> V !! c = Some vc -> 0 <= v < 2 ^ 64 ->
  (forall st', RV st' (<[c := v]> V) X -> Q MP_OK st') -> wp (mp_int_set_uvalue c v) Q st.
Proof. vstart. eapply wpZ_set_uvalue; [done..|]. vend. Qed.
Lemma wpV_add a b c va vb vc Q : RV st V X -> V !! a = Some va -> V !! b = Some vb -> V !! c = Some vc ->
  (forall st', RV st' (<[c := va + vb]> V) X -> Q MP_OK st') -> wp (mp_int_add a b c) Q st.
Proof. vstart. eapply wpZ_add; [done..|]. vend. Qed.
Lemma wpV_add_value a v c va vc Q : RV st V X -> V !! a = Some va -> V !! c = Some vc -> - 2 ^ 63 < v < 2 ^ 63 ->
  (forall st', RV st' (<[c := va + v]> V) X -> Q MP_OK st') -> wp (mp_int_add_value a v c) Q st.
Proof. vstart. eapply wpZ_add_value; [done..|]. vend. Qed.
Lemma wpV_sub a b c va vb vc Q : RV st V X -> V !! a = Some va -> V !! b = Some vb -> V !! c = Some vc ->
  (forall st', RV st' (<[c := va - vb]> V) X -> Q MP_OK st') -> wp (mp_int_sub a b c) Q st.
Proof. vstart. eapply wpZ_sub; [done..|]. vend. Qed.
Lemma wpV_sub_value a v c va vc Q : RV st V X -> V !! a = Some va -> V !! c = Some vc -> - 2 ^ 63 < v < 2 ^ 63 ->
  (forall st', RV st' (<[c := va - v]> V) X -> Q MP_OK st') -> wp (mp_int_sub_value a v c) Q st.
Proof. vstart. eapply wpZ_sub_value; [done..|]. vend. Qed.
Lemma wpV_mul a b c va vb vc Q : RV st V X -> V !! a = Some va -> V !! b = Some vb -> V !! c = Some vc ->
  (forall st', RV st' (<[c := va * vb]> V) X -> Q MP_OK st') -> wp (mp_int_mul a b c) Q st.
Proof. vstart. eapply wpZ_mul; [done..|]. vend. Qed.
Lemma wpV_mul_value a v c va vc Q : RV st V X -> V !! a = Some va -> V !! c = Some vc -> - 2 ^ 63 < v < 2 ^ 63 ->
  (forall st', RV st' (<[c := va * v]> V) X -> Q MP_OK st') -> wp (mp_int_mul_value a v c) Q st.
Proof. vstart. eapply wpZ_mul_value; [done..|]. vend. Qed.
Lemma wpV_mul_pow2 a k c va vc Q : RV st V X -> V !! a = Some va -> V !! c = Some vc -> 0 <= k < 2 ^ 32 ->
  (forall st', RV st' (<[c := va * 2 ^ k]> V) X -> Q MP_OK st') -> wp (mp_int_mul_pow2 a k c) Q st.
Proof. vstart. eapply wpZ_mul_pow2; [done..|]. vend. Qed.
Lemma wpV_sqr a c va vc Q : RV st V X -> V !! a = Some va -> V !! c = Some vc ->
  (forall st', RV st' (<[c := va * va]> V) X -> Q MP_OK st') -> wp (mp_int_sqr a c) Q st.
Proof. vstart. eapply wpZ_sqr; [done..|]. intros st' HZ'. rewrite zval_sq in HZ'. apply H2. by eapply RV_set. Qed.
Lemma wpV_div a b q r va vb Q : RV st V X -> V !! a = Some va -> V !! b = Some vb -> q <> r -> live q V -> live r V ->
  (vb = 0 -> Q MP_UNDEF st) ->
  (vb <> 0 -> forall st', RV st' (assign r (Z.rem va vb) (assign q (Z.quot va vb) V)) X -> Q MP_OK st') -> wp (mp_int_div a b q r) Q st.
Proof.
  vstart. eapply (wpZ_div _ _ _ a b); [done|done|done|done|by eapply live_oown|by eapply live_oown|done|intros E; apply H5; unfold zval; rewrite E; by destruct (_ =? _)|].
  intros E st' HZ'. apply H6; [unfold zval; destruct (_ =? _); lia|]. eexists. split; [done|]. apply relv_oput; [by apply relv_oput|by apply live_assign].
Qed.
Lemma wpV_mod a m c va vm vc Q : RV st V X -> V !! a = Some va -> V !! m = Some vm -> V !! c = Some vc ->
  (vm = 0 -> forall st', RV st' V X -> Q MP_UNDEF st') ->
  (vm <> 0 -> forall st', RV st' (<[c := mod_val va vm]> V) X -> Q MP_OK st') -> wp (mp_int_mod a m c) Q st.
Proof.
  vstart. eapply wpZ_mod; [done..| |].
  - intros E st' HZ'. apply H3; [unfold zval; rewrite E; by destruct (_ =? _)|by eapply RV_same].
  - intros E st' HZ'. apply H4; [unfold zval; destruct (_ =? _); lia|by eapply RV_set].
Qed.
Lemma wpV_compare a b va vb Q : RV st V X -> V !! a = Some va -> V !! b = Some vb -> Q (Z.sgn (va - vb)) st -> wp (mp_int_compare a b) Q st.
Proof. vstart. by eapply wpZ_compare. Qed.
Lemma zm_abs z : norm z -> 0 <= zm z -> zm z = Z.abs (zval z).
Proof. intros N M. unfold zval. destruct (_ =? _); lia. Qed.
Lemma wpV_compare_unsigned a b va vb Q : RV st V X -> V !! a = Some va -> V !! b = Some vb -> Q (Z.sgn (Z.abs va - Z.abs vb)) st -> wp (mp_int_compare_unsigned a b) Q st.
Proof.
  intros HV Ha Hb HQ. destruct HV as (ζ & HZ & Hv). destruct (relv_some _ _ _ _ Hv Ha) as (za & Hza & <- & ? & ?). destruct (relv_some _ _ _ _ Hv Hb) as (zb & Hzb & <- & ? & ?).
  eapply wpZ_ucmp; [done..|]. destruct (RZ_s01 _ _ _ _ _ HZ Hza), (RZ_s01 _ _ _ _ _ HZ Hzb). by rewrite !zm_abs.
Qed.
Lemma wpV_compare_zero a va Q : RV st V X -> V !! a = Some va -> Q (Z.sgn va) st -> wp (mp_int_compare_zero a) Q st.
Proof. vstart. by eapply wpZ_compare_zero. Qed.
Lemma wpV_CMPZ a va Q : RV st V X -> V !! a = Some va -> Q (Z.sgn va) st -> wp (CMPZ a) Q st.
Proof. vstart. by eapply wpZ_CMPZ. Qed.
Lemma wpV_compare_value a va v Q : RV st V X -> V !! a = Some va -> - 2 ^ 63 <= v < 2 ^ 63 ->
  (forall st', RV st' V X -> Q (Z.sgn (va - v)) st') -> wp (mp_int_compare_value a v) Q st.
Proof. vstart. eapply wpZ_compare_value; [done..|]. vend. Qed.
Lemma wpV_compare_uvalue a va v Q : RV st V X -> V !! a = Some va -> 0 <= v < 2 ^ 64 ->
  (forall st', RV st' V X -> Q (Z.sgn (va - v)) st') -> wp (mp_int_compare_uvalue a v) Q st.
Proof. vstart. eapply wpZ_compare_uvalue; [done..|]. vend. Qed.
Lemma wpV_to_int a va (Q : Z * option Z -> state -> Prop) : RV st V X -> V !! a = Some va -> va <> - 2 ^ 63 ->
  (- 2 ^ 63 < va < 2 ^ 63 -> forall st', RV st' V X -> Q (MP_OK, Some va) st') ->
  (va < - 2 ^ 63 \/ 2 ^ 63 <= va -> forall st', RV st' V X -> Q (MP_RANGE, None) st') -> wp (mp_int_to_int a) Q st.
Proof.
  vstart. eapply wpZ_to_int; [done..| |].
  - intros E st' HZ'. apply H2; [|by eapply RV_same]. change SMALL_MIN with (- 2 ^ 63) in *. change SMALL_MAX with (2 ^ 63 - 1) in *. lia.
  - intros E st' HZ'. apply H3; [|by eapply RV_same]. change SMALL_MIN with (- 2 ^ 63) in *. change SMALL_MAX with (2 ^ 63 - 1) in *. lia.
Qed.
Lemma wpV_to_uint a va (Q : Z * option Z -> state -> Prop) : RV st V X -> V !! a = Some va ->
  (0 <= va < 2 ^ 64 -> forall st', RV st' V X -> Q (MP_OK, Some va) st') ->
  (va < 0 \/ 2 ^ 64 <= va -> forall st', RV st' V X -> Q (MP_RANGE, None) st') -> wp (mp_int_to_uint a) Q st.
Proof.
  vstart. eapply wpZ_to_uint; [done..| |].
  - intros E st' HZ'. apply H1; [|by eapply RV_same]. change USMALL_MAX with (2 ^ 64 - 1) in *. lia.
  - intros E st' HZ'. apply H2; [|by eapply RV_same]. change USMALL_MAX with (2 ^ 64 - 1) in *. lia.
Qed.
Lemma wpV_div_value a v q va (Q : Z * option Z -> state -> Prop) : RV st V X -> V !! a = Some va -> live q V -> - 2 ^ 63 < v < 2 ^ 63 ->
  (v = 0 -> forall st', RV st' V X -> Q (MP_UNDEF, None) st') ->
  (v <> 0 -> forall st', RV st' (assign q (Z.quot va v) V) X -> Q (MP_OK, Some (Z.rem va v)) st') -> wp (mp_int_div_value a v q) Q st.
Proof.
  vstart. eapply wpZ_div_value; [done|done|by eapply live_oown|done|done| |].
  - intros E st' HZ'. apply H3; [done|]. by eapply RV_same.
  - intros E st' HZ'. apply H4; [done|]. eexists. split; [done|]. by apply relv_oput.
Qed.
Lemma wpV_expt a (b : Z) c va vc Q : RV st V X -> V !! a = Some va -> V !! c = Some vc -> (b < 0 -> Q MP_RANGE st) ->
  (0 <= b -> forall st', RV st' (<[c := va ^ (b mod 2 ^ 32)]> V) X -> Q MP_OK st') -> wp (mp_int_expt a b c) Q st.
Proof. vstart. eapply wpZ_expt; [done..|]. intros E st' HZ'. apply H3; [done|]. by eapply RV_set. Qed.
Lemma wpV_expt_value (a b : Z) c vc Q : RV st V X -> V !! c = Some vc -> - 2 ^ 63 < a < 2 ^ 63 -> (b < 0 -> Q MP_RANGE st) ->
  (0 <= b -> forall st', RV st' (<[c := a ^ (b mod 2 ^ 32)]> V) X -> Q MP_OK st') -> wp (mp_int_expt_value a b c) Q st.
Proof. vstart. eapply wpZ_expt_value; [done..|]. intros E st' HZ'. apply H3; [done|]. by eapply RV_set. Qed.
Lemma wpV_expt_full a b c va vb vc Q : RV st V X -> V !! a = Some va -> V !! b = Some vb -> V !! c = Some vc -> b <> c -> (vb < 0 -> Q MP_RANGE st) ->
  (0 <= vb -> forall st', RV st' (<[c := va ^ vb]> V) X -> Q MP_OK st') -> wp (mp_int_expt_full a b c) Q st.
Proof. vstart. eapply wpZ_expt_full; [done..|]. intros E st' HZ'. apply H5; [done|]. by eapply RV_set. Qed.
Lemma wpV_is_odd a va (Q : bool -> state -> Prop) : RV st V X -> V !! a = Some va -> Q (Z.odd va) st -> wp (mp_int_is_odd a) Q st.
Proof. vstart. eapply wpZ_is_odd; [done..|]. unfold zval in *. destruct (_ =? _); [done|]. by rewrite Z.odd_opp in *. Qed.
Lemma wpV_is_even a va (Q : bool -> state -> Prop) : RV st V X -> V !! a = Some va -> Q (Z.even va) st -> wp (mp_int_is_even a) Q st.
Proof. vstart. eapply wpZ_is_even; [done..|]. unfold zval in *. destruct (_ =? _); [done|]. by rewrite Z.even_opp in *. Qed.
Lemma wpV_is_pow2 a va Q : RV st V X -> V !! a = Some va -> va <> 0 ->
  (forall j, 0 <= j -> Z.abs va = 2 ^ j -> Q j st) -> ((forall j, 0 <= j -> Z.abs va <> 2 ^ j) -> Q (-1) st) -> wp (mp_int_is_pow2 a) Q st.
Proof.
  intros HV Ha N H1 H2. destruct HV as (ζ & HZ & Hv). destruct (relv_some _ _ _ _ Hv Ha) as (za & Hza & <- & ? & ?). destruct (RZ_s01 _ _ _ _ _ HZ Hza).
  rewrite <- zm_abs in * by done. eapply wpZ_isp2; [done|done| | |done].
  - intros E. apply N. unfold zval. rewrite E. by destruct (_ =? _).
  - intros j Hj E. apply H1; [lia|done].
Qed.
Lemma wpV_is_pow2_0 a Q : RV st V X -> V !! a = Some 0 -> Q 0 st -> wp (mp_int_is_pow2 a) Q st.
Proof.
  intros HV Ha HQ. destruct HV as (ζ & HZ & Hv). destruct (relv_some _ _ _ _ Hv Ha) as (za & Hza & E & ? & ?). destruct (RZ_s01 _ _ _ _ _ HZ Hza).
  eapply wpZ_isp2_0; [done|done| |done]. rewrite zm_abs by done. by rewrite E.
Qed.
Lemma wpV_div_pow2 a k q r va Q : RV st V X -> V !! a = Some va -> q <> r -> live q V -> live r V -> 0 <= k < 2 ^ 32 ->
  (q = Some a -> r = None) -> (r <> None -> va < 0 -> Z.rem va (2 ^ k) <> 0) ->
  (forall st', RV st' (assign r (Z.rem va (2 ^ k)) (assign q (Z.quot va (2 ^ k)) V)) X -> Q MP_OK st') -> wp (mp_int_div_pow2 a k q r) Q st.
Proof.
  intros HV Ha Nqr Lq Lr Hk Hqa Hrz HQ. destruct HV as (ζ & HZ & Hv). destruct (relv_some _ _ _ _ Hv Ha) as (za & Hza & Ev & N & O). destruct (RZ_s01 _ _ _ _ _ HZ Hza) as [M S].
  assert (0 < 2 ^ k) as Hp by (apply Z.pow_pos_nonneg; lia).
  eapply wpZ_div_pow2; [done|done|done|by eapply live_oown|by eapply live_oown|done|done|done|]. intros st' HZ'. apply HQ. rewrite Ev in HZ'. eexists. split; [done|].
  assert (relv (oput q (Z.quot va (2 ^ k)) ζ) (assign q (Z.quot va (2 ^ k)) V)) as Hv1 by (by apply relv_oput).
  destruct r as [r|]; simpl; [|done]. destruct (live_assign (Some r) q (Z.quot va (2 ^ k)) V Lr) as [vr Hr]. destruct (relv_some _ _ _ _ Hv1 Hr) as (zr & Hzr & _ & _ & Or).
  rewrite (alter_ins _ _ zr) by done. pose proof (Z.mod_pos_bound (zm za) (2 ^ k) Hp) as Hm.
  assert (Z.rem va (2 ^ k) = if zs za =? 0 then zm za mod 2 ^ k else - (zm za mod 2 ^ k)) as Er.
  { rewrite <- Ev. unfold zval. destruct (_ =? _); [apply Z.rem_mod_nonneg; lia|]. rewrite Z.rem_opp_l by lia. rewrite Z.rem_mod_nonneg by lia. done. }
  apply relv_ins; [done|by rewrite Er| |done]. unfold norm. simpl. intros E0. destruct (Z.eq_dec va 0) as [E1|E1].
  - apply N. rewrite zm_abs by done. rewrite Ev, E1. done.
  - destruct S as [->|S]; [done|]. exfalso. rewrite S in Er. change (1 =? 0) with false in Er. cbv iota in Er.
    apply (Hrz ltac:(done)); [|lia]. rewrite <- Ev. unfold zval. rewrite S. change (1 =? 0) with false. cbv iota.
    destruct (Z.eq_dec (zm za) 0) as [E2|E2]; [|lia]. exfalso. apply E1. rewrite <- Ev. unfold zval. rewrite E2. by destruct (_ =? _).
Qed.
Lemma wpV_divisible_value a v va (Q : bool -> state -> Prop) : RV st V X -> V !! a = Some va -> - 2 ^ 63 < v < 2 ^ 63 ->
  (forall st', RV st' V X -> Q (if v =? 0 then false else Z.rem va v =? 0) st') -> wp (mp_int_divisible_value a v) Q st.
Proof.
  intros HV Ha Hr HQ. unfold mp_int_divisible_value. wb. eapply wpV_div_value; [done|done|done|done| |].
  - intros -> st' HV'. apply wp_ret. by apply HQ.
  - intros Nv st' HV'. apply wp_ret. apply HQ in HV'. destruct (Z.eqb_spec v 0); [done|]. exact HV'.
Qed.
End ops.
