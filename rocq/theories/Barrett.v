(** Barrett reduction and modular exponentiation. *)
From Coq Require Import ZArith List Lia.
From stdpp Require Import gmap list.
From Verif Require Import Mem Prog Kern Imath Wp MemLem Dig KernLem KernMul KernKar KernDig Rel RelWp RelZ Life Basic Basic2 Mult Shift Knuth Divi Powr.
Local Open Scope Z_scope.

(** ** Objects that stay where they are

    As [RZ], but the objects of [π] are known exactly. *)
Definition RP (st : state) (ζ : gmap oid zv) (X : ctx) (π : gmap oid fobj) : Prop :=
  exists σ, R st σ X /\ relz σ ζ /\ forall o f, π !! o = Some f -> σ !! o = Some f.
Lemma RP_RZ st ζ X π : RP st ζ X π -> RZ st ζ X.
Proof. intros (σ & ? & ? & _). by exists σ. Qed.
Lemma RZ_RP st ζ X : RZ st ζ X -> RP st ζ X ∅.
Proof. intros (σ & ? & ?). exists σ. split_and!; [done..|]. intros o f. by rewrite lookup_empty. Qed.
Lemma RP_upd (st : state) (σ : gmap oid fobj) (ζ : gmap oid zv) (X : ctx) (o : oid) (F : fobj) (z : zv) (π : gmap oid fobj) : R st (<[o := F]> σ) X -> relz σ ζ -> good F z ->
  (forall o f, π !! o = Some f -> σ !! o = Some f) -> π !! o = None -> RP st (<[o := z]> ζ) X π.
Proof.
  intros HR Hz HG Hp Ho. exists (<[o := F]> σ). split_and!; [done|by apply relz_ins|].
  intros o' f Hf. rewrite lookup_insert_ne; [eauto|]. congruence.
Qed.
Lemma RP_weaken (st : state) (ζ : gmap oid zv) (X : ctx) (π π' : gmap oid fobj) : RP st ζ X π -> (forall o f, π' !! o = Some f -> π !! o = Some f) -> RP st ζ X π'.
Proof. intros (σ & HR & Hz & Hp) Hw. exists σ. split_and!; [done..|]. eauto. Qed.
Lemma RP_map st ζ ζ' X π : RP st ζ X π -> ζ = ζ' -> RP st ζ' X π.
Proof. by intros H <-. Qed.

Lemma wpP_copy (st : state) (ζ : gmap oid zv) (X : ctx) (π : gmap oid fobj) (a c : oid) (za zc : zv) (Q : Z -> state -> Prop) :
  RP st ζ X π -> π !! c = None -> ζ !! a = Some za -> ζ !! c = Some zc -> zo zc = None ->
  (forall st', RP st' (<[c := zput zc (zs za) (zm za)]> ζ) X π -> Q MP_OK st') ->
  wp (mp_int_copy a c) Q st.
Proof. intros (σ & HR & Hz & Hp) Hpc Ha Hc Ho HQ. eapply wpS_copy; [done..|]. intros st' F HR' G. apply HQ. by eapply RP_upd. Qed.
Lemma wpP_UMUL (st : state) (ζ : gmap oid zv) (X : ctx) (π : gmap oid fobj) (a b c : oid) (za zb zz : zv) (Q : unit -> state -> Prop) :
  RP st ζ X π -> π !! c = None -> ζ !! a = Some za -> ζ !! b = Some zb -> ζ !! c = Some zz -> a <> c -> b <> c ->
  (ndig (zm za) + ndig (zm zb) <= zi zz)%nat -> (kfoot (Nat.max (ndig (zm za)) (ndig (zm zb))) <= zi zz)%nat ->
  (forall st', RP st' (<[c := zput zz (zs zz) (zm za * zm zb)]> ζ) X π -> Q tt st') ->
  wp (UMUL a b c) Q st.
Proof. intros (σ & HR & Hz & Hp) Hpc Ha Hb Hc ? ? ? ? HQ. eapply wpS_UMUL; [done..|]. intros st' F HR' G. apply HQ. by eapply RP_upd. Qed.
Lemma wpP_USQR (st : state) (ζ : gmap oid zv) (X : ctx) (π : gmap oid fobj) (a c : oid) (za zz : zv) (Q : unit -> state -> Prop) :
  RP st ζ X π -> π !! c = None -> ζ !! a = Some za -> ζ !! c = Some zz -> a <> c ->
  (kfoot (ndig (zm za)) <= zi zz)%nat ->
  (forall st', RP st' (<[c := zput zz (zs zz) (zm za * zm za)]> ζ) X π -> Q tt st') ->
  wp (USQR a c) Q st.
Proof. intros (σ & HR & Hz & Hp) Hpc Ha Hc ? ? HQ. eapply wpS_USQR; [done..|]. intros st' F HR' G. apply HQ. by eapply RP_upd. Qed.
Lemma wpP_qdiv (st : state) (ζ : gmap oid zv) (X : ctx) (π : gmap oid fobj) (o : oid) (z : zv) (p2 : Z) (Q : unit -> state -> Prop) :
  RP st ζ X π -> π !! o = None -> ζ !! o = Some z -> 0 <= p2 ->
  (forall st', RP st' (<[o := zput z (z0sgn (zm z / 2 ^ p2) (zs z)) (zm z / 2 ^ p2)]> ζ) X π -> Q tt st') ->
  wp (s_qdiv o p2) Q st.
Proof.
  intros (σ & HR & Hz & Hp) Hpo Ho Hp2 HQ. destruct (relz_get _ _ _ _ Hz Ho) as (f & l & Hf & G).
  eapply wpR_qdiv; [done|done|apply G|apply G|done|]. rewrite (g_val _ _ _ G).
  intros st' ds cells Cds Vds HR' V' K. apply HQ. eapply RP_upd; [done|done| |done|done].
  eapply (good_intro f z _ ds); [by eexists|apply K|done|done|done|cbn [fs]; rewrite Vds; f_equal; apply G|apply z0sgn01, G].
Qed.
Lemma wpP_qmod (st : state) (ζ : gmap oid zv) (X : ctx) (π : gmap oid fobj) (o : oid) (z : zv) (p2 : Z) (Q : unit -> state -> Prop) :
  RP st ζ X π -> π !! o = None -> ζ !! o = Some z -> 0 <= p2 ->
  (forall st', RP st' (<[o := zput z (zs z) (zm z mod 2 ^ p2)]> ζ) X π -> Q tt st') ->
  wp (s_qmod o p2) Q st.
Proof.
  intros (σ & HR & Hz & Hp) Hpo Ho Hp2 HQ. destruct (relz_get _ _ _ _ Hz Ho) as (f & l & Hf & G).
  eapply wpR_qmod; [done|done|apply G|apply G|done|]. rewrite (g_val _ _ _ G).
  intros st' ds cells Cds Vds HR' V' K _. apply HQ. eapply RP_upd; [done|done| |done|done].
  eapply (good_intro f z _ ds); [by eexists|apply K|done|done|done|apply G|apply G].
Qed.

Lemma view_inj f l l' : view f l -> view f l' -> l = l'.
Proof.
  intros [U1 [r1 P1] _] [U2 [r2 P2] _]. assert (length l = length l') as L by lia.
  rewrite P1 in P2. apply app_inj_1 in P2 as [E _]; [|by rewrite !fmap_length].
  by apply (inj (fmap Some)) in E.
Qed.

(** ** In-place subtraction of nonnegative integers *)
Lemma wpS_subx (st : state) (σ : gmap oid fobj) (ζ : gmap oid zv) (X : ctx) (x q : oid) (zx zq : zv) (fx : fobj) (lx : list Z) (Q : Z -> state -> Prop) :
  R st σ X -> relz σ ζ -> ζ !! x = Some zx -> ζ !! q = Some zq -> x <> q -> zo zx = None -> zs zx = 0 -> zs zq = 0 ->
  σ !! x = Some fx -> goodw fx zx lx ->
  (forall st' F, R st' (<[x := F]> σ) X -> good F (zset zx (zm zx - zm zq)) ->
     ((Nat.max (ndig (zm zx)) (ndig (zm zq)) <= length (fc fx))%nat ->
        fl F = fl fx /\ drop (Nat.max (ndig (zm zx)) (ndig (zm zq))) (fc F) = drop (Nat.max (ndig (zm zx)) (ndig (zm zq))) (fc fx)) ->
     Q MP_OK st') ->
  wp (mp_int_sub x q x) Q st.
Proof.
  intros HR Hz Hx Hq Hxq Hown Hsx Hsq Hfx Gx HQ.
  destruct (relz_get _ _ _ _ Hz Hq) as (fq & lq & Hfq & Gq).
  destruct (goodw_len _ _ _ _ _ _ _ HR Hfx Gx) as [Lx1 Lx2].
  destruct (goodw_len _ _ _ _ _ _ _ HR Hfq Gq) as [Lq1 Lq2].
  rewrite <- (goodw_ndig _ _ _ Gx), <- (goodw_ndig _ _ _ Gq) in HQ.
  unfold mp_int_sub. wb. eapply wpR_used; [done..|]. wb. eapply wpR_used; [done..|].
  wb. eapply wpR_sign; [done..|]. wb. eapply wpR_sign; [done..|].
  rewrite (goodw_u _ _ _ Gx), (goodw_u _ _ _ Gq), (g_sign _ _ _ Gx), (g_sign _ _ _ Gq), Hsx, Hsq, Z.eqb_refl. cbn [negb].
  set (mx_ := Nat.max (length lx) (length lq)) in *.
  assert (MAX (Z.of_nat (length lx)) (Z.of_nat (length lq)) = Z.of_nat mx_) as ->.
  { unfold MAX. destruct (Z.gtb_spec (Z.of_nat (length lq)) (Z.of_nat (length lx))); lia. }
  wb. eapply wpR_padg; [done..| |]. { mx. }
  intros st1 F HR1 GF K HlF HFeq. cbn [negb].
  pose proof (lookup_insert σ x F) as HF.
  assert (<[x := F]> σ !! q = Some fq) as Hfq1 by (by rewrite lookup_insert_ne).
  wb. eapply wpR_ucmp; [exact HR1|exact HF|apply GF|apply GF|exact Hfq1|apply Gq|apply Gq|].
  rewrite (g_val _ _ _ GF), (g_val _ _ _ Gq).
  cbv zeta. wb. eapply wpR_sign; [done..|]. rewrite (g_sign _ _ _ GF), Hsx. change (0 =? MP_NEG) with false. cbn [andb].
  destruct (Z.geb_spec (Z.sgn (zm zx - zm zq)) 0) as [Hge|Hlt].
  - assert (zm zq <= zm zx) as Hle. { destruct (Z.sgn_spec (zm zx - zm zq)) as [[? E]|[[? E]|[? E]]]; lia. }
    eapply (wpR_usub_into' st1 σ X x F x q F fq lx lq); try done; [apply GF|apply GF|apply Gq|apply Gq| |lia|].
    { by rewrite (g_val _ _ _ GF), (g_val _ _ _ Gq). }
    intros st2 ds cells Cds Vds HR2 V2 K2 Hdr. rewrite (g_val _ _ _ GF), (g_val _ _ _ Gq) in Vds.
    wb. eapply wpR_set_sign; [exact HR2|apply lookup_insert|]. cbn [fs fu fc fl]. intros st3 HR3. rewrite insert_insert in HR3.
    apply wp_ret. eapply HQ; [exact HR3| |].
    + replace (zset zx (zm zx - zm zq)) with (zput zx 0 (zm zx - zm zq)).
      * eapply (good_intro fx zx _ ds); [by eexists|exact (keeps_trans _ _ _ K (K2 _ _))| |done|done|done|by left].
        exact (view_sign _ _ _ V2).
      * rewrite zput_zset; [done|lia|by left|done].
    + intros Hm. rewrite (HFeq ltac:(lia)) in *. cbn [fl fc]. split; [done|].
      replace mx_ with (length lx + (mx_ - length lx))%nat by lia. by rewrite <- !drop_drop, Hdr.
  - assert (zm zx < zm zq) as Hle. { apply Z.sgn_neg_iff in Hlt. lia. }
    eapply (wpR_usub_into' st1 σ X x F q x fq F lq lx); try done; [apply Gq|apply Gq|apply GF|apply GF| |lia|].
    { rewrite (g_val _ _ _ GF), (g_val _ _ _ Gq). lia. }
    intros st2 ds cells Cds Vds HR2 V2 K2 Hdr. rewrite (g_val _ _ _ GF), (g_val _ _ _ Gq) in Vds.
    wb. eapply wpR_set_sign; [exact HR2|apply lookup_insert|]. cbn [fs fu fc fl]. intros st3 HR3. rewrite insert_insert in HR3.
    apply wp_ret. eapply HQ; [exact HR3| |].
    + replace (zset zx (zm zx - zm zq)) with (zput zx 1 (zm zq - zm zx)).
      * eapply (good_intro fx zx _ ds); [by eexists|exact (keeps_trans _ _ _ K (K2 _ _))| |done|done|done|by right].
        exact (view_sign _ _ _ V2).
      * rewrite zput_zset; [|lia|by right|lia]. change (1 =? 0) with false. cbv iota. f_equal. lia.
    + intros Hm. rewrite (HFeq ltac:(lia)) in *. cbn [fl fc]. split; [done|].
      replace mx_ with (length lq + (mx_ - length lq))%nat by lia. by rewrite <- !drop_drop, Hdr.
Qed.
Lemma wpP_subx (st : state) (ζ : gmap oid zv) (X : ctx) (π : gmap oid fobj) (x q : oid) (zx zq : zv) (Q : Z -> state -> Prop) :
  RP st ζ X π -> π !! x = None -> ζ !! x = Some zx -> ζ !! q = Some zq -> x <> q -> zo zx = None -> zs zx = 0 -> zs zq = 0 ->
  (forall st', RP st' (<[x := zset zx (zm zx - zm zq)]> ζ) X π -> Q MP_OK st') ->
  wp (mp_int_sub x q x) Q st.
Proof.
  intros (σ & HR & Hz & Hp) Hpx Hx Hq ? ? ? ? HQ. destruct (relz_get _ _ _ _ Hz Hx) as (f & l & Hf & G).
  eapply wpS_subx; [done..|]. intros st' F HR' GF _. apply HQ. by eapply RP_upd.
Qed.

(** ** Adding a power of the radix to a negative number *)
Lemma wpR_qsub (st : state) (σ : gmap oid fobj) (X : ctx) (o : oid) (f : fobj) (ds : list Z) (r : list (option Z)) (k : nat) (Q : bool -> state -> Prop) :
  R st σ X -> σ !! o = Some f -> fu f = Z.of_nat k -> fc f = (Some <$> (ds ++ [0])) ++ r -> digs ds -> length ds = k ->
  (1 <= k)%nat -> 0 < val ds ->
  (forall st' es cells, canon es -> val es = Bn k - val ds ->
     R st' (<[o := Fo 0 (Z.of_nat (length es)) cells (fl f)]> σ) X ->
     view (Fo 0 (Z.of_nat (length es)) cells (fl f)) es -> (forall s u, keeps f (Fo s u cells (fl f))) -> Q true st') ->
  wp (s_qsub o (Z.of_nat k * 32)) Q st.
Proof.
  intros HR Ho Hu Hc Dd Ld Hk Hv HQ. unfold s_qsub. rewrite Z.mod_mul, Z.div_mul, Z.shiftl_0_r by lia.
  pose proof (R_len _ _ _ HR _ _ Ho) as Hlen. assert (length (fc f) = k + 1 + length r)%nat as Lc.
  { rewrite Hc, app_length, fmap_length, app_length. simpl. lia. }
  rewrite u32_id by mx. unfold s_pad. wb. wb. eapply wpR_alloc; [done..|].
  destruct (Z.ltb_spec (Z.of_nat (length (fc f))) (Z.of_nat k + 1)); [lia|].
  apply wp_ret. cbn [negb]. wb. eapply wpR_digits; [done..|]. rewrite Nat2Z.id.
  wb. rewrite <- Ld. eapply wp_qsub_loop; [|done|by left|].
  { eapply (R_darr _ _ _ o f); [done..|]. rewrite Hc, fmap_app, <- app_assoc. done. }
  intros lc w' Llc Dlc Hw' Vlc. rewrite Ld in *. pose proof (val_bounds lc Dlc) as Blc. rewrite Llc in Blc. pose proof (val_bounds ds Dd) as Bds. rewrite Ld in Bds.
  assert (w' = 1) as -> by (destruct Hw'; subst; lia).
  pose proof (R_wr0 _ _ _ o f lc HR Ho ltac:(lia)) as HR1. set (c1 := _ ++ _) in HR1.
  assert (c1 = (Some <$> lc) ++ Some 0 :: r) as Ec1.
  { unfold c1. f_equal. rewrite Hc, fmap_app, <- app_assoc. apply drop_app_alt. by rewrite fmap_length, Llc, Ld. }
  set (f1 := Fo (fs f) (fu f) c1 (fl f)) in HR1. pose proof (lookup_insert σ o f1) as Hf1.
  assert (c1 !! k = Some (Some 0)) as Hck. { rewrite Ec1, lookup_app_r; rewrite fmap_length, Llc; [|lia]. by rewrite Nat.sub_diag. }
  wb. eapply wp_load; [change (fl f) with (fl f1); by eapply R_load|].
  wb. eapply wp_store; [change (fl f) with (fl f1); by eapply R_load|].
  replace (w64 (RADIX + 1 - 1 - 0)) with RADIX by (rewrite w64_id; rewrite RADIX_val; lia).
  change (LOWER_HALF RADIX) with 0. rewrite <- wr_1. change [Some 0] with (Some <$> [0]).
  change ((fl f, 0) +p Z.of_nat k) with (fl f1, Z.of_nat k).
  pose proof (R_wrd_at _ _ _ o f1 k [0] HR1 Hf1 ltac:(cbn [fc f1 length]; unfold c1; rewrite app_length, fmap_length, drop_length; simpl; lia)) as HR2.
  rewrite insert_insert in HR2. set (c2 := _ ++ _) in HR2.
  assert (c2 = c1) as Ec2.
  { unfold c2. change (fc f1) with c1. rewrite Ec1. rewrite take_app_alt by (by rewrite fmap_length). f_equal. simpl. f_equal.
    rewrite drop_app_ge by (rewrite fmap_length; lia). rewrite fmap_length, Llc. by replace (k + 1 - k)%nat with 1%nat by lia. }
  rewrite Ec2 in HR2. change (fs f1) with (fs f) in HR2. change (fu f1) with (fu f) in HR2. change (fl f1) with (fl f) in HR2. fold f1 in HR2.
  wb. apply wp_assert; [done|]. wb. eapply wpR_set_sign; [exact HR2|exact Hf1|]. intros st3 HR3. rewrite insert_insert in HR3.
  wb. eapply (wpR_CLAMP _ _ _ o _ lc); [exact HR3|apply lookup_insert| |lia|].
  { constructor; cbn [fu fc f1]; [lia|rewrite Ec1; by eexists|done]. }
  intros st4 es n Ces Des Ves _ HR4 V4. cbn [fs fu fc fl f1] in *. rewrite insert_insert in HR4. apply wp_ret.
  eapply HQ; [exact Ces|lia|exact HR4|exact V4|]. intros s u. unfold c1. apply keeps_wr0; [done|lia].
Qed.

(** ** The reduction step *)
Lemma barrett_quot x M μ a c : 0 < a -> a <= M -> 0 < c -> μ = a * c / M -> 0 <= x < a * c ->
  0 <= x / a * μ / c /\ x / a * μ / c * M <= x < (x / a * μ / c + 3) * M.
Proof.
  intros Ha HM Hc -> Hx. set (N := a * c) in *.
  pose proof (Z.div_mod x a ltac:(lia)) as E1. pose proof (Z.mod_pos_bound x a ltac:(lia)) as B1. set (X1 := x / a) in *. set (r := x mod a) in *.
  pose proof (Z.div_mod N M ltac:(lia)) as E2. pose proof (Z.mod_pos_bound N M ltac:(lia)) as B2. set (μ := N / M) in *. set (s := N mod M) in *.
  pose proof (Z.div_mod (X1 * μ) c ltac:(lia)) as E3. pose proof (Z.mod_pos_bound (X1 * μ) c ltac:(lia)) as B3.
  set (q := X1 * μ / c) in *. set (t := X1 * μ mod c) in *.
  assert (0 <= X1) as P1 by (apply Z.div_pos; lia). assert (0 < N) as PN by (unfold N; nia).
  assert (0 <= μ) as P2 by (apply Z.div_pos; lia). assert (0 <= q) as Pq by (apply Z.div_pos; nia).
  split; [done|]. split.
  - apply (Z.mul_le_mono_pos_r _ _ c Hc). assert (q * c <= X1 * μ) by lia.
    assert (q * M * c <= X1 * (μ * M)) by nia. assert (X1 * (μ * M) <= X1 * N) by (apply Z.mul_le_mono_nonneg_l; lia).
    assert (X1 * N = X1 * a * c) by (unfold N; ring). assert (X1 * a * c <= x * c) by (apply Z.mul_le_mono_nonneg_r; lia). lia.
  - assert (a * X1 * (M * μ) < (q + 1) * (N * M)) as K.
    { replace (a * X1 * (M * μ)) with (a * M * (X1 * μ)) by ring. replace ((q + 1) * (N * M)) with (a * M * ((q + 1) * c)) by (unfold N; ring).
      apply Z.mul_lt_mono_pos_l; [nia|]. lia. }
    apply (Z.mul_lt_mono_pos_r N); [lia|].
    assert (x * N = a * X1 * (M * μ) + r * N + (x - r) * s) as Ex.
    { replace (a * X1) with (x - r) by lia. replace (M * μ) with (N - s) by lia. ring. }
    assert ((x - r) * s <= N * s) by (apply Z.mul_le_mono_nonneg_r; lia).
    assert ((r + s) * N < 2 * M * N) by (apply Z.mul_lt_mono_pos_r; lia).
    replace ((q + 3) * M * N) with ((q + 1) * (N * M) + 2 * M * N) by ring. lia.
Qed.

Lemma kfoot_mono n n' : (n <= n')%nat -> (kfoot n <= kfoot n')%nat.
Proof. intros. unfold kfoot. pose proof (Nat.div_le_mono (n + 1) (n' + 1) 2 ltac:(lia) ltac:(lia)). lia. Qed.
Lemma ndig_lower m k : 0 < m -> ndig m = S k -> Bn k <= m.
Proof.
  intros Hm Hk. destruct (Z.le_gt_cases (Bn k) m) as [|Hlt]; [done|]. destruct k as [|k].
  - rewrite Bn_0 in *. lia.
  - pose proof (ndig_le m (S k) ltac:(lia) ltac:(lia)). lia.
Qed.
Lemma ndig_ge m k : Bn k <= m -> (S k <= ndig m)%nat.
Proof. intros Hm. pose proof (Bn_pos k). pose proof (ndig_bound m ltac:(lia)). assert (k < ndig m)%nat; [|lia]. apply Bn_lt_inv. lia. Qed.

(** At most two subtractions remain. *)
Lemma wpP_redtail (st : state) (ζ : gmap oid zv) (X : ctx) (π : gmap oid fobj) (x m : oid) (zx zm_ : zv) (Q : bool -> state -> Prop) :
  RP st ζ X π -> π !! x = None -> ζ !! x = Some zx -> ζ !! m = Some zm_ -> x <> m -> zo zx = None -> zs zx = 0 -> zs zm_ = 0 ->
  0 < zm zm_ -> zm zx < 3 * zm zm_ ->
  (forall st', RP st' (<[x := zput zx 0 (zm zx mod zm zm_)]> ζ) X π -> Q true st') ->
  wp (c <- mp_int_compare x m;
      (if c >=? 0 then
         mp_int_sub x m x;;
         c <- mp_int_compare x m;
         if c >=? 0 then mp_int_sub x m x;; Ret tt else Ret tt
       else Ret tt);;
      Ret true)%prog Q st.
Proof.
  intros HP Hpx Hx Hm Hxm Hox Hsx Hsm HM Hlt HQ.
  destruct (RZ_s01 _ _ _ _ _ (RP_RZ _ _ _ _ HP) Hx) as [Hx0 _].
  set (M := zm zm_) in *.
  assert (forall v, 0 <= v -> zval (zput zx 0 v) = v) as Zv_ by done.
  assert (zval zm_ = M) as ZM. { unfold zval. by rewrite Hsm. }
  assert (forall v, 0 <= v -> zset zx v = zput zx 0 v) as ZS. { intros v Hv. unfold zset. destruct (Z.ltb_spec v 0); [lia|]. by rewrite Z.abs_eq. }
  assert (zx = zput zx 0 (zm zx)) as Ezx. { unfold zput. rewrite <- Hsx. by destruct zx. }
  wb. eapply wpZ_compare; [by eapply RP_RZ|done..|by intros ?|by intros ?|]. rewrite ZM.
  assert (zval zx = zm zx) as -> by (unfold zval; by rewrite Hsx).
  destruct (Z.geb_spec (Z.sgn (zm zx - M)) 0) as [Hge|Hl].
  2:{ wb. apply wp_ret. apply wp_ret. apply HQ. rewrite Z.mod_small, <- Ezx, insert_id; [done|done|]. apply Z.sgn_neg_iff in Hl. lia. }
  assert (M <= zm zx) as HM1. { destruct (Z.sgn_spec (zm zx - M)) as [[? E]|[[? E]|[? E]]]; lia. }
  wb. wb. eapply (wpP_subx st ζ X π x m zx zm_); try done. fold M. rewrite ZS by lia. intros st1 HP1.
  assert (<[x := zput zx 0 (zm zx - M)]> ζ !! m = Some zm_) as Hm1 by (by rewrite lookup_insert_ne).
  wb. eapply wpZ_compare; [by eapply RP_RZ|apply lookup_insert|exact Hm1|by intros ?|by intros ?|]. rewrite ZM, Zv_ by lia.
  destruct (Z.geb_spec (Z.sgn (zm zx - M - M)) 0) as [Hge2|Hl].
  2:{ apply wp_ret. apply wp_ret. apply HQ. apply Z.sgn_neg_iff in Hl.
      rewrite <- (Z.mod_unique_pos (zm zx) M 1 (zm zx - M)) by lia. done. }
  assert (M <= zm zx - M) as HM2. { destruct (Z.sgn_spec (zm zx - M - M)) as [[? E]|[[? E]|[? E]]]; lia. }
  wb. eapply (wpP_subx st1 _ X π x m _ zm_); [exact HP1|done|apply lookup_insert|exact Hm1|done..|]. fold M. cbn [zm zput].
  intros st2 HP2. rewrite insert_insert in HP2. apply wp_ret. apply wp_ret. apply HQ.
  rewrite <- (Z.mod_unique_pos (zm zx) M 2 (zm zx - M - M)) by lia.
  eapply RP_map; [exact HP2|]. f_equal. unfold zset. destruct (Z.ltb_spec (zm zx - M - M) 0); [lia|]. rewrite Z.abs_eq by lia. done.
Qed.

Lemma wpP_reduce (st : state) (ζ : gmap oid zv) (X : ctx) (π : gmap oid fobj) (x m mu q1 q2 : oid) (zx zm_ zmu z1 z2 : zv) (Q : bool -> state -> Prop) :
  RP st ζ X π -> π !! x = None -> π !! q1 = None -> π !! q2 = None ->
  ζ !! x = Some zx -> ζ !! m = Some zm_ -> ζ !! mu = Some zmu -> ζ !! q1 = Some z1 -> ζ !! q2 = Some z2 ->
  x <> q1 -> x <> q2 -> q1 <> q2 -> m <> x -> m <> q1 -> m <> q2 -> mu <> x -> mu <> q1 -> mu <> q2 ->
  zo zx = None -> zo z1 = None -> zs zx = 0 -> zs zm_ = 0 -> 0 < zm zm_ ->
  zm zmu = Bn (2 * ndig (zm zm_)) / zm zm_ -> zm zx < Bn (2 * ndig (zm zm_)) ->
  (4 * ndig (zm zmu) <= zi z1)%nat -> (4 * ndig (zm zmu) <= zi z2)%nat ->
  (forall st' v1 s2 v2,
     RP st' (<[x := zput zx 0 (zm zx mod zm zm_)]> (<[q1 := zput z1 0 v1]> (<[q2 := zput z2 s2 v2]> ζ))) X π -> Q true st') ->
  wp (s_reduce x m mu q1 q2) Q st.
Proof.
  intros HP Px P1 P2 Hx Hm Hmu H1 H2 Nx1 Nx2 N12 Nmx Nm1 Nm2 Nux Nu1 Nu2 Ox O1 Sx Sm HM Eμ Hxlt I1 I2 HQ.
  pose proof (RP_RZ _ _ _ _ HP) as HZ.
  destruct (RZ_ndig _ _ _ _ _ HZ Hm) as [BM LM]. destruct (RZ_s01 _ _ _ _ _ HZ Hx) as [Hx0 _].
  set (M := zm zm_) in *. set (μ := zm zmu) in *. remember (ndig M) as k eqn:Ek. pose proof (ndig_pos M) as Hk. rewrite <- Ek in Hk.
  destruct k as [|k]; [lia|].
  pose proof (Bn_pos k) as Bk. pose proof (Bn_S k) as BS. pose proof (Bn_S (S k)) as BSS.
  assert (Bn k <= M) as HMk by (by apply ndig_lower).
  assert (Bn (2 * S k) = Bn k * Bn (S (S k))) as EN. { rewrite <- Bn_add. f_equal. lia. }
  rewrite EN in *.
  destruct (barrett_quot (zm zx) M μ (Bn k) (Bn (S (S k)))) as (Bq0 & Bq1 & Bq2); [lia|lia|lia|done|lia|].
  set (q := zm zx / Bn k * μ / Bn (S (S k))) in *.
  assert (Bn (S k) <= μ) as Hμ1. { rewrite Eμ. apply Z.div_le_lower_bound; [lia|]. rewrite BSS. nia. }
  pose proof (ndig_ge μ (S k) Hμ1) as Nμ.
  assert (q <= μ) as Hqμ.
  { assert (q <= zm zx / M) by (apply Z.div_le_lower_bound; lia). rewrite Eμ.
    assert (zm zx / M <= Bn k * Bn (S (S k)) / M) by (apply Z.div_le_mono; lia). lia. }
  assert (0 <= zm zx / Bn k) as Hq1a by (apply Z.div_pos; lia).
  assert (zm zx / Bn k < Bn (S (S k))) as Hq1b by (apply Z.div_lt_upper_bound; lia).
  unfold s_reduce. wb. eapply wpZ_used; [done..|]. fold M. rewrite <- Ek. intros _.
  assert (u32 (u32 (Z.of_nat (S k) + 1) * 32) = Z.of_nat (S (S k)) * 32) as ->.
  { rewrite (u32_id (Z.of_nat (S k) + 1)) by mx. rewrite u32_id by mx. lia. }
  assert (u32 ((Z.of_nat (S k) - 1) * 32) = Z.of_nat k * 32) as ->.
  { rewrite u32_id by mx. lia. }
  assert (forall n, 2 ^ (Z.of_nat n * 32) = Bn n) as EB. { intros n. rewrite Bn_pow2. f_equal. lia. }
  wb. eapply wpP_copy; [exact HP|done|exact Hx|exact H1|done|]. rewrite Sx. intros st1 HP1. rewrite Z.eqb_refl. cbn [negb].
  wb. eapply wpP_qdiv; [exact HP1|done|apply lookup_insert|lia|]. cbn [zm zs zput]. rewrite EB, insert_insert.
  intros st2 HP2. assert (z0sgn (zm zx / Bn k) 0 = 0) as E0 by (unfold z0sgn; by destruct (_ =? _)). rewrite E0 in HP2. clear st1 HP1.
  wb. eapply (wpP_UMUL st2 _ X π q1 mu q2); [exact HP2|done|lk|lk|lk|done|done| | |].
  { cbn [zm zput]. fold μ. pose proof (ndig_le (zm zx / Bn k) (S (S k)) ltac:(lia) ltac:(lia)). lia. }
  { cbn [zm zput]. fold μ. pose proof (ndig_le (zm zx / Bn k) (S (S k)) ltac:(lia) ltac:(lia)). rewrite Nat.max_r by lia.
    pose proof (kfoot_le (ndig μ)). lia. }
  cbn [zm zput zs zi zo]. fold μ. intros st3 HP3.
  wb. eapply wpP_qdiv; [exact HP3|done|lk|lia|]. cbn [zm zs zput]. rewrite EB. fold q.
  intros st4 HP4. set (s2 := z0sgn q (zs z2)) in HP4.
  assert (RP st4 (<[q1 := zput z1 0 (zm zx / Bn k)]> (<[q2 := zput z2 s2 q]> ζ)) X π) as HP4'. { eapply RP_map; [exact HP4|]. mapeq. }
  clear st2 HP2 st3 HP3 HP4. destruct HP4' as (σ & HR & Hz & Hp).
  set (ζ1 := <[q1 := _]> _) in *.
  assert (ζ1 !! x = Some zx) as Hx1 by (unfold ζ1; lk).
  destruct (relz_get _ _ _ _ Hz Hx1) as (fx & lx & Hfx & Gx).
  wb. eapply wpR_qmod; [exact HR|exact Hfx|apply Gx|apply Gx|lia|]. rewrite (g_val _ _ _ Gx), EB.
  intros st5 ds cells Cds Vds HR5 V5 K5 C5. rewrite Z.div_mul, Nat2Z.id in C5 by lia.
  set (r0 := zm zx mod Bn (S (S k))) in *. pose proof (Z.mod_pos_bound (zm zx) (Bn (S (S k))) ltac:(lia)) as Br0. fold r0 in Br0.
  set (F := Fo (fs fx) (Z.of_nat (length ds)) cells (fl fx)) in *.
  assert (goodw F (zput zx 0 r0) ds) as GF.
  { assert (good F (zput zx 0 r0)) as GF.
    { eapply (good_intro fx zx F ds); [by eexists|apply K5|done|done|done|cbn [fs F]; rewrite (g_sign _ _ _ Gx); done|by left]. }
    destruct GF as [ds' G']. by rewrite <- (view_inj F ds' ds (g_view _ _ _ G') V5). }
  assert (relz (<[x := F]> σ) (<[x := zput zx 0 r0]> ζ1)) as Hz5 by (apply relz_ins; [done|by eexists]).
  assert (RP st5 (<[x := zput zx 0 r0]> ζ1) X (<[x := F]> π)) as HP5.
  { exists (<[x := F]> σ). split_and!; [done..|]. intros o f. destruct (decide (o = x)) as [->|]; [by rewrite !lookup_insert|]. rewrite !lookup_insert_ne by done. apply Hp. }
  assert (<[x := F]> π !! q1 = None) as P1' by (by rewrite lookup_insert_ne).
  wb. eapply (wpP_UMUL st5 _ X _ q2 m q1); [exact HP5|exact P1'|unfold ζ1; lk|unfold ζ1; lk|unfold ζ1; lk|done|done| | |].
  { cbn [zm zput zi]. fold M. rewrite <- Ek. pose proof (ndig_mono q μ ltac:(lia)). lia. }
  { cbn [zm zput zi]. fold M. rewrite <- Ek. pose proof (ndig_mono q μ ltac:(lia)).
    pose proof (kfoot_mono (Nat.max (ndig q) (S k)) (ndig μ) ltac:(lia)). pose proof (kfoot_le (ndig μ)). lia. }
  cbn [zm zput zs zi zo]. fold M. intros st6 HP6.
  wb. eapply wpP_qmod; [exact HP6|exact P1'|lk|lia|]. cbn [zm zs zput]. rewrite EB.
  intros st7 HP7. set (p := q * M mod Bn (S (S k))) in *. pose proof (Z.mod_pos_bound (q * M) (Bn (S (S k))) ltac:(lia)) as Bp. fold p in Bp.
  set (ζ2 := <[q1 := zput z1 0 p]> (<[q2 := zput z2 s2 q]> ζ)).
  assert (RP st7 (<[x := zput zx 0 r0]> ζ2) X (<[x := F]> π)) as HP7'. { eapply RP_map; [exact HP7|]. unfold ζ1, ζ2. mapeq. }
  clear st5 HR5 Hz5 HP5 st6 HP6 HP7. clear σ HR Hz Hp Hfx ζ1 Hx1.
  destruct HP7' as (σ & HR & Hz & Hp).
  assert (σ !! x = Some F) as HF by (apply Hp, lookup_insert).
  assert (forall o f, π !! o = Some f -> σ !! o = Some f) as Hpi.
  { intros o f Hof. apply Hp. rewrite lookup_insert_ne; [done|]. congruence. }
  (* the difference *)
  set (D := zm zx - q * M). assert (0 <= D < 3 * M) as BD by (unfold D; lia). rewrite RADIX_val in *.
  assert (M < Bn (S k)) as BM' by lia.
  assert (r0 - p = D \/ (r0 < p /\ r0 - p + Bn (S (S k)) = D /\ Bn (S (S k)) <= zm zx)) as HD.
  { assert (0 <= q * M) by nia.
    pose proof (Z.div_mod (zm zx) (Bn (S (S k))) ltac:(lia)) as Ea. fold r0 in Ea.
    pose proof (Z.div_mod (q * M) (Bn (S (S k))) ltac:(lia)) as Eb. fold p in Eb.
    set (ea := zm zx / Bn (S (S k))) in *. set (eb := q * M / Bn (S (S k))) in *.
    assert (D = Bn (S (S k)) * (ea - eb) + (r0 - p)) as ED by (unfold D; lia).
    assert (0 <= ea) by (apply Z.div_pos; lia). assert (0 <= eb) by (apply Z.div_pos; lia).
    assert (ea - eb = 0 \/ ea - eb = 1) as [E|E].
    { assert (-1 < ea - eb < 2) by nia. lia. }
    - left. rewrite E in ED. lia.
    - right. rewrite E in ED. split_and!; [lia|lia|].
      assert (Bn (S (S k)) * 1 <= Bn (S (S k)) * ea) by (apply Z.mul_le_mono_nonneg_l; lia). lia. }
  wb. eapply (wpS_subx st7 σ _ X x q1 (zput zx 0 r0) (zput z1 0 p) F ds); [exact HR|exact Hz|lk|unfold ζ2; lk|done|done|done|done|exact HF|exact GF|].
  cbn [zm zput]. intros st8 F8 HR8 G8 C8.
  assert (RP st8 (<[x := zset (zput zx 0 r0) (r0 - p)]> ζ2) X π) as HP8.
  { rewrite <- (insert_insert ζ2 x (zset (zput zx 0 r0) (r0 - p)) (zput zx 0 r0)). by eapply RP_upd. }
  assert (zm zx mod M = D mod M) as EDm. { unfold D. rewrite <- (Z.mod_add (zm zx - q * M) q M) by lia. f_equal. lia. }
  wb. eapply wpZ_CMPZ; [by eapply RP_RZ|lk|]. rewrite zval_zset.
  destruct HD as [HD|(HD1 & HD2 & HD3)].
  - destruct (Z.ltb_spec (Z.sgn (r0 - p)) 0) as [Hs|_]; [apply Z.sgn_neg_iff in Hs; lia|].
    wb. apply wp_ret. cbn [negb].
    assert (zset (zput zx 0 r0) (r0 - p) = zput zx 0 D) as Ez.
    { rewrite HD. unfold zset. destruct (Z.ltb_spec D 0); [lia|]. by rewrite Z.abs_eq by lia. }
    rewrite Ez in HP8.
    eapply (wpP_redtail st8 _ X π x m (zput zx 0 D) zm_); [exact HP8|done|lk|unfold ζ2; lk|done|done|done|done|done|cbn [zm zput]; lia|].
    cbn [zm zput]. fold M. rewrite <- EDm, insert_insert. intros st9 HP9. eapply HQ. exact HP9.
  - destruct (Z.ltb_spec (Z.sgn (r0 - p)) 0) as [_|Hs]; [|exfalso; assert (Z.sgn (r0 - p) = -1) by (apply Z.sgn_neg; lia); lia].
    destruct G8 as [es Ges].
    assert (p - r0 = zm (zset (zput zx 0 r0) (r0 - p))) as Em. { unfold zset. cbn [zm zput]. lia. }
    pose proof (goodw_ndig _ _ _ Ges) as Les. rewrite <- Em in Les. pose proof (g_val _ _ _ Ges) as Ves. rewrite <- Em in Ves.
    assert (length es = S (S k)) as Les'.
    { rewrite Les. pose proof (ndig_le (p - r0) (S (S k)) ltac:(lia) ltac:(lia)). pose proof (ndig_ge (p - r0) (S k) ltac:(lia)). lia. }
    assert (ndig p = S (S k)) as Np.
    { pose proof (ndig_le p (S (S k)) ltac:(lia) ltac:(lia)). pose proof (ndig_ge p (S k) ltac:(lia)). lia. }
    assert (ndig r0 <= S (S k))%nat as Nr by (apply ndig_le; lia).
    destruct C5 as [r Hr].
    { pose proof (ndig_ge (zm zx) (S (S k)) HD3). rewrite (goodw_ndig _ _ _ Gx). lia. }
    assert (length ds <= S (S k))%nat as Lds. { rewrite (goodw_ndig _ _ _ GF). done. }
    rewrite Np, Nat.max_r in C8 by lia. destruct C8 as [L8 D8].
    { cbn [fc F]. rewrite Hr, app_length, fmap_length, app_length, replicate_length. lia. }
    assert (fc F8 = (Some <$> (es ++ [0])) ++ r) as C8.
    { destruct (v_c _ _ (g_view _ _ _ Ges)) as [rest Erest]. rewrite Erest in D8 |- *.
      rewrite drop_app_alt in D8 by (by rewrite fmap_length). rewrite D8. rewrite fmap_app, <- app_assoc. f_equal.
      cbn [fc F]. rewrite Hr. rewrite drop_app_le by (rewrite fmap_length, app_length, replicate_length; lia).
      rewrite <- fmap_drop, drop_app_ge by lia. rewrite drop_replicate.
      by replace (S (S k) + 1 - length ds - (S (S k) - length ds))%nat with 1%nat by lia. }
    wb. eapply (wpR_qsub st8 (<[x := F8]> σ) X x F8 es r (S (S k))); [exact HR8|apply lookup_insert| |exact C8|apply Ges|done|lia|lia|].
    { rewrite (goodw_u _ _ _ Ges). by rewrite Les'. }
    intros st9 hs hc Chs Vhs HR9 V9 K9. rewrite insert_insert in HR9. cbn [negb].
    assert (val hs = D) as Vh by lia. clear Vhs.
    assert (RP st9 (<[x := zput zx 0 D]> ζ2) X π) as HP9.
    { rewrite <- (insert_insert ζ2 x (zput zx 0 D) (zput zx 0 r0)). eapply RP_upd; [exact HR9|exact Hz| |done|done].
      change (zput zx 0 D) with (zput (zset (zput zx 0 r0) (r0 - p)) 0 D).
      eapply (good_intro F8 _ _ hs); [by eexists|apply K9|exact V9|done|done|done|by left]. }
    eapply (wpP_redtail st9 _ X π x m (zput zx 0 D) zm_); [exact HP9|done|lk|unfold ζ2; lk|done|done|done|done|done|cbn [zm zput]; lia|].
    cbn [zm zput]. fold M. rewrite <- EDm, insert_insert. intros st10 HP10. eapply HQ. exact HP10.
Qed.

(** ** The exponentiation loop *)
Lemma odd_split d : 0 <= d -> d = 2 * Z.shiftr d 1 + (if Z.odd d then 1 else 0).
Proof. intros Hd. rewrite Z.shiftr_div_pow2 by lia. change (2 ^ 1) with 2. pose proof (Z.div_mod d 2 ltac:(lia)) as E. rewrite Zmod_odd in E. lia. Qed.

Section Acc.
Context (zm_ : zv) (HM : 0 < zm zm_).
Local Notation M := (zm zm_).
(** [vc'] is [vc * x ^ e], reduced as soon as a multiplication took place. *)
Definition acc (vc x e vc' : Z) : Prop :=
  0 <= vc' <= M /\ vc' mod M = (vc * x ^ e) mod M /\ (vc < M \/ e <> 0 -> vc' < M) /\ (e = 0 -> vc' = vc).
Lemma acc_refl vc x : 0 <= vc <= M -> acc vc x 0 vc.
Proof. intros. unfold acc. split_and!; [lia|lia|by rewrite Z.pow_0_r, Z.mul_1_r|lia|done]. Qed.
Lemma pow_mod_l x e : 0 <= e -> (x mod M) ^ e mod M = x ^ e mod M.
Proof.
  intros He. pattern e. apply natlike_ind; [by rewrite !Z.pow_0_r| |done]. clear e He. intros e He IH.
  rewrite !Z.pow_succ_r by done. rewrite Z.mul_mod, IH, Z.mod_mod, <- Z.mul_mod by lia. done.
Qed.
Lemma acc_trans vc x e vc' y e' k vc'' : 0 <= e -> 0 <= e' -> 0 < k -> y = x ^ k mod M -> acc vc x e vc' -> acc vc' y e' vc'' ->
  acc vc x (e + k * e') vc''.
Proof.
  intros He He' Hk -> (B1 & C1 & L1 & Z1) (B2 & C2 & L2 & Z2). split_and!; [lia|lia| | |].
  - rewrite C2. rewrite Z.mul_mod, C1, pow_mod_l, <- Z.mul_mod by lia.
    rewrite <- Z.pow_mul_r, <- Z.mul_assoc, <- Z.pow_add_r by nia. done.
  - intros Hor. destruct (Z.eq_dec e' 0) as [->|]; [|lia]. rewrite (Z2 eq_refl). apply L1. lia.
  - intros Hz. assert (e = 0) by nia. assert (e' = 0) by nia. by rewrite Z2, Z1.
Qed.
Lemma acc_mul vc x : 0 <= vc <= M -> acc vc x 1 ((vc * x) mod M).
Proof.
  intros. pose proof (Z.mod_pos_bound (vc * x) M ltac:(lia)). unfold acc.
  split_and!; [lia|lia|by rewrite Z.mod_mod, Z.pow_1_r by lia|lia|lia].
Qed.
End Acc.

Section Embar.
Context (ζ : gmap oid zv) (X : ctx) (π : gmap oid fobj) (a m mu c t0 t1 t2 : oid) (za zm_ zmu zc z0 z1 z2 : zv).
Context (Pa : π !! a = None) (Pc : π !! c = None) (P0 : π !! t0 = None) (P1 : π !! t1 = None) (P2 : π !! t2 = None).
Context (Hm : ζ !! m = Some zm_) (Hmu : ζ !! mu = Some zmu).
Context (Nac : a <> c) (Na0 : a <> t0) (Na1 : a <> t1) (Na2 : a <> t2) (Nc0 : c <> t0) (Nc1 : c <> t1) (Nc2 : c <> t2)
  (N01 : t0 <> t1) (N02 : t0 <> t2) (N12 : t1 <> t2)
  (Nma : m <> a) (Nmc : m <> c) (Nm0 : m <> t0) (Nm1 : m <> t1) (Nm2 : m <> t2)
  (Nua : mu <> a) (Nuc : mu <> c) (Nu0 : mu <> t0) (Nu1 : mu <> t1) (Nu2 : mu <> t2).
Context (Oa : zo za = None) (Oc : zo zc = None) (O0 : zo z0 = None) (O1 : zo z1 = None).
Context (Sm : zs zm_ = 0) (HM : 0 < zm zm_) (Eμ : zm zmu = Bn (2 * ndig (zm zm_)) / zm zm_).
Context (I0 : (4 * ndig (zm zmu) <= zi z0)%nat) (I1 : (4 * ndig (zm zmu) <= zi z1)%nat) (I2 : (4 * ndig (zm zmu) <= zi z2)%nat).
Local Notation M := (zm zm_).
Local Notation E va vc v0 v1 s2 v2 :=
  (<[a := zput za 0 va]> (<[c := zput zc 0 vc]> (<[t0 := zput z0 0 v0]> (<[t1 := zput z1 0 v1]> (<[t2 := zput z2 s2 v2]> ζ))))).
Definition ESt (st : state) (va vc : Z) : Prop := exists v0 v1 s2 v2, RP st (E va vc v0 v1 s2 v2) X π.

Lemma emb_room v : 0 <= v <= M -> (ndig v + ndig M <= zi z0)%nat /\ (kfoot (Nat.max (ndig v) (ndig M)) <= zi z0)%nat /\ (ndig v <= ndig M)%nat.
Proof.
  intros Hv. pose proof (ndig_mono v M Hv) as H1. pose proof (ndig_pos M) as HP.
  assert (S (ndig M) <= ndig (zm zmu))%nat as H2.
  { apply ndig_ge. rewrite Eμ. apply Z.div_le_lower_bound; [lia|]. replace (2 * ndig M)%nat with (ndig M + ndig M)%nat by lia.
    rewrite Bn_add. pose proof (ndig_bound M ltac:(lia)). pose proof (Bn_pos (ndig M)). nia. }
  pose proof (kfoot_le (Nat.max (ndig v) (ndig M))). lia.
Qed.
Lemma emb_red st va vc v0 v1 s2 v2 (Q : bool -> state -> Prop) :
  RP st (E va vc v0 v1 s2 v2) X π -> v0 < Bn (2 * ndig M) ->
  (forall st' v1 s2 v2, RP st' (E va vc (v0 mod M) v1 s2 v2) X π -> Q true st') ->
  wp (s_reduce t0 m mu t1 t2) Q st.
Proof.
  intros HP Hv HQ.
  eapply (wpP_reduce st _ X π t0 m mu t1 t2 (zput z0 0 v0) zm_ zmu (zput z1 0 v1) (zput z2 s2 v2));
    [exact HP|done|done|done|lk|lk|lk|lk|lk|..]; try done; try neqs.
  intros st' w1 s2' w2 HP'. eapply (HQ st' w1 s2' w2). eapply RP_map; [exact HP'|]. cbn [zm zput]. mapeq.
Qed.
Lemma emb_lt v w : 0 <= v <= M -> 0 <= w <= M -> v * w < Bn (2 * ndig M).
Proof.
  intros Hv Hw. replace (2 * ndig M)%nat with (ndig M + ndig M)%nat by lia.
  rewrite Bn_add. pose proof (ndig_bound M ltac:(lia)). nia.
Qed.
Lemma emb_mul st va vc (Q : Z -> state -> Prop) :
  ESt st va vc -> 0 <= va <= M -> 0 <= vc <= M ->
  (forall st', ESt st' va ((vc * va) mod M) -> Q MP_OK st') ->
  wp (embar_mul a m mu c t0 t1 t2) Q st.
Proof.
  intros (v0 & v1 & s2 & v2 & HP) Hva Hvc HQ. unfold embar_mul.
  destruct (emb_room va Hva) as (R1 & R2 & R3). destruct (emb_room vc Hvc) as (R4 & R5 & R6).
  wb. eapply (wpP_UMUL st _ X π c a t0); [exact HP|done|lk|lk|lk|done|done| | |].
  { cbn [zm zput zi]. lia. }
  { cbn [zm zput zi]. pose proof (kfoot_mono (Nat.max (ndig vc) (ndig va)) (Nat.max (ndig va) (ndig M)) ltac:(lia)). lia. }
  cbn [zm zput zi zs zo]. intros st1 HP1.
  assert (RP st1 (E va vc (vc * va) v1 s2 v2) X π) as HP1' by (eapply RP_map; [exact HP1|mapeq]).
  wb. eapply emb_red; [exact HP1'|by apply emb_lt|]. intros st2 w1 w2 w3 HP2. cbn [negb].
  wb. eapply (wpP_copy st2 _ X π t0 c); [exact HP2|done|lk|lk|done|]. cbn [zm zput zi zs zo].
  intros st3 HP3. apply wp_ret. apply HQ. exists ((vc * va) mod M), w1, w2, w3. eapply RP_map; [exact HP3|]. mapeq.
Qed.
Lemma emb_usqr st va vc (Q : unit -> state -> Prop) :
  ESt st va vc -> 0 <= va <= M ->
  (forall st' v1 s2 v2, RP st' (E va vc (va * va) v1 s2 v2) X π -> Q tt st') ->
  wp (USQR a t0) Q st.
Proof.
  intros (v0 & v1 & s2 & v2 & HP) Hva HQ.
  destruct (emb_room va Hva) as (R1 & R2 & R3).
  eapply (wpP_USQR st _ X π a t0); [exact HP|done|lk|lk|done| |].
  { cbn [zm zput zi]. pose proof (kfoot_mono (ndig va) (Nat.max (ndig va) (ndig M)) ltac:(lia)). lia. }
  cbn [zm zput zi zs zo]. intros st1 HP1. eapply (HQ st1 v1 s2 v2). eapply RP_map; [exact HP1|mapeq].
Qed.
Lemma emb_copy_a st va vc v0 v1 s2 v2 (Q : Z -> state -> Prop) :
  RP st (E va vc v0 v1 s2 v2) X π -> (forall st', ESt st' v0 vc -> Q MP_OK st') -> wp (mp_int_copy t0 a) Q st.
Proof.
  intros HP HQ. eapply (wpP_copy st _ X π t0 a); [exact HP|done|lk|lk|done|]. cbn [zm zput zi zs zo].
  intros st3 HP3. apply HQ. exists v0, v1, s2, v2. eapply RP_map; [exact HP3|]. mapeq.
Qed.

Lemma emb_bit st va vc d (Q : Z -> state -> Prop) :
  ESt st va vc -> 0 <= va < M -> 0 <= vc <= M -> 0 <= d ->
  (forall st' vc', ESt st' va vc' -> acc zm_ vc va (if Z.odd d then 1 else 0) vc' -> Q MP_OK st') ->
  wp (if Z.odd d then embar_mul a m mu c t0 t1 t2 else Ret MP_OK) Q st.
Proof.
  intros HE Ha Hc Hd HQ. destruct (Z.odd d).
  - eapply emb_mul; [exact HE|lia|lia|]. intros st' HE'. eapply HQ; [exact HE'|]. by apply acc_mul.
  - apply wp_ret. eapply HQ; [exact HE|]. by apply acc_refl.
Qed.
Lemma emb_bits n st va vc d (Q : Z -> state -> Prop) :
  ESt st va vc -> 0 <= va < M -> 0 <= vc <= M -> 0 <= d < 2 ^ Z.of_nat n ->
  (forall st' vc', ESt st' (va ^ (2 ^ Z.of_nat n) mod M) vc' -> acc zm_ vc va d vc' -> Q MP_OK st') ->
  wp (embar_bits n d a m mu c t0 t1 t2) Q st.
Proof.
  revert st va vc d. induction n as [|n IH]; intros st va vc d HE Ha Hc Hd HQ; cbn [embar_bits].
  - apply wp_ret. change (2 ^ Z.of_nat 0) with 1 in *. eapply (HQ st vc); [by rewrite Z.pow_1_r, Z.mod_small|].
    replace d with 0 by lia. by apply acc_refl.
  - rewrite Nat2Z.inj_succ, Z.pow_succ_r in * by lia. pose proof (odd_split d ltac:(lia)) as Ed.
    apply wp_require. eapply emb_bit; [done..|lia|]. intros st1 vc1 HE1 A1. split; [done|].
    wb. eapply emb_usqr; [exact HE1|lia|]. intros st2 v1 s2 v2 HP2.
    wb. eapply wpZ_sign; [by eapply RP_RZ|lk|]. cbn [zs zput]. wb. apply wp_assert; [done|].
    wb. eapply emb_red; [exact HP2|apply emb_lt; lia|]. clear v1 s2 v2 HP2. intros st3 v1 s2 v2 HP3. cbn [negb].
    wb. eapply wpZ_sign; [by eapply RP_RZ|lk|]. cbn [zs zput]. wb. apply wp_assert; [done|].
    wb. eapply emb_copy_a; [exact HP3|]. intros st4 HE4.
    pose proof (Z.mod_pos_bound (va * va) M ltac:(lia)). destruct A1 as (B1 & A1).
    eapply IH; [exact HE4|lia|lia| |].
    { rewrite Z.shiftr_div_pow2 by lia. change (2 ^ 1) with 2. split; [apply Z.div_pos; lia|apply Z.div_lt_upper_bound; lia]. }
    intros st5 vc5 HE5 A5. eapply HQ.
    + rewrite (pow_mod_l zm_ HM) in HE5 by (apply Z.pow_nonneg; lia). rewrite <- Z.pow_2_r, <- Z.pow_mul_r in HE5 by (try lia; apply Z.pow_nonneg; lia). exact HE5.
    + rewrite Ed, Z.add_comm. eapply (acc_trans zm_ HM _ _ _ vc1 (va * va mod M)); [by destruct (Z.odd d)| |lia| |by split|exact A5].
      * rewrite Z.shiftr_div_pow2 by lia. apply Z.div_pos; lia.
      * by rewrite Z.pow_2_r.
Qed.
Lemma emb_top f st va vc d (Q : Z -> state -> Prop) :
  ESt st va vc -> 0 <= va < M -> 0 <= vc <= M -> 0 <= d < 2 ^ Z.of_nat f ->
  (forall st' va' vc', ESt st' va' vc' -> acc zm_ vc va d vc' -> Q MP_OK st') ->
  wp (embar_top (S f) d a m mu c t0 t1 t2) Q st.
Proof.
  revert st va vc d. induction f as [|f IH]; intros st va vc d HE Ha Hc Hd HQ.
  - change (2 ^ Z.of_nat 0) with 1 in *. assert (d = 0) as -> by lia. cbn [embar_top].
    apply wp_require. eapply emb_bit; [done..|]. intros st1 vc1 HE1 A1. split; [done|]. cbv zeta.
    change (Z.shiftr 0 1 =? 0) with true. cbv iota. apply wp_ret. by eapply HQ.
  - rewrite Nat2Z.inj_succ, Z.pow_succ_r in * by lia. pose proof (odd_split d ltac:(lia)) as Ed.
    remember (S f) as f1 eqn:Ef1. cbn [embar_top]. subst f1.
    apply wp_require. eapply emb_bit; [done..|lia|]. intros st1 vc1 HE1 A1. split; [done|]. cbv zeta.
    destruct (Z.eqb_spec (Z.shiftr d 1) 0) as [E0|E0].
    { apply wp_ret. eapply HQ; [exact HE1|]. rewrite E0 in Ed. rewrite Z.mul_0_r, Z.add_0_l in Ed. by rewrite Ed. }
    wb. eapply emb_usqr; [exact HE1|lia|]. intros st2 v1 s2 v2 HP2.
    wb. eapply emb_red; [exact HP2|apply emb_lt; lia|]. clear v1 s2 v2 HP2. intros st3 v1 s2 v2 HP3. cbn [negb].
    wb. eapply emb_copy_a; [exact HP3|]. intros st4 HE4.
    pose proof (Z.mod_pos_bound (va * va) M ltac:(lia)). destruct A1 as (B1 & A1).
    eapply IH; [exact HE4|lia|lia| |].
    { rewrite Z.shiftr_div_pow2 by lia. change (2 ^ 1) with 2. split; [apply Z.div_pos; lia|apply Z.div_lt_upper_bound; lia]. }
    intros st5 va5 vc5 HE5 A5. eapply HQ; [exact HE5|].
    rewrite Ed, Z.add_comm. eapply (acc_trans zm_ HM _ _ _ vc1 (va * va mod M)); [by destruct (Z.odd d)| |lia| |by split|exact A5].
    + rewrite Z.shiftr_div_pow2 by lia. apply Z.div_pos; lia.
    + by rewrite Z.pow_2_r.
Qed.
Lemma emb_load st va vc b fb pre d suf (Q : Z -> state -> Prop) :
  ESt st va vc -> π !! b = Some fb -> fc fb = (Some <$> (pre ++ d :: suf)) ++ drop (length (pre ++ d :: suf)) (fc fb) ->
  Q d st -> wp (Load ((fl fb, 0) +p Z.of_nat (length pre))) Q st.
Proof.
  intros (v0 & v1 & s2 & v2 & σ & HR & Hz & Hp) Hb Hc HQ. eapply wp_load; [|exact HQ].
  eapply R_load; [exact HR|by apply Hp|]. rewrite Hc, lookup_app_l by (rewrite fmap_length, app_length; simpl; lia).
  rewrite list_lookup_fmap, lookup_app_r, Nat.sub_diag by lia. done.
Qed.
Lemma emb_digits l : forall st va vc b fb pre top (Q : Z -> state -> Prop),
  ESt st va vc -> π !! b = Some fb -> fc fb = (Some <$> (pre ++ l ++ [top])) ++ drop (length (pre ++ l ++ [top])) (fc fb) -> digs l ->
  0 <= va < M -> 0 <= vc <= M ->
  (forall st' vc', ESt st' (va ^ Bn (length l) mod M) vc' -> acc zm_ vc va (val l) vc' -> Q MP_OK st') ->
  wp (embar_digits (length l) ((fl fb, 0) +p Z.of_nat (length pre)) a m mu c t0 t1 t2) Q st.
Proof.
  induction l as [|d l IH]; intros st va vc b fb pre top Q HE Hb Hc Dl Ha Hvc HQ; cbn [length embar_digits].
  - apply wp_ret. eapply (HQ st vc); cbn [length val]; [by rewrite Bn_0, Z.pow_1_r, Z.mod_small|by apply acc_refl].
  - apply Forall_cons in Dl as [Dd Dl]. wb. eapply (emb_load st va vc b fb pre d (l ++ [top])); [done..|].
    unfold dig in Dd. apply wp_require. eapply (emb_bits 32); [exact HE|done|done|rewrite RADIX_val in Dd; exact Dd|].
    replace (2 ^ Z.of_nat 32) with RADIX by (by rewrite RADIX_val). intros st1 vc1 HE1 A1. split; [done|].
    pose proof (Z.mod_pos_bound (va ^ RADIX) M ltac:(lia)) as Bm. destruct A1 as (B1 & A1).
    rewrite padd_padd. replace (Z.of_nat (length pre) + 1) with (Z.of_nat (length (pre ++ [d]))) by (rewrite app_length; simpl; lia).
    eapply (IH st1 _ vc1 b fb (pre ++ [d]) top); [exact HE1|done|by rewrite <- app_assoc|done|done|done|].
    intros st2 vc2 HE2 A2. assert (0 < RADIX) by (by rewrite RADIX_val). pose proof (val_bounds l Dl) as Bl. pose proof (Bn_pos (length l)). eapply HQ.
    + rewrite (pow_mod_l zm_ HM) in HE2 by lia. rewrite <- Z.pow_mul_r in HE2 by lia. cbn [length]. by rewrite Bn_S.
    + cbn [val]. eapply (acc_trans zm_ HM _ _ _ vc1 (va ^ RADIX mod M)); [lia|lia|lia|done|by split|exact A2].
Qed.
End Embar.
