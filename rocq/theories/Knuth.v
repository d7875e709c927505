(** Rules for long division. *)
From Coq Require Import ZArith List Lia.
From stdpp Require Import gmap list.
From Verif Require Import Mem Prog Kern Imath Wp MemLem Dig KernLem KernMul KernKar KernDig Rel RelWp RelZ Life Basic Basic2 Mult Shift.
Local Open Scope Z_scope.

Lemma wpR_with_temp st σ X (body : oid -> prog Z) (Q : Z -> state -> Prop) :
  R st σ X ->
  (forall t st1, σ !! t = None -> R st1 (<[t := Fo 0 1 [Some 0] (Sng t)]> σ) X ->
     wp (body t) (fun r st2 => exists σ2 ft, σ2 !! t = Some ft /\ owned ft /\ R st2 σ2 X /\
                    (forall st3, R st3 (delete t σ2) X -> Q r st3)) st1) ->
  wp (with_temp body) Q st.
Proof.
  intros HR HB. unfold with_temp. apply wp_NewO. intros z iz Fz.
  destruct (R_newO st σ X false z _ HR Fz) as (H1 & H2 & H3). set (t := (false, iz)) in *.
  wb. eapply wpR_init; [exact H3|simpl; apply lookup_insert|]. intros st1 HZ1. simpl in HZ1.
  rewrite delete_insert in HZ1 by done. unfold with_craw in HZ1. simpl in HZ1.
  assert (R st1 (<[t := Fo 0 1 [Some 0] (Sng t)]> σ) X) as HZ1' by (destruct X; exact HZ1).
  wb. eapply wp_mono; [by apply HB|]. intros r st2 (ζ2 & zt & Ht & Hown & HZ2 & HQ).
  wb. eapply wpR_clear; [done..|]. intros st3 z3 _ HZ3.
  eapply wp_DelO; [eapply R_get_raw; [exact HZ3|simpl; apply lookup_insert]|done|].
  apply wp_ret. apply HQ. eapply R_delO in HZ3; [|simpl; apply lookup_insert].
  unfold with_craw in HZ3. simpl in HZ3. rewrite delete_insert in HZ3 by (by eapply R_raw).
  destruct X; exact HZ3.
Qed.

(** ** One digit of the quotient *)
Lemma qhat_bound W V q pfx vt B b qh :
  0 < B -> 0 < b -> 0 <= W < b * V -> V = W * 0 + V -> q = W / V -> pfx = W / B -> vt * B <= V < (vt + 1) * B -> b <= 2 * vt ->
  qh = Z.min (pfx / vt) (b - 1) -> q <= qh <= q + 2 /\ qh <= b - 1 /\ 0 <= q.
Proof.
  intros HB Hb HW _ -> -> HV Hvt ->. assert (0 < vt) as Hvt0 by lia. assert (0 < V) as HV0 by nia.
  pose proof (Z.div_mod W V ltac:(lia)) as EW. pose proof (Z.mod_pos_bound W V ltac:(lia)) as MW.
  set (q := W / V) in *. assert (0 <= q) as Hq0 by (apply Z.div_pos; lia). assert (q <= b - 1) as Hqb by nia.
  assert (q <= (W / B) / vt) as H1.
  { apply Z.div_le_lower_bound; [lia|]. apply Z.div_le_lower_bound; [lia|]. nia. }
  split; [|split; [lia|done]]. split; [lia|].
  set (qh := Z.min (W / B / vt) (b - 1)). destruct (Z.le_gt_cases qh (q + 2)) as [|Hgt]; [done|exfalso].
  assert (qh * vt * B <= W) as H2.
  { assert (qh * vt <= W / B) as H3. { pose proof (Z.mul_div_le (W / B) vt ltac:(lia)). assert (qh <= W / B / vt) by lia. nia. }
    pose proof (Z.mul_div_le W B ltac:(lia)). nia. }
  assert (qh <= b - 1) by lia.
  assert (W < (q + 1) * V) by nia. assert ((q + 1) * V <= (qh - 2) * V) by nia.
  assert ((qh - 2) * V <= (qh - 2) * ((vt + 1) * B)) by nia.
  assert (qh * vt * B < (qh - 2) * (vt + 1) * B) by nia.
  assert (qh * vt < (qh - 2) * (vt + 1)) by nia. nia.
Qed.

Lemma wpR_knuth_mul st σ X v t Fv Ft lv rv qh n (Q : unit -> state -> Prop) :
  R st σ X -> σ !! v = Some Fv -> fc Fv = (Some <$> (lv ++ [0])) ++ rv -> σ !! t = Some Ft -> v <> t ->
  digs lv -> length lv = n -> (n + 1 <= length (fc Ft))%nat -> 0 <= qh < RADIX -> fs Ft = 0 ->
  (forall st' ds cells, canon ds -> digs ds -> (length ds <= n + 1)%nat -> val ds = qh * val lv -> length cells = length (fc Ft) ->
     R st' (<[t := Fo 0 (Z.of_nat (length ds)) cells (fl Ft)]> σ) X ->
     view (Fo 0 (Z.of_nat (length ds)) cells (fl Ft)) ds -> Q tt st') ->
  wp (knuth_mul v t qh (Z.of_nat n)) Q st.
Proof.
  intros HR Hv Ev Ht Hne Dlv Llv Lt Hqh Hs HQ. unfold knuth_mul.
  wb. eapply wpR_digits; [exact HR|exact Hv|]. wb. eapply wpR_digits; [exact HR|exact Ht|]. rewrite u32_id by done.
  pose proof (val_bounds lv Dlv) as Hvb. rewrite Llv in Hvb.
  assert (length (lv ++ [0]) = (n + 1)%nat) as Ll by (rewrite app_length; simpl; lia).
  unfold s_dbmul. replace (Z.to_nat (Z.of_nat n + 1)) with (length (lv ++ [0])) by lia.
  wb. eapply wp_dbmul_loop; [eapply R_darr; [exact HR|exact Hv|exact Ev]|apply digs_app; split; [done|constructor; [apply dig_0|done]]|done|lia| | | |].
  { rewrite Ll. eapply R_valid; [exact HR|exact Ht|lia|]. simpl. lia. }
  { left. simpl. eapply R_fl_ne; [exact HR|exact Ht|exact Hv|congruence]. }
  { rewrite Ll, val_snoc, Nat.add_1_r, Bn_S. nia. }
  intros lc Llc Dlc Vlc. rewrite val_snoc, Z.mul_0_r, !Z.add_0_r in Vlc.
  pose proof (R_wr0 _ _ _ t Ft lc HR Ht ltac:(lia)) as HR1. set (cells := _ ++ _) in HR1.
  assert (length cells = length (fc Ft)) as Lc. { unfold cells. rewrite app_length, fmap_length, drop_length. lia. }
  wb. eapply wpR_set_used; [exact HR1|apply lookup_insert|]. intros st2 HR2. rewrite insert_insert in HR2. cbn [fs fu fc fl] in HR2.
  eapply (wpR_CLAMP _ _ _ t _ lc); [exact HR2|apply lookup_insert| |lia|].
  { constructor; cbn [fu fc]; [lia|by eexists|done]. }
  intros st3 ds k Hcd Hdd Hvd Hpad HR3 V3. cbn [fs fu fc fl] in *. rewrite insert_insert, Hs in HR3.
  eapply (HQ st3 ds cells); [done|done| |lia|done|done|].
  - rewrite Hpad, app_length in Llc. lia.
  - constructor; apply V3.
Qed.

Lemma wcr_wcr X a b : with_craw (with_craw X a) b = with_craw X b. Proof. done. Qed.
Lemma craw_wcr X a : craw (with_craw X a) = a. Proof. done. Qed.

Section knuth.
  Context (σ0 : gmap oid fobj) (X : ctx) (u v q t r : oid) (n m : nat) (au V U0 : Z) (F0 Fv : fobj)
          (lv rv : list Z) (rvc : list cell) (bq bt : base).
  Context (Huv : u <> v) (Huq : u <> q) (Hut : u <> t) (Hvq : v <> q) (Hvt : v <> t) (Hqt : q <> t).
  Context (Hv0 : σ0 !! v = Some Fv) (Ev : fc Fv = (Some <$> (lv ++ [0])) ++ rvc) (Dlv : digs lv) (Llv : length lv = n)
          (Hn : (2 <= n)%nat) (HV : V = val lv) (Hnorm : 2 ^ 31 * Bn (n - 1) <= V).

  Definition kraw (cnt : nat) (us : Z) : mpz := Mpz (Some (fl F0, Z.of_nat cnt - 1)) au us 0.
  Definition KI (st : state) (cnt : nat) : Prop :=
    exists σ U ru Qh cq rq fuq ut ct,
      R st σ (with_craw X (<[r := kraw cnt (Z.of_nat n + 1)]> (craw X))) /\
      (forall o, o <> u -> o <> q -> o <> t -> σ !! o = σ0 !! o) /\
      σ !! u = Some (Fo (fs F0) (Z.of_nat (m + n + 1)) ((Some <$> U) ++ ru) (fl F0)) /\
      digs U /\ length U = (m + n + 1)%nat /\ (forall s k, keeps F0 (Fo s k ((Some <$> U) ++ ru) (fl F0))) /\
      σ !! q = Some (Fo 0 fuq (cq ++ (Some <$> Qh) ++ rq) bq) /\ length cq = cnt /\ length Qh = (m + 1 - cnt)%nat /\ digs Qh /\
      σ !! t = Some (Fo 0 ut ct bt) /\ (n + 1 <= length ct)%nat /\
      val (drop cnt U) < V /\ U0 = val U + V * Bn cnt * val Qh.

  Lemma wp_knuth_step st j (Q : unit -> state -> Prop) : KI st (S j) -> (j <= m)%nat -> (forall st', KI st' j -> Q tt st') ->
    wp (knuth_step v q t r (Z.of_nat n) (Z.of_nat j)) Q st.
  Proof using Huv Huq Hut Hvq Hvt Hqt Hv0 Ev Dlv Llv Hn HV Hnorm.
    intros (σ & U & ru & Qh & cq & rq & fuq & ut & ct & HR & Hout & Hu & DU & LU & KU & Hq & Lcq & LQh & DQh & Ht & Lct & Hinv & Hrel) Hj HQ.
    pose proof (val_bounds lv Dlv) as Vb. rewrite Llv, <- HV in Vb.
    (* the window *)
    set (U1 := take j U). set (L := take (n + 1) (drop j U)). set (U3 := drop (n + 1) (drop j U)).
    assert (U = U1 ++ L ++ U3) as EU. { unfold U1, L, U3. by rewrite !take_drop. }
    assert (length U1 = j) as LU1. { unfold U1. rewrite take_length. lia. }
    assert (length L = (n + 1)%nat) as LL. { unfold L. rewrite take_length, drop_length. lia. }
    assert (digs U1 /\ digs L /\ digs U3) as (DU1 & DL & DU3). { rewrite EU in DU. apply digs_app in DU as [? DU]. apply digs_app in DU as [? ?]. done. }
    assert (val U3 = 0 /\ val L < RADIX * V) as [VU3 HWb].
    { destruct L as [|x L'] eqn:EL; [simpl in LL; lia|].
      assert (drop (S j) U = L' ++ U3) as E. { rewrite EU. replace (U1 ++ (x :: L') ++ U3) with ((U1 ++ [x]) ++ L' ++ U3) by (by rewrite <- app_assoc).
        apply drop_app_alt. rewrite app_length. simpl. lia. }
      rewrite E in Hinv. rewrite val_app in Hinv. cbn [val]. apply Forall_cons in DL as [Dx DL']. unfold dig in Dx.
      pose proof (val_bounds L' DL'). pose proof (val_bounds U3 DU3). assert (length L' = n) as LL' by (simpl in LL; lia). rewrite LL' in *.
      pose proof (Bn_pos n). assert (val U3 = 0) by nia. split; [done|]. nia. }
    set (W := val L) in *. assert (0 <= W) as HW0 by (by apply val_bounds).
    assert (exists L0 lo hi, L = L0 ++ [lo; hi] /\ length L0 = (n - 1)%nat) as (L0 & lo & hi & EL & LL0).
    { exists (take (n - 1) L). destruct (drop (n - 1) L) as [|lo [|hi [|]]] eqn:E; try (apply (f_equal length) in E; rewrite drop_length in E; simpl in E; lia).
      exists lo, hi. split; [|rewrite take_length; lia]. rewrite <- E. by rewrite take_drop. }
    assert (dig lo /\ dig hi /\ digs L0) as (Dlo & Dhi & DL0).
    { rewrite EL in DL. apply digs_app in DL as [? DL]. apply Forall_cons in DL as [? DL]. apply Forall_cons in DL as [? ?]. done. }
    destruct (exists_last (l := lv)) as (lv0 & vt & Elv). { intros ->. simpl in Llv. lia. }
    assert (length lv0 = (n - 1)%nat) as Llv0. { rewrite Elv, app_length in Llv. simpl in Llv. lia. }
    assert (digs lv0 /\ dig vt) as [Dlv0 Dvt]. { rewrite Elv in Dlv. apply digs_app in Dlv as [? D]. apply digs_1 in D. done. }
    set (B := Bn (n - 1)) in *. assert (0 < B) as HB by apply Bn_pos.
    assert (vt * B <= V < (vt + 1) * B) as HVt.
    { rewrite HV, Elv, val_snoc, Llv0. fold B. pose proof (val_bounds lv0 Dlv0) as Hb. rewrite Llv0 in Hb. fold B in Hb. lia. }
    assert (2 ^ 31 <= vt) as Hvt31. { change (2 ^ 31) with 2147483648 in *. nia. }
    assert (hi * RADIX + lo = W / B) as Hpfx.
    { unfold W. rewrite EL, val_app, LL0. cbn [val]. fold B. pose proof (val_bounds L0 DL0) as Hb. rewrite LL0 in Hb. fold B in Hb.
      apply (Z.div_unique _ _ _ (val L0)); [lia|]. ring. }
    assert (RADIX <= 2 * vt) as H2vt. { change (2 ^ 31) with 2147483648 in *. mx. }
    set (X1 := with_craw X _) in HR. set (FU := Fo (fs F0) (Z.of_nat (m + n + 1)) ((Some <$> U) ++ ru) (fl F0)) in *.
    assert (craw X1 !! r = Some (kraw (S j) (Z.of_nat n + 1))) as Hr by (unfold X1; rewrite craw_wcr; apply lookup_insert).
    assert (σ !! v = Some Fv) as Hv by (rewrite Hout by congruence; done).
    assert (darr (mem st) (fl F0, Z.of_nat j) L) as HaL.
    { rewrite <- LU1, <- (fmap_length (@Some Z) U1).
      apply (R_carr _ _ _ u FU (Some <$> U1) (Some <$> L) ((Some <$> U3) ++ ru) HR Hu). unfold FU; cbn [fc]. rewrite EU at 1. by rewrite !fmap_app, <- !app_assoc. }
    unfold knuth_step. wb. eapply wp_get_digits; [eapply R_get_raw; [exact HR|exact Hr]|done|].
    wb. eapply wpR_digits; [exact HR|exact Hv|].
    replace (Z.of_nat (S j) - 1) with (Z.of_nat j) by lia.
    assert (load (mem st) ((fl F0, Z.of_nat j) +p (Z.of_nat n - 1)) = Some (Some lo) /\ load (mem st) ((fl F0, Z.of_nat j) +p Z.of_nat n) = Some (Some hi)) as [Hlo Hhi].
    { pose proof HaL as Ha. rewrite EL in Ha. apply darr_app in Ha as [_ Ha]. apply darr_cons in Ha as [H1 Ha]. apply darr_cons in Ha as [H2 _].
      rewrite LL0 in *. rewrite padd_padd in H2. replace (Z.of_nat (n - 1)) with (Z.of_nat n - 1) in * by lia. split; [done|].
      by replace (Z.of_nat n - 1 + 1) with (Z.of_nat n) in H2 by lia. }
    wb. eapply wp_load; [exact Hhi|]. wb. eapply wp_load; [exact Hlo|]. rewrite lor_word by done. rewrite Hpfx.
    wb. eapply wp_load.
    { pose proof (R_darr _ _ _ _ _ _ _ HR Hv Ev) as Ha. rewrite Elv, <- app_assoc in Ha. apply darr_app in Ha as [_ Ha]. apply darr_cons in Ha as [H1 _].
      rewrite Llv0 in H1. by replace (Z.of_nat (n - 1)) with (Z.of_nat n - 1) in H1 by lia. }
    destruct (Z.eqb_spec vt 0) as [E|_]; [mx|].
    set (qd := W / V). set (qh := if W / B / vt >? DIGIT_MAX then DIGIT_MAX else W / B / vt).
    assert (qh = Z.min (W / B / vt) (RADIX - 1)) as Eqh.
    { unfold qh, DIGIT_MAX. destruct (Z.gtb_spec (W / B / vt) (2 ^ 32 - 1)); mx. }
    destruct (qhat_bound W V qd (W / B) vt B RADIX qh) as ([Hq1 Hq2] & Hq3 & Hq4); [lia|mx|lia|lia|done|done|lia|lia|done|].
    assert (0 < V) as HV0 by nia. pose proof (Z.div_mod W V ltac:(lia)) as EWV. pose proof (Z.mod_pos_bound W V ltac:(lia)) as MWV. fold qd in EWV.
    clearbody qh. clear Eqh.
    wb. eapply (wpR_knuth_mul _ _ _ v t Fv _ lv rvc qh n); [exact HR|exact Hv|exact Ev|exact Ht|done|done|done|done|lia|done|].
    cbn [fc fl]. rewrite <- HV. intros st1 ds1 c1 Cd1 Dd1 Ld1 Vd1 Lc1 HR1 Vw1.
    (* CLAMP r *)
    assert (forall st1 c1 ut1, R st1 (<[t := Fo 0 ut1 c1 bt]> σ) X1 -> darr (mem st1) (fl F0, Z.of_nat j) L) as HaL'.
    { intros st' c' ut' HR'. rewrite <- LU1, <- (fmap_length (@Some Z) U1).
      eapply (R_carr _ _ _ u FU (Some <$> U1) (Some <$> L) ((Some <$> U3) ++ ru) HR'); [rewrite lookup_insert_ne by congruence; exact Hu|]. unfold FU; cbn [fc]. rewrite EU at 1. by rewrite !fmap_app, <- !app_assoc. }
    wb. eapply (wp_CLAMP r _ (fl F0, Z.of_nat j) L); [eapply R_get_raw; [exact HR1|exact Hr]|unfold kraw; cbn [digits]; do 2 f_equal; lia|simpl; lia|by eapply HaL'|done|lia|].
    intros dr pr Cdr Vdr Edr. cbn [digits alloc used sign kraw].
    set (st2 := set_objs st1 _). pose proof (R_set_raw _ _ _ r _ (Mpz (Some (fl F0, Z.of_nat (S j) - 1)) au (Z.of_nat (length dr)) 0) HR1 Hr) as HR2.
    fold st2 in HR2. set (X2 := with_craw X1 _) in HR2. 
    assert (craw X2 !! r = Some (Mpz (Some (fl F0, Z.of_nat (S j) - 1)) au (Z.of_nat (length dr)) 0)) as Hr2 by (apply lookup_insert).
    assert (digs dr) as Ddr. { rewrite Edr in DL. by apply digs_app in DL as [? _]. }
    fold W in Vdr.
    assert (forall st' c' ut', R st' (<[t := Fo 0 ut' c' bt]> σ) X2 -> darr (mem st') (fl F0, Z.of_nat j) L) as HaL2.
    { intros st' c' ut' HR'. rewrite <- LU1, <- (fmap_length (@Some Z) U1).
      eapply (R_carr _ _ _ u FU (Some <$> U1) (Some <$> L) ((Some <$> U3) ++ ru) HR'); [rewrite lookup_insert_ne by congruence; exact Hu|]. unfold FU; cbn [fc]. rewrite EU at 1. by rewrite !fmap_app, <- !app_assoc. }
    assert (forall st' c' ds' (Q' : Z -> state -> Prop), R st' (<[t := Fo 0 (Z.of_nat (length ds')) c' bt]> σ) X2 ->
       view (Fo 0 (Z.of_nat (length ds')) c' bt) ds' -> canon ds' -> digs ds' -> Q' (Z.sgn (val ds' - W)) st' -> wp (s_ucmp t r) Q' st') as Hcmp.
    { intros st' c' ds' Q' HR' V' C' D' HQ'. rewrite <- Vdr in HQ'.
      eapply (wp_s_ucmp t r _ _ _ _ ds' dr); [eapply R_get; [exact HR'|apply lookup_insert]|done|done|by eapply view_darr; [exact HR'|apply lookup_insert|]|done|done|
         eapply R_get_raw; [exact HR'|exact Hr2]|done|done| |done|done|done].
      replace (Z.of_nat (S j) - 1) with (Z.of_nat j) by lia. specialize (HaL2 _ _ _ HR'). rewrite Edr in HaL2. by apply darr_app in HaL2 as [? _]. }
    wb. eapply Hcmp; [exact HR2|exact Vw1|done|done|].
    (* the corrections *)
    wb. apply (wp_mono _ (fun qr st' => qr = qd /\ exists ds' c', R st' (<[t := Fo 0 (Z.of_nat (length ds')) c' bt]> σ) X2 /\
       view (Fo 0 (Z.of_nat (length ds')) c' bt) ds' /\ canon ds' /\ digs ds' /\ val ds' = qd * V /\ (length ds' <= n + 1)%nat /\ length c' = length ct)).
    { assert (forall st' c' (ds' : list Z) qx (Q' : unit -> state -> Prop), R st' (<[t := Fo 0 (Z.of_nat (length ds')) c' bt]> σ) X2 -> length c' = length ct -> 0 <= qx < RADIX ->
         (forall st' (ds' : list Z) c', R st' (<[t := Fo 0 (Z.of_nat (length ds')) c' bt]> σ) X2 -> view (Fo 0 (Z.of_nat (length ds')) c' bt) ds' -> canon ds' -> digs ds' ->
             val ds' = qx * V -> (length ds' <= n + 1)%nat -> length c' = length ct -> Q' tt st') ->
         wp (knuth_mul v t qx (Z.of_nat n)) Q' st') as Hmul.
      { intros st' c' ds' qx Q' HR' Lc' Hqx HQ'.
        eapply (wpR_knuth_mul _ _ _ v t Fv _ lv rvc qx n); [exact HR'|by rewrite lookup_insert_ne|exact Ev|apply lookup_insert|done|done|done|cbn [fc]; lia|lia|done|].
        cbn [fc fl]. rewrite <- HV. intros st'' ds'' c'' ?????? Vw''. rewrite insert_insert in *. eapply HQ'; eauto. lia. }
      destruct (Z.gtb_spec (Z.sgn (val ds1 - W)) 0) as [Hgt|Hle].
      2:{ apply wp_ret. assert (val ds1 <= W) by lia. assert (qh = qd) as -> by (apply Z.le_antisymm; [apply Z.lt_succ_r, (Z.mul_lt_mono_pos_r V); lia|lia]). split; [done|]. exists ds1, c1. split_and!; try done; lia. }
      assert (qd < qh) as Hlt by (apply (Z.mul_lt_mono_pos_r V); lia). rewrite w64_id by mx.
      wb. eapply Hmul; [exact HR2|lia|lia|]. intros st3 ds3 c3 HR3 Vw3 Cd3 Dd3 Vd3 Ld3 Lc3.
      wb. eapply Hcmp; [exact HR3|exact Vw3|done|done|].
      destruct (Z.gtb_spec (Z.sgn (val ds3 - W)) 0) as [Hgt3|Hle3].
      - assert (qd < qh - 1) as Hlt3 by (apply (Z.mul_lt_mono_pos_r V); lia). assert (qh = qd + 2) as -> by lia.
        wb. wb. apply wp_assert; [apply Z.ltb_lt; lia|]. rewrite w64_id by mx.
        wb. eapply Hmul; [exact HR3|lia|lia|]. intros st4 ds4 c4 HR4 Vw4 Cd4 Dd4 Vd4 Ld4 Lc4. apply wp_ret.
        assert (qd + 2 - 1 - 1 = qd) as E by lia. rewrite E in *.
        wb. eapply Hcmp; [exact HR4|exact Vw4|done|done|]. wb. apply wp_assert; [apply Z.leb_le; lia|].
        apply wp_ret. split; [done|]. exists ds4, c4. split_and!; try done; lia.
      - assert (qh - 1 = qd) as E by (apply Z.le_antisymm; [apply Z.lt_succ_r, (Z.mul_lt_mono_pos_r V); lia|lia]). rewrite E in *. wb. apply wp_ret.
        wb. eapply Hcmp; [exact HR3|exact Vw3|done|done|]. wb. apply wp_assert; [apply Z.leb_le; lia|].
        apply wp_ret. split; [done|]. exists ds3, c3. split_and!; try done; lia. }
    intros ? st5 (-> & ds & c5 & HR5 & Vw5 & Cds & Dds & Vds & Lds & Lc5).
    (* subtraction *)
    wb. eapply wp_set_used; [eapply R_get_raw; [exact HR5|exact Hr2]|]. cbn [digits alloc used sign].
    pose proof (R_set_raw _ _ _ r _ (kraw (S j) (Z.of_nat n + 1)) HR5 Hr2) as HR6. unfold kraw in HR6. set (st6 := set_objs st5 _) in *.
    unfold X2 in HR6. rewrite wcr_wcr, craw_wcr, insert_insert in HR6. unfold X1 in HR6. rewrite wcr_wcr, craw_wcr, insert_insert in HR6.
    set (X6 := with_craw X _) in HR6.
    assert (craw X6 !! r = Some (kraw (S j) (Z.of_nat n + 1))) as Hr6 by (unfold X6; rewrite craw_wcr; apply lookup_insert).
    wb. eapply wp_get_digits; [eapply R_get_raw; [exact HR6|exact Hr6]|done|]. replace (Z.of_nat (S j) - 1) with (Z.of_nat j) by lia.
    wb. eapply wpR_digits; [exact HR6|apply lookup_insert|]. wb. eapply wpR_used; [exact HR6|apply lookup_insert|]. cbn [fu fl].
    assert (<[t := Fo 0 (Z.of_nat (length ds)) c5 bt]> σ !! u = Some (Fo (fs F0) (Z.of_nat (m + n + 1)) ((Some <$> U) ++ ru) (fl F0))) as Hu6 by (by rewrite lookup_insert_ne).
    assert (darr (mem st6) (fl F0, Z.of_nat j) L) as HaL6.
    { rewrite <- LU1, <- (fmap_length (@Some Z) U1).
      apply (R_carr _ _ _ u FU (Some <$> U1) (Some <$> L) ((Some <$> U3) ++ ru) HR6 Hu6). unfold FU; cbn [fc]. rewrite EU at 1. by rewrite !fmap_app, <- !app_assoc. }
    wb. eapply (wp_s_usub L ds); [rewrite LL; lia|done|lia|exact HaL6|eapply (view_darr _ _ _ t (Fo 0 (Z.of_nat (length ds)) c5 bt)); [exact HR6|apply lookup_insert|exact Vw5]| |done|done|apply ahead_refl| |fold W; nia|].
    { eapply (R_valid _ _ _ u FU); [exact HR6|exact Hu6|lia|]. unfold FU; cbn [fc]. rewrite app_length, fmap_length. lia. }
    { left. simpl. eapply (R_fl_ne _ _ _ u t _ _ HR6 Hu6 (lookup_insert _ _ _) Hut). }
    intros lc Llc Dlc Vlc. fold W in Vlc. rewrite Vds in Vlc.
    pose proof (R_wrd_at _ _ _ u FU j lc HR6 Hu6) as HR7. unfold FU in HR7. cbn [fs fu fc fl] in HR7.
    assert (j + length lc <= length ((Some <$> U) ++ ru))%nat as Hfit by (rewrite app_length, fmap_length; lia).
    specialize (HR7 Hfit). set (cu := _ ++ _ ++ drop _ _) in HR7. set (U' := U1 ++ lc ++ U3).
    assert (cu = (Some <$> U') ++ ru) as Ecu.
    { unfold cu, U'. rewrite EU at 1 2. rewrite !fmap_app, <- !app_assoc. rewrite take_app_alt by (by rewrite fmap_length, LU1). f_equal. f_equal.
      rewrite !app_assoc, <- fmap_app, <- app_assoc. rewrite drop_app_alt; [done|]. rewrite fmap_length, app_length. lia. }
    assert (digs U') as DU'. { unfold U'. apply digs_app. split; [done|]. apply digs_app. done. }
    assert (length U' = (m + n + 1)%nat) as LU'. { unfold U'. rewrite EU in LU. rewrite !app_length in *. lia. }
    rewrite Ecu in HR7. set (st7 := set_mem st6 _) in HR7 |- *.
    (* store the quotient digit *)
    assert (exists x, cq = take j cq ++ [x]) as [x Ecq].
    { destruct (lookup_lt_is_Some_2 cq j) as [x Hx]; [lia|]. exists x. rewrite <- (take_S_r _ _ _ Hx), take_ge by lia. done. }
    assert (<[u := Fo (fs F0) (Z.of_nat (m + n + 1)) ((Some <$> U') ++ ru) (fl F0)]> (<[t := Fo 0 (Z.of_nat (length ds)) c5 bt]> σ) !! q =
            Some (Fo 0 fuq (cq ++ (Some <$> Qh) ++ rq) bq)) as Hq7 by (by rewrite !lookup_insert_ne).
    wb. eapply wpR_digits; [exact HR7|exact Hq7|]. cbn [fl]. rewrite (u32_id qd) by lia.
    wb. eapply wp_store.
    { eapply (R_load _ _ _ q _ j x HR7 Hq7). cbn [fc]. rewrite Ecq, <- app_assoc. rewrite lookup_app_r by (rewrite take_length; lia).
      rewrite take_length, Nat.min_l by lia. by rewrite Nat.sub_diag. }
    rewrite <- wr_1. change [Some qd] with (Some <$> [qd]). change ((bq, 0) +p Z.of_nat j) with (bq, Z.of_nat j).
    pose proof (R_wrd_at _ _ _ q _ j [qd] HR7 Hq7) as HR8. cbn [fs fu fc fl] in HR8.
    assert (j + length [qd] <= length (cq ++ (Some <$> Qh) ++ rq))%nat as Hfit8 by (rewrite app_length; cbn [length]; lia).
    specialize (HR8 Hfit8). set (cq8 := _ ++ _ ++ drop _ _) in HR8.
    assert (cq8 = take j cq ++ (Some <$> (qd :: Qh)) ++ rq) as Ecq8.
    { unfold cq8. rewrite take_app_le by lia. f_equal. cbn [length]. rewrite drop_app_alt by lia. done. }
    rewrite Ecq8 in HR8.
    (* the next window *)
    wb. eapply wp_set_digits; [eapply R_get_raw; [exact HR8|exact Hr6]|]. cbn [digits alloc used sign kraw].
    pose proof (R_set_raw _ _ _ r _ (kraw j (Z.of_nat n + 1)) HR8 Hr6) as HR9.
    replace (Some (fl F0, Z.of_nat j - 1)) with (Some ((fl F0, Z.of_nat j) +p -1)) in HR9 by (unfold padd; simpl; do 2 f_equal; lia).
    unfold kraw in HR9. replace (Some (fl F0, Z.of_nat j - 1)) with (Some ((fl F0, Z.of_nat j) +p -1)) in HR9 by (unfold padd; simpl; do 2 f_equal; lia).
    set (st9 := set_objs _ _) in HR9 |- *. unfold X6 in HR9. rewrite wcr_wcr, craw_wcr, insert_insert in HR9.
    set (σ9 := <[q := _]> _) in HR9.
    assert (σ9 !! t = Some (Fo 0 (Z.of_nat (length ds)) c5 bt)) as Ht9.
    { unfold σ9. rewrite !lookup_insert_ne by done. apply lookup_insert. }
    wb. eapply wpR_digits; [exact HR9|exact Ht9|]. wb. eapply wpR_alloc; [exact HR9|exact Ht9|]. cbn [fc fl].
    eapply (wp_ZERO _ (length c5)); [done|eapply (R_valid _ _ _ t _ 0 _ HR9 Ht9); [lia|simpl; lia]|].
    pose proof (R_wr0 _ _ _ t _ (replicate (length c5) 0) HR9 Ht9) as HR10. cbn [fs fu fc fl] in HR10.
    rewrite replicate_length in HR10. specialize (HR10 ltac:(lia)). set (c10 := _ ++ drop _ _) in HR10.
    assert (length c10 = length c5) as Lc10. { unfold c10. rewrite app_length, fmap_length, replicate_length, drop_length. lia. }
    apply HQ. exists (<[t := Fo 0 (Z.of_nat (length ds)) c10 bt]> σ9), U', ru, (qd :: Qh), (take j cq), rq, fuq, (Z.of_nat (length ds)), c10.
    split_and!.
    - replace (Some ((fl F0, Z.of_nat j) +p -1)) with (Some (fl F0, Z.of_nat j - 1)) in HR10 by (unfold padd; simpl; do 2 f_equal; lia). exact HR10.
    - intros o H1 H2 H3. rewrite lookup_insert_ne by done. unfold σ9. rewrite !lookup_insert_ne by done. by apply Hout.
    - rewrite lookup_insert_ne by done. unfold σ9. rewrite lookup_insert_ne by done. apply lookup_insert.
    - done.
    - done.
    - intros s k. rewrite <- Ecu. eapply (keeps_trans _ (Fo s k ((Some <$> U) ++ ru) (fl F0))); [apply KU|].
      unfold cu. apply (keeps_at (Fo s k ((Some <$> U) ++ ru) (fl F0))); done.
    - rewrite lookup_insert_ne by done. unfold σ9. apply lookup_insert.
    - rewrite take_length. lia.
    - cbn [length]. lia.
    - constructor; [unfold dig; lia|done].
    - apply lookup_insert.
    - lia.
    - assert (drop j U' = lc ++ U3) as ->. { unfold U'. by rewrite drop_app_alt. }
      rewrite val_app, VU3. nia.
    - rewrite Hrel. cbn [val]. rewrite Bn_S. unfold U'. rewrite EU, !val_app, LU1, Llc, LL, VU3, Vlc. fold W. ring.
  Qed.
End knuth.

(** Copying, for operands that need not be canonical. *)
Lemma wpR_copy st σ X a c fa f la (Q : Z -> state -> Prop) :
  R st σ X -> a <> c -> σ !! a = Some fa -> view fa la -> (1 <= length la)%nat -> σ !! c = Some f -> owned f -> (exists d, fc f !! 0%nat = Some (Some d)) ->
  (forall st' F, R st' (<[c := F]> σ) X -> view F la -> fs F = fs fa -> owned F -> keeps f F -> Q MP_OK st') ->
  wp (mp_int_copy a c) Q st.
Proof.
  intros HR Hac Hfa Va La1 Hfc Hown Hd HQ. unfold mp_int_copy. rewrite bool_decide_eq_false_2 by congruence.
  pose proof (view_len _ _ Va) as La2. pose proof (R_len _ _ _ HR _ _ Hfa) as La3.
  wb. eapply wpR_used; [done..|]. rewrite (v_u _ _ Va).
  wb. eapply wpR_pad; [done..| |]. { mx. }
  intros st1 k b HO1 HlF _ HR1. set (F := Fo _ _ _ _) in *. simpl.
  assert (length (fc F) = (length (fc f) + k)%nat) as LF by (unfold F; cbn [fc]; rewrite app_length, replicate_length; lia).
  assert (<[c := F]> σ !! a = Some fa) as Hfa1 by (by rewrite lookup_insert_ne).
  wb. eapply wpR_digits; [done..|]. wb. eapply wpR_digits; [exact HR1|apply lookup_insert|].
  wb. eapply (wp_COPY_d la).
  { done. }
  { eapply view_darr; [done..|]. apply Va. }
  { eapply R_valid; [exact HR1|apply lookup_insert|done|]. simpl Z.to_nat. lia. }
  { left. cbn [fst]. eapply (R_fl_ne _ _ _ a c fa F); [exact HR1|done|apply lookup_insert|done]. }
  pose proof (R_wr0 _ _ _ c F la HR1 (lookup_insert _ _ _) ltac:(lia)) as HR2. rewrite insert_insert in HR2.
  wb. eapply wpR_set_used; [exact HR2|apply lookup_insert|]. cbn [fs fu fc fl]. intros st3 HR3. rewrite insert_insert in HR3.
  wb. eapply wpR_sign; [exact HR3|rewrite lookup_insert_ne by done; done|].
  wb. eapply wpR_set_sign; [exact HR3|apply lookup_insert|]. cbn [fs fu fc fl]. intros st4 HR4. rewrite insert_insert in HR4.
  apply wp_ret. eapply HQ; [exact HR4| |done|done|].
  - constructor; cbn [fs fu fc fl]; [done|by eexists|apply Va].
  - eapply keeps_trans; [apply keeps_pad; [done|exact HO1]|]. eapply (keeps_wr0 F); [apply Va|lia].
Qed.

(** Extending a magnitude by a zero digit above it. *)
Lemma wpR_topzero {A} st σ X o f l (n n' : Z) (k k' : prog A) (Q : A -> state -> Prop) :
  R st σ X -> σ !! o = Some f -> view f l -> (1 <= length l)%nat -> owned f -> n' = Z.of_nat (length l) -> n = n' + 1 ->
  (forall st' F r, R st' (<[o := F]> σ) X -> fs F = fs f -> fu F = fu f -> fc F = (Some <$> (l ++ [0])) ++ r -> owned F -> keeps f F -> wp k' Q st') ->
  wp (ok <- s_pad o n; if negb ok then k else d <- get_digits o; Store (d +p n') 0;; k')%prog Q st.
Proof.
  intros HR Ho V L1 Own -> -> HQ. pose proof (view_len _ _ V) as L2. pose proof (R_len _ _ _ HR _ _ Ho) as L3.
  destruct (v_c _ _ V) as [r0 Er]. pose proof (v_d _ _ V) as Dl.
  wb. eapply wpR_pad; [done..| |mx|].
  { rewrite Er. destruct l as [|d l]; [simpl in L1; lia|]. by exists d. }
  intros st1 j b HO1 Hl1 _ HR1. set (F := Fo _ _ _ _) in *. cbn [negb].
  assert (fc F = (Some <$> l) ++ r0 ++ replicate j None) as EF by (unfold F; cbn [fc]; rewrite Er, app_assoc; done).
  assert (length (fc F) = (length (fc f) + j)%nat) as LF by (unfold F; cbn [fc]; rewrite app_length, replicate_length; lia).
  wb. eapply wpR_digits; [exact HR1|apply lookup_insert|].
  destruct (lookup_lt_is_Some_2 (fc F) (length l)) as [c Hc]; [lia|].
  wb. eapply wp_store; [by eapply R_load; [exact HR1|apply lookup_insert|]|]. rewrite <- wr_1. change [Some 0] with (Some <$> [0]).
  assert (length l + length [0] <= length (fc F))%nat as LF1 by (cbn [length]; lia).
  pose proof (R_wrd_at _ _ _ o F (length l) [0] HR1 (lookup_insert _ _ _) LF1) as HR2. rewrite insert_insert in HR2.
  eapply HQ; [exact HR2|done|done| |done|].
  - cbn [fc]. rewrite EF. rewrite take_app_alt by (by rewrite fmap_length). rewrite fmap_app, <- app_assoc. f_equal.
  - eapply keeps_trans; [apply keeps_pad; [done|exact HO1]|]. eapply (keeps_at F); [constructor; [apply dig_0|done]|done].
Qed.

Lemma wp_knuth_loop σ0 X u v q t r n m au V U0 F0 Fv lv rvc bq bt cnt (Q : unit -> state -> Prop) st :
  u <> v -> u <> q -> u <> t -> v <> q -> v <> t -> q <> t ->
  σ0 !! v = Some Fv -> fc Fv = (Some <$> (lv ++ [0])) ++ rvc -> digs lv -> length lv = n -> (2 <= n)%nat -> V = val lv -> 2 ^ 31 * Bn (n - 1) <= V ->
  KI σ0 X u q t r n m au V U0 F0 bq bt st cnt -> (cnt <= m + 1)%nat ->
  (forall st', KI σ0 X u q t r n m au V U0 F0 bq bt st' 0 -> Q tt st') ->
  wp (knuth_loop cnt v q t r (Z.of_nat n)) Q st.
Proof.
  intros ?????? H1 H2 H3 H4 H5 H6 H7. revert st. induction cnt as [|j IH]; intros st HK Hc HQ.
  - apply wp_ret. by apply HQ.
  - change (knuth_loop (S j) v q t r (Z.of_nat n)) with (knuth_step v q t r (Z.of_nat n) (Z.of_nat j);; knuth_loop j v q t r (Z.of_nat n))%prog.
    wb. eapply wp_knuth_step; [..|exact HK| |]; try eassumption; [lia|]. intros st' HK'. apply IH; [done|lia|done].
Qed.
