(** Rules for the functions on single digits, for shifts and for powers of two. *)
From Coq Require Import ZArith List Lia.
From stdpp Require Import gmap list.
From Verif Require Import Mem Prog Kern Imath Wp MemLem Dig KernLem KernMul KernKar KernDig Rel RelWp RelZ Life Basic Basic2 Mult.
Local Open Scope Z_scope.

(** ** Number of digits of a magnitude *)
Definition ndig (m : Z) : nat := if m <=? 0 then 1 else S (Z.to_nat (Z.log2 m / 32)).
Lemma ndig_le m n : 0 <= m < Bn n -> (1 <= n)%nat -> (ndig m <= n)%nat.
Proof.
  intros Hm Hn. unfold ndig. destruct (Z.leb_spec m 0); [lia|].
  assert (Z.log2 m < 32 * Z.of_nat n) by (apply Z.log2_lt_pow2; [lia|]; rewrite <- Bn_pow2; lia).
  assert (Z.log2 m / 32 < Z.of_nat n) by (apply Z.div_lt_upper_bound; lia).
  pose proof (Z.log2_nonneg m). assert (0 <= Z.log2 m / 32) by (apply Z.div_pos; lia). lia.
Qed.
Lemma ndig_bound m : 0 <= m -> m < Bn (ndig m).
Proof.
  intros Hm. unfold ndig. destruct (Z.leb_spec m 0); [pose proof (Bn_pos 1); lia|].
  rewrite Bn_pow2. apply Z.log2_lt_pow2; [lia|]. pose proof (Z.log2_nonneg m).
  pose proof (Z.div_mod (Z.log2 m) 32 ltac:(lia)). pose proof (Z.mod_pos_bound (Z.log2 m) 32 ltac:(lia)).
  assert (0 <= Z.log2 m / 32) by (apply Z.div_pos; lia). lia.
Qed.
Lemma ndig_pos m : (1 <= ndig m)%nat.
Proof. unfold ndig. destruct (m <=? 0); lia. Qed.
Lemma canon_ndig l : digs l -> canon l -> length l = ndig (val l).
Proof.
  intros Hd Hc. pose proof (val_bounds l Hd) as Hb. pose proof (ndig_bound (val l) ltac:(lia)) as H1.
  pose proof (ndig_pos (val l)). pose proof (canon_len l (ndig (val l)) Hc H1).
  pose proof (ndig_le (val l) (length l) Hb (proj1 Hc)). lia.
Qed.
Lemma ndig_mono m m' : 0 <= m <= m' -> (ndig m <= ndig m')%nat.
Proof. intros. apply ndig_le; [|apply ndig_pos]. pose proof (ndig_bound m' ltac:(lia)). lia. Qed.

Lemma goodw_ndig f z ds : goodw f z ds -> length ds = ndig (zm z).
Proof. intros G. rewrite <- (g_val _ _ _ G). apply canon_ndig; apply G. Qed.

(** ** Writing into an array of an object *)
Lemma R_wrd_at st σ X o f off l : R st σ X -> σ !! o = Some f -> (off + length l <= length (fc f))%nat ->
  R (set_mem st (wrd (mem st) (fl f, Z.of_nat off) l))
    (<[o := Fo (fs f) (fu f) (take off (fc f) ++ (Some <$> l) ++ drop (off + length l) (fc f)) (fl f)]> σ) X.
Proof.
  intros HR Ho Hl. pose proof (R_writed _ _ _ o f (Z.of_nat off) l HR Ho) as H. rewrite Nat2Z.id in H.
  replace (list_inserts off (Some <$> l) (fc f)) with (take off (fc f) ++ (Some <$> l) ++ drop (off + length l) (fc f)) in H; [done|].
  apply list_eq. intros j. rewrite inserts_lookup, fmap_length. destruct (decide _) as [[H1 H2]|Hn].
  - rewrite lookup_app_r by (rewrite take_length; lia). rewrite take_length, Nat.min_l by lia.
    rewrite lookup_app_l by (rewrite fmap_length; lia). done.
  - destruct (decide (j < off)%nat).
    + rewrite lookup_app_l by (rewrite take_length; lia). by rewrite lookup_take.
    + rewrite lookup_app_r by (rewrite take_length; lia). rewrite take_length, Nat.min_l by lia.
      destruct (decide (j < off + length l)%nat); [|].
      * assert (length (fc f) <= j)%nat by lia. lia.
      * rewrite lookup_app_r by (rewrite fmap_length; lia). rewrite fmap_length, lookup_drop. f_equal. lia.
Qed.

(** ** Division by a digit *)
Lemma wpR_ddiv st σ X o f l b (Q : Z -> state -> Prop) :
  R st σ X -> σ !! o = Some f -> view f l -> canon l -> 0 < b < RADIX ->
  (forall st' ds cells, canon ds -> val ds = val l / b ->
     R st' (<[o := Fo (fs f) (Z.of_nat (length ds)) cells (fl f)]> σ) X ->
     view (Fo (fs f) (Z.of_nat (length ds)) cells (fl f)) ds ->
     (forall s u, keeps f (Fo s u cells (fl f))) -> Q (val l mod b) st') ->
  wp (s_ddiv o b) Q st.
Proof.
  intros HR Ho V Hc Hb HQ. pose proof (view_len _ _ V) as Hlen. unfold s_ddiv.
  wb. eapply wpR_used; [done..|]. wb. eapply wpR_digits; [done..|]. rewrite (v_u _ _ V), Nat2Z.id.
  wb. apply wp_ddiv_loop; [by eapply view_darr|apply V|done|lia|].
  rewrite Z.mul_0_l, Z.add_0_l. intros lc Llc Dlc Vlc.
  pose proof (R_wr0 _ _ _ o f lc HR Ho ltac:(lia)) as HR1. set (cells := _ ++ _) in HR1.
  wb. eapply (wpR_CLAMP _ _ _ o _ lc); [exact HR1|apply lookup_insert| |destruct Hc; lia|].
  { constructor; cbn [fu fc]; [rewrite (v_u _ _ V); lia|by eexists|done]. }
  intros st2 ds n Hcd Hdd Hvd _ HR2 V2. cbn [fs fu fc fl] in *. rewrite insert_insert in HR2.
  apply wp_ret. pose proof (Z.mod_pos_bound (val l) b ltac:(lia)). rewrite u32_id by lia.
  eapply HQ; [exact Hcd|lia|exact HR2|done|]. intros. apply keeps_wr0; [done|lia].
Qed.
Lemma wpZ_ddiv st ζ X o z b (Q : Z -> state -> Prop) :
  RZ st ζ X -> ζ !! o = Some z -> 0 < b < RADIX ->
  (forall st', RZ st' (<[o := zput z (zs z) (zm z / b)]> ζ) X -> Q (zm z mod b) st') ->
  wp (s_ddiv o b) Q st.
Proof.
  intros (σ & HR & Hz) Ho Hb HQ. destruct (relz_get _ _ _ _ Hz Ho) as (f & l & Hf & G).
  eapply wpR_ddiv; [done|done|apply G|apply G|done|]. rewrite (g_val _ _ _ G).
  intros st' ds cells Cds Vds HR' V' K. apply HQ. eapply RZ_upd; [done..|].
  eapply (good_intro f z _ ds); [by eexists|apply K|done|done|done|apply G|apply G].
Qed.

(** ** Multiplication by a digit and addition of a digit *)
Lemma canon_bump (l : list Z) (w : Z) : digs l -> dig w -> w <> 0 -> canon (l ++ [w]).
Proof. intros. by apply canon_snoc. Qed.
Lemma wpR_bump st σ X o f l w m (Q : unit -> state -> Prop) :
  R st σ X -> σ !! o = Some f -> view f l -> (1 <= length l)%nat -> 0 <= w < RADIX -> m < Bn (length (fc f)) ->
  val l + Bn (length l) * w = m -> ((1 < length l)%nat -> Bn (length l - 1) <= m) -> Z.of_nat (length l) < RADIX - 1 ->
  (forall st' ds cells, canon ds -> val ds = m -> (length ds <= S (length l))%nat ->
     R st' (<[o := Fo (fs f) (Z.of_nat (length ds)) cells (fl f)]> σ) X ->
     view (Fo (fs f) (Z.of_nat (length ds)) cells (fl f)) ds ->
     (forall s u, keeps f (Fo s u cells (fl f))) -> Q tt st') ->
  wp (bump_used o ((fl f, 0) +p Z.of_nat (length l)) w) Q st.
Proof.
  intros HR Ho V Hl Hw HM Hm Hb Hr HQ. unfold bump_used. destruct (Z.eqb_spec w 0) as [->|Hw0].
  - apply wp_ret. rewrite Z.mul_0_r, Z.add_0_r in Hm. destruct f as [s u cells b]. cbn [fs fu fc fl] in *.
    pose proof (v_u _ _ V) as Hu. cbn [fu] in Hu. subst u.
    eapply (HQ st l cells); [split; [lia|by rewrite Hm]|done|lia|by rewrite insert_id|done|].
    intros. constructor; eauto.
  - assert (length l < length (fc f))%nat as Hll.
    { destruct (Nat.lt_ge_cases (length l) (length (fc f))) as [|Hge]; [done|]. pose proof (Bn_le _ _ Hge).
      pose proof (val_bounds l (v_d _ _ V)). pose proof (Bn_pos (length l)). nia. }
    rewrite u32_id by done. destruct (lookup_lt_is_Some_2 (fc f) (length l)) as [c Hc]; [lia|].
    wb. eapply wp_store.
    { rewrite (load_blk _ _ (fc f)); [|by eapply R_mem|cbn [fst snd padd]; lia]. cbn [fst snd padd]. rewrite Z.add_0_l, Nat2Z.id. exact Hc. }
    rewrite <- wr_1. change [Some w] with (Some <$> [w]). fold (wrd (mem st) ((fl f, 0) +p Z.of_nat (length l)) [w]).
    change ((fl f, 0) +p Z.of_nat (length l)) with (fl f, Z.of_nat (length l)).
    pose proof (R_wrd_at _ _ _ o f (length l) [w] HR Ho ltac:(simpl; lia)) as HR1.
    destruct (v_c _ _ V) as [r Hr']. set (cells := _ ++ _ ++ _) in HR1.
    assert (cells = (Some <$> (l ++ [w])) ++ drop 1 r) as Hcells.
    { unfold cells. rewrite Hr', fmap_app, <- app_assoc. rewrite take_app_alt by (by rewrite fmap_length). f_equal. f_equal.
      rewrite drop_app_ge by (rewrite fmap_length; lia). rewrite fmap_length. f_equal. simpl. lia. }
    wb. eapply wpR_used; [exact HR1|apply lookup_insert|]. cbn [fu]. rewrite (v_u _ _ V), u32_id by lia.
    replace (Z.of_nat (length l) + 1) with (Z.of_nat (length (l ++ [w]))) by (rewrite app_length; simpl; lia).
    eapply wpR_set_used; [exact HR1|apply lookup_insert|]. intros st2 HR2. rewrite insert_insert in HR2. cbn [fs fu fc fl] in HR2.
    assert (digs (l ++ [w])) as Dlw by (apply digs_app; split; [apply V|by constructor]).
    eapply (HQ st2 (l ++ [w]) cells); [apply canon_snoc; [apply V|done|done]|by rewrite val_snoc|rewrite app_length; simpl; lia|done| |].
    + constructor; cbn [fu fc]; [done|by exists (drop 1 r)|done].
    + intros s u. assert (cells = list_inserts (length l) (Some <$> [w]) (fc f)) as ->.
      { rewrite Hcells, Hr'. apply list_eq. intros j. rewrite inserts_lookup. cbn [length fmap list_fmap].
        rewrite fmap_app, <- app_assoc. destruct (decide _) as [[H1 H2]|Hn].
        - rewrite lookup_app_r by (rewrite fmap_length; lia). rewrite fmap_length. by assert (j - length l = 0)%nat as -> by lia.
        - destruct (decide (j < length l)%nat).
          + by rewrite !lookup_app_l by (rewrite fmap_length; lia).
          + rewrite !lookup_app_r by (rewrite fmap_length; lia). rewrite fmap_length.
            destruct (decide (j = length l)) as [->|].
            * exfalso. apply Hn. rewrite <- Hr'. lia.
            * rewrite lookup_app_r by (simpl; lia). cbn [length fmap list_fmap]. rewrite lookup_drop. rewrite lookup_app_r by (rewrite fmap_length; lia). rewrite fmap_length. f_equal. lia. }
      apply keeps_ins. by constructor.
Qed.
Lemma wpR_dmul st σ X o f l b (Q : unit -> state -> Prop) :
  R st σ X -> σ !! o = Some f -> view f l -> canon l -> val l * b < Bn (length (fc f)) -> 0 < b < RADIX ->
  (forall st' ds cells, canon ds -> val ds = val l * b -> (length ds <= S (length l))%nat ->
     R st' (<[o := Fo (fs f) (Z.of_nat (length ds)) cells (fl f)]> σ) X ->
     view (Fo (fs f) (Z.of_nat (length ds)) cells (fl f)) ds ->
     (forall s u, keeps f (Fo s u cells (fl f))) -> Q tt st') ->
  wp (s_dmul o b) Q st.
Proof.
  intros HR Ho V Hc Hlen Hb HQ. pose proof (view_len _ _ V) as Hvl. pose proof (R_len _ _ _ HR _ _ Ho) as Hrl. pose proof (val_bounds l (v_d _ _ V)) as Hvb. unfold s_dmul.
  wb. eapply wpR_digits; [done..|]. wb. eapply wpR_used; [done..|]. rewrite (v_u _ _ V), Nat2Z.id.
  wb. eapply wp_dmul_loop; [by eapply view_darr|apply V|unfold dig; lia|lia|].
  intros lc w' Llc Dlc Hw' E. cbn [fst snd].
  pose proof (R_wr0 _ _ _ o f lc HR Ho ltac:(lia)) as HR1. set (cells := _ ++ _) in HR1. rewrite <- Llc.
  assert (length cells = length (fc f)) as Lc. { unfold cells. rewrite app_length, fmap_length, drop_length. lia. }
  change (fl f) with (fl (Fo (fs f) (fu f) cells (fl f))).
  eapply (wpR_bump _ _ _ o (Fo (fs f) (fu f) cells (fl f)) lc w' (val l * b)); [exact HR1|apply lookup_insert| |destruct Hc; lia|done|cbn [fc]; rewrite Lc; lia|rewrite Llc; lia| |mx|].
  { constructor; cbn [fu fc]; [rewrite (v_u _ _ V); lia|by eexists|done]. }
  { rewrite Llc. intros H1. pose proof (proj2 Hc H1). nia. }
  intros st' ds cells' Hcd Hvd Hld HR' V' K'. cbn [fs fu fc fl] in *. rewrite insert_insert in HR'.
  eapply HQ; [exact Hcd|done|lia|exact HR'|done|].
  intros s u. eapply keeps_trans; [|apply K']. apply keeps_wr0; [done|lia].
Qed.
Lemma wpR_dadd st σ X o f l b (Q : unit -> state -> Prop) :
  R st σ X -> σ !! o = Some f -> view f l -> canon l -> val l + b < Bn (length (fc f)) -> 0 <= b < RADIX ->
  (forall st' ds cells, canon ds -> val ds = val l + b -> (length ds <= S (length l))%nat ->
     R st' (<[o := Fo (fs f) (Z.of_nat (length ds)) cells (fl f)]> σ) X ->
     view (Fo (fs f) (Z.of_nat (length ds)) cells (fl f)) ds ->
     (forall s u, keeps f (Fo s u cells (fl f))) -> Q tt st') ->
  wp (s_dadd o b) Q st.
Proof.
  intros HR Ho V Hc Hlen Hb HQ. pose proof (view_len _ _ V) as Hvl. pose proof (R_len _ _ _ HR _ _ Ho) as Hrl. pose proof (val_bounds l (v_d _ _ V)) as Hvb. unfold s_dadd.
  wb. eapply wpR_digits; [done..|]. wb. eapply wpR_used; [done..|]. rewrite (v_u _ _ V).
  pose proof (view_darr _ _ _ _ _ _ HR Ho V) as Ha. pose proof (v_d _ _ V) as Dl.
  destruct l as [|d l']; [destruct Hc; simpl in *; lia|]. apply darr_cons in Ha as [Ha1 Ha2]. apply Forall_cons in Dl as [Dd Dl'].
  wb. eapply wp_load; [exact Ha1|]. unfold dig in Dd. rewrite w64_id by (rewrite RADIX_val in *; lia). set (x := d + b).
  pose proof (halves x) as Hx. pose proof (lower_dig x) as Hlo.
  assert (0 <= UPPER_HALF x < RADIX) as Hup. { apply upper_bound. unfold x. rewrite RADIX_val in *. lia. }
  wb. eapply wp_store; [exact Ha1|].
  replace (Z.to_nat (Z.of_nat (length (d :: l')) - 1)) with (length l') by (simpl; lia).
  wb. eapply wp_dadd_loop; [apply store_disj; [by eapply load_0le| |exact Ha2]; right; left; simpl; lia|done|done|].
  intros lc w' Llc Dlc Hw' E. cbn [fst snd]. rewrite mem_set_mem, set_mem_set_mem, wrd_cons by done.
  set (ln := LOWER_HALF x :: lc). assert (digs ln) as Dln by (by constructor).
  assert (length ln = length (d :: l')) as Lln by (simpl; lia).
  pose proof (R_wr0 _ _ _ o f ln HR Ho ltac:(lia)) as HR1. set (cells := _ ++ _) in HR1.
  assert (length cells = length (fc f)) as Lc. { unfold cells. rewrite app_length, fmap_length, drop_length. lia. }
  rewrite padd_padd. replace (1 + Z.of_nat (length l')) with (Z.of_nat (length ln)) by (rewrite Lln; simpl; lia).
  change (fl f) with (fl (Fo (fs f) (fu f) cells (fl f))).
  eapply (wpR_bump _ _ _ o (Fo (fs f) (fu f) cells (fl f)) ln w' (val (d :: l') + b)); [exact HR1|apply lookup_insert| |destruct Hc; lia|done|cbn [fc]; rewrite Lc; lia| | |mx|].
  { constructor; cbn [fu fc]; [rewrite (v_u _ _ V); lia|by eexists|done]. }
  { rewrite Lln. cbn [length]. rewrite Bn_S. unfold ln. cbn [val]. unfold x in *. nia. }
  { rewrite Lln. intros H1. pose proof (proj2 Hc H1). lia. }
  intros st' ds cells' Hcd Hvd Hld HR' V' K'. cbn [fs fu fc fl] in *. rewrite insert_insert in HR'.
  eapply HQ; [exact Hcd|done|lia|exact HR'|done|].
  intros s u. eapply keeps_trans; [|apply K']. apply keeps_wr0; [done|lia].
Qed.

(** ** Right shift *)
Definition z0sgn (m s : Z) : Z := if m =? 0 then 0 else s.
Lemma val_split l k : (k <= length l)%nat -> val l = val (take k l) + Bn k * val (drop k l).
Proof. intros. rewrite <- (take_drop k l) at 1. rewrite val_app, take_length, Nat.min_l by done. done. Qed.
Lemma val_drop l k : digs l -> (k <= length l)%nat -> val (drop k l) = val l / Bn k.
Proof.
  intros Hd Hk. pose proof (val_split l k Hk) as E. pose proof (Bn_pos k).
  pose proof (val_bounds (take k l) (Forall_take _ _ _ Hd)) as Hb. rewrite take_length, Nat.min_l in Hb by done.
  apply (Z.div_unique _ _ _ (val (take k l))); lia.
Qed.
Lemma val_take l k : digs l -> (k <= length l)%nat -> val (take k l) = val l mod Bn k.
Proof.
  intros Hd Hk. pose proof (val_split l k Hk) as E. pose proof (Bn_pos k).
  pose proof (val_bounds (take k l) (Forall_take _ _ _ Hd)) as Hb. rewrite take_length, Nat.min_l in Hb by done.
  apply (Z.mod_unique _ _ (val (drop k l))); lia.
Qed.
Lemma canon_drop l k : digs l -> canon l -> (k < length l)%nat -> canon (drop k l).
Proof.
  intros Hd [H1 H2] Hk. split; rewrite drop_length; [lia|]. intros H3. specialize (H2 ltac:(lia)).
  rewrite val_drop by (done || lia). apply Z.div_le_lower_bound; [apply Bn_pos|]. rewrite <- Bn_add.
  by replace (k + (length l - k - 1))%nat with (length l - 1)%nat by lia.
Qed.
Lemma wpR_fix_zero_sign st σ X o f l (Q : unit -> state -> Prop) :
  R st σ X -> σ !! o = Some f -> view f l -> canon l ->
  (forall st', R st' (<[o := Fo (z0sgn (val l) (fs f)) (fu f) (fc f) (fl f)]> σ) X -> Q tt st') ->
  wp (fix_zero_sign o) Q st.
Proof.
  intros HR Ho V Hc HQ. unfold fix_zero_sign. wb. eapply wpR_used; [done..|]. rewrite (v_u _ _ V).
  assert (val l <> 0 -> R st (<[o := Fo (z0sgn (val l) (fs f)) (fu f) (fc f) (fl f)]> σ) X) as Hid.
  { intros Hn. unfold z0sgn. destruct (Z.eqb_spec (val l) 0); [done|]. rewrite insert_id; [done|]. by destruct f. }
  destruct (Z.eqb_spec (Z.of_nat (length l)) 1) as [E|E].
  - wb. eapply wpR_digits; [done..|]. wb. eapply wpR_load0; [done..|]. intros d ds' -> Dd.
    destruct ds' as [|]; [|simpl in E; lia]. simpl val in *. rewrite Z.mul_0_r, Z.add_0_r in *.
    destruct (Z.eqb_spec d 0) as [->|Hd].
    + eapply wpR_set_sign; [done..|]. intros st' HR'. by apply HQ.
    + apply wp_ret, HQ, Hid. done.
  - apply wp_ret, HQ, Hid. intros H0. apply canon_val_0 in H0; [|apply V|done]. subst. by simpl in E.
Qed.
Lemma wpR_qdiv_bits st σ X o f l n (Q : unit -> state -> Prop) :
  R st σ X -> σ !! o = Some f -> view f l -> canon l -> 0 <= n < 32 ->
  (forall st' ds cells, canon ds -> val ds = val l / 2 ^ n ->
     R st' (<[o := Fo (z0sgn (val ds) (fs f)) (Z.of_nat (length ds)) cells (fl f)]> σ) X ->
     view (Fo (z0sgn (val ds) (fs f)) (Z.of_nat (length ds)) cells (fl f)) ds ->
     (forall s u, keeps f (Fo s u cells (fl f))) -> Q tt st') ->
  wp (s_qdiv_bits o n) Q st.
Proof.
  intros HR Ho V Hc Hn HQ. pose proof (view_len _ _ V) as Hlen. unfold s_qdiv_bits.
  destruct (Z.eqb_spec n 0) as [->|Hn0].
  - wb. apply wp_ret. eapply wpR_fix_zero_sign; [done..|]. intros st' HR'.
    eapply (HQ st' l (fc f)); [done|by rewrite Z.div_1_r|by rewrite <- (v_u _ _ V)| |].
    + constructor; [done|apply V|apply V].
    + intros. apply keeps_same.
  - wb. wb. eapply wpR_used; [done..|]. wb. eapply wpR_digits; [done..|]. rewrite (v_u _ _ V), Nat2Z.id.
    wb. apply wp_shr_loop; [by eapply view_darr|apply V|lia|apply dig_0|].
    rewrite Z.mod_0_l, Z.mul_0_l, Z.add_0_l by (apply Z.pow_nonzero; lia). intros lc Llc Dlc Vlc.
    pose proof (R_wr0 _ _ _ o f lc HR Ho ltac:(lia)) as HR1. set (cells := _ ++ _) in HR1.
    eapply (wpR_CLAMP _ _ _ o _ lc); [exact HR1|apply lookup_insert| |destruct Hc; lia|].
    { constructor; cbn [fu fc]; [rewrite (v_u _ _ V); lia|by eexists|done]. }
    intros st2 ds k Hcd Hdd Hvd _ HR2 V2. cbn [fs fu fc fl] in *. rewrite insert_insert in HR2.
    eapply wpR_fix_zero_sign; [exact HR2|apply lookup_insert|done|done|]. cbn [fs fu fc fl]. rewrite insert_insert.
    intros st3 HR3. eapply HQ; [exact Hcd|lia|exact HR3| |].
    + constructor; [done|apply V2|apply V2].
    + intros. apply keeps_wr0; [done|lia].
Qed.
Lemma pow_split p2 : 0 <= p2 -> 2 ^ p2 = Bn (Z.to_nat (p2 / 32)) * 2 ^ (p2 mod 32).
Proof.
  intros. rewrite Bn_pow2, Z2Nat.id by (apply Z.div_pos; lia). rewrite <- Z.pow_add_r.
  - f_equal. apply Z.div_mod. lia.
  - pose proof (Z.div_pos p2 32). lia.
  - apply Z.mod_pos_bound. lia.
Qed.
Lemma wpR_zero_k st σ X o f l (Q : unit -> state -> Prop) :
  R st σ X -> σ !! o = Some f -> view f l -> canon l ->
  (forall st' cells, R st' (<[o := Fo 0 1 cells (fl f)]> σ) X -> view (Fo 0 1 cells (fl f)) [0] ->
     (forall s u, keeps f (Fo s u cells (fl f))) -> Q tt st') -> wp (mp_int_zero o) Q st.
Proof.
  intros HR Ho V Hc HQ. pose proof (view_len _ _ V) as Hlen. destruct Hc as [Hc _]. eapply wpR_zero; [done|done|].
  intros st' HR'. eapply (HQ st' _); [exact HR'| |].
  - constructor; cbn [fu fc]; [done|by eexists|apply Forall_singleton, dig_0].
  - intros. apply (keeps_wr0 f s u [0]); [apply Forall_singleton, dig_0|simpl; lia].
Qed.
Lemma keeps_at f s u off l : digs l -> (off + length l <= length (fc f))%nat ->
  keeps f (Fo s u (take off (fc f) ++ (Some <$> l) ++ drop (off + length l) (fc f)) (fl f)).
Proof.
  intros Hd Hl. pose proof (keeps_ins f s u off l Hd) as K.
  replace (list_inserts off (Some <$> l) (fc f)) with (take off (fc f) ++ (Some <$> l) ++ drop (off + length l) (fc f)) in K; [done|].
  apply list_eq. intros j. rewrite inserts_lookup, fmap_length. destruct (decide _) as [[H1 H2]|Hn].
  - rewrite lookup_app_r by (rewrite take_length; lia). rewrite take_length, Nat.min_l by lia.
    rewrite lookup_app_l by (rewrite fmap_length; lia). done.
  - destruct (decide (j < off)%nat).
    + rewrite lookup_app_l by (rewrite take_length; lia). by rewrite lookup_take.
    + rewrite lookup_app_r by (rewrite take_length; lia). rewrite take_length, Nat.min_l by lia.
      destruct (decide (j < off + length l)%nat); [lia|].
      rewrite lookup_app_r by (rewrite fmap_length; lia). rewrite fmap_length, lookup_drop. f_equal. lia.
Qed.

Lemma wpR_qdiv st σ X o f l p2 (Q : unit -> state -> Prop) :
  R st σ X -> σ !! o = Some f -> view f l -> canon l -> 0 <= p2 ->
  (forall st' ds cells, canon ds -> val ds = val l / 2 ^ p2 ->
     R st' (<[o := Fo (z0sgn (val ds) (fs f)) (Z.of_nat (length ds)) cells (fl f)]> σ) X ->
     view (Fo (z0sgn (val ds) (fs f)) (Z.of_nat (length ds)) cells (fl f)) ds ->
     (forall s u, keeps f (Fo s u cells (fl f))) -> Q tt st') ->
  wp (s_qdiv o p2) Q st.
Proof.
  intros HR Ho V Hc Hp2 HQ. pose proof (view_len _ _ V) as Hlen. unfold s_qdiv.
  pose proof (Z.mod_pos_bound p2 32 ltac:(lia)) as Hm. pose proof (Z.div_pos p2 32 Hp2 ltac:(lia)) as Hd.
  pose proof (pow_split p2 Hp2) as Hpow. set (k := Z.to_nat (p2 / 32)) in *. assert (p2 / 32 = Z.of_nat k) as Ek by lia. rewrite !Ek.
  pose proof (val_bounds l (v_d _ _ V)) as Hvb. pose proof (Bn_pos k).
  assert (0 < 2 ^ (p2 mod 32)) by (apply Z.pow_pos_nonneg; lia).
  wb. eapply wpR_used; [done..|]. rewrite (v_u _ _ V).
  destruct (Z.eqb_spec (Z.of_nat k) 0) as [E0|E0].
  { eapply wpR_qdiv_bits; [done..|]. rewrite Hpow in HQ. replace k with 0%nat in HQ by lia. rewrite Bn_0, Z.mul_1_l in HQ. done. }
  destruct (Z.geb_spec (Z.of_nat k) (Z.of_nat (length l))) as [Hge|Hlt].
  { eapply wpR_zero_k; [done..|]. intros st' cells HR' V' K. eapply (HQ st' [0] cells); [apply canon_sing| |exact HR'|exact V'|done].
    simpl. symmetry. apply Z.div_small. rewrite Hpow. pose proof (Bn_le (length l) k ltac:(lia)). nia. }
  wb. eapply wpR_digits; [done..|]. replace (Z.to_nat (Z.of_nat (length l) - Z.of_nat k)) with (length (drop k l)) by (rewrite drop_length; lia).
  destruct (v_c _ _ V) as [r Hr].
  wb. eapply wp_move_up.
  { change ((fl f, 0) +p Z.of_nat k) with (fl f, 0 + Z.of_nat k). rewrite Z.add_0_l.
    replace (Z.of_nat k) with (Z.of_nat (length (take k (Some <$> l)))) by (rewrite take_length, fmap_length; lia).
    eapply (R_carr _ _ _ o f (take k (Some <$> l)) _ r); [done..|]. rewrite Hr, app_assoc, fmap_drop, take_drop. done. }
  { eapply R_valid; [done..|]. rewrite drop_length. lia. }
  { right; left. simpl. lia. }
  pose proof (R_wr0 _ _ _ o f (drop k l) HR Ho ltac:(rewrite drop_length; lia)) as HR1. set (cells := _ ++ _) in HR1.
  assert (digs (drop k l)) as Dd by (apply Forall_drop, V).
  wb. eapply wpR_set_used; [exact HR1|apply lookup_insert|]. intros st2 HR2. rewrite insert_insert in HR2. cbn [fs fu fc fl] in HR2.
  eapply (wpR_qdiv_bits _ _ _ o _ (drop k l)); [exact HR2|apply lookup_insert| |apply canon_drop; [apply V|done|lia]|done|].
  { constructor; cbn [fu fc]; [rewrite drop_length; lia|by eexists|done]. }
  cbn [fs fu fc fl]. intros st3 ds cells' Cds Vds HR3 V3 K3. rewrite insert_insert in HR3.
  eapply HQ; [exact Cds| |exact HR3|exact V3|].
  - rewrite Vds, Hpow, val_drop by (apply V || lia). apply Z.div_div; lia.
  - intros. eapply keeps_trans; [|apply K3]. apply keeps_wr0; [done|rewrite drop_length; lia].
Qed.
Lemma z0sgn01 m s : s = 0 \/ s = 1 -> z0sgn m s = 0 \/ z0sgn m s = 1.
Proof. unfold z0sgn. destruct (m =? 0); auto. Qed.
Lemma wpZ_qdiv st ζ X o z p2 (Q : unit -> state -> Prop) :
  RZ st ζ X -> ζ !! o = Some z -> 0 <= p2 ->
  (forall st', RZ st' (<[o := zput z (z0sgn (zm z / 2 ^ p2) (zs z)) (zm z / 2 ^ p2)]> ζ) X -> Q tt st') ->
  wp (s_qdiv o p2) Q st.
Proof.
  intros (σ & HR & Hz) Ho Hp2 HQ. destruct (relz_get _ _ _ _ Hz Ho) as (f & l & Hf & G).
  eapply wpR_qdiv; [done|done|apply G|apply G|done|]. rewrite (g_val _ _ _ G).
  intros st' ds cells Cds Vds HR' V' K. apply HQ. eapply RZ_upd; [done..|].
  eapply (good_intro f z _ ds); [by eexists|apply K|done|done|done|cbn [fs]; rewrite Vds; f_equal; apply G|apply z0sgn01, G].
Qed.

(** ** Truncation to low-order bits *)
Lemma wpR_qmod st σ X o f l p2 (Q : unit -> state -> Prop) :
  R st σ X -> σ !! o = Some f -> view f l -> canon l -> 0 <= p2 ->
  (forall st' ds cells, canon ds -> val ds = val l mod 2 ^ p2 ->
     R st' (<[o := Fo (fs f) (Z.of_nat (length ds)) cells (fl f)]> σ) X ->
     view (Fo (fs f) (Z.of_nat (length ds)) cells (fl f)) ds ->
     (forall s u, keeps f (Fo s u cells (fl f))) ->
     (p2 / 32 < Z.of_nat (length l) -> exists r, cells = (Some <$> (ds ++ replicate (Z.to_nat (p2 / 32) + 1 - length ds) 0)) ++ r) ->
     Q tt st') ->
  wp (s_qmod o p2) Q st.
Proof.
  intros HR Ho V Hc Hp2 HQ. pose proof (view_len _ _ V) as Hlen. unfold s_qmod.
  pose proof (Z.mod_pos_bound p2 32 ltac:(lia)) as Hm. pose proof (Z.div_pos p2 32 Hp2 ltac:(lia)) as Hd.
  pose proof (pow_split p2 Hp2) as Hpow. set (k := Z.to_nat (p2 / 32)) in *. assert (p2 / 32 = Z.of_nat k) as Ek by lia. rewrite !Ek in *.
  pose proof (val_bounds l (v_d _ _ V)) as Hvb. pose proof (Bn_pos k).
  assert (0 < 2 ^ (p2 mod 32)) by (apply Z.pow_pos_nonneg; lia).
  wb. eapply wpR_used; [done..|]. rewrite (v_u _ _ V).
  destruct (Z.leb_spec (Z.of_nat k + 1) (Z.of_nat (length l))) as [Hle|Hgt].
  2:{ apply wp_ret. eapply (HQ st l (fc f)); [done| | | | |].
      - symmetry. apply Z.mod_small. rewrite Hpow. pose proof (Bn_le (length l) k ltac:(lia)). nia.
      - rewrite insert_id; [done|]. rewrite <- (v_u _ _ V). by destruct f.
      - constructor; [done|apply V|apply V].
      - intros. apply keeps_same.
      - lia. }
  wb. eapply wpR_set_used; [done..|]. intros st1 HR1. set (f1 := Fo (fs f) (Z.of_nat k + 1) (fc f) (fl f)) in *.
  wb. eapply wpR_digits; [exact HR1|apply lookup_insert|]. replace (Z.of_nat k + 1 - 1) with (Z.of_nat k) by lia.
  destruct (lookup_lt_is_Some_2 l k) as [t Ht]; [lia|]. destruct (v_c _ _ V) as [r Hr].
  assert (fc f !! k = Some (Some t)) as Ht'.
  { rewrite Hr, lookup_app_l by (rewrite fmap_length; lia). by rewrite list_lookup_fmap, Ht. }
  assert (dig t) as Dt by (eapply (Forall_lookup_1 dig); [apply V|done]).
  wb. eapply wp_load; [change (fl f1) with (fl f1); eapply R_load; [exact HR1|apply lookup_insert|exact Ht']|].
  wb. eapply wp_store; [eapply R_load; [exact HR1|apply lookup_insert|exact Ht']|].
  set (rest := p2 mod 32) in *. replace (Z.shiftl 1 rest - 1) with (Z.ones rest) by (rewrite Z.ones_equiv, Z.shiftl_1_l; lia).
  rewrite Z.land_ones by lia. set (t' := t mod 2 ^ rest).
  assert (dig t') as Dt'. { unfold dig, t' in *. pose proof (Z.mod_pos_bound t (2 ^ rest) ltac:(lia)). pose proof (Z.mod_le t (2 ^ rest) ltac:(lia) ltac:(lia)). lia. }
  rewrite <- wr_1. change [Some t'] with (Some <$> [t']). change ((fl f1, 0) +p Z.of_nat k) with (fl f1, Z.of_nat k).
  pose proof (R_wrd_at _ _ _ o f1 k [t'] HR1 (lookup_insert _ _ _) ltac:(cbn [fc length]; simpl; lia)) as HR2. rewrite insert_insert in HR2.
  set (cells := _ ++ _ ++ _) in HR2. cbn [fs fu fc fl] in HR2.
  assert (cells = (Some <$> (take k l ++ [t'])) ++ drop (k + 1) (fc f)) as Hcells.
  { unfold cells. change (fc f1) with (fc f). rewrite fmap_app, <- app_assoc, fmap_take. rewrite Hr at 1. by rewrite take_app_le by (rewrite fmap_length; lia). }
  assert (digs (take k l ++ [t'])) as Dn. { apply digs_app. split; [apply Forall_take, V|by constructor]. }
  assert (length (take k l ++ [t']) = (k + 1)%nat) as Ln. { rewrite app_length, take_length. simpl. lia. }
  eapply (wpR_CLAMP _ _ _ o _ (take k l ++ [t'])); [exact HR2|apply lookup_insert| |lia|].
  { constructor; cbn [fu fc]; [unfold f1; cbn [fu]; rewrite Ln; lia|by eexists|done]. }
  intros st3 ds n Hcd Hdd Hvd Hpad HR3 V3. cbn [fs fu fc fl] in *. rewrite insert_insert in HR3.
  eapply HQ; [exact Hcd| |exact HR3|exact V3| |].
  - rewrite Hvd, val_snoc, take_length, Nat.min_l by lia.
    pose proof (val_split l k ltac:(lia)) as E1. rewrite (drop_S l t k Ht) in E1. cbn [val] in E1.
    pose proof (val_bounds (take k l) (Forall_take _ _ _ (v_d _ _ V))) as Hb. rewrite take_length, Nat.min_l in Hb by lia.
    assert (exists q, RADIX = 2 ^ rest * q) as [q Hq].
    { exists (2 ^ (32 - rest)). rewrite <- Z.pow_add_r by lia. rewrite <- pow32. f_equal. lia. }
    pose proof (Z.div_mod t (2 ^ rest) ltac:(lia)) as Et. fold t' in Et.
    pose proof (Z.mod_pos_bound t (2 ^ rest) ltac:(lia)) as Bt'. fold t' in Bt'.
    apply (Z.mod_unique _ _ (t / 2 ^ rest + q * val (drop (S k) l))); [left; rewrite Hpow; nia|]. rewrite Hpow, E1.
    rewrite Hq. rewrite Et at 1. ring.
  - intros s u. unfold cells. change (fc f) with (fc f1). change (fl f) with (fl f1). eapply (keeps_trans _ f1); [apply keeps_same|].
    apply keeps_at; [by constructor|cbn [length]; cbn [fc f1]; simpl; lia].
  - intros _. exists (drop (k + 1) (fc f)). rewrite Hcells. f_equal. f_equal. rewrite Hpad. f_equal. f_equal.
    rewrite Hpad, app_length, replicate_length in Ln. lia.
Qed.
Lemma wpZ_qmod st ζ X o z p2 (Q : unit -> state -> Prop) :
  RZ st ζ X -> ζ !! o = Some z -> 0 <= p2 ->
  (forall st', RZ st' (<[o := zput z (zs z) (zm z mod 2 ^ p2)]> ζ) X -> Q tt st') ->
  wp (s_qmod o p2) Q st.
Proof.
  intros (σ & HR & Hz) Ho Hp2 HQ. destruct (relz_get _ _ _ _ Hz Ho) as (f & l & Hf & G).
  eapply wpR_qmod; [done|done|apply G|apply G|done|]. rewrite (g_val _ _ _ G).
  intros st' ds cells Cds Vds HR' V' K _. apply HQ. eapply RZ_upd; [done..|].
  eapply (good_intro f z _ ds); [by eexists|apply K|done|done|done|apply G|apply G].
Qed.

(** ** Left shift *)
Lemma top_shift l t rest : digs l -> 0 < rest < 32 -> dig t ->
  (val (l ++ [t]) * 2 ^ rest) / Bn (length (l ++ [t])) = Z.shiftr t (32 - rest).
Proof.
  intros Hd Hr Ht. rewrite val_snoc, app_length. cbn [length]. rewrite Nat.add_1_r, Bn_S, Z.shiftr_div_pow2 by lia.
  pose proof (val_bounds l Hd). pose proof (Bn_pos (length l)).
  assert (RADIX = 2 ^ (32 - rest) * 2 ^ rest) as E. { rewrite <- Z.pow_add_r by lia. rewrite <- pow32. f_equal. lia. }
  assert (0 < 2 ^ rest) by (apply Z.pow_pos_nonneg; lia). assert (0 < 2 ^ (32 - rest)) by (apply Z.pow_pos_nonneg; lia).
  replace (RADIX * Bn (length l)) with (Bn (length l) * 2 ^ (32 - rest) * 2 ^ rest) by (rewrite E; ring).
  rewrite Z.div_mul_cancel_r by nia. rewrite <- Z.div_div by lia. f_equal.
  symmetry. apply (Z.div_unique _ _ _ (val l)); lia.
Qed.
Lemma fmap_zeros k : Some <$> replicate k 0 = replicate k (Some 0).
Proof. by rewrite fmap_replicate. Qed.
Lemma wpR_qmul st σ X o f z l p2 (Q : bool -> state -> Prop) :
  R st σ X -> σ !! o = Some f -> goodw f z l -> zo z = None -> 0 <= p2 < RADIX ->
  (forall st' F ds, R st' (<[o := F]> σ) X -> canon ds -> val ds = val l * 2 ^ p2 -> view F ds -> keeps f F -> fs F = fs f ->
     (p2 < 32 -> (ndig (val ds) <= length (fc f))%nat -> fl F = fl f) -> Q true st') ->
  wp (s_qmul o p2) Q st.
Proof.
  intros HR Ho G Hown Hp2 HQ. destruct (goodw_len _ _ _ _ _ _ _ HR Ho G) as [Hl1 Hl2]. pose proof (goodw_dig _ _ _ G) as Dl.
  pose proof (g_canon _ _ _ G) as Cl. pose proof (val_bounds l Dl) as Hvb.
  unfold s_qmul. destruct (Z.eqb_spec p2 0) as [->|Hp20].
  { apply wp_ret. eapply (HQ st f l); [by rewrite insert_id|done|rewrite Z.pow_0_r; lia|apply G|apply keeps_refl|done|done]. }
  pose proof (Z.mod_pos_bound p2 32 ltac:(lia)) as Hm. pose proof (Z.div_pos p2 32 ltac:(lia) ltac:(lia)) as Hd.
  assert (p2 / 32 < 134217728) as Hd2. { apply Z.div_lt_upper_bound; mx. }
  assert (p2 < 32 -> p2 / 32 = 0 /\ p2 mod 32 = p2) as Hsm.
  { intros. split; [apply Z.div_small|apply Z.mod_small]; lia. }
  pose proof (pow_split p2 ltac:(lia)) as Hpow. set (need := Z.to_nat (p2 / 32)) in *. assert (p2 / 32 = Z.of_nat need) as Ek by lia. rewrite !Ek in *.
  set (rest := p2 mod 32) in *. pose proof (Bn_pos need). assert (0 < 2 ^ rest) by (apply Z.pow_pos_nonneg; lia).
  wb. eapply wpR_used; [done..|]. rewrite (goodw_u _ _ _ G).
  destruct (exists_last (l := l)) as (l0 & t & El). { intros ->. simpl in Hl1. lia. }
  assert (digs l0 /\ dig t) as [Dl0 Dt]. { rewrite El in Dl. apply digs_app in Dl as [? Dl]. apply digs_1 in Dl. done. }
  set (extra := if rest =? 0 then 0%nat else if Z.shiftr t (32 - rest) =? 0 then 0%nat else 1%nat).
  destruct (v_c _ _ (g_view _ _ _ G)) as [r Hr].
  wb. apply (wp_mono _ (fun e st' => e = Z.of_nat extra /\ st' = st)).
  { unfold extra. destruct (Z.eqb_spec rest 0) as [E|E]; [by apply wp_ret|].
    wb. eapply wpR_digits; [done..|]. wb. replace (Z.of_nat (length l) - 1) with (Z.of_nat (length l0)) by (rewrite El, app_length; simpl; lia).
    eapply wp_load.
    { eapply (R_load _ _ _ o f _ (Some t)); [done..|]. rewrite Hr, El, fmap_app, <- app_assoc.
      rewrite lookup_app_r by (rewrite fmap_length; lia). rewrite fmap_length, Nat.sub_diag. done. }
    apply wp_ret. split; [|done]. by destruct (Z.shiftr t (32 - rest) =? 0). }
  intros ? ? [-> ->]. assert (extra <= 1)%nat as He. { unfold extra. repeat destruct (_ =? _); lia. }
  rewrite u32_id by mx.
  wb. eapply wpR_padg; [done..| |]. { mx. }
  intros st1 F HR1 GF K HlF HFeq. cbn [negb]. set (n := length l) in *.
  wb. eapply wpR_digits; [exact HR1|apply lookup_insert|].
  (* moving *)
  wb. apply (wp_mono _ (fun _ st' => exists r1, R st' (<[o := Fo (fs F) (fu F) ((Some <$> (replicate need 0 ++ l)) ++ r1) (fl F)]> σ) X /\
        (n + need + length r1 = length (fc F))%nat /\ forall s u, keeps f (Fo s u ((Some <$> (replicate need 0 ++ l)) ++ r1) (fl F)))).
  { destruct (Z.gtb_spec (Z.of_nat need) 0) as [Hn0|Hn0].
    - pose proof (view_darr _ _ _ _ _ _ HR1 (lookup_insert _ _ _) (g_view _ _ _ GF)) as Ha.
      wb. unfold n. rewrite Nat2Z.id. replace (Z.of_nat (length l) - 1 + Z.of_nat need) with (Z.of_nat need + (Z.of_nat (length l) - 1)) by lia.
      rewrite <- padd_padd. apply wp_move_down; [exact Ha| |simpl; lia|simpl; lia|left; simpl; lia|].
      { change ((fl F, 0) +p Z.of_nat need) with (fl F, Z.of_nat need). eapply R_valid; [exact HR1|apply lookup_insert|lia|]. unfold n in *. lia. }
      change ((fl F, 0) +p Z.of_nat need) with (fl F, Z.of_nat need).
      pose proof (R_wrd_at _ _ _ o F need l HR1 (lookup_insert _ _ _) ltac:(unfold n in *; lia)) as HR2. rewrite insert_insert in HR2.
      set (c2 := _ ++ _ ++ _) in HR2.
      assert (length c2 = length (fc F)) as Lc2. { unfold c2. rewrite !app_length, take_length, drop_length, fmap_length. unfold n in *. lia. }
      eapply (wp_ZERO _ need); [done|eapply (R_valid _ _ _ o (Fo (fs F) (fu F) c2 (fl F))); [exact HR2|apply lookup_insert|done|cbn [fc]; unfold n in *; lia]|].
      assert (need <= length c2)%nat as Hnl by (unfold n in *; lia).
      pose proof (R_wr0 _ _ _ o _ (replicate need 0) HR2 (lookup_insert _ _ _) ltac:(cbn [fc]; rewrite replicate_length; lia)) as HR3.
      cbn [fs fu fc fl] in HR3. rewrite insert_insert, replicate_length in HR3.
      exists (drop (need + length l) (fc F)).
      assert ((Some <$> replicate need 0) ++ drop need c2 = (Some <$> replicate need 0 ++ l) ++ drop (need + length l) (fc F)) as E3.
      { rewrite fmap_app, <- app_assoc. f_equal. unfold c2. rewrite drop_app_alt; [done|]. rewrite take_length. unfold n in *. lia. }
      rewrite E3 in HR3. split_and!; [exact HR3|rewrite drop_length; unfold n in *; lia|].
      intros s u. rewrite <- E3. eapply keeps_trans; [exact K|].
      eapply (keeps_trans _ (Fo (fs F) (fu F) c2 (fl F))); [apply keeps_at; [done|unfold n in *; lia]|].
      pose proof (keeps_wr0 (Fo (fs F) (fu F) c2 (fl F)) s u (replicate need 0) (digs_zeros _)) as K3. cbn [fc fl] in K3.
      rewrite replicate_length in K3. by apply K3.
    - apply wp_ret. assert (need = 0)%nat as -> by lia. cbn [replicate app]. destruct (v_c _ _ (g_view _ _ _ GF)) as [r1 Hr1].
      exists r1. rewrite <- Hr1. split_and!.
      + by destruct F.
      + rewrite Hr1, app_length, fmap_length. unfold n. lia.
      + intros. eapply keeps_trans; [exact K|]. apply keeps_same. }
  intros [] st2 (r1 & HR2 & Lr1 & K2). set (F2 := Fo _ _ _ _) in HR2. pose proof (lookup_insert σ o F2) as HF2.
  assert (fl F2 = fl F) as EflF2 by done.
  rewrite (u32_id (Z.of_nat n + Z.of_nat need)) by (unfold n; mx).
  replace (Z.to_nat (Z.of_nat n + Z.of_nat need - Z.of_nat need)) with n by lia.
  (* shifting *)
  wb. apply (wp_mono _ (fun u st' => exists lf cells, u = Z.of_nat (length lf) /\ digs lf /\ val lf = val l * 2 ^ p2 /\
        R st' (<[o := Fo (fs F) (fu F) cells (fl F)]> σ) X /\ (exists r, cells = (Some <$> lf) ++ r) /\ (1 <= length lf)%nat /\
        (forall s u, keeps f (Fo s u cells (fl F))))).
  { unfold extra in *. destruct (Z.eqb_spec rest 0) as [E|E].
    - apply wp_ret. exists (replicate need 0 ++ l). eexists. split_and!; [| | |exact HR2|by eexists| |].
      + rewrite app_length, replicate_length. unfold n. lia.
      + apply digs_app. split; [apply digs_zeros|done].
      + rewrite val_app, val_zeros, replicate_length, Hpow, E, Z.pow_0_r. lia.
      + rewrite app_length. unfold n in *. lia.
      + done.
    - assert (darr (mem st2) ((fl F, 0) +p Z.of_nat need) l) as Ha.
      { change ((fl F, 0) +p Z.of_nat need) with (fl F, Z.of_nat need).
        replace (Z.of_nat need) with (Z.of_nat (length (Some <$> replicate need 0))) by (rewrite fmap_length, replicate_length; done).
        apply (R_carr _ _ _ o F2 (Some <$> replicate need 0) (Some <$> l) r1 HR2 HF2). unfold F2; cbn [fc]. by rewrite fmap_app, <- app_assoc. }
      wb. unfold n. eapply wp_shl_loop; [exact Ha|done|lia|apply dig_0|]. rewrite Z.shiftr_0_l, Z.add_0_r.
      intros lc d' Llc Dlc Dd' Eq. cbn [fst snd].
      assert (Z.shiftr d' (32 - rest) = Z.shiftr t (32 - rest)) as Etop.
      { rewrite <- (top_shift l0 t rest) by (done || lia). rewrite <- El, <- Eq. pose proof (val_bounds lc Dlc) as Hb. rewrite Llc in Hb.
        apply (Z.div_unique _ _ _ (val lc)); [lia|]. ring. }
      rewrite Etop in *. change ((fl F, 0) +p Z.of_nat need) with (fl F2, Z.of_nat need) at 2.
      pose proof (R_wrd_at _ _ _ o F2 need lc HR2 HF2) as HR3. rewrite insert_insert in HR3.
      set (c3 := _ ++ _ ++ _) in HR3.
      assert (c3 = (Some <$> (replicate need 0 ++ lc)) ++ r1) as Ec3.
      { unfold c3, F2. cbn [fc]. rewrite fmap_app, <- app_assoc. rewrite take_app_alt by (by rewrite fmap_length, replicate_length).
        rewrite fmap_app, <- app_assoc. f_equal. f_equal. rewrite (app_assoc (Some <$> replicate need 0)).
        apply drop_app_alt. rewrite app_length, !fmap_length, replicate_length. lia. }
      assert (need + length lc <= length (fc F2))%nat as Hfit. { unfold F2; cbn [fc]. rewrite app_length, fmap_length, app_length, replicate_length. lia. }
      specialize (HR3 Hfit). change (fl F2) with (fl F) in HR3. change (fs F2) with (fs F) in HR3. change (fu F2) with (fu F) in HR3.
      assert (forall s u, keeps f (Fo s u c3 (fl F))) as K3.
      { intros. eapply (keeps_trans _ F2); [apply K2|]. unfold c3. change (fl F) with (fl F2). by apply keeps_at. }
      assert (val (replicate need 0 ++ lc) = Bn need * val lc) as Ev. { rewrite val_app, val_zeros, replicate_length. lia. }
      destruct (Z.eqb_spec (Z.shiftr t (32 - rest)) 0) as [E0|E0].
      + apply wp_ret. exists (replicate need 0 ++ lc), c3. rewrite E0 in Eq. split_and!; [| | |exact HR3|by eexists| |done].
        * rewrite app_length, replicate_length. unfold n in *. lia.
        * apply digs_app. split; [apply digs_zeros|done].
        * rewrite Ev, Hpow. nia.
        * rewrite app_length. unfold n in *. lia.
      + set (tt' := Z.shiftr t (32 - rest)) in *.
        assert (dig tt') as Dtt. { unfold dig, tt' in *. rewrite Z.shiftr_div_pow2 by lia.
          assert (0 < 2 ^ (32 - rest)) by (apply Z.pow_pos_nonneg; lia). split; [apply Z.div_pos; lia|].
          apply Z.div_lt_upper_bound; [lia|]. nia. }
        destruct r1 as [|x r1]; [unfold n in *; simpl in Lr1; lia|].
        assert (c3 !! (need + length l)%nat = Some x) as Hx.
        { rewrite Ec3, lookup_app_r by (rewrite fmap_length, app_length, replicate_length; lia).
          rewrite fmap_length, app_length, replicate_length. by replace (need + length l - (need + length lc))%nat with 0%nat by lia. }
        rewrite padd_padd, <- Nat2Z.inj_add.
        wb. eapply wp_store. { change (fl F) with (fl (Fo (fs F) (fu F) c3 (fl F))). eapply R_load; [exact HR3|apply lookup_insert|exact Hx]. }
        rewrite <- wr_1. change [Some tt'] with (Some <$> [tt']).
        change ((fl F, 0) +p Z.of_nat (need + length l)) with (fl (Fo (fs F) (fu F) c3 (fl F)), Z.of_nat (need + length l)).
        pose proof (R_wrd_at _ _ _ o (Fo (fs F) (fu F) c3 (fl F)) (need + length l) [tt'] HR3 (lookup_insert _ _ _)) as HR4.
        assert (need + length l + length [tt'] <= length c3)%nat as Hfit4.
        { cbn [length]. apply lookup_lt_Some in Hx. lia. }
        specialize (HR4 Hfit4). rewrite insert_insert in HR4. set (c4 := _ ++ _ ++ _) in HR4. cbn [fs fu fl] in HR4.
        assert (c4 = (Some <$> (replicate need 0 ++ lc ++ [tt'])) ++ r1) as Ec4.
        { unfold c4. cbn [fc]. rewrite Ec3. rewrite take_app_alt by (rewrite fmap_length, app_length, replicate_length; lia).
          rewrite (app_assoc (replicate need 0)), (fmap_app _ _ [tt']), <- app_assoc. f_equal. f_equal.
          rewrite drop_app_ge by (rewrite fmap_length, app_length, replicate_length; cbn [length]; lia).
          rewrite fmap_length, app_length, replicate_length. cbn [length].
          by replace (need + length l + 1 - (need + length lc))%nat with 1%nat by lia. }
        apply wp_ret. exists (replicate need 0 ++ lc ++ [tt']), c4. split_and!; [| | |exact HR4|by eexists| |].
        * rewrite u32_id by (unfold n; mx). rewrite !app_length, replicate_length. cbn [length]. unfold n in *. lia.
        * apply digs_app. split; [apply digs_zeros|]. apply digs_app. split; [done|by constructor].
        * rewrite app_assoc, val_snoc, Ev, app_length, replicate_length, Bn_add, Hpow. rewrite Llc. nia.
        * rewrite !app_length. cbn [length]. lia.
        * intros s u. eapply (keeps_trans _ (Fo (fs F) (fu F) c3 (fl F))); [apply K3|]. unfold c4.
          apply (keeps_at (Fo (fs F) (fu F) c3 (fl F))); [by constructor|done]. }
  intros u st3 (lf & cells & -> & Dlf & Vlf & HR3 & Hcl & Llf & K3).
  wb. eapply wpR_set_used; [exact HR3|apply lookup_insert|]. intros st4 HR4. rewrite insert_insert in HR4. cbn [fs fu fc fl] in HR4.
  wb. eapply (wpR_CLAMP _ _ _ o _ lf); [exact HR4|apply lookup_insert|by constructor|done|].
  intros st5 ds k Hcd Hdd Hvd _ HR5 V5. cbn [fs fu fc fl] in *. rewrite insert_insert in HR5.
  apply wp_ret. eapply (HQ st5 _ ds); [exact HR5|done|lia|done|apply K3| |].
  - cbn [fs]. rewrite (g_sign _ _ _ GF). symmetry. apply G.
  - intros Hp Hn. cbn [fl]. destruct (Hsm Hp) as [En Er]. rewrite HFeq; [done|].
    enough (n + extra <= ndig (val ds))%nat by lia.
    pose proof (canon_ndig l Dl Cl) as Nl. fold n in Nl. rewrite Hvd, Vlf, Er in *.
    unfold extra in *. rewrite Er in *. destruct (Z.eqb_spec p2 0); [done|].
    assert (ndig (val l) <= ndig (val l * 2 ^ p2))%nat as M1 by (apply ndig_mono; nia).
    destruct (Z.eqb_spec (Z.shiftr t (32 - p2)) 0) as [E0|E0]; [lia|].
    assert (Bn n <= val l * 2 ^ p2) as HB.
    { rewrite <- (top_shift l0 t p2) in E0 by (done || lia). rewrite <- El in E0. fold n in E0.
      destruct (Z.lt_ge_cases (val l * 2 ^ p2) (Bn n)); [|done]. exfalso. apply E0. apply Z.div_small. nia. }
    assert (Bn n < Bn (ndig (val l * 2 ^ p2))) as HB2%Bn_lt_inv; [|lia].
    eapply Z.le_lt_trans; [exact HB|]. apply ndig_bound. nia.
Qed.
Lemma wpZ_qmul st ζ X o z p2 (Q : bool -> state -> Prop) :
  RZ st ζ X -> ζ !! o = Some z -> zo z = None -> 0 <= p2 < RADIX ->
  (forall st', RZ st' (<[o := zput z (zs z) (zm z * 2 ^ p2)]> ζ) X -> Q true st') ->
  wp (s_qmul o p2) Q st.
Proof.
  intros (σ & HR & Hz) Ho Hown Hp2 HQ. destruct (relz_get _ _ _ _ Hz Ho) as (f & l & Hf & G).
  eapply wpR_qmul; [done|done|done|done|done|]. rewrite (g_val _ _ _ G).
  intros st' F ds HR' Cds Vds V' K Hs _. apply HQ. eapply RZ_upd; [done..|].
  eapply (good_intro f z _ ds); [by eexists|apply K|done|done|done|rewrite Hs; apply G|apply G].
Qed.

(** ** Powers of two *)
Lemma wpZ_used st ζ X o z (Q : Z -> state -> Prop) :
  RZ st ζ X -> ζ !! o = Some z -> (Z.of_nat (ndig (zm z)) <= MAXD -> Q (Z.of_nat (ndig (zm z))) st) -> wp (get_used o) Q st.
Proof.
  intros (σ & HR & Hz) Ho HQ. destruct (relz_get _ _ _ _ Hz Ho) as (f & l & Hf & G).
  eapply wpR_used; [done..|]. rewrite (goodw_u _ _ _ G). destruct (goodw_len _ _ _ _ _ _ _ HR Hf G).
  rewrite (goodw_ndig _ _ _ G) in *. apply HQ. lia.
Qed.
Lemma RZ_ndig st ζ X o z : RZ st ζ X -> ζ !! o = Some z -> 0 <= zm z < Bn (ndig (zm z)) /\ Z.of_nat (ndig (zm z)) <= MAXD.
Proof.
  intros HZ Ho. pose proof (RZ_s01 _ _ _ _ _ HZ Ho) as [H0 _]. destruct HZ as (σ & HR & Hz).
  destruct (relz_get _ _ _ _ Hz Ho) as (f & l & Hf & G). destruct (goodw_len _ _ _ _ _ _ _ HR Hf G).
  rewrite (goodw_ndig _ _ _ G) in *. pose proof (ndig_bound (zm z) H0). lia.
Qed.
Lemma pow_ndig_lt m j : 0 <= j -> 0 < m -> 2 ^ j <= m -> j < 32 * Z.of_nat (ndig m).
Proof.
  intros Hj Hm Hp. pose proof (ndig_bound m ltac:(lia)) as Hb. rewrite Bn_pow2 in Hb.
  apply (Z.pow_lt_mono_r_iff 2); lia.
Qed.
Lemma wpZ_dp2k st ζ X o z (Q : Z -> state -> Prop) :
  RZ st ζ X -> ζ !! o = Some z -> zm z <> 0 ->
  (forall j e, 0 <= j < 32 * MAXD -> Z.odd e = true -> zm z = 2 ^ j * e -> Q j st) -> wp (s_dp2k o) Q st.
Proof.
  intros HZ Ho Hnz HQ. pose proof (RZ_ndig _ _ _ _ _ HZ Ho) as [Hb Hn]. destruct HZ as (σ & HR & Hz).
  destruct (relz_get _ _ _ _ Hz Ho) as (f & l & Hf & G).
  assert (wp (dp2k_loop (length l) (fl f, 0) 0) Q st) as Hloop.
  { apply (wp_dp2k_loop _ l); [eapply view_darr; [done|done|apply G]|by eapply goodw_dig|rewrite (g_val _ _ _ G); done|done|].
    rewrite (g_val _ _ _ G). intros j Hj (e & He & Ev). rewrite Z.add_0_l. apply (HQ j e); [|done..].
    split; [done|]. assert (0 < 2 ^ j) by (apply Z.pow_pos_nonneg; lia).
    assert (0 < e) by nia. pose proof (pow_ndig_lt (zm z) j Hj ltac:(lia) ltac:(nia)). lia. }
  unfold s_dp2k. wb. eapply wpR_digits; [done..|]. wb. eapply wpR_used; [done..|]. rewrite (goodw_u _ _ _ G), Nat2Z.id.
  destruct (Z.eqb_spec (Z.of_nat (length l)) 1) as [E|E]; [|done].
  wb. eapply wpR_load0; [done|done|apply G|apply G|]. intros d ds' -> Dd. destruct (Z.eqb_spec d 0) as [->|]; [|done].
  exfalso. apply Hnz. rewrite <- (g_val _ _ _ G). destruct ds'; [done|]. simpl in E. lia.
Qed.
Lemma wpZ_isp2 st ζ X o z (Q : Z -> state -> Prop) :
  RZ st ζ X -> ζ !! o = Some z -> zm z <> 0 ->
  (forall j, 0 <= j < 32 * MAXD -> zm z = 2 ^ j -> Q j st) -> ((forall j, 0 <= j -> zm z <> 2 ^ j) -> Q (-1) st) ->
  wp (s_isp2 o) Q st.
Proof.
  intros HZ Ho Hnz HY HN. pose proof (RZ_ndig _ _ _ _ _ HZ Ho) as [Hb Hn]. destruct HZ as (σ & HR & Hz).
  destruct (relz_get _ _ _ _ Hz Ho) as (f & l & Hf & G). unfold s_isp2.
  wb. eapply wpR_used; [done..|]. wb. eapply wpR_digits; [done..|]. rewrite (goodw_u _ _ _ G), Nat2Z.id.
  apply wp_isp2_loop; [eapply view_darr; [done|done|apply G]|by eapply goodw_dig|apply G|rewrite (g_val _ _ _ G); done|lia| |];
    rewrite (g_val _ _ _ G); [|done].
  intros j Hj E. rewrite Z.add_0_l. apply HY; [|done]. pose proof (pow_ndig_lt (zm z) j Hj ltac:(lia) ltac:(lia)). lia.
Qed.
Lemma wpZ_isp2_0 st ζ X o z (Q : Z -> state -> Prop) :
  RZ st ζ X -> ζ !! o = Some z -> zm z = 0 -> Q 0 st -> wp (s_isp2 o) Q st.
Proof.
  intros (σ & HR & Hz) Ho Hnz HQ. destruct (relz_get _ _ _ _ Hz Ho) as (f & l & Hf & G). unfold s_isp2.
  wb. eapply wpR_used; [done..|]. wb. eapply wpR_digits; [done..|]. rewrite (goodw_u _ _ _ G), Nat2Z.id.
  rewrite <- (g_val _ _ _ G), canon_val_0 in Hnz; [|by eapply goodw_dig|apply G].
  assert (load (mem st) (fl f, 0) = Some (Some 0)) as Hl.
  { pose proof (view_darr _ _ _ _ _ _ HR Hf (g_view _ _ _ G)) as Ha. rewrite Hnz in Ha. by apply darr_cons in Ha as [? _]. }
  rewrite Hnz. cbn [length isp2_loop]. wb. eapply wp_load; [exact Hl|]. by apply wp_ret.
Qed.
Lemma wpZ_2expt st ζ X o z k (Q : bool -> state -> Prop) :
  RZ st ζ X -> ζ !! o = Some z -> zo z = None -> 0 <= k < RADIX - 32 ->
  (forall st', RZ st' (<[o := zput z (zs z) (2 ^ k)]> ζ) X -> Q true st') -> wp (s_2expt o k) Q st.
Proof.
  intros (σ & HR & Hz) Ho Hown Hk HQ. destruct (relz_get _ _ _ _ Hz Ho) as (f & l & Hf & G). unfold s_2expt.
  pose proof (Z.mod_pos_bound k 32 ltac:(lia)) as Hm. pose proof (Z.div_pos k 32 ltac:(lia) ltac:(lia)) as Hd.
  pose proof (pow_split k ltac:(lia)) as Hpow. assert (k / 32 < 134217728) as Hd2. { apply Z.div_lt_upper_bound; mx. }
  replace ((k + 32) / 32) with (k / 32 + 1) by (replace (k + 32) with (k + 1 * 32) by lia; rewrite Z.div_add; lia).
  set (n := Z.to_nat (k / 32)) in *. assert (k / 32 = Z.of_nat n) as Ek by lia. rewrite !Ek in *. set (rest := k mod 32) in *.
  rewrite (u32_id (Z.of_nat n + 1)) by mx. rewrite (u32_id rest) by mx.
  wb. eapply wpR_padg; [done..|mx|]. intros st1 F HR1 GF K HlF _. cbn [negb].
  wb. eapply wpR_digits; [exact HR1|apply lookup_insert|].
  wb. eapply (wp_ZERO _ (n + 1)); [lia|eapply R_valid; [exact HR1|apply lookup_insert|done|lia]|].
  pose proof (R_wr0 _ _ _ o F (replicate (n + 1) 0) HR1 (lookup_insert _ _ _) ltac:(rewrite replicate_length; lia)) as HR2.
  rewrite insert_insert, replicate_length in HR2. set (c2 := _ ++ _) in HR2. set (F2 := Fo (fs F) (fu F) c2 (fl F)) in HR2.
  assert (length c2 = length (fc F)) as Lc2. { unfold c2. rewrite app_length, fmap_length, replicate_length, drop_length. lia. }
  replace (Z.of_nat n + 1 - 1) with (Z.of_nat n) by lia.
  wb. eapply wp_store.
  { change (fl F) with (fl F2). eapply (R_load _ _ _ o F2 n (Some 0)); [exact HR2|apply lookup_insert|]. unfold F2, c2. cbn [fc].
    rewrite lookup_app_l by (rewrite fmap_length, replicate_length; lia). rewrite fmap_zeros. apply lookup_replicate_2. lia. }
  rewrite Z.shiftl_1_l. set (t := 2 ^ rest) in *. assert (0 < t < RADIX) as Ht.
  { unfold t. split; [apply Z.pow_pos_nonneg; lia|]. rewrite <- pow32. apply Z.pow_lt_mono_r; lia. }
  rewrite <- wr_1. change [Some t] with (Some <$> [t]). change ((fl F, 0) +p Z.of_nat n) with (fl F2, Z.of_nat n).
  pose proof (R_wrd_at _ _ _ o F2 n [t] HR2 (lookup_insert _ _ _)) as HR3.
  assert (n + length [t] <= length (fc F2))%nat as Hfit. { unfold F2; cbn [fc length]. lia. }
  specialize (HR3 Hfit). rewrite insert_insert in HR3. set (c3 := _ ++ _ ++ _) in HR3. cbn [fs fu fl] in HR3.
  assert (c3 = (Some <$> (replicate n 0 ++ [t])) ++ drop (n + 1) (fc F2)) as Ec3.
  { unfold c3, F2, c2. cbn [fc length]. rewrite fmap_app, <- app_assoc. f_equal.
    rewrite take_app_le by (rewrite fmap_length, replicate_length; lia). rewrite <- fmap_take, take_replicate. by rewrite Nat.min_l by lia. }
  wb. eapply wpR_set_used; [exact HR3|apply lookup_insert|]. intros st4 HR4. rewrite insert_insert in HR4. cbn [fs fu fc fl] in HR4.
  apply wp_ret. apply HQ. eapply RZ_upd; [exact HR4|done|].
  assert (digs (replicate n 0 ++ [t])) as Dn. { apply digs_app. split; [apply digs_zeros|]. constructor; [unfold dig; lia|done]. }
  eapply (good_intro f z _ (replicate n 0 ++ [t])); [by eexists| | | | | |apply G].
  - eapply keeps_trans; [exact K|]. eapply (keeps_trans _ F2).
    + unfold F2, c2. pose proof (keeps_wr0 F (fs F) (fu F) (replicate (n + 1) 0) (digs_zeros _)) as K2.
      rewrite replicate_length in K2. apply K2. lia.
    + unfold c3. apply (keeps_at F2); [|done]. constructor; [unfold dig; lia|done].
  - constructor; cbn [fu fc]; [rewrite app_length, replicate_length; simpl; lia|by eexists|done].
  - apply canon_snoc; [apply digs_zeros|unfold dig; lia|lia].
  - rewrite val_snoc, val_zeros, replicate_length, Hpow. lia.
  - unfold F2. cbn [fs]. rewrite (g_sign _ _ _ GF). done.
Qed.
Lemma wpZ_norm st ζ X a b za zb (Q : Z -> state -> Prop) :
  RZ st ζ X -> a <> b -> ζ !! a = Some za -> ζ !! b = Some zb -> zo za = None -> zo zb = None -> zm zb <> 0 ->
  (forall st' k, 0 <= k < 32 -> 2 ^ 31 * Bn (ndig (zm zb) - 1) <= zm zb * 2 ^ k < Bn (ndig (zm zb)) ->
     RZ st' (<[b := zput zb (zs zb) (zm zb * 2 ^ k)]> (<[a := zput za (zs za) (zm za * 2 ^ k)]> ζ)) X -> Q k st') ->
  wp (s_norm a b) Q st.
Proof.
  intros HZ Hab Ha Hb Hoa Hob Hnz HQ. destruct HZ as (σ & HR & Hz).
  destruct (relz_get _ _ _ _ Hz Hb) as (f & l & Hf & G). destruct (goodw_len _ _ _ _ _ _ _ HR Hf G) as [L1 L2].
  pose proof (goodw_dig _ _ _ G) as Dl. pose proof (g_canon _ _ _ G) as Cl. pose proof (goodw_ndig _ _ _ G) as Nl. pose proof (g_val _ _ _ G) as Vl.
  unfold s_norm. wb. eapply wpR_digits; [done..|]. wb. eapply wpR_used; [done..|]. rewrite (goodw_u _ _ _ G).
  destruct (exists_last (l := l)) as (l0 & t & El). { intros ->. simpl in L1. lia. }
  assert (digs l0 /\ dig t) as [Dl0 Dt]. { rewrite El in Dl. apply digs_app in Dl as [? Dl]. apply digs_1 in Dl. done. }
  assert (t <> 0) as Ht0.
  { destruct l0 as [|x l0]; [intros ->; subst l; simpl in Vl; lia|]. eapply (canon_last (x :: l0)); [done|done|by rewrite <- El|done]. }
  destruct (v_c _ _ (g_view _ _ _ G)) as [r Hr].
  replace (Z.of_nat (length l) - 1) with (Z.of_nat (length l0)) by (rewrite El, app_length; simpl; lia).
  wb. eapply wp_load.
  { eapply (R_load _ _ _ b f _ (Some t)); [done..|]. rewrite Hr, El, fmap_app, <- app_assoc.
    rewrite lookup_app_r by (rewrite fmap_length; lia). rewrite fmap_length, Nat.sub_diag. done. }
  unfold dig in Dt. wb. apply wp_norm_loop; [lia|change (2 ^ Z.of_nat 32) with (2 ^ 32); rewrite pow32; mx|].
  intros k Hk _ Hkb. rewrite Z.add_0_l.
  assert (k < 32) as Hk32. { apply (Z.pow_lt_mono_r_iff 2); [lia..|]. rewrite pow32. nia. }
  assert (0 < 2 ^ k) as Hpk by (apply Z.pow_pos_nonneg; lia).
  assert (2 ^ 31 * Bn (ndig (zm zb) - 1) <= zm zb * 2 ^ k < Bn (ndig (zm zb))) as Hrange.
  { rewrite <- Nl, <- Vl. assert (length l = S (length l0)) as -> by (rewrite El, app_length; simpl; lia).
    rewrite El, val_snoc, Bn_S. replace (S (length l0) - 1)%nat with (length l0) by lia.
    pose proof (val_bounds l0 Dl0). pose proof (Bn_pos (length l0)).
    assert (t * 2 ^ k + 2 ^ k <= RADIX) as Hu.
    { replace RADIX with (2 ^ (32 - k) * 2 ^ k) in *; [|rewrite <- Z.pow_add_r by lia; rewrite <- pow32; f_equal; lia].
      assert (t < 2 ^ (32 - k)) by nia. nia. }
    nia. }
  destruct (Z.eqb_spec k 0) as [->|Hk0].
  - wb. apply wp_ret, wp_ret. apply HQ; [lia|done|]. rewrite Z.pow_0_r, !Z.mul_1_r, !zput_id. rewrite (insert_id ζ a) by done.
    rewrite insert_id by done. by exists σ.
  - wb. wb. eapply wpZ_qmul; [by exists σ|exact Ha|done|mx|]. intros st1 HZ1.
    wb. eapply wpZ_qmul; [exact HZ1|rewrite lookup_insert_ne by done; exact Hb|done|mx|]. intros st2 HZ2.
    apply wp_ret, wp_ret. by apply HQ.
Qed.
Lemma wpZ_is_odd st ζ X o z (Q : bool -> state -> Prop) :
  RZ st ζ X -> ζ !! o = Some z -> Q (Z.odd (zm z)) st -> wp (mp_int_is_odd o) Q st.
Proof.
  intros (σ & HR & Hz) Ho HQ. destruct (relz_get _ _ _ _ Hz Ho) as (f & l & Hf & G). unfold mp_int_is_odd.
  wb. eapply wpR_digits; [done..|]. wb. eapply wpR_load0; [done|done|apply G|apply G|]. intros d ds' -> Dd. apply wp_ret.
  rewrite <- (g_val _ _ _ G) in HQ. cbn [val] in HQ. rewrite RADIX_val in HQ.
  rewrite Z.odd_add, Z.odd_mul in HQ. change (Z.odd 4294967296) with false in HQ. cbn [andb] in HQ. by rewrite xorb_false_r in HQ.
Qed.
Lemma wpZ_is_even st ζ X o z (Q : bool -> state -> Prop) :
  RZ st ζ X -> ζ !! o = Some z -> Q (Z.even (zm z)) st -> wp (mp_int_is_even o) Q st.
Proof.
  intros HZ Ho HQ. unfold mp_int_is_even. rewrite <- Z.negb_odd in HQ.
  destruct HZ as (σ & HR & Hz). destruct (relz_get _ _ _ _ Hz Ho) as (f & l & Hf & G).
  wb. eapply wpR_digits; [done..|]. wb. eapply wpR_load0; [done|done|apply G|apply G|]. intros d ds' -> Dd. apply wp_ret.
  rewrite <- (g_val _ _ _ G) in HQ. cbn [val] in HQ. rewrite RADIX_val in HQ.
  rewrite Z.odd_add, Z.odd_mul in HQ. change (Z.odd 4294967296) with false in HQ. cbn [andb] in HQ. by rewrite xorb_false_r in HQ.
Qed.

(** ** Multiplication into a prepared buffer *)
Lemma ini_take f z ds n : goodw f z ds -> (n <= zi z)%nat -> exists I, length I = n /\ digs I /\ take n (fc f) = Some <$> I.
Proof.
  intros G. induction n as [|n IH]; intros Hn.
  - exists []. split_and!; [done|constructor|done].
  - destruct IH as (I & LI & DI & EI); [lia|]. destruct (g_ini _ _ _ G n) as (d & Hd & Dd); [lia|].
    exists (I ++ [d]). split_and!.
    + rewrite app_length. simpl. lia.
    + apply digs_app. split; [done|by constructor].
    + by rewrite (take_S_r _ _ _ Hd), fmap_app, EI.
Qed.
Lemma wpS_UMUL st σ ζ X a b c za zb zz (Q : unit -> state -> Prop) :
  R st σ X -> relz σ ζ -> ζ !! a = Some za -> ζ !! b = Some zb -> ζ !! c = Some zz -> a <> c -> b <> c ->
  (ndig (zm za) + ndig (zm zb) <= zi zz)%nat -> (kfoot (Nat.max (ndig (zm za)) (ndig (zm zb))) <= zi zz)%nat ->
  (forall st' F, R st' (<[c := F]> σ) X -> good F (zput zz (zs zz) (zm za * zm zb)) -> Q tt st') ->
  wp (UMUL a b c) Q st.
Proof.
  intros HR Hz Ha Hb Hc Hac Hbc Hi1 Hi2 HQ.
  destruct (relz_get _ _ _ _ Hz Ha) as (fa & la & Hfa & Ga).
  destruct (relz_get _ _ _ _ Hz Hb) as (fb & lb & Hfb & Gb).
  destruct (relz_get _ _ _ _ Hz Hc) as (fz & lz & Hfz & Gz).
  destruct (goodw_len _ _ _ _ _ _ _ HR Hfa Ga) as [La1 La2].
  destruct (goodw_len _ _ _ _ _ _ _ HR Hfb Gb) as [Lb1 Lb2].
  destruct (goodw_len _ _ _ _ _ _ _ HR Hfz Gz) as [Lz1 Lz2].
  rewrite <- (goodw_ndig _ _ _ Ga), <- (goodw_ndig _ _ _ Gb) in *.
  unfold UMUL. wb. eapply wpR_used; [done..|]. wb. eapply wpR_used; [done..|].
  rewrite (goodw_u _ _ _ Ga), (goodw_u _ _ _ Gb). rewrite u32_id by mx.
  set (n := (length la + length lb)%nat) in *. replace (Z.of_nat (length la) + Z.of_nat (length lb)) with (Z.of_nat n) by lia.
  wb. eapply wpR_digits; [done..|].
  destruct (ini_take _ _ _ (zi zz) Gz ltac:(lia)) as (I & LI & DI & EI).
  assert (zi zz <= length (fc fz))%nat as Hzl.
  { apply (f_equal length) in EI. rewrite take_length, fmap_length in EI. lia. }
  set (G := drop n I). assert (digs G) as DG by (by apply Forall_drop).
  assert (length G = zi zz - n)%nat as LG by (unfold G; rewrite drop_length; lia).
  wb. eapply (wp_ZERO _ n); [done|eapply R_valid; [done|done|done|lia]|].
  pose proof (R_wr0 _ _ _ c fz (replicate n 0) HR Hfz ltac:(rewrite replicate_length; lia)) as HR1.
  rewrite replicate_length in HR1. set (c1 := _ ++ _) in HR1.
  assert (c1 = (Some <$> (replicate n 0 ++ G)) ++ drop (zi zz) (fc fz)) as Ec1.
  { unfold c1. rewrite fmap_app, <- app_assoc. f_equal. unfold G. rewrite fmap_drop, <- EI.
    rewrite <- (take_drop (zi zz) (fc fz)) at 1. rewrite drop_app_le; [done|]. rewrite take_length. lia. }
  set (F1 := Fo (fs fz) (fu fz) c1 (fl fz)) in HR1. pose proof (lookup_insert σ c F1) as HF1.
  assert (<[c := F1]> σ !! a = Some fa) as Hfa1 by (by rewrite lookup_insert_ne).
  assert (<[c := F1]> σ !! b = Some fb) as Hfb1 by (by rewrite lookup_insert_ne).
  wb. eapply wpR_digits; [done..|]. wb. eapply wpR_digits; [done..|].
  assert (length G + n = zi zz)%nat as LGn by lia.
  wb. eapply (wp_s_kmul la lb G); [done|done|eapply view_darr; [done|done|apply Ga]|eapply view_darr; [done|done|apply Gb]|by eapply goodw_dig|by eapply goodw_dig|done| | | | | | |].
  { fold n. eapply (R_darr _ _ _ c F1); [done|done|exact Ec1]. }
  { fold n. lia. }
  { left. simpl. eapply (R_fl_ne _ _ _ c a F1 fa); try done; congruence. }
  { left. simpl. eapply (R_fl_ne _ _ _ c b F1 fb); try done; congruence. }
  { pose proof (R_glob _ _ _ HR1) as Hg. pose proof (R_ok _ _ _ HR1) as Ho. rewrite Hg. apply Ho. }
  { mx. }
  intros lc G' Llc Dlc Vlc LG' DG' _. fold n in Llc.
  change (fl fz) with (fl F1).
  pose proof (R_wr0 _ _ _ c F1 (lc ++ G') HR1 HF1) as HR2.
  assert (length (lc ++ G') <= length (fc F1))%nat as Hfit.
  { unfold F1; cbn [fc]. rewrite Ec1, !app_length, fmap_length, app_length, replicate_length. lia. }
  specialize (HR2 Hfit). rewrite insert_insert in HR2. cbn [fs fu fl] in HR2. set (c2 := _ ++ _) in HR2.
  wb. eapply wpR_set_used; [exact HR2|apply lookup_insert|]. intros st3 HR3. rewrite insert_insert in HR3. cbn [fs fu fc fl] in HR3.
  eapply (wpR_CLAMP _ _ _ c _ lc); [exact HR3|apply lookup_insert| |lia|].
  { constructor; cbn [fu fc]; [lia| |done]. unfold c2. rewrite fmap_app, <- app_assoc. by eexists. }
  intros st4 ds k Hcd Hdd Hvd _ HR4 V4. cbn [fs fu fc fl] in *. rewrite insert_insert in HR4. eapply HQ; [exact HR4|].
  eapply (good_intro fz zz _ ds); [by eexists| |done|done| | |apply Gz].
  - eapply (keeps_trans _ F1).
    + unfold F1, c1. pose proof (keeps_wr0 fz (fs fz) (fu fz) (replicate n 0) (digs_zeros _)) as K2. rewrite replicate_length in K2. apply K2. lia.
    + unfold c2. apply (keeps_wr0 F1); [|done]. apply digs_app. done.
  - rewrite Hvd, Vlc, (g_val _ _ _ Ga), (g_val _ _ _ Gb). done.
  - cbn [fs]. apply Gz.
Qed.
Lemma wpZ_UMUL st ζ X a b c za zb zz (Q : unit -> state -> Prop) :
  RZ st ζ X -> ζ !! a = Some za -> ζ !! b = Some zb -> ζ !! c = Some zz -> a <> c -> b <> c ->
  (ndig (zm za) + ndig (zm zb) <= zi zz)%nat -> (kfoot (Nat.max (ndig (zm za)) (ndig (zm zb))) <= zi zz)%nat ->
  (forall st', RZ st' (<[c := zput zz (zs zz) (zm za * zm zb)]> ζ) X -> Q tt st') ->
  wp (UMUL a b c) Q st.
Proof.
  intros (σ & HR & Hz) Ha Hb Hc Hac Hbc Hi1 Hi2 HQ. eapply wpS_UMUL; [done..|]. intros st' F HR' G. apply HQ. by eapply RZ_upd.
Qed.
Lemma wpS_USQR st σ ζ X a c za zz (Q : unit -> state -> Prop) :
  R st σ X -> relz σ ζ -> ζ !! a = Some za -> ζ !! c = Some zz -> a <> c ->
  (kfoot (ndig (zm za)) <= zi zz)%nat ->
  (forall st' F, R st' (<[c := F]> σ) X -> good F (zput zz (zs zz) (zm za * zm za)) -> Q tt st') ->
  wp (USQR a c) Q st.
Proof.
  intros HR Hz Ha Hc Hac Hi HQ.
  destruct (relz_get _ _ _ _ Hz Ha) as (fa & la & Hfa & Ga).
  destruct (relz_get _ _ _ _ Hz Hc) as (fz & lz & Hfz & Gz).
  destruct (goodw_len _ _ _ _ _ _ _ HR Hfa Ga) as [La1 La2].
  destruct (goodw_len _ _ _ _ _ _ _ HR Hfz Gz) as [Lz1 Lz2].
  rewrite <- (goodw_ndig _ _ _ Ga) in *. pose proof (kfoot_ge (length la)) as Kg.
  unfold USQR. wb. eapply wpR_used; [done..|].
  rewrite (goodw_u _ _ _ Ga). rewrite u32_id by mx.
  set (n := (2 * length la)%nat) in *. replace (Z.of_nat (length la) + Z.of_nat (length la)) with (Z.of_nat n) by lia.
  wb. eapply wpR_digits; [done..|].
  destruct (ini_take _ _ _ (zi zz) Gz ltac:(lia)) as (I & LI & DI & EI).
  assert (zi zz <= length (fc fz))%nat as Hzl.
  { apply (f_equal length) in EI. rewrite take_length, fmap_length in EI. lia. }
  set (G := drop n I). assert (digs G) as DG by (by apply Forall_drop).
  assert (length G = zi zz - n)%nat as LG by (unfold G; rewrite drop_length; lia).
  wb. eapply (wp_ZERO _ n); [done|eapply R_valid; [done|done|done|lia]|].
  pose proof (R_wr0 _ _ _ c fz (replicate n 0) HR Hfz ltac:(rewrite replicate_length; lia)) as HR1.
  rewrite replicate_length in HR1. set (c1 := _ ++ _) in HR1.
  assert (c1 = (Some <$> (replicate n 0 ++ G)) ++ drop (zi zz) (fc fz)) as Ec1.
  { unfold c1. rewrite fmap_app, <- app_assoc. f_equal. unfold G. rewrite fmap_drop, <- EI.
    rewrite <- (take_drop (zi zz) (fc fz)) at 1. rewrite drop_app_le; [done|]. rewrite take_length. lia. }
  set (F1 := Fo (fs fz) (fu fz) c1 (fl fz)) in HR1. pose proof (lookup_insert σ c F1) as HF1.
  assert (<[c := F1]> σ !! a = Some fa) as Hfa1 by (by rewrite lookup_insert_ne).
  wb. eapply wpR_digits; [done..|].
  assert (length G + n = zi zz)%nat as LGn by lia.
  wb. eapply (wp_s_ksqr la G); [done|eapply view_darr; [done|done|apply Ga]|by eapply goodw_dig|done| | | | | |].
  { fold n. eapply (R_darr _ _ _ c F1); [done|done|exact Ec1]. }
  { fold n. lia. }
  { left. simpl. eapply (R_fl_ne _ _ _ c a F1 fa); try done; congruence. }
  { pose proof (R_glob _ _ _ HR1) as Hg. pose proof (R_ok _ _ _ HR1) as Ho. rewrite Hg. apply Ho. }
  { mx. }
  intros lc Llc Dlc Vlc. fold n in Llc.
  change (fl fz) with (fl F1).
  pose proof (R_wr0 _ _ _ c F1 (lc ++ G) HR1 HF1) as HR2.
  assert (length (lc ++ G) <= length (fc F1))%nat as Hfit.
  { unfold F1; cbn [fc]. rewrite Ec1, !app_length, fmap_length, app_length, replicate_length. lia. }
  specialize (HR2 Hfit). rewrite insert_insert in HR2. cbn [fs fu fl] in HR2. set (c2 := _ ++ _) in HR2.
  wb. eapply wpR_set_used; [exact HR2|apply lookup_insert|]. intros st3 HR3. rewrite insert_insert in HR3. cbn [fs fu fc fl] in HR3.
  eapply (wpR_CLAMP _ _ _ c _ lc); [exact HR3|apply lookup_insert| |lia|].
  { constructor; cbn [fu fc]; [lia| |done]. unfold c2. rewrite fmap_app, <- app_assoc. by eexists. }
  intros st4 ds k Hcd Hdd Hvd _ HR4 V4. cbn [fs fu fc fl] in *. rewrite insert_insert in HR4. eapply HQ; [exact HR4|].
  eapply (good_intro fz zz _ ds); [by eexists| |done|done| | |apply Gz].
  - eapply (keeps_trans _ F1).
    + unfold F1, c1. pose proof (keeps_wr0 fz (fs fz) (fu fz) (replicate n 0) (digs_zeros _)) as K2. rewrite replicate_length in K2. apply K2. lia.
    + unfold c2. apply (keeps_wr0 F1); [|done]. apply digs_app. done.
  - rewrite Hvd, Vlc, (g_val _ _ _ Ga). done.
  - cbn [fs]. apply Gz.
Qed.
Lemma wpZ_USQR st ζ X a c za zz (Q : unit -> state -> Prop) :
  RZ st ζ X -> ζ !! a = Some za -> ζ !! c = Some zz -> a <> c ->
  (kfoot (ndig (zm za)) <= zi zz)%nat ->
  (forall st', RZ st' (<[c := zput zz (zs zz) (zm za * zm za)]> ζ) X -> Q tt st') ->
  wp (USQR a c) Q st.
Proof.
  intros (σ & HR & Hz) Ha Hc Hac Hi HQ. eapply wpS_USQR; [done..|]. intros st' F HR' G. apply HQ. by eapply RZ_upd.
Qed.
