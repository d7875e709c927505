(** Numerals, and rules for writing them. *)
From Coq Require Import ZArith Zwf List Lia.
From stdpp Require Import gmap list.
From Verif Require Import Mem Prog Kern Imath Wp MemLem Dig KernLem KernMul KernKar Rel RelWp RelZ Life Basic Basic2 Mult Shift Knuth Divi Powr Spec Public Buf.
Local Open Scope Z_scope.

(** ** Numerals *)
Fixpoint lval (r : Z) (ds : list Z) : Z := match ds with [] => 0 | d :: ds' => d + r * lval r ds' end.
Definition rdigs (r : Z) (ds : list Z) : Prop := Forall (fun d => 0 <= d < r) ds.
Lemma lval_snoc r ds d : lval r (ds ++ [d]) = lval r ds + r ^ Z.of_nat (length ds) * d.
Proof.
  induction ds as [|e ds IH]; cbn [lval app length]; [rewrite Z.pow_0_r; lia|]. rewrite IH, Nat2Z.inj_succ, Z.pow_succ_r by lia. lia.
Qed.
Lemma horner_snoc r ds d : horner r (ds ++ [d]) = horner r ds * r + d.
Proof. unfold horner. by rewrite fold_left_app. Qed.
Lemma horner_rev r ds : horner r (rev ds) = lval r ds.
Proof. induction ds as [|d ds IH]; [done|]. cbn [rev lval]. rewrite horner_snoc, IH. lia. Qed.
Lemma lval_rev r ds : lval r (rev ds) = horner r ds.
Proof. by rewrite <- horner_rev, rev_involutive. Qed.
Lemma lval_bounds r ds : 0 < r -> rdigs r ds -> 0 <= lval r ds < r ^ Z.of_nat (length ds).
Proof.
  intros Hr H. induction H as [|d ds Hd _ IH]; cbn [lval length]; [rewrite Z.pow_0_r; lia|]. rewrite Nat2Z.inj_succ, Z.pow_succ_r by lia. nia.
Qed.
Lemma lval_inj r : 0 < r -> forall ds ds', rdigs r ds -> rdigs r ds' -> length ds = length ds' -> lval r ds = lval r ds' -> ds = ds'.
Proof.
  intros Hr. induction ds as [|d ds IH]; intros [|d' ds'] H H' L E; try done. apply Forall_cons in H as [Hd H], H' as [Hd' H'].
  cbn [lval] in E. assert (d = d' /\ lval r ds = lval r ds') as [-> E'].
  { assert (lval r ds = lval r ds'); [|nia]. assert (lval r ds < lval r ds' + 1 /\ lval r ds' < lval r ds + 1); [nia|lia]. }
  f_equal. apply IH; [done..|by injection L|done].
Qed.
(** No superfluous zero at the high end. *)
Definition rtop (r : Z) (ds : list Z) : Prop := ds <> [] -> r ^ (Z.of_nat (length ds) - 1) <= lval r ds.
Lemma rlen_le r ds n v : 1 < r -> v < r ^ Z.of_nat n -> rtop r ds -> lval r ds = v -> (length ds <= n)%nat.
Proof.
  intros Hr Hv Ht E. destruct ds as [|d ds]; [simpl; lia|]. specialize (Ht ltac:(done)). rewrite E in Ht.
  assert (r ^ (Z.of_nat (length (d :: ds)) - 1) < r ^ Z.of_nat n) as Hlt by lia. apply Z.pow_lt_mono_r_iff in Hlt; lia.
Qed.
Lemma rtop_inj r ds ds' : 1 < r -> rdigs r ds -> rdigs r ds' -> rtop r ds -> rtop r ds' -> lval r ds = lval r ds' -> ds = ds'.
Proof.
  intros Hr H H' T T' E. pose proof (lval_bounds r ds ltac:(lia) H). pose proof (lval_bounds r ds' ltac:(lia) H').
  apply (lval_inj r); [lia|done|done| |done].
  pose proof (rlen_le r ds (length ds') (lval r ds) Hr ltac:(lia) T eq_refl). pose proof (rlen_le r ds' (length ds) (lval r ds') Hr ltac:(lia) T' eq_refl). lia.
Qed.
Lemma rtop_snoc r ds d : 1 < r -> rdigs r ds -> 0 < d -> rtop r (ds ++ [d]).
Proof.
  intros Hr H Hd _. rewrite lval_snoc, app_length. simpl. pose proof (lval_bounds r ds ltac:(lia) H).
  replace (Z.of_nat (length ds + 1) - 1) with (Z.of_nat (length ds)) by lia. nia.
Qed.
Lemma numeral_inv r v s : 2 <= r -> numeral r v s -> v <> 0 -> exists ds, rdigs r ds /\ rtop r ds /\ lval r ds = Z.abs v /\ ds <> [] /\
  s = (if v <? 0 then [45] else []) ++ rev (map digit_char ds).
Proof.
  intros Hr (ds & H & E & N & T & ->) Hv. exists (rev ds). split; [by apply Forall_rev|]. split.
  - destruct ds as [|d ds]; [done|]. simpl. apply Forall_cons in H as [Hd H]. apply rtop_snoc; [lia|by apply Forall_rev|].
    destruct (Z.eq_dec d 0) as [->|]; [|lia]. specialize (T eq_refl). injection T as ->. rewrite <- lval_rev in E. simpl in E. lia.
  - split; [by rewrite lval_rev|]. split; [intros E'; apply N; by rewrite <- (rev_involutive ds), E'|]. by rewrite <- map_rev, rev_involutive.
Qed.
Lemma numeral_intro r v ds : 2 <= r -> rdigs r ds -> rtop r ds -> lval r ds = Z.abs v -> ds <> [] -> numeral r v ((if v <? 0 then [45] else []) ++ rev (map digit_char ds)).
Proof.
  intros Hr H T E N. exists (rev ds). split; [by apply Forall_rev|]. split; [by rewrite horner_rev|]. split; [intros E'; apply N; by rewrite <- (rev_involutive ds), E'|].
  split; [|by rewrite map_rev]. destruct ds as [|d ds _] using rev_ind; [done|]. rewrite rev_app_distr. simpl. intros [= ->].
  destruct ds as [|e ds]; [done|]. exfalso. apply Forall_app in H as [H _]. pose proof (lval_bounds r _ ltac:(lia) H) as [_ B]. specialize (T N).
  rewrite lval_snoc, app_length in T. simpl in T, B. replace (Z.of_nat (S (length ds + 1)) - 1) with (Z.of_nat (S (length ds))) in T by lia. lia.
Qed.
Lemma numeral_zero r s : 2 <= r -> numeral r 0 s -> s = [48].
Proof.
  intros Hr (ds & H & E & N & T & ->). simpl. destruct ds as [|d ds]; [done|]. assert (d = 0) as ->.
  - apply Forall_cons in H as [Hd H]. rewrite <- lval_rev in E. simpl in E. rewrite lval_snoc in E.
    pose proof (lval_bounds r (rev ds) ltac:(lia) ltac:(by apply Forall_rev)). pose proof (Z.pow_pos_nonneg r (Z.of_nat (length (rev ds))) ltac:(lia) ltac:(lia)). nia.
  - specialize (T eq_refl). by injection T as ->.
Qed.
(** Every number has exactly one numeral. *)
Theorem numeral_unique r v s s' : 2 <= r -> numeral r v s -> numeral r v s' -> s = s'.
Proof.
  intros Hr H H'. destruct (Z.eq_dec v 0) as [->|Hv]; [rewrite (numeral_zero r s), (numeral_zero r s'); done|].
  apply numeral_inv in H as (ds & D & T & E & _ & ->); [|done..]. apply numeral_inv in H' as (ds' & D' & T' & E' & _ & ->); [|done..].
  do 3 f_equal. apply (rtop_inj r); [lia|done..|lia].
Qed.
Lemma numeral_digits r n : 2 <= r -> 0 < n -> exists ds, rdigs r ds /\ rtop r ds /\ lval r ds = n /\ ds <> [].
Proof.
  intros Hr. induction (Zwf_well_founded 0 n) as [n _ IH]. unfold Zwf in IH. intros Hn. destruct (Z.ltb_spec n r).
  - exists [n]. split; [constructor; [lia|constructor]|]. split; [intros _; simpl; lia|]. split; [simpl; lia|done].
  - destruct (IH (n / r)) as (ds & D & T & E & N); [split; [lia|apply Z.div_lt; lia]|apply Z.div_str_pos; lia|].
    exists (n mod r :: ds). pose proof (Z.mod_pos_bound n r ltac:(lia)). pose proof (Z.div_mod n r ltac:(lia)). split; [by constructor|]. split; [|split; [simpl; lia|done]].
    intros _. specialize (T N). cbn [lval length]. rewrite Nat2Z.inj_succ. replace (Z.succ (Z.of_nat (length ds)) - 1) with (Z.succ (Z.of_nat (length ds) - 1)) by lia.
    rewrite Z.pow_succ_r by (destruct ds; [done|simpl; lia]). nia.
Qed.
Theorem numeral_exists r v : 2 <= r -> exists s, numeral r v s.
Proof.
  intros Hr. destruct (Z.eq_dec v 0) as [->|Hv].
  - exists [48], [0]. split; [constructor; [lia|constructor]|done].
  - destruct (numeral_digits r (Z.abs v) Hr) as (ds & D & T & E & N); [lia|]. eexists. by eapply numeral_intro.
Qed.

(** ** Writing *)
Lemma val2ch_char d : 0 <= d < 36 -> s_val2ch d true = digit_char d.
Proof.
  intros H. unfold s_val2ch, digit_char, toupper, islower. destruct (Z.ltb_spec d 10); [lia|].
  destruct (Z.leb_spec 97 (d - 10 + 97)), (Z.leb_spec (d - 10 + 97) 122); simpl; lia.
Qed.
Lemma ts_loop_S n tmp radix str cmp : to_string_loop (S n) tmp radix str cmp =
  (cmp <- CMPZ tmp; if cmp =? 0 then Ret (str, cmp) else d <- s_ddiv tmp radix; Store str (s_val2ch d true);; to_string_loop n tmp radix (str +p 1) cmp)%prog.
Proof. done. Qed.

Section ts.
Context (ζ : gmap oid zv) (X : ctx) (b : base) (l : list cell) (off : nat) (r : Z) (t : oid) (Hr : 2 <= r <= 36).
Lemma wpZ_ts_loop k : forall st z (s : list Z) cmp (Q : ptr * Z -> state -> Prop),
  RZ st (<[t := z]> ζ) (setb X b (overwrite off s l)) -> (off + length s <= length l)%nat ->
  (forall j, (j < k)%nat -> r ^ Z.of_nat j <= zm z -> (off + length s + j < length l)%nat) ->
  (forall st' z' ds c, RZ st' (<[t := z']> ζ) (setb X b (overwrite off (s ++ map digit_char ds) l)) -> rdigs r ds ->
     zm z = lval r ds + r ^ Z.of_nat (length ds) * zm z' -> (length ds <= k)%nat -> (ds <> [] -> r ^ (Z.of_nat (length ds) - 1) <= zm z) -> zo z' = zo z ->
     (((length ds < k)%nat /\ zm z' = 0 /\ c = 0) \/ (length ds = k /\ (k = 0%nat -> c = cmp) /\ (k <> 0%nat -> c <> 0))) ->
     (off + length s + length ds <= length l)%nat ->
     Q ((b, Z.of_nat (off + length s + length ds)), c) st') ->
  wp (to_string_loop k t r (b, Z.of_nat (off + length s)) cmp) Q st.
Proof.
  induction k as [|k IH]; intros st z s cmp Q HZ Hl Hj HQ.
  - cbn [to_string_loop]. apply wp_ret. specialize (HQ st z [] cmp). rewrite app_nil_r, Nat.add_0_r in HQ. apply HQ; try done.
    + constructor.
    + simpl. rewrite Z.pow_0_r. lia.
    + right. done.
  - rewrite ts_loop_S. assert (0 <= zm z) as Hz0. { destruct (RZ_s01 _ _ _ _ _ HZ (lookup_insert _ _ _)) as [? ?]. done. }
    wb. eapply wpZ_CMPZ; [exact HZ|apply lookup_insert|].
    destruct (Z.eqb_spec (Z.sgn (zval z)) 0) as [E|E].
    + apply wp_ret. assert (zm z = 0) as Ez. { apply Z.sgn_null_iff in E. unfold zval in E. destruct (zs z =? 0); lia. }
      specialize (HQ st z [] 0). rewrite app_nil_r, Nat.add_0_r in HQ. rewrite E. apply HQ; try done.
      * constructor.
      * simpl. lia.
      * simpl. lia.
      * left. simpl. lia.
    + assert (0 < zm z) as Hz1. { destruct (Z.eq_dec (zm z) 0) as [E0|]; [|lia]. exfalso. apply E. unfold zval. rewrite E0. by destruct (zs z =? 0). }
      wb. eapply wpZ_ddiv; [exact HZ|apply lookup_insert|mx|]. intros st1 HZ1. rewrite insert_insert in HZ1.
      pose proof (Z.mod_pos_bound (zm z) r ltac:(lia)) as Hd. rewrite val2ch_char by lia. set (d := zm z mod r) in *.
      assert (off + length s < length l)%nat as Hs. { specialize (Hj 0%nat). rewrite Z.pow_0_r in Hj. lia. }
      wb. eapply wpZ_storeb; [exact HZ1|apply setb_lookup|rewrite overwrite_length by lia; lia|]. intros st2 HZ2. rewrite setb_setb, Nat2Z.id, insert_overwrite in HZ2 by done.
      replace (padd (b, Z.of_nat (off + length s)) 1) with (b, Z.of_nat (off + length (s ++ [digit_char d]))) by (unfold padd; simpl; f_equal; rewrite app_length; simpl; lia).
      pose proof (Z.div_mod (zm z) r ltac:(lia)) as Hdm. fold d in Hdm.
      eapply IH; [exact HZ2|rewrite app_length; simpl; lia| |].
      * intros j Hjk Hp. cbn [zm zput] in Hp. rewrite app_length. simpl. specialize (Hj (S j) ltac:(lia)). rewrite Nat2Z.inj_succ, Z.pow_succ_r in Hj by lia.
        cut (off + length s + S j < length l)%nat; [lia|]. apply Hj. nia.
      * cbn [zm zput zo]. intros st' z' ds c HZ' D Ev Lk Tp Eo Hc Hlen. rewrite app_length in Hlen |- *. simpl in Hlen |- *.
        replace (off + (length s + 1) + length ds)%nat with (off + length s + length (d :: ds))%nat by (simpl; lia).
        apply (HQ st' z' (d :: ds) c).
        -- rewrite <- app_assoc in HZ'. exact HZ'.
        -- by constructor.
        -- cbn [lval length]. rewrite Nat2Z.inj_succ, Z.pow_succ_r by lia. rewrite Hdm at 1. rewrite Ev. lia.
        -- simpl. lia.
        -- intros _. cbn [length]. replace (Z.of_nat (S (length ds)) - 1) with (Z.of_nat (length ds)) by lia. destruct ds as [|e ds]; [simpl; rewrite ?Z.pow_0_r; lia|].
           specialize (Tp ltac:(done)). cbn [length] in *. rewrite Nat2Z.inj_succ in *. replace (Z.succ (Z.of_nat (length ds)) - 1) with (Z.of_nat (length ds)) in Tp by lia.
           rewrite Z.pow_succ_r by lia. nia.
        -- done.
        -- destruct Hc as [(H1 & H2 & H3)|(H1 & H2 & H3)]; [left; simpl; lia|right]. split; [simpl; lia|]. split; [done|]. intros _.
           destruct (Nat.eq_dec k 0%nat) as [->|]; [rewrite H2 by done; exact E|by apply H3].
        -- simpl. lia.
Qed.
End ts.

Lemma wpV_to_string st V X z v r b (off : nat) l limit s (Q : Z -> state -> Prop) :
  RV st V X -> V !! z = Some v -> cmem X !! b = Some l -> 2 <= r <= 36 -> 2 <= limit -> numeral r v s ->
  (off + Nat.min (length s) (Z.to_nat limit) + 1 <= length l)%nat ->
  (forall st', Z.of_nat (length s) < limit -> RV st' V (setb X b (overwrite off (s ++ [0]) l)) -> Q MP_OK st') ->
  (forall st' s', limit <= Z.of_nat (length s) -> length s' = Z.to_nat limit -> RV st' V (setb X b (overwrite off (s' ++ [0]) l)) -> Q MP_TRUNC st') ->
  wp (mp_int_to_string z r (b, Z.of_nat off) limit) Q st.
Proof.
  intros (ζ & HZ & Hv) Hz Hb Hr Hlim Hs Hl HQ1 HQ2. destruct (relv_some _ _ _ _ Hv Hz) as (zz & Hz' & <- & Nz & Oz).
  destruct (RZ_s01 _ _ _ _ _ HZ Hz') as [Mz Sz].
  unfold mp_int_to_string. wb. apply wp_assert; [lia|]. wb. apply wp_assert; [lia|].
  wb. eapply wpZ_CMPZ; [done..|]. destruct (Z.eqb_spec (Z.sgn (zval zz)) 0) as [E|E].
  - apply (proj1 (Z.sgn_null_iff _)) in E. rewrite E in Hs. apply numeral_zero in Hs as ->; [|lia]. cbn [length] in Hl.
    wb. eapply wpZ_storeb; [done|done|lia|]. intros st1 HZ1. wb. eapply wpZ_storeb; [exact HZ1|apply setb_lookup|rewrite insert_length; cbn [snd]; lia|]. intros st2 HZ2.
    apply wp_ret, HQ1; [simpl; lia|]. rewrite setb_setb in HZ2. cbn [fst snd] in HZ2. exists ζ. split; [|done].
    rewrite <- (overwrite_nil l off) in HZ2. replace (Z.to_nat (Z.of_nat off)) with (off + length (@nil Z))%nat in HZ2 by (simpl; lia).
    rewrite insert_overwrite in HZ2 by (simpl; lia). replace (Z.to_nat (Z.of_nat off + 1)) with (off + length ([] ++ [s_val2ch 0 true]))%nat in HZ2 by (simpl; lia).
    rewrite insert_overwrite in HZ2 by (simpl; lia). exact HZ2.
  - assert (zval zz <> 0) as Hne by (intros E'; by rewrite E' in E). clear E.
    apply numeral_inv in Hs as (ds0 & D0 & T0 & E0 & N0 & ->); [|lia|done]. rewrite app_length, rev_length, map_length in Hl, HQ1, HQ2.
    apply wp_NewO. intros z0 iz0 Fz0. destruct (RZ_newO st ζ X false z0 _ HZ Fz0) as (Ht1 & Ht2 & HZ1). set (t := (false, iz0)) in *.
    wb. eapply wpZ_init_copy; [exact HZ1|simpl; apply lookup_insert|done|]. intros st1 _ HZ2. simpl in HZ2. rewrite delete_insert in HZ2 by done.
    assert (RZ st1 (<[t:=zput zzero (zs zz) (zm zz)]> ζ) X) as HZ2' by (destruct X; exact HZ2). clear HZ1 HZ2.
    assert (t <> z) as Ntz by congruence.
    change (negb (MP_OK =? MP_OK)) with false. cbv iota.
    wb. eapply wpZ_sign; [exact HZ2'|rewrite lookup_insert_ne by done; exact Hz'|].
    set (sg := if zval zz <? 0 then [45] else []) in *.
    assert (zm zz = Z.abs (zval zz)) as Em by (by apply zm_abs).
    assert (zs zz = MP_NEG <-> zval zz < 0) as Hneg. { unfold zval, MP_NEG in *. destruct Sz as [S|S]; rewrite S in *; simpl; [lia|]. change (1 =? 0) with false in *. cbv iota in *. lia. }
    wb. eapply wp_mono with (Q := fun sl st2 => sl = ((b, Z.of_nat (off + length sg)), limit - Z.of_nat (length sg)) /\
       RZ st2 (<[t:=zput zzero (zs zz) (zm zz)]> ζ) (setb X b (overwrite off sg l))).
    { unfold sg in *. destruct (Z.eqb_spec (zs zz) MP_NEG) as [En|En].
      - apply Hneg in En. rewrite (proj2 (Z.ltb_lt _ _) En) in *. cbn [length] in Hl.
        wb. eapply wpZ_storeb; [exact HZ2'|done|lia|]. intros st2 HZ3. apply wp_ret. split; [unfold padd; simpl; do 2 f_equal; lia|].
        rewrite <- (overwrite_nil l off) in HZ3. replace (Z.to_nat (Z.of_nat off)) with (off + length (@nil Z))%nat in HZ3 by (simpl; lia).
        rewrite insert_overwrite in HZ3 by (simpl; lia). exact HZ3.
      - assert (~ zval zz < 0) as En' by (by rewrite <- Hneg). rewrite (proj2 (Z.ltb_ge _ _)) by lia. apply wp_ret. simpl. rewrite Nat.add_0_r, Z.sub_0_r, overwrite_nil, setb_id; done. }
    intros sl st2 [-> HZ3]. cbn [fst snd].
    assert (length sg <= 1)%nat as Lsg by (unfold sg; destruct (zval zz <? 0); simpl; lia).
    destruct ds0 as [|d0 ds0'] eqn:Eds; [done|]. rewrite <- Eds in *. assert (1 <= length ds0)%nat as L0 by (rewrite Eds; simpl; lia). clear Eds d0 ds0'.
    specialize (T0 N0). rewrite E0, <- Em in T0. pose proof (lval_bounds r ds0 ltac:(lia) D0) as B0. rewrite E0, <- Em in B0.
    assert (forall j, r ^ Z.of_nat j <= zm zz -> (j < length ds0)%nat) as Hdig.
    { intros j Hj. assert (r ^ Z.of_nat j < r ^ Z.of_nat (length ds0)) as Hlt by lia. apply Z.pow_lt_mono_r_iff in Hlt; lia. }
    wb. eapply wpZ_ts_loop; [done|exact HZ3|lia| |].
    { cbn [zm zput]. intros j Hj Hp. apply Hdig in Hp. lia. }
    cbn [zm zput zo zzero]. intros st3 z' ds c HZ4 D Ev Lk Tp Eo Hc Hlen.
    wb. eapply (wpZ_rev _ _ _ _ b (overwrite off sg l) (off + length sg) (map digit_char ds)).
    { exact HZ4. } { rewrite setb_lookup. rewrite overwrite_app by (rewrite map_length; lia). done. }
    { rewrite overwrite_length by lia. rewrite map_length. lia. } { rewrite map_length. cbn [fst snd]. lia. }
    { done. } { unfold padd. cbn [fst snd]. rewrite map_length. f_equal. lia. }
    intros st4 HZ5. rewrite setb_setb in HZ5. rewrite overwrite_app in HZ5 by (rewrite rev_length, map_length; lia).
    wb. eapply wpZ_clear; [exact HZ5|apply lookup_insert|done|]. intros st5 z5 _ HZ6. rewrite delete_insert in HZ6 by done.
    set (txt := sg ++ rev (map digit_char ds)) in *. assert (length txt = length sg + length ds)%nat as Ltxt by (unfold txt; rewrite app_length, rev_length, map_length; done).
    assert (length ds <= length ds0)%nat as Lds. { destruct ds as [|e ds]; [simpl; lia|]. specialize (Tp ltac:(done)). replace (Z.of_nat (length (e :: ds)) - 1) with (Z.of_nat (length ds)) in Tp by (simpl; lia). apply Hdig in Tp. simpl. lia. }
    wb. eapply wpZ_storeb; [exact HZ6|simpl; apply lookup_insert|rewrite overwrite_length by lia; lia|]. intros st6 HZ7.
    replace (Z.to_nat (Z.of_nat (off + length sg + length ds))) with (off + length txt)%nat in HZ7 by lia. rewrite insert_overwrite in HZ7 by lia.
    eapply wp_DelO; [eapply RZ_raw; [exact HZ7|simpl; apply lookup_insert]|done|]. eapply RZ_delO in HZ7; [|simpl; apply lookup_insert].
    assert (RZ (del_obj st6 t) ζ (setb X b (overwrite off (txt ++ [0]) l))) as HZ8.
    { unfold with_craw, setb, with_cmem in HZ7. simpl in HZ7. rewrite delete_insert in HZ7 by done. rewrite insert_insert in HZ7. exact HZ7. }
    clear HZ7. apply wp_ret.
    destruct Hc as [(H1 & H2 & ->)|(H1 & _ & H3)].
    + assert (ds = ds0) as ->.
      { rewrite H2, Z.mul_0_r, Z.add_0_r in Ev. apply (rtop_inj r); [lia|done|done| |intros _; lia|lia]. intros Nd. specialize (Tp Nd). lia. }
      apply HQ1; [lia|]. exists ζ. split; [|done]. exact HZ8.
    + cbn [snd]. destruct (Z.eqb_spec c 0) as [->|Hc]; [lia|]. apply (HQ2 _ txt); [lia|lia|]. by exists ζ.
Qed.
