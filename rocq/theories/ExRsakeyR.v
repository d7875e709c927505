(** Rules for examples/rsakey.c. *)
From Coq Require Import ZArith Znumtheory List Lia.
From stdpp Require Import gmap list.
From Verif Require Import Mem Prog Kern Fp Imath Imrat Gmp Wp MemLem Dig KernLem Rel RelWp RelZ Life Basic Basic2 Mult Shift Knuth Divi Powr Spec SpecBin Public Gcd Root Buf Text Read Outlen Inlen Bin Rat Gmpr.
From Verif Require Import Rsa Rsamath GmpAlloc SpecGalloc Galloc Iprime SpecPrime Prime ExPiR SpecKey ExRsakey.
Local Open Scope Z_scope.
Local Open Scope prog_scope.

(** ** Bits of a number given by bytes *)
Lemma byte_split a m r i : 0 <= m -> 0 <= r < 2 ^ m -> 0 <= i -> Z.testbit (a * 2 ^ m + r) i = if i <? m then Z.testbit r i else Z.testbit a (i - m).
Proof.
  intros Hm Hr Hi. destruct (Z.ltb_spec i m) as [L|L].
  - rewrite <- (Z.mod_pow2_bits_low _ m) by lia. f_equal. rewrite Z.add_comm, Z.mod_add by lia. by apply Z.mod_small.
  - replace i with (i - m + m) at 1 by lia. rewrite <- Z.div_pow2_bits by lia. f_equal. rewrite Z.div_add_l, Z.div_small by lia. lia.
Qed.
Lemma horner_bit bs : Forall is_byte bs -> forall i, 0 <= i < 8 * Z.of_nat (length bs) -> exists c, bs !! (length bs - 1 - Z.to_nat (i / 8))%nat = Some c /\ Z.testbit (horner 256 bs) i = Z.testbit c (i mod 8).
Proof.
  induction bs as [|c bs IH]; intros HB i Hi; [cbn in Hi; lia|]. apply Forall_cons in HB as [Hc HB]. cbn [length] in *. rewrite horner_cons by lia.
  pose proof (Bin.horner_bounds bs HB) as B. replace (256 ^ Z.of_nat (length bs)) with (2 ^ (8 * Z.of_nat (length bs))) in * by (rewrite Z.pow_mul_r by lia; done).
  rewrite byte_split by lia. pose proof (Z.div_mod i 8 ltac:(lia)). pose proof (Z.mod_pos_bound i 8 ltac:(lia)).
  destruct (Z.ltb_spec i (8 * Z.of_nat (length bs))) as [L|L].
  - destruct (IH HB i ltac:(lia)) as (c' & H1 & H2). exists c'. split; [|done]. replace (S (length bs) - 1 - Z.to_nat (i / 8))%nat with (S (length bs - 1 - Z.to_nat (i / 8)))%nat by lia. done.
  - exists c. assert (i / 8 = Z.of_nat (length bs)) as E by lia. rewrite E, Nat2Z.id. replace (S (length bs) - 1 - length bs)%nat with 0%nat by lia. split; [done|]. f_equal. lia.
Qed.
(** The bytes after masking. *)
Definition masked (n : Z) (bs : list Z) : list Z :=
  let bs1 := if n mod 8 =? 0 then bs else alter (fun b => Z.lor (Z.land b (2 ^ (n mod 8) - 1)) (2 ^ (n mod 8) / 2)) 0%nat bs in
  alter (fun b => Z.lor b 1) (length bs - 1)%nat bs1.
Lemma byte_lor b c : is_byte b -> is_byte c -> is_byte (Z.lor b c).
Proof.
  unfold is_byte. intros Hb Hc. split; [apply Z.lor_nonneg; lia|]. apply Z.log2_lt_cancel. rewrite Z.log2_lor by lia. change (Z.log2 256) with 8.
  assert (forall x, 0 <= x < 256 -> Z.log2 x < 8) as L. { intros x Hx. destruct (Z.eq_dec x 0) as [->|]; [done|]. apply Z.log2_lt_pow2; lia. } pose proof (L b Hb). pose proof (L c Hc). lia.
Qed.
Lemma byte_land b c : is_byte b -> 0 <= c -> is_byte (Z.land b c).
Proof.
  unfold is_byte. intros Hb Hc. assert (0 <= Z.land b c) by (apply Z.land_nonneg; lia). split; [done|]. destruct (Z.eq_dec (Z.land b c) 0) as [->|]; [lia|].
  apply Z.log2_lt_cancel. eapply Z.le_lt_trans; [apply Z.log2_land; lia|]. change (Z.log2 256) with 8. assert (Z.log2 b < 8); [|lia]. destruct (Z.eq_dec b 0) as [->|]; [done|]. apply Z.log2_lt_pow2; lia.
Qed.
Lemma half_pow k : 0 < k -> 2 ^ k / 2 = 2 ^ (k - 1).
Proof. intros Hk. replace k with (k - 1 + 1) at 1 by lia. rewrite Z.pow_add_r, Z.pow_1_r by lia. apply Z.div_mul. lia. Qed.
Lemma pow_byte k : 0 <= k < 8 -> is_byte (2 ^ k).
Proof. intros Hk. unfold is_byte. split; [apply Z.pow_nonneg; lia|]. change 256 with (2 ^ 8). apply Z.pow_lt_mono_r; lia. Qed.
Lemma masked_bytes n bs : Forall is_byte bs -> Forall is_byte (masked n bs).
Proof.
  intros HB. unfold masked. apply Forall_alter; [|intros c _ Hc; apply byte_lor; [done|unfold is_byte; lia]].
  destruct (Z.eqb_spec (n mod 8) 0) as [E|E]; [done|]. pose proof (Z.mod_pos_bound n 8 ltac:(lia)). apply Forall_alter; [done|]. intros c _ Hc.
  assert (0 < 2 ^ (n mod 8)) by (apply Z.pow_pos_nonneg; lia). apply byte_lor; [apply byte_land; [done|lia]|]. rewrite half_pow by lia. apply pow_byte. lia.
Qed.
Lemma masked_length n bs : length (masked n bs) = length bs.
Proof. unfold masked. rewrite alter_length. by destruct (_ =? _); rewrite ?alter_length. Qed.
Lemma masked_seed n bs : 1 <= n -> Forall is_byte bs -> Z.of_nat (length bs) = (n + 7) / 8 -> seed_of n bs (horner 256 (masked n bs)).
Proof.
  intros Hn HB HL i Hi. pose proof (masked_bytes n bs HB) as HM. pose proof (masked_length n bs) as LM.
  pose proof (Z.div_mod (n + 7) 8 ltac:(lia)) as D1. pose proof (Z.mod_pos_bound (n + 7) 8 ltac:(lia)) as D2. pose proof (Z.div_mod n 8 ltac:(lia)) as D3. pose proof (Z.mod_pos_bound n 8 ltac:(lia)) as D4.
  set (L := length bs) in *.
  destruct (Z.ltb_spec i (8 * Z.of_nat L)) as [Li|Li].
  2:{ destruct (Z.leb_spec n i) as [_|?]; [|lia]. pose proof (Bin.horner_bounds _ HM) as [B0 B]. rewrite LM in B. fold L in B. destruct (Z.eq_dec (horner 256 (masked n bs)) 0) as [->|N0]; [by rewrite Z.bits_0|].
      apply Z.bits_above_log2; [lia|]. eapply Z.lt_le_trans; [|exact Li]. apply Z.log2_lt_pow2; [lia|]. rewrite Z.pow_mul_r by lia. exact B. }
  destruct (horner_bit (masked n bs) HM i ltac:(lia)) as (c & Hc & ->). destruct (horner_bit bs HB i ltac:(lia)) as (b & Hb & Eb). rewrite Eb. clear Eb. rewrite LM in Hc. fold L in Hc, Hb.
  pose proof (Z.div_mod i 8 ltac:(lia)) as I1. pose proof (Z.mod_pos_bound i 8 ltac:(lia)) as I2. set (j := (L - 1 - Z.to_nat (i / 8))%nat) in *.
  unfold masked in Hc. fold L in Hc. set (f := fun b => Z.lor (Z.land b (2 ^ (n mod 8) - 1)) (2 ^ (n mod 8) / 2)) in *.
  (* the last byte *)
  assert (exists c1, (if n mod 8 =? 0 then bs else alter f 0%nat bs) !! j = Some c1 /\ Z.testbit c (i mod 8) = ((i =? 0) || Z.testbit c1 (i mod 8))%bool) as (c1 & Hc1 & ->).
  { destruct (Nat.eq_dec j (L - 1)%nat) as [Ej|Nj].
    - rewrite Ej, list_lookup_alter in Hc. destruct ((if n mod 8 =? 0 then bs else alter f 0%nat bs) !! (L - 1)%nat) as [c1|] eqn:E1; [|done]. cbn in Hc. injection Hc as <-. exists c1. rewrite Ej. split; [done|].
      assert (i / 8 = 0) as Z0 by lia. assert (i mod 8 = i) as -> by lia. rewrite Z.lor_spec. rewrite (orb_comm (i =? 0)). assert (Z.testbit 1 i = (i =? 0)) as ->; [|done]. change 1 with (2 ^ 0). destruct (Z.eqb_spec i 0) as [E0|E0]; [rewrite E0; by apply Z.pow2_bits_true|by apply Z.pow2_bits_false].
    - rewrite list_lookup_alter_ne in Hc by done. exists c. split; [done|]. assert (0 < i / 8) by lia. destruct (Z.eqb_spec i 0); [lia|done]. }
  (* the first byte *)
  destruct (Z.eqb_spec (n mod 8) 0) as [E|E].
  { assert (c1 = b) as -> by congruence. destruct (Z.leb_spec n i) as [?|_]; [lia|]. cbn [negb]. by rewrite andb_false_r, orb_false_r. }
  cbn [negb]. rewrite andb_true_r. destruct (Nat.eq_dec j 0%nat) as [Ej|Nj].
  - rewrite Ej, list_lookup_alter in Hc1. rewrite Ej in Hb. rewrite Hb in Hc1. cbn in Hc1. injection Hc1 as <-. assert (i / 8 = n / 8) as Eq by lia.
    unfold f. rewrite Z.lor_spec, Z.land_spec, half_pow by lia. replace (2 ^ (n mod 8) - 1) with (Z.ones (n mod 8)) by (rewrite Z.ones_equiv; lia).
    destruct (Z.leb_spec n i) as [G|G].
    + rewrite Z.ones_spec_high by lia. rewrite andb_false_r. rewrite Z.pow2_bits_false by lia. destruct (Z.eqb_spec i 0); [lia|done].
    + rewrite Z.ones_spec_low by lia. rewrite andb_true_r. destruct (Z.eqb_spec i (n - 1)) as [En|En].
      * replace (i mod 8) with (n mod 8 - 1) by lia. rewrite Z.pow2_bits_true by lia. by rewrite !orb_true_r.
      * rewrite Z.pow2_bits_false by lia. by rewrite !orb_false_r.
  - rewrite list_lookup_alter_ne in Hc1 by done. assert (c1 = b) as -> by congruence. destruct (Z.leb_spec n i) as [?|_]; [lia|]. destruct (Z.eqb_spec i (n - 1)); [lia|]. by rewrite orb_false_r.
Qed.
Lemma seed_bounds n bs v : 1 <= n -> seed_of n bs v -> Z.odd v = true /\ 1 <= v < 2 ^ n /\ (n mod 8 <> 0 -> 2 ^ (n - 1) <= v).
Proof.
  intros Hn H. assert (Z.odd v = true) as O. { rewrite <- Z.bit0_odd, H by lia. destruct (Z.leb_spec n 0); [lia|done]. }
  assert (0 <= v) as Pv. { apply Z.bits_iff_nonneg_ex. exists n. intros m Hm. rewrite H by lia. destruct (Z.leb_spec n m); [done|lia]. }
  assert (v < 2 ^ n) as Uv. { destruct (Z.ltb_spec v (2 ^ n)) as [|G]; [done|exfalso]. assert (0 < 2 ^ n) by (apply Z.pow_pos_nonneg; lia).
    pose proof (Z.log2_le_mono _ _ G) as LG. rewrite Z.log2_pow2 in LG by lia. pose proof (Z.bit_log2 v ltac:(lia)) as B. rewrite H in B by lia. destruct (Z.leb_spec n (Z.log2 v)); [done|lia]. }
  split; [done|]. split; [destruct (Z.eq_dec v 0) as [->|]; [done|lia]|]. intros E.
  assert (Z.testbit v (n - 1) = true) as B. { rewrite H by lia. destruct (Z.leb_spec n (n - 1)); [lia|]. rewrite (proj2 (Z.eqb_eq (n - 1) (n - 1))) by done. rewrite (proj2 (Z.eqb_neq _ _) E). by rewrite orb_true_r. }
  destruct (Z.leb_spec (2 ^ (n - 1)) v) as [|G]; [done|exfalso]. destruct (Z.eq_dec v 0) as [->|]; [by rewrite Z.bits_0 in B|].
  rewrite Z.bits_above_log2 in B; [done|lia|]. apply Z.log2_lt_pow2; lia.
Qed.

(** ** Random numbers *)
Lemma wpV_store_bytes V b bs : forall st X l (off : nat) (Q : unit -> state -> Prop), RV st V X -> cmem X !! b = Some l -> (off + length bs <= length l)%nat ->
  (forall st', RV st' V (setb X b (overwrite off bs l)) -> Q tt st') -> wp (store_bytes bs (b, Z.of_nat off)) Q st.
Proof.
  induction bs as [|c bs IH]; intros st X l off Q HV Hb Hl HQ; cbn [store_bytes length] in *.
  - apply wp_ret. apply HQ. by rewrite overwrite_nil, setb_id.
  - wb. eapply wpV_storeb; [exact HV|exact Hb|lia|]. intros st1 HV1. rewrite Nat2Z.id in HV1. rewrite padd_1.
    eapply IH; [exact HV1|apply setb_lookup|rewrite insert_length; lia|]. intros st2 HV2. apply HQ. rewrite setb_setb in HV2.
    replace (overwrite off (c :: bs) l) with (overwrite (S off) bs (<[off:=Some c]> l)); [exact HV2|].
    rewrite <- overwrite_1 by lia. replace (S off) with (off + length [c])%nat by (cbn; lia). rewrite overwrite_app; [done|]. cbn. lia.
Qed.
Lemma overwrite_all (s : list Z) l : length s = length l -> overwrite 0 s l = Some <$> s.
Proof. intros H. unfold overwrite. cbn [take app Nat.add]. rewrite drop_ge by lia. by rewrite app_nil_r. Qed.
Lemma fmap_alter (bs : list Z) i f c : bs !! i = Some c -> <[i := Some (f c)]> (Some <$> bs : list cell) = Some <$> alter f i bs.
Proof.
  intros Hc. apply list_eq. intros j. rewrite list_lookup_fmap. destruct (decide (j = i)) as [->|N].
  - rewrite list_lookup_insert by (rewrite fmap_length; by eapply lookup_lt_Some). by rewrite list_lookup_alter, Hc.
  - rewrite list_lookup_insert_ne by done. by rewrite list_lookup_alter_ne, list_lookup_fmap by done.
Qed.
Lemma wpV_randomize st V X a va n d (Q : Z -> state -> Prop) :
  RV st V X -> V !! a = Some va -> 1 <= n < 2 ^ 32 - 8 -> good_draw d ->
  (forall r st', r = MP_MEMORY \/ r = MP_TRUNC /\ short n d -> RV st' V X -> Q r st') ->
  (forall bs v st', taken n d bs -> seed_of n bs v -> RV st' (<[a := v]> V) X -> Q MP_OK st') ->
  wp (mp_int_randomize a n d) Q st.
Proof.
  intros HV Ha Hn Hd HF HQ. unfold mp_int_randomize. rewrite (Z.mod_small (n + 7)) by lia. set (nb := (n + 7) / 8).
  assert (1 <= nb) as Pnb. { apply (Z.div_le_lower_bound (n + 7) 8 1); lia. }
  assert (nb < 2 ^ 32) as Unb. { apply Z.div_lt_upper_bound; lia. }
  apply wp_Malloc; [right; apply wp_ret; apply (HF MP_MEMORY); [by left|exact HV]|]. intros [_ HM] i Fi. change MAXD with (2 ^ 25) in HM. destruct (RV_newB st V X i (blank nb) Fi HV) as [C1 HV1]. set (st1 := add_block _ _ _) in *. clearbody st1.
  assert (length (blank nb) = Z.to_nat nb) as Lb by apply replicate_length.
  assert (forall r st2 V2 l, length l = Z.to_nat nb -> RV st2 V2 (setb X (Hp i) l) -> (forall st', RV st' V2 X -> Q r st') -> wp (memset (Hp i, 0) 0 nb;; Free (Hp i, 0) (Ret r)) Q st2) as Hend.
  { intros r st2 V2 l Hl HV2 HQ'. wb. change (Hp i, 0) with (Hp i, Z.of_nat 0) at 1. rewrite <- (Z2Nat.id nb) at 1 by lia.
    eapply wpV_memset; [exact HV2|apply setb_lookup|lia|]. intros st3 HV3. rewrite setb_setb in HV3. eapply wp_Free; [|].
    - unfold live_heap. cbn. eapply RV_mem; [exact HV3|apply setb_lookup].
    - apply wp_ret. apply HQ'. cbn [fst]. pose proof (RV_delB _ _ _ _ _ HV3 (setb_lookup _ _ _)) as HV4. by rewrite setb_del in HV4. }
  destruct d as [all|].
  2:{ wb. cbn [randomize]. apply wp_ret. wb. destruct (Z.eqb_spec (-1 mod 2 ^ 32) nb) as [E|E]; [change (-1 mod 2 ^ 32) with (2 ^ 32 - 1) in E; unfold nb in *; pose proof (Z.mul_div_le (n + 7) 8 ltac:(lia)); lia|].
      cbn [negb]. apply wp_ret. eapply Hend; [exact Lb|exact HV1|]. intros st' HV'. apply (HF MP_TRUNC); [right; split; [done|]; intros bs (all & E' & _); done|exact HV']. }
  set (bs := take (Z.to_nat nb) all). wb. unfold randomize. fold bs. assert (length bs <= Z.to_nat nb)%nat as Lbs by (unfold bs; rewrite take_length; lia).
  wb. change (Hp i, 0) with (Hp i, Z.of_nat 0) at 1. eapply wpV_store_bytes; [exact HV1|apply setb_lookup|lia|]. intros st2 HV2. rewrite setb_setb in HV2. apply wp_ret.
  rewrite (Z.mod_small (Z.of_nat (length bs))) by lia. wb. destruct (Z.eqb_spec (Z.of_nat (length bs)) nb) as [E|E]; cbn [negb].
  2:{ apply wp_ret. eapply Hend; [|exact HV2|intros st' HV'; apply (HF MP_TRUNC); [right; split; [done|]|exact HV']; intros bs' (all' & E' & -> & E''); injection E' as <-; apply E; exact E'']. rewrite overwrite_length; [exact Lb|lia]. }
  rewrite overwrite_all in HV2 by lia. assert (Forall is_byte bs) as HB by (unfold bs; by apply Forall_take).
  destruct (lookup_lt_is_Some_2 bs 0 ltac:(lia)) as [b0 Hb0].
  set (bs1 := if n mod 8 =? 0 then bs else alter (fun b => Z.lor (Z.land b (2 ^ (n mod 8) - 1)) (2 ^ (n mod 8) / 2)) 0%nat bs).
  assert (length bs1 = length bs) as Lb1 by (unfold bs1; destruct (_ =? _); [done|apply alter_length]).
  wb. eapply (wp_mono _ (fun _ st3 => RV st3 V (setb X (Hp i) (Some <$> bs1)))).
  { unfold bs1. destruct (Z.eqb_spec (n mod 8) 0) as [E8|E8]; cbn [negb]; [by apply wp_ret|]. cbn zeta.
    wb. eapply wpV_loadb; [exact HV2|apply setb_lookup|lia|rewrite list_lookup_fmap; change (Z.to_nat 0) with 0%nat; by rewrite Hb0|].
    wb. eapply wpV_storeb; [exact HV2|apply setb_lookup|rewrite fmap_length; lia|]. intros st3 HV3. rewrite setb_setb in HV3. change (Z.to_nat 0) with 0%nat in HV3. rewrite (fmap_alter bs 0 (fun b => Z.land b (2 ^ (n mod 8) - 1))) in HV3 by done.
    wb. eapply wpV_loadb; [exact HV3|apply setb_lookup|lia|rewrite list_lookup_fmap; change (Z.to_nat 0) with 0%nat; by rewrite list_lookup_alter, Hb0|].
    eapply wpV_storeb; [exact HV3|apply setb_lookup|rewrite fmap_length, alter_length; lia|]. intros st4 HV4. rewrite setb_setb in HV4. change (Z.to_nat 0) with 0%nat in HV4.
    rewrite (fmap_alter (alter _ 0%nat bs) 0 (fun b => Z.lor b (2 ^ (n mod 8) / 2))) in HV4 by (by rewrite list_lookup_alter, Hb0). rewrite <- list_alter_compose in HV4. exact HV4. }
  intros [] st3 HV3. assert (is_Some (bs1 !! Z.to_nat (nb - 1))) as [bl Hbl] by (apply lookup_lt_is_Some_2; lia).
  wb. wb. change ((Hp i, 0) +p (nb - 1)) with (Hp i, nb - 1). eapply wpV_loadb; [exact HV3|apply setb_lookup|lia|rewrite list_lookup_fmap; by rewrite Hbl|].
  eapply wpV_storeb; [exact HV3|apply setb_lookup|rewrite fmap_length; lia|]. intros st4 HV4. rewrite setb_setb in HV4. rewrite (fmap_alter bs1 _ (fun b => Z.lor b 1)) in HV4 by done.
  assert (alter (fun b => Z.lor b 1) (Z.to_nat (nb - 1)) bs1 = masked n bs) as Em by (unfold masked; fold bs1; f_equal; lia). rewrite Em in HV4.
  pose proof (masked_length n bs) as LM. pose proof (masked_bytes n bs HB) as HMb.
  replace nb with (Z.of_nat (length (masked n bs))) at 1 by lia. change (Hp i, 0) with (Hp i, Z.of_nat 0) at 1.
  eapply (wpV_read_unsigned _ _ _ a (Hp i) _ 0 (masked n bs)); [exact HV4|by eexists|apply setb_lookup| |intros Em0; rewrite Em0 in LM; cbn in LM; lia|lia|].
  { split; [done|]. intros k c Hk. rewrite list_lookup_fmap. cbn [Nat.add]. by rewrite Hk. }
  intros st5 HV5. eapply Hend; [|exact HV5|]; [rewrite fmap_length; lia|]. intros st6 HV6. eapply (HQ bs); [| |exact HV6].
  - exists all. split; [done|]. split; [done|]. unfold nb in E. exact E.
  - by apply masked_seed; [lia|done|].
Qed.

(** ** The exponent given *)
Lemma split_unique (P : Z -> Prop) l1 x1 l2 x2 : Forall P l1 -> Forall P l2 -> (forall c, head x1 = Some c -> ~ P c) -> (forall c, head x2 = Some c -> ~ P c) ->
  l1 ++ x1 = l2 ++ x2 -> l1 = l2 /\ x1 = x2.
Proof.
  intros H1. revert l2. induction H1 as [|c l1 Hc H1 IH]; intros l2 H2 N1 N2 E.
  - destruct H2 as [|c' l2 Hc' H2]; [done|]. cbn in E. subst x1. destruct (N1 c'); done.
  - destruct H2 as [|c' l2 Hc' H2]; cbn in E; [subst x2; destruct (N2 c); done|]. injection E as -> E. destruct (IH l2 H2 N1 N2 E) as [-> ->]. done.
Qed.
Lemma digit_plain r c d : digit_in r c d -> ~ is_space c /\ c <> 43 /\ c <> 45.
Proof. intros [H _]. unfold digit_of in H. unfold is_space. repeat case_match; try done; lia. Qed.
Lemma digits_all r body ds : Forall2 (digit_in r) body ds -> Forall (fun c => exists d, digit_in r c d) body.
Proof. induction 1; constructor; eauto. Qed.
Lemma not_writes r sp sg body ds rest v : Forall is_space sp -> (sg = [] \/ sg = [43] \/ sg = [45]) ->
  Forall2 (digit_in r) body ds -> (forall c d, head rest = Some c -> ~ digit_in r c d) ->
  (sg = [] -> forall c, head (body ++ rest) = Some c -> ~ is_space c /\ c <> 43 /\ c <> 45) -> writes r (sp ++ sg ++ body ++ rest) v -> rest = [].
Proof.
  intros H1 H2 H3 H4 H5 (sp' & sg' & body' & ds' & E & H1' & H3' & H2').
  assert (sg' = [] \/ sg' = [43] \/ sg' = [45]) as H2'' by (destruct H2' as [[[->| ->] _]|[-> _]]; auto). clear H2'.
  assert (forall c, head body' = Some c -> ~ is_space c /\ c <> 43 /\ c <> 45) as H5' by (intros c Hc; destruct H3' as [|c' d' l' m' Hd _]; [done|injection Hc as <-; by eapply digit_plain]).
  destruct (split_unique is_space sp (sg ++ body ++ rest) sp' (sg' ++ body') H1 H1') as [-> E1]; [| |exact E|].
  { intros c Hc. destruct H2 as [->|[->| ->]]; [by apply H5|injection Hc as <-; unfold is_space; lia..]. }
  { intros c Hc. destruct H2'' as [->|[->| ->]]; [by apply H5'|injection Hc as <-; unfold is_space; lia..]. }
  assert (body ++ rest = body') as E2.
  { destruct H2 as [->|[->| ->]], H2'' as [->|[->| ->]]; cbn in E1; try done; try (by injection E1 as ->).
    - specialize (H5 eq_refl). rewrite E1 in H5. cbn in H5. destruct (H5 43 eq_refl). lia.
    - specialize (H5 eq_refl). rewrite E1 in H5. cbn in H5. destruct (H5 45 eq_refl). lia.
    - subst body'. destruct (H5' 43 eq_refl). lia.
    - subst body'. destruct (H5' 45 eq_refl). lia. }
  destruct (split_unique (fun c => exists d, digit_in r c d) body rest body' []) as [_ ->]; [exact (digits_all _ _ _ H3)|exact (digits_all _ _ _ H3')| | |by rewrite app_nil_r|done].
  - intros c Hc [d Hd]. by eapply H4.
  - done.
Qed.
Lemma wpV_read_any st V X o v0 r s (Q : Z -> state -> Prop) : RV st V X -> V !! o = Some v0 -> 2 <= r <= 36 -> Z.of_nat (length s) < 2 ^ 31 ->
  (forall res v st', res = MP_OK /\ writes r s v \/ res = MP_TRUNC /\ (~ exists v, writes r s v) -> RV st' (<[o := v]> V) X -> Q res st') -> wp (mp_int_read_string o r s) Q st.
Proof.
  intros HV Ho Hr Hl HQ. destruct (parse_shape r s) as (sp & sg & body & ds & rest & -> & Hsp & Hsg & Hb & Hrest & Hh).
  eapply wpV_read_string; [exact HV|exact Ho|done|done|exact Hsg|exact Hb|exact Hrest|exact Hh|exact Hl|]. intros st' HV'. eapply HQ; [|exact HV'].
  destruct rest as [|c rest].
  - left. split; [done|]. rewrite app_nil_r. exists sp, sg, body, ds. split; [done|]. split; [done|]. split; [done|].
    destruct (decide (sg = [45])) as [->|N]; [by right|left]. split; [|done]. destruct Hsg as [->|[->| ->]]; auto. done.
  - right. split; [done|]. intros [v Hv]. by apply (not_writes r sp sg body ds (c :: rest) v) in Hv.
Qed.

(** ** The key *)
Definition env (k : rsa_key) (p q n e d : Z) (V : gmap oid Z) : gmap oid Z := <[kd k := d]> (<[ke k := e]> (<[kn k := n]> (<[kq k := q]> (<[kp k := p]> V)))).
Definition distinct (k : rsa_key) : Prop := NoDup [kp k; kq k; kn k; ke k; kd k].
Section key.
Context (k : rsa_key) (V : gmap oid Z) (X : ctx) (Hk : distinct k).
Lemma key_ne : kp k <> kq k /\ kp k <> kn k /\ kp k <> ke k /\ kp k <> kd k /\ kq k <> kn k /\ kq k <> ke k /\ kq k <> kd k /\ kn k <> ke k /\ kn k <> kd k /\ ke k <> kd k.
Proof. unfold distinct in Hk. rewrite !NoDup_cons, !not_elem_of_cons in Hk. naive_solver. Qed.
Ltac ne := pose proof key_ne as (N1 & N2 & N3 & N4 & N5 & N6 & N7 & N8 & N9 & N10).
Ltac lk := unfold env; repeat first [done | rewrite lookup_insert_ne by congruence | rewrite lookup_insert].
Lemma env_p p q n e d : env k p q n e d V !! kp k = Some p. Proof. ne. lk. Qed.
Lemma env_q p q n e d : env k p q n e d V !! kq k = Some q. Proof. ne. lk. Qed.
Lemma env_n p q n e d : env k p q n e d V !! kn k = Some n. Proof. ne. lk. Qed.
Lemma env_e p q n e d : env k p q n e d V !! ke k = Some e. Proof. ne. lk. Qed.
Lemma env_d p q n e d : env k p q n e d V !! kd k = Some d. Proof. ne. lk. Qed.
Ltac up := ne; unfold env; apply map_eq; intros o; destruct (decide (o = kp k)) as [->|]; [by lk|]; destruct (decide (o = kq k)) as [->|]; [by lk|]; destruct (decide (o = kn k)) as [->|]; [by lk|];
  destruct (decide (o = ke k)) as [->|]; [by lk|]; destruct (decide (o = kd k)) as [->|]; [by lk|]; by rewrite !lookup_insert_ne by congruence.
Lemma set_p p q n e d x : <[kp k := x]> (env k p q n e d V) = env k x q n e d V. Proof. up. Qed.
Lemma set_q p q n e d x : <[kq k := x]> (env k p q n e d V) = env k p x n e d V. Proof. up. Qed.
Lemma set_n p q n e d x : <[kn k := x]> (env k p q n e d V) = env k p q x e d V. Proof. up. Qed.
Lemma set_e p q n e d x : <[ke k := x]> (env k p q n e d V) = env k p q n x d V. Proof. up. Qed.
Lemma set_d p q n e d x : <[kd k := x]> (env k p q n e d V) = env k p q n e x V. Proof. up. Qed.
Definition any_env (st : state) : Prop := exists p q n e d, RV st (env k p q n e d V) X.
Lemma no_inverse p q e : 3 <= p -> 3 <= q -> e = 0 \/ Z.gcd e ((p - 1) * (q - 1)) <> 1 -> no_exponents p q e.
Proof.
  intros Hp Hq He d [Hd E]. set (φ := (p - 1) * (q - 1)) in *. assert (4 <= φ) as Pφ by (unfold φ; nia).
  destruct He as [->|He]; [rewrite Z.mul_0_l, Z.mod_0_l in E; lia|]. apply He.
  pose proof (Z.div_mod (e * d) φ ltac:(lia)) as D. rewrite E in D. pose proof (Z.gcd_nonneg e φ) as G0. pose proof (Z.gcd_divide_l e φ) as G1. pose proof (Z.gcd_divide_r e φ) as G2.
  apply Z.divide_1_r_nonneg; [done|]. replace 1 with (e * d - φ * (e * d / φ)) by lia. apply Z.divide_sub_r; by apply Z.divide_mul_l.
Qed.
Definition expo_failed (half : Z) (given : bool) (ds : list draw) (p q e r : Z) : Prop :=
  r = MP_MEMORY \/ (no_exponents p q e /\
    if given then r = (if e =? 0 then MP_RANGE else MP_UNDEF)
    else r = MP_TRUNC /\ exists n, short half (nth n ds None) /\ rejected half ds p q 0 n).
Lemma rejected_cons half x ds p q n e bs : taken half x bs -> seed_of half bs e -> no_exponents p q e -> rejected half ds p q 0 n -> rejected half (x :: ds) p q 0 (S n).
Proof. intros T Sd N H [|i] Hi; [exists e; split; [by exists bs|done]|]. destruct (H i ltac:(lia)) as (e' & D & N'). by exists e'. Qed.
Lemma wpV_expo half given ds p q e d : forall st (Q : Z -> state -> Prop), 1 <= half < 2 ^ 32 - 8 -> 3 <= p -> 3 <= q -> Forall good_draw ds ->
  RV st (env k p q ((p - 1) * (q - 1)) e d V) X ->
  (forall r st', expo_failed half given ds p q e r -> any_env st' -> Q r st') ->
  (forall e' d' st', exponents p q e' d' -> (e' = e \/ no_exponents p q e /\ given = false /\ exists n, drawn half ds n e' /\ rejected half ds p q 0 n) ->
     RV st' (env k p q ((p - 1) * (q - 1)) e' d' V) X -> Q MP_OK st') ->
  wp (expo_loop k half given ds) Q st.
Proof.
  revert e d. induction ds as [|x ds IH]; intros e d st Q Hh Hp Hq Hds HV HF HQ; cbn [expo_loop].
  all: set (φ := (p - 1) * (q - 1)) in *; assert (4 <= φ) as Pφ by (unfold φ; nia).
  all: wb; eapply (wp_mono _ (fun res st1 => (res = MP_OK /\ exists d', exponents p q e d' /\ RV st1 (env k p q φ e d' V) X) \/
      (no_exponents p q e /\ res = (if e =? 0 then MP_RANGE else MP_UNDEF) /\ RV st1 (env k p q φ e d V) X))).
  1, 3: eapply (wpV_invmod _ _ _ (ke k) (kn k) (kd k)); [exact HV|apply env_e|apply env_n|apply env_d| | |].
  1, 4: intros [->|H0]; [|lia]; right; split; [apply no_inverse; auto|]; split; [done|exact HV].
  1, 3: intros Ne _ Hg st1 HV1; right; split; [apply no_inverse; auto|]; split; [by rewrite (proj2 (Z.eqb_neq e 0) Ne)|exact HV1].
  1, 2: intros Ne _ Hg st1 r Hr1 Hr2 Hr3 HV1; rewrite set_d in HV1; left; split; [done|]; exists r; split; [|exact HV1];
    rewrite (Z.mod_small 1) in Hr1 by lia; split; [|fold φ; by rewrite Z.mul_comm]; fold φ; assert (r <> φ) by (intros E; specialize (Hr3 E); lia); assert (r <> 0) by (intros ->; rewrite Z.mul_0_l, Z.mod_0_l in Hr1; lia); lia.
  all: intros res st1 [(-> & d' & Hd' & HV1)|(Hno & Eres & HV1)]; [change (MP_OK =? MP_OK) with true; cbv iota; apply wp_ret; eapply HQ; [exact Hd'|by left|exact HV1]|].
  all: assert (res <> MP_OK) as Nres by (rewrite Eres; by destruct (e =? 0)); rewrite (proj2 (Z.eqb_neq res MP_OK) Nres).
  all: destruct given; [apply wp_ret; eapply HF; [by right|]; eexists _, _, _, _, _; exact HV1|].
  - eapply wpV_randomize; [exact HV1|apply env_e|done|done| |].
    + intros r st2 Hr HV2. eapply HF; [|eexists _, _, _, _, _; exact HV2]. destruct Hr as [->|[-> Hr]]; [by left|right]. split; [done|]. split; [done|]. exists 0%nat. split; [exact Hr|]. intros i Hi. lia.
    + intros bs v st2 (all & E & _). done.
  - apply Forall_cons in Hds as [Hx Hds]. wb. eapply wpV_randomize; [exact HV1|apply env_e|done|exact Hx| |].
    + intros r st2 Hr HV2. assert (r <> MP_OK) as Nr by (destruct Hr as [->|[-> _]]; done). rewrite (proj2 (Z.eqb_neq r MP_OK) Nr). cbn [negb]. apply wp_ret. eapply HF; [|eexists _, _, _, _, _; exact HV2].
      destruct Hr as [->|[-> Hr]]; [by left|right]. split; [done|]. split; [done|]. exists 0%nat. split; [exact Hr|]. intros i Hi. lia.
    + intros bs v st2 Ht Hs HV2. rewrite set_e in HV2. change (MP_OK =? MP_OK) with true. cbn [negb]. eapply IH; [done|done|done|done|exact HV2| |].
      * intros r st' [->|(Hno' & -> & n & Hn & Hrej)] HA; eapply HF; try exact HA; [by left|right]. split; [done|]. split; [done|]. exists (S n). split; [exact Hn|]. by eapply rejected_cons.
      * intros e' d' st' He' Hor HV'. eapply HQ; [exact He'| |exact HV']. right. split; [done|]. split; [done|].
        destruct Hor as [->|(Hno' & _ & n & Hn & Hrej)]; [exists 0%nat; split; [by exists bs|intros i Hi; lia]|]. exists (S n). split; [exact Hn|]. by eapply rejected_cons.
Qed.
Lemma wpV_make_key modbits expt ds p0 q0 n0 e0 d0 st (Q : Z -> state -> Prop) :
  RV st (env k p0 q0 n0 e0 d0 V) X -> 8 <= modbits < 2 ^ 31 - 1 -> Forall good_draw ds -> (forall s, expt = Some s -> Z.of_nat (length s) < 2 ^ 31) ->
  (forall r st', key_failed ((modbits + 1) / 2) expt ds r -> any_env st' -> Q r st') ->
  (forall p q e d st', key_made ((modbits + 1) / 2) expt ds p q e d -> RV st' (env k p q (p * q) e d V) X -> Q MP_OK st') ->
  wp (make_key k modbits expt ds) Q st.
Proof.
  intros HV Hm Hds Hex HF HQ. unfold make_key. cbn zeta.
  assert ((if modbits mod 2 =? 1 then modbits + 1 else modbits) / 2 = (modbits + 1) / 2) as ->.
  { pose proof (Z.div_mod modbits 2 ltac:(lia)). pose proof (Z.mod_pos_bound modbits 2 ltac:(lia)). destruct (Z.eqb_spec (modbits mod 2) 1); [done|]. apply Z.div_unique with (modbits + 1 - 2 * (modbits / 2)); [lia|]. 
    replace (modbits / 2) with ((modbits + 1) / 2); [|symmetry; apply Z.div_unique with 1; lia]. lia. }
  set (half := (modbits + 1) / 2) in *. assert (4 <= half < 2 ^ 32 - 8) as Hh. { unfold half. split; [apply Z.div_le_lower_bound; lia|apply Z.div_lt_upper_bound; lia]. }
  assert (MP_TRUNC <> MP_OK /\ MP_MEMORY <> MP_OK) as [NT NM] by done.
  wb. eapply (wp_mono _ (fun res st1 => exists e1, (res = MP_OK /\ match expt with Some s => writes 10 s e1 | None => True end \/ res = MP_TRUNC /\ exists text, expt = Some text /\ ~ exists v, writes 10 text v) /\ RV st1 (env k p0 q0 n0 e1 d0 V) X)).
  { destruct expt as [s|]; [|apply wp_ret; exists e0; split; [by left|exact HV]]. eapply wpV_read_any; [exact HV|by apply env_e|lia|by apply Hex|]. intros res v st1 Hw HV1. rewrite set_e in HV1 by done. exists v. split; [|done].
    destruct Hw as [Hw|[-> Hw]]; [by left|right]. split; [done|]. by exists s. }
  intros res st1 (e1 & [[-> He1]|[-> Hw]] & HV1).
  2:{ rewrite (proj2 (Z.eqb_neq _ _) NT). cbn [negb]. apply wp_ret, HF; [right; left; done|]. eexists _, _, _, _, _; exact HV1. }
  change (MP_OK =? MP_OK) with true. cbn [negb]. clear HV st.
  assert (forall ds, Forall good_draw ds -> good_draw (next ds)) as Hnext by (intros [|x l] Hl; [done|by apply Forall_cons in Hl as [? _]]).
  assert (forall ds, next ds = nth 0 ds None) as Enext by (by intros [|x l]).
  assert (forall ds b, taken half (next ds) b -> exists x l, ds = x :: l) as Hcons by (intros [|x l] b (all & E & _); [done|eauto]).
  (* p *)
  wb. eapply wpV_randomize; [exact HV1|by apply env_p|lia|by apply Hnext| |].
  { intros r st2 Hr HV2. assert (r <> MP_OK) as Nr by (destruct Hr as [->|[-> _]]; done). rewrite (proj2 (Z.eqb_neq r MP_OK) Nr). cbn [negb]. apply wp_ret, HF; [|eexists _, _, _, _, _; exact HV2].
    destruct Hr as [->|[-> Hr]]; [by left|]. right; right; left. split; [done|]. left. by rewrite <- Enext. }
  intros b1 s1 st2 T1 S1 HV2. rewrite set_p in HV2 by done. change (MP_OK =? MP_OK) with true. cbn [negb]. destruct (Hcons _ _ T1) as (x1 & ds1 & ->). cbn [next tail] in *. apply Forall_cons in Hds as [_ Hds].
  unfold find_prime. wb. eapply wpV_find_prime; [exact HV2|by apply env_p|]. intros st3 p HV3 P1 P2 P3 P4. rewrite set_p in HV3 by done.
  (* q *)
  wb. eapply wpV_randomize; [exact HV3|by apply env_q|lia|by apply Hnext| |].
  { intros r st4 Hr HV4. assert (r <> MP_OK) as Nr by (destruct Hr as [->|[-> _]]; done). rewrite (proj2 (Z.eqb_neq r MP_OK) Nr). cbn [negb]. apply wp_ret, HF; [|eexists _, _, _, _, _; exact HV4].
    destruct Hr as [->|[-> Hr]]; [by left|]. right; right; left. split; [done|]. right. cbn [nth]. by rewrite <- Enext. }
  intros b2 s2 st4 T2 S2 HV4. rewrite set_q in HV4 by done. change (MP_OK =? MP_OK) with true. cbn [negb]. destruct (Hcons _ _ T2) as (x2 & ds2 & ->). cbn [next tail] in *. apply Forall_cons in Hds as [_ Hds].
  wb. eapply wpV_find_prime; [exact HV4|by apply env_q|]. intros st5 q HV5 Q1 Q2 Q3 Q4. rewrite set_q in HV5 by done.
  assert (forall z, Z.odd z = true -> apparent_prime z -> 3 <= z) as H3.
  { intros z Oz Az. assert (2 <= z) by (destruct Az as [[Pz _]|[? _]]; [by apply prime_ge_2|done]). destruct (Z.eq_dec z 2) as [->|]; [done|lia]. }
  pose proof (H3 p P2 P3) as Hp3. pose proof (H3 q Q2 Q3) as Hq3.
  assert (primes_made half (x1 :: x2 :: ds2) p q) as HP. { split; [exists s1|exists s2]; (split; [eexists; split; [done|done]|done]). }
  (* (p - 1) * (q - 1) *)
  wb. eapply (wpV_mul _ _ _ (kp k) (kq k) (kn k)); [exact HV5|by apply env_p|by apply env_q|by apply env_n|]. intros st6 HV6. rewrite set_n in HV6 by done.
  wb. eapply (wpV_sub _ _ _ (kn k) (kp k) (kn k)); [exact HV6|by apply env_n|by apply env_p|by apply env_n|]. intros st7 HV7. rewrite set_n in HV7 by done.
  wb. eapply (wpV_sub _ _ _ (kn k) (kq k) (kn k)); [exact HV7|by apply env_n|by apply env_q|by apply env_n|]. intros st8 HV8. rewrite set_n in HV8 by done.
  wb. eapply (wpV_add_value _ _ _ (kn k) 1 (kn k)); [exact HV8|by apply env_n|by apply env_n|lia|]. intros st9 HV9. rewrite set_n in HV9 by done. replace (p * q - p - q + 1) with ((p - 1) * (q - 1)) in HV9 by ring.
  clear st1 HV1 st2 HV2 st3 HV3 st4 HV4 st5 HV5 st6 HV6 st7 HV7 st8 HV8.
  (* e *)
  wb. eapply (wp_mono _ (fun res st1 => exists e2, RV st1 (env k p q ((p - 1) * (q - 1)) e2 d0 V) X /\
    (res = MP_OK /\ match expt with Some s => writes 10 s e2 | None => exists x l b, ds2 = x :: l /\ taken half x b /\ seed_of half b e2 end \/
     expt = None /\ (res = MP_MEMORY \/ res = MP_TRUNC /\ short half (next ds2))))).
  { destruct expt as [s|]; [apply wp_ret; exists e1; split; [done|by left]|]. eapply wpV_randomize; [exact HV9|by apply env_e|lia|by apply Hnext| |].
    - intros r st1 Nr HV1. exists e1. split; [done|]. by right.
    - intros b v st1 Tb Sb HV1. rewrite set_e in HV1 by done. exists v. split; [exact HV1|]. left. split; [done|]. destruct (Hcons _ _ Tb) as (x & l & ->). by exists x, l, b. }
  intros res st1 (e2 & HV1 & [[-> He2]|[-> Hr]]).
  2:{ assert (res <> MP_OK) as Nr by (destruct Hr as [->|[-> _]]; done). rewrite (proj2 (Z.eqb_neq res MP_OK) Nr). cbn [negb]. apply wp_ret, HF; [|eexists _, _, _, _, _; exact HV1].
      destruct Hr as [->|[-> Hr]]; [by left|]. right; right; right. exists p, q. split; [exact HP|]. split; [done|]. exists 2%nat. split; [lia|]. split; [cbn [nth]; by rewrite <- Enext|]. intros i Hi. lia. }
  change (MP_OK =? MP_OK) with true. cbn [negb].
  wb. eapply wpV_expo; [lia|exact Hp3|exact Hq3| |exact HV1| |].
  { destruct expt; [done|]. destruct He2 as (x & l & b & -> & _). cbn [tail]. by apply Forall_cons in Hds as [_ ?]. }
  { intros r st2 Hr HA. assert (r <> MP_OK) as Nr. { destruct Hr as [->|[_ Hr]]; [done|]. destruct expt; [rewrite Hr; by destruct (e2 =? 0)|by destruct Hr as [-> _]]. }
    rewrite (proj2 (Z.eqb_neq r MP_OK) Nr). cbn [negb]. apply wp_ret. apply HF; [|done]. destruct Hr as [->|[Hno Hr]]; [by left|]. right; right; right. exists p, q. split; [exact HP|].
    destruct expt as [s|]; [by exists e2|]. destruct Hr as (-> & n & Hn & Hrej). destruct He2 as (x & l & b & -> & Tb & Sb). cbn [tail] in *. split; [done|]. exists (3 + n)%nat. split; [lia|]. split; [exact Hn|].
    intros [|[|i]] Hi; [lia|lia|]. destruct (rejected_cons _ _ _ _ _ _ _ _ Tb Sb Hno Hrej i ltac:(lia)) as (e' & D & N'). by exists e'. }
  intros e' d' st2 Hex' Hor HV2. change (MP_OK =? MP_OK) with true. cbn [negb].
  wb. eapply (wpV_mul _ _ _ (kp k) (kq k) (kn k)); [exact HV2|by apply env_p|by apply env_q|by apply env_n|]. intros st3 HV3. rewrite set_n in HV3 by done. apply wp_ret.
  eapply HQ; [|exact HV3]. split; [exact HP|]. split; [done|].
  destruct expt as [s|].
  - destruct Hor as [->|[_ [? _]]]; done.
  - destruct He2 as (x & l & b & -> & Tb & Sb). cbn [tail] in Hor. destruct Hor as [->|(Hno & _ & n & Hn & Hrej)].
    + exists 2%nat. split; [lia|]. split; [by exists b|]. intros i Hi. lia.
    + exists (3 + n)%nat. split; [lia|]. split; [exact Hn|]. intros [|[|i]] Hi; [lia|lia|]. destruct (rejected_cons _ _ _ _ _ _ _ _ Tb Sb Hno Hrej i ltac:(lia)) as (e'' & D & N'). by exists e''.
Qed.
End key.

(** ** Printing the key *)
Lemma digit_char_pos d : 0 <= d < 36 -> digit_char d <> 0.
Proof. intros Hd. unfold digit_char. destruct (_ <? _); lia. Qed.
Lemma numeral_no_nul r v s : 2 <= r <= 36 -> numeral r v s -> 0 ∉ s.
Proof.
  intros Hr (ds & H & _ & _ & _ & ->). rewrite elem_of_app. intros [I|I]; [destruct (v <? 0); [apply elem_of_list_singleton in I; lia|by apply elem_of_nil in I]|].
  apply elem_of_list_In, in_map_iff in I as (d & E & I). apply elem_of_list_In in I. rewrite Forall_forall in H. specialize (H d I). apply digit_char_pos in E; [done|lia].
Qed.
Section show.
Context (V : gmap oid Z) (X : ctx) (b : base).
Lemma wpV_show st l (len : Z) o v s (Q : list Z -> state -> Prop) : RV st V (setb X b l) -> Z.of_nat (length l) = len -> 2 <= len -> V !! o = Some v -> numeral 10 v s -> Z.of_nat (length s) < len ->
  (forall st' l', length l' = length l -> RV st' V (setb X b l') -> Q s st') -> wp (mp_int_to_string o 10 (b, 0) len;; cstring (Z.to_nat len + 1) (b, 0)) Q st.
Proof.
  intros HV Hl Hlen Ho Hs Ls HQ. wb. change (b, 0) with (b, Z.of_nat 0). eapply (wpV_to_string _ _ _ o v 10 b 0 l len s); [exact HV|exact Ho|apply setb_lookup|lia|lia|exact Hs|lia| |lia].
  intros st1 _ HV1. rewrite setb_setb in HV1. eapply (wpV_cstring V b (overwrite 0 (s ++ [0]) l) s); [exact HV1|apply setb_lookup| |by eapply (numeral_no_nul 10)|lia|].
  - intros i c Hi. apply overwrite_lookup; [exact Hi|lia].
  - eapply HQ; [|exact HV1]. apply overwrite_length. rewrite app_length. cbn. lia.
Qed.
End show.
Lemma wpV_key_write k V X vp vq vn ve vd sp sq sn se sd st (Q : list (list Z) -> state -> Prop) :
  RV st V X -> V !! kp k = Some vp -> V !! kq k = Some vq -> V !! kn k = Some vn -> V !! ke k = Some ve -> V !! kd k = Some vd ->
  0 <= vp <= vn -> 0 <= vq <= vn -> (length se <= length sn)%nat -> 0 <= vd <= vn ->
  numeral 10 vp sp -> numeral 10 vq sq -> numeral 10 vn sn -> numeral 10 ve se -> numeral 10 vd sd ->
  (forall st', RV st' V X -> Q [sp; sq; se; sd; sn] st') -> wp (rsa_key_write k) Q st.
Proof.
  intros HV Hp Hq Hn He Hd Bp Bq Be Bd Np Nq Nn Ne Nd HQ. unfold rsa_key_write. wb. eapply wpV_string_len; [exact HV|exact Hn|lia|].
  destruct (Z.ltb_spec vn 0); [lia|]. rewrite Z.add_0_r. destruct (outlen_enough (bitlen vn) 10 ltac:(lia)) as [E1 E2]; [by eapply bitlen_max|]. set (N := outlen (bitlen vn) 10) in *.
  assert (forall v s, 0 <= v <= vn -> numeral 10 v s -> Z.of_nat (length s) < N + 1) as HL.
  { intros v s Hv Hs. pose proof (bitlen_pow vn) as B. rewrite Z.abs_eq in B by lia. pose proof (numeral_len_le 10 v s N ltac:(lia) Hs ltac:(lia) E2). destruct (Z.ltb_spec v 0); lia. }
  eapply wpV_malloc_text; [exact HV|]. intros HN m st1 Fm HV1. cbn zeta. assert (length (blank (N + 1)) = Z.to_nat (N + 1)) as Lb by apply replicate_length.
  wb. eapply wpV_show; [exact HV1|lia|lia|exact Hp|exact Np|exact (HL _ _ Bp Np)|]. intros st2 l2 L2 HV2.
  wb. eapply wpV_show; [exact HV2|lia|lia|exact Hq|exact Nq|exact (HL _ _ Bq Nq)|]. intros st3 l3 L3 HV3.
  wb. eapply wpV_show; [exact HV3|lia|lia|exact He|exact Ne|pose proof (HL vn sn ltac:(lia) Nn); lia|]. intros st4 l4 L4 HV4.
  wb. eapply wpV_show; [exact HV4|lia|lia|exact Hd|exact Nd|exact (HL _ _ Bd Nd)|]. intros st5 l5 L5 HV5.
  wb. eapply wpV_show; [exact HV5|lia|lia|exact Hn|exact Nn|eapply (HL vn); [lia|done]|]. intros st6 l6 L6 HV6.
  eapply wp_Free; [unfold live_heap; cbn; eapply RV_mem; [exact HV6|apply setb_lookup]|]. apply wp_ret. apply HQ. cbn [fst].
  pose proof (RV_delB _ _ _ _ _ HV6 (setb_lookup _ _ _)) as HV7. by rewrite setb_del in HV7.
Qed.

(** ** The program *)
Lemma numeral_len_mono r v w s t : 2 <= r -> numeral r v s -> numeral r w t -> 0 <= v <= w -> 1 <= w -> (length s <= length t)%nat.
Proof.
  intros Hr Hs Ht Hv Hw. assert (1 <= Z.of_nat (length t)) as L1.
  { pose proof (numeral_len_ge r w t 0 Hr Ht ltac:(change (r ^ 0) with 1; lia) ltac:(lia)). destruct (w <? 0); lia. }
  destruct (Z.ltb_spec v (r ^ Z.of_nat (length t))) as [L|L].
  - pose proof (numeral_len_le r v s _ Hr Hs ltac:(rewrite Z.abs_eq; [exact L|lia]) L1). destruct (Z.ltb_spec v 0); lia.
  - pose proof (numeral_len_ge r w t (Z.of_nat (length t)) Hr Ht ltac:(lia) ltac:(lia)). destruct (w <? 0); lia.
Qed.
Lemma odd_prime_ge v p : 1 <= v -> next_prime v p -> 3 <= p.
Proof.
  intros Hv (H1 & H2 & H3 & _). assert (2 <= p) by (destruct H3 as [[H3 _]|[H3 _]]; [by apply prime_ge_2|done]). destruct (Z.eq_dec p 2) as [->|]; [done|]. lia.
Qed.
Lemma made_bounds half expt ds p q e d : 1 <= half -> key_made half expt ds p q e d -> 3 <= p /\ 3 <= q /\ 0 < d < p * q.
Proof.
  intros Hh (((s & (bs & _ & S1) & P1) & (s' & (bs' & _ & S2) & P2)) & (D & _) & _).
  destruct (seed_bounds _ _ _ Hh S1) as (O1 & B1 & _). destruct (seed_bounds _ _ _ Hh S2) as (O2 & B2 & _).
  pose proof (odd_prime_ge _ _ (proj1 B1) P1). pose proof (odd_prime_ge _ _ (proj1 B2) P2). nia.
Qed.
Lemma made_big half ds p q e d : 2 <= half -> half mod 8 <> 0 -> key_made half None ds p q e d -> 0 <= e <= p * q.
Proof.
  intros Hh H8 (((s & (bs & _ & S1) & P1) & (s' & (bs' & _ & S2) & P2)) & _ & (x & _ & (bs3 & _ & S3) & _)).
  destruct (seed_bounds half _ _ ltac:(lia) S1) as (O1 & B1 & L1). destruct (seed_bounds half _ _ ltac:(lia) S2) as (O2 & B2 & L2). destruct (seed_bounds half _ _ ltac:(lia) S3) as (O3 & B3 & _).
  specialize (L1 H8). specialize (L2 H8). destruct P1 as (P1 & _). destruct P2 as (P2 & _). split; [lia|].
  assert (2 ^ half = 2 * 2 ^ (half - 1)) as E. { replace half with (Z.succ (half - 1)) at 1 by lia. by rewrite Z.pow_succ_r by lia. }
  assert (2 <= 2 ^ (half - 1)) by (change 2 with (2 ^ 1) at 1; apply Z.pow_le_mono_r; lia).
  assert (2 * 2 ^ (half - 1) <= p * q) by (apply Z.mul_le_mono_nonneg; lia). lia.
Qed.
Lemma failed_code half expt ds r : key_failed half expt ds r -> r <> MP_OK.
Proof.
  intros [->|[[-> _]|[[-> _]|(p & q & _ & H)]]]; [done..|]. destruct expt; [|by destruct H as [-> _]]. destruct H as (e & _ & _ & ->). by destruct (e =? 0).
Qed.
Lemma wpV_rsakey V X modbits expt ds st (Q : list (list Z) + Z -> state -> Prop) :
  RV st V X -> 8 <= modbits < 2 ^ 31 - 1 -> Forall good_draw ds -> (forall s, expt = Some s -> Z.of_nat (length s) < 2 ^ 31) ->
  (forall p q e d, key_made ((modbits + 1) / 2) expt ds p q e d -> 0 <= e <= p * q) ->
  (forall r st', key_failed ((modbits + 1) / 2) expt ds r -> RV st' V X -> Q (inr r) st') ->
  (forall p q e d out st', key_made ((modbits + 1) / 2) expt ds p q e d -> key_text p q e d out -> RV st' V X -> Q (inl out) st') ->
  wp (rsakey_main modbits expt ds) Q st.
Proof.
  intros HV Hm Hds Hex Hfit HN HQ. unfold rsakey_main. cbn zeta.
  eapply wpV_local0'; [exact HV|]. intros p st1 F1 HV1. eapply wpV_local0'; [exact HV1|]. intros q st2 F2 HV2. eapply wpV_local0'; [exact HV2|]. intros n st3 F3 HV3.
  eapply wpV_local0'; [exact HV3|]. intros e st4 F4 HV4. eapply wpV_local0'; [exact HV4|]. intros d st5 F5 HV5.
  set (k := Key p q n e d).
  assert (distinct k) as Hk.
  { unfold distinct, k; cbn [kp kq kn ke kd]. repeat (match goal with F : <[_ := _]> _ !! _ = None |- _ => apply lookup_insert_None in F as [? ?] end).
    rewrite !NoDup_cons, !not_elem_of_cons. repeat split; auto using not_elem_of_nil, NoDup_nil_2. }
  repeat (match goal with F : <[_ := _]> _ !! _ = None |- _ => apply lookup_insert_None in F as [? ?] end).
  assert (forall (r : list (list Z) + Z) st6, (exists p' q' n' e' d', RV st6 (env k p' q' n' e' d' V) X) -> (forall st', RV st' V X -> Q r st') ->
    exists V2 v, V2 !! d = None /\ RV st6 (<[d := v]> V2) X /\ forall st3, RV st3 V2 X ->
    exists V2 v, V2 !! e = None /\ RV st3 (<[e := v]> V2) X /\ forall st3, RV st3 V2 X ->
    exists V2 v, V2 !! n = None /\ RV st3 (<[n := v]> V2) X /\ forall st3, RV st3 V2 X ->
    exists V2 v, V2 !! q = None /\ RV st3 (<[q := v]> V2) X /\ forall st3, RV st3 V2 X ->
    exists V2 v, V2 !! p = None /\ RV st3 (<[p := v]> V2) X /\ forall st3, RV st3 V2 X -> Q r st3) as Hend.
  { intros r st6 (p' & q' & n' & e' & d' & HV6) Hr. unfold env, k in HV6. cbn [kp kq kn ke kd] in HV6.
    do 2 eexists. split; [|split; [exact HV6|]]; [by rewrite !lookup_insert_ne by congruence|]. intros st7 HV7.
    do 2 eexists. split; [|split; [exact HV7|]]; [by rewrite !lookup_insert_ne by congruence|]. intros st8 HV8.
    do 2 eexists. split; [|split; [exact HV8|]]; [by rewrite !lookup_insert_ne by congruence|]. intros st9 HV9.
    do 2 eexists. split; [|split; [exact HV9|]]; [by rewrite !lookup_insert_ne by congruence|]. intros sta HVa.
    do 2 eexists. split; [|split; [exact HVa|]]; [done|]. exact Hr. }
  wb. eapply (wpV_make_key k V X Hk modbits expt ds 0 0 0 0 0); [exact HV5|done|done|done| |].
  - intros r st6 Hr Hany. assert (r <> MP_OK) as Nr by (by eapply failed_code). rewrite (proj2 (Z.eqb_neq r MP_OK) Nr). apply wp_ret. apply Hend; [exact Hany|]. intros st' HV'. by apply HN.
  - intros vp vq ve vd st6 Hmade HV6. change (MP_OK =? MP_OK) with true. cbv iota. destruct (made_bounds ((modbits + 1) / 2) _ _ _ _ _ _ ltac:(apply Z.div_le_lower_bound; lia) Hmade) as (Bp & Bq & Bd). pose proof (Hfit _ _ _ _ Hmade) as Be.
    assert (vp <= vp * vq) by nia. assert (vq <= vp * vq) by nia.
    destruct (numeral_exists 10 vp ltac:(lia)) as [sp Np]. destruct (numeral_exists 10 vq ltac:(lia)) as [sq Nq]. destruct (numeral_exists 10 (vp * vq) ltac:(lia)) as [sn Nn].
    destruct (numeral_exists 10 ve ltac:(lia)) as [se Ne]. destruct (numeral_exists 10 vd ltac:(lia)) as [sd Nd].
    wb. eapply (wpV_key_write k _ X vp vq (vp * vq) ve vd sp sq sn se sd); [exact HV6|by apply env_p|by apply env_q|by apply env_n|by apply env_e|by apply env_d|lia|lia| |lia|done..|].
    + eapply (numeral_len_mono 10); [lia|exact Ne|exact Nn|lia|lia].
    + intros st7 HV7. apply wp_ret. apply Hend; [eexists _, _, _, _, _; exact HV7|]. intros st' HV'. eapply HQ; [exact Hmade| |exact HV']. unfold key_text. by repeat constructor.
Qed.
