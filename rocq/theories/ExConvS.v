(** Rules for the rounding example and for the two programs that look for primes. *)
From Coq Require Import ZArith Znumtheory List Lia QArith.
From stdpp Require Import gmap list.
From Verif Require Import Mem Prog Kern Fp Imath Imrat Gmp Wp MemLem Dig KernLem Rel RelWp RelZ Life Basic Basic2 Mult Shift Knuth Divi Powr Spec SpecBin Public Gcd Root Buf Text Read Outlen Inlen Bin SpecRat Rat SpecHist SpecDec RatText RatDec RatOut Gmpr.
From Verif Require Import Rsa Rsamath GmpAlloc SpecGalloc Chk ChkBind Galloc Gmpstr Iprime SpecPrime Prime ExPiR SpecKey ExRsakey ExRsakeyR SpecConv ExConv ExConvR.
Local Open Scope Z_scope.
Local Open Scope prog_scope.
Local Ltac wb := apply wp_bind.

(** ** The rounding example *)
Lemma wpV_read_decimal st V X r radix s (Q : Z -> state -> Prop) :
  RV st V X -> num r <> den r -> rat_live V r -> 2 <= radix <= 36 -> Z.of_nat (length s) < 2 ^ 31 ->
  (forall q st', writes_decimal radix s q -> RV st' (set_rat r q V) X -> Q MP_OK st') ->
  (forall q st', (forall q, ~ writes_decimal radix s q) -> RV st' (set_rat r q V) X -> Q MP_TRUNC st') ->
  wp (mp_rat_read_decimal r radix s) Q st.
Proof.
  intros HV N HL Hr Hl HQ1 HQ2. unfold mp_rat_read_decimal. wb. destruct (reads_ex radix s) as (n & rest & H1).
  assert (forall rest', reads radix s n rest' -> rest' <> [] -> (forall fb fds, rest' = 46 :: fb -> Forall2 (digit_in radix) fb fds -> (forall c, head fb = Some c -> ~ is_space c /\ c <> 43 /\ c <> 45) -> False) -> forall q, ~ writes_decimal radix s q) as HN.
  { intros rest' H Hne HP q [(m & Hm & _)|Hq].
    - destruct (reads_det _ _ _ _ _ _ H Hm) as [_ E]. done.
    - destruct (point_inv _ _ _ _ Hq) as (m & fb & fds & H2 & H3 & _ & H4). rewrite app_nil_r in H2, H4. destruct (reads_det _ _ _ _ _ _ H H2) as [_ E]. by eapply HP. }
  destruct (decide (head rest = Some 46)) as [E46|N46].
  - destruct rest as [|c rest]; [done|]. injection E46 as ->.
    assert ((exists c u', rest = c :: u' /\ (is_space c \/ c = 43 \/ c = 45)) \/ (forall c, head rest = Some c -> ~ is_space c /\ c <> 43 /\ c <> 45)) as [(c & u' & -> & Hc)|Hh].
    { pose proof is_space_dec. destruct rest as [|c rest]; [by right|]. destruct (decide (is_space c \/ c = 43 \/ c = 45)) as [Hc|Hc]; [left; by exists c, rest|]. right. intros c' [= <-]. tauto. }
    + eapply wpV_rat_read_badpoint; [exact HV|done|done|done|done|exact H1|done|]. intros st' HV'. apply wp_ret. cbn [fst]. eapply HQ2; [|exact HV'].
      eapply HN; [exact H1|done|]. intros fb fds [= <-] _ Hx. destruct (Hx c eq_refl) as (? & ? & ?). tauto.
    + destruct (digits_ex radix rest) as (fb & fds & rest3 & -> & HF & Hrest). pose proof H1 as (sp1 & sg & ib & ids & (Es & S1 & S2 & S3 & S4 & S5) & _).
      assert (exists q, reads_point radix s q rest3) as [q Hq].
      { eexists. exists sp1, sg, ib, ids, fb, fds. split_and!; [exact Es|done|done|exact S3|exact HF|exact Hrest|exact Hh|reflexivity]. }
      eapply (wpV_rat_read_point st _ X r radix s q rest3); [exact HV|done|done|done|done|exact Hq|].
      intros st2 HV2. apply wp_ret. cbn [fst]. destruct rest3 as [|c rest3].
      * eapply HQ1; [|exact HV2]. by right.
      * eapply HQ2; [|exact HV2]. eapply HN; [exact H1|done|]. intros fb' fds' [= <-] HF' _.
        apply Forall2_app_inv_l in HF' as (l1 & l2 & _ & HF2 & _). apply Forall2_cons_inv_l in HF2 as (d & l' & Hd & _). by eapply (Hrest c d).
  - eapply wpV_rat_read_nopoint; [exact HV|done|done|done|done|exact H1|exact N46|]. intros st' HV'. apply wp_ret. cbn [fst]. destruct rest as [|c rest].
    + eapply HQ1; [|exact HV']. left. by exists n.
    + eapply HQ2; [|exact HV']. eapply HN; [exact H1|done|]. intros fb fds [= -> ->]. done.
Qed.
Lemma digits_fixed_ex r k f : 2 <= r -> 0 <= f < r ^ Z.of_nat k -> exists s, fixed r k f s.
Proof.
  intros Hr. revert f. induction k as [|k IH]; intros f Hf. { exists [], []. rewrite Z.pow_0_r in Hf. split; [done|]. split; [constructor|]. split; [|done]. unfold horner. cbn. lia. }
  rewrite Nat2Z.inj_succ, Z.pow_succ_r in Hf by lia. destruct (IH (f / r)) as (s & ds & L & H1 & H2 & ->). { split; [apply Z.div_pos; lia|]. apply Z.div_lt_upper_bound; lia. }
  exists (map digit_char (ds ++ [f mod r])), (ds ++ [f mod r]). rewrite app_length, L. split; [cbn [length]; lia|]. split; [apply Forall_app; split; [done|]; constructor; [apply Z.mod_pos_bound; lia|constructor]|].
  split; [|done]. rewrite horner_snoc, H2. rewrite (Z.div_mod f r) at 3 by lia. lia.
Qed.
Lemma fixed_len r k f s : fixed r k f s -> length s = k.
Proof. intros (ds & L & _ & _ & ->). by rewrite map_length. Qed.
Lemma decimal_no_nul r k neg N s : 2 <= r <= 36 -> decimal_text r k neg N s -> 0 ∉ s.
Proof.
  intros Hr (i & f & Hi & (ds & _ & Hd & _ & ->) & ->). pose proof (numeral_no_nul _ _ _ Hr Hi) as N1. rewrite !elem_of_app. intros [I|[I|I]]; [|done|].
  - destruct (neg && _); [apply elem_of_list_singleton in I; lia|by apply elem_of_nil in I].
  - destruct (k =? 0)%nat; [by apply elem_of_nil in I|]. apply elem_of_cons in I as [I|I]; [lia|].
    apply elem_of_list_In, in_map_iff in I as (d & E & I). apply elem_of_list_In in I. rewrite Forall_forall in Hd. specialize (Hd d I). apply digit_char_pos in E; [done|lia].
Qed.
Lemma wpV_rat_decimal_len st V X r n d radix prec m N s (Q : Z -> state -> Prop) :
  RV st V X -> V !! num r = Some n -> 0 < d -> 2 <= radix <= 36 -> 0 <= prec < 2 ^ 29 -> Z.abs n < 2 ^ Z.min (enough_bits radix) (2 ^ 30 - 4) ->
  rounds m (Z.abs n * radix ^ prec) d N -> decimal_text radix (Z.to_nat prec) (n <? 0) N s ->
  (forall x, 3 <= x -> Z.of_nat (length s) + (if prec =? 0 then 1 else 2) <= x -> 2 + (if (n <? 0) && negb (N =? 0) then 1 else 0) <= x -> Q x st) -> wp (mp_rat_decimal_len r radix prec) Q st.
Proof.
  intros HV Hn Hd0 Hr Hp Bn HR Hs HQ. set (M := Z.min (enough_bits radix) (2 ^ 30 - 4)) in *. assert (1 <= M <= 2 ^ 30 - 4 /\ M <= enough_bits radix) as [HM1 HM2] by (pose proof (enough_bits_pos radix); lia).
  pose proof (bitlen_le n M ltac:(lia) Bn) as B1. pose proof (bitlen_pos n) as B2. pose proof (outlen_le (bitlen n) radix Hr ltac:(lia)) as B3.
  destruct (outlen_enough (bitlen n) radix Hr ltac:(lia)) as [E1 E2].
  unfold mp_rat_decimal_len. wb. eapply wpV_string_len; [exact HV|exact Hn|done|].
  assert ((if prec =? 0 then 1 else to_int32 (u32 (1 + prec + 1))) = if prec =? 0 then 1 else prec + 2) as Ef.
  { destruct (prec =? 0); [done|]. unfold u32, to_int32. rewrite !(Z.mod_small (1 + prec + 1)) by lia. destruct (Z.ltb_spec (1 + prec + 1) (2 ^ 31)); lia. }
  cbv zeta. rewrite Ef. clear Ef. set (O := outlen (bitlen n) radix) in *. set (x := O + 1 + (if n <? 0 then 1 else 0) + if prec =? 0 then 1 else prec + 2).
  assert (x <= INT_MAX) as Hx by (unfold x, INT_MAX; destruct (n <? 0), (prec =? 0); lia).
  destruct (Z.gtb_spec x INT_MAX); [lia|]. apply wp_ret.
  set (P := radix ^ prec) in *. assert (0 < P) as HP by (apply Z.pow_pos_nonneg; lia). assert (0 <= N <= Z.abs n * P) as HN.
  { assert (0 <= Z.abs n * P) as A0 by (apply Z.mul_nonneg_nonneg; lia). set (A := Z.abs n * P) in *. clear - HR A0 Hd0. destruct m; cbn [rounds] in HR; nia. }
  assert (0 <= N / P <= Z.abs n) as HT. { split; [apply Z.div_pos; lia|]. apply Z.div_le_upper_bound; lia. }
  apply HQ.
  - unfold x. destruct (n <? 0), (Z.eqb_spec prec 0); lia.
  - destruct Hs as (i & f & Hi & Hf & Es). rewrite Z2Nat.id in Hi, Hf by lia. fold P in Hi, Hf. destruct Hf as (fds & Lf & _ & _ & ->).
    pose proof (bitlen_pow n) as B5. pose proof (numeral_len_le radix (N / P) i O ltac:(lia) Hi ltac:(rewrite Z.abs_eq by lia; lia) ltac:(lia)) as L1. destruct (Z.ltb_spec (N / P) 0); [lia|].
    rewrite Es, !app_length. unfold x. clear Es HR. destruct (Z.eqb_spec prec 0) as [->|Np].
    + change (Z.to_nat 0 =? 0)%nat with true. cbn [length]. destruct (n <? 0); cbn [andb]; [|cbn [length]; lia]. destruct (negb _); cbn [length]; lia.
    + rewrite (proj2 (Nat.eqb_neq (Z.to_nat prec) 0)) by lia. cbn [length]. rewrite map_length, Lf. destruct (n <? 0); cbn [andb]; [|cbn [length]; lia]. destruct (negb _); cbn [length]; lia.
  - unfold x. destruct (n <? 0); cbn [andb]; [destruct (negb _)|]; destruct (Z.eqb_spec prec 0); lia.
Qed.
(** The same program with an assertion instead of the unchecked pointer. *)
Definition rounding_chk (mode prec radix : Z) (s : list Z) : prog (Z * option (list Z)) :=
  local_rat (2, None) (fun v =>
    res <- mp_rat_read_decimal v radix s;
    if negb (res =? MP_OK) then Ret (res, None) else
    len <- mp_rat_decimal_len v radix prec;
    malloc_text len (fun buf =>
      res <- mp_rat_to_decimal v radix prec mode buf len;
      t <- cstring (Z.to_nat len + 1) buf;
      Free buf (Ret (res, Some t)))).
Lemma chk_local_rat {A} (bad : A) (f g : rat -> prog A) : (forall v, chk (f v) (g v)) -> chk (local_rat bad f) (local_rat bad g).
Proof.
  intros H. unfold local_rat. apply chk_NewO. intros n. apply chk_NewO. intros d. apply chk_bind. intros res. apply chk_if; [apply chk_refl|]. apply chk_bind2, H.
Qed.
Lemma rounding_chk_ok mode prec radix s : chk (rounding_main mode prec radix s) (rounding_chk mode prec radix s).
Proof.
  apply chk_local_rat. intros v. apply chk_bind. intros res. apply chk_if; [apply chk_refl|]. apply chk_bind. intros len. apply chk_malloc.
Qed.
Lemma wpV_rounding_main st V X m prec radix s (Q : Z * option (list Z) -> state -> Prop) : RV st V X -> 2 <= radix <= 36 -> 0 <= prec < 2 ^ 29 -> Z.of_nat (length s) < 2 ^ 31 ->
  (forall q, writes_decimal radix s q -> Z.abs (Qnum (Qred q)) < 2 ^ Z.min (enough_bits radix) (2 ^ 30 - 4) /\
     exists N, rounds m (Z.abs (Qnum (Qred q)) * radix ^ prec) (Zpos (Qden (Qred q))) N /\
       let F := Z.abs (Qnum (Qred q)) * radix ^ prec / Zpos (Qden (Qred q)) in (N = F \/ forall k, 1 <= k -> F mod radix ^ prec + 1 <> radix ^ k)) ->
  (forall q N t st', writes_decimal radix s q -> rounds m (Z.abs (Qnum (Qred q)) * radix ^ prec) (Zpos (Qden (Qred q))) N -> decimal_text radix (Z.to_nat prec) (Qnum (Qred q) <? 0) N t -> RV st' V X -> Q (MP_OK, Some t) st') ->
  (forall st', (forall q, ~ writes_decimal radix s q) -> RV st' V X -> Q (MP_TRUNC, None) st') -> wp (rounding_chk (rounding_code m) prec radix s) Q st.
Proof.
  intros HV Hr Bp Hl HF HQ1 HQ2. unfold rounding_chk. eapply wpV_local_rat; [exact HV|]. intros v st1 N _ _ HV1.
  wb. eapply wpV_read_decimal; [exact HV1|exact N|by apply pair_live|exact Hr|exact Hl| |].
  - intros q st2 Hq HV2. rewrite pair_rat in HV2 by done. change (MP_OK =? MP_OK) with true. cbn [negb]. destruct (HF q Hq) as (Bn & M & HR & HC). cbn zeta in HC.
    destruct (pair_rat_at V v N q) as [An Ad]. change (fst v) with (num v) in An. change (snd v) with (den v) in Ad. set (n := Qnum (Qred q)) in *. set (d := Zpos (Qden (Qred q))) in *. assert (0 < d) as Hd0 by done.
    set (P := radix ^ prec) in *. assert (0 < P) as HP by (apply Z.pow_pos_nonneg; lia).
    destruct (numeral_ex radix (M / P) (proj1 Hr)) as [i Hi]. destruct (digits_fixed_ex radix (Z.to_nat prec) (M mod P) (proj1 Hr)) as [f Hf]. { unfold P. rewrite Z2Nat.id by lia. apply Z.mod_pos_bound. done. }
    assert (exists t, decimal_text radix (Z.to_nat prec) (n <? 0) M t) as [t Ht].
    { eexists. exists i, f. rewrite Z2Nat.id by lia. split; [exact Hi|]. split; [exact Hf|reflexivity]. }
    wb. eapply (wpV_rat_decimal_len _ _ _ v n d radix prec m M t); [exact HV2|exact An|exact Hd0|exact Hr|exact Bp|exact Bn|exact HR|exact Ht|]. intros x X3 X1 X2.
    eapply wpV_malloc_text; [exact HV2|]. intros HN b st4 Fb HV4.
    assert (length (blank x) = Z.to_nat x) as Lb by apply replicate_length.
    wb. change (Hp b, 0) with (Hp b, Z.of_nat 0). eapply (wpV_rat_to_decimal (set_rat v q V) (setb X (Hp b) (blank x)) v st4 n d radix prec m (Hp b) 0 (blank x) x M t); [exact HV4|exact An|exact Ad|exact Hd0|apply setb_lookup|exact Hr|lia|exact HR|exact HC|exact Ht| |exact X2| | |].
    { destruct (prec =? 0); lia. }
    { intros Np. destruct (Z.eqb_spec prec 0); lia. }
    2:{ intros. destruct (prec =? 0); lia. }
    intros _ st5 HV5. rewrite setb_setb in HV5.
    wb. eapply (wpV_cstring (set_rat v q V) (Hp b) (overwrite 0 (t ++ [0]) (blank x)) t); [exact HV5|apply setb_lookup| |by eapply decimal_no_nul|destruct (prec =? 0); lia|].
    { intros j c Hj. apply overwrite_lookup; [exact Hj|lia]. }
    eapply wp_Free; [unfold live_heap; cbn; eapply RV_mem; [exact HV5|apply setb_lookup]|]. cbn [fst]. pose proof (RV_delB _ _ _ _ _ HV5 (setb_lookup _ _ _)) as HV6. rewrite setb_del in HV6 by done.
    apply wp_ret. rewrite rat_pair in HV6. split; [by eexists _, _|]. intros st7 HV7. eapply HQ1; [exact Hq|exact HR|exact Ht|exact HV7].
  - intros q st2 Hq HV2. rewrite pair_rat in HV2 by done. rewrite rat_pair in HV2. apply wp_ret. split; [by eexists _, _|]. intros st3 HV3. by apply HQ2.
Qed.

(** ** findprime *)
Lemma RV_newE st V X i l : let b := Ext i in mem st !! b = None -> RV st V X -> cmem X !! b = None /\ RV (add_block st b l) V (setb X b l).
Proof.
  intros b Hb (ζ & (σ & HR & HZ) & Hv). destruct (R_newB st σ X b l HR) as [H1 H2]; [done|done|].
  split; [done|]. exists ζ. split; [|done]. exists σ. by split.
Qed.
Lemma RV_obj (st : state) (V : gmap oid Z) (X : ctx) (o : oid) (v : Z) : RV st V X -> V !! o = Some v -> is_Some (objs st !! o).
Proof.
  intros (ζ & (σ & HR & HZ) & Hv) Ho. destruct (relv_some _ _ _ _ Hv Ho) as (zz & Hz & _).
  destruct (relz_some _ _ _ _ HZ Hz) as (f & Hf & _). eexists. by eapply R_get.
Qed.
Lemma numeral_len_below w t n : 1 <= n -> 0 <= w < 10 ^ n -> numeral 10 w t -> Z.of_nat (length t) <= n.
Proof. intros Hn Hw Ht. pose proof (numeral_len_le 10 w t n ltac:(lia) Ht) as HL. rewrite Z.abs_eq in HL by lia. specialize (HL (proj2 Hw) Hn). destruct (Z.ltb_spec w 0); lia. Qed.
Lemma wpV_findprime st V X s (Q : Z * option (list Z) -> state -> Prop) : RV st V X -> Z.of_nat (length s) < 2 ^ 31 ->
  (forall v w, writes 10 s v -> 131 < v -> next_prime v w -> w < 10 ^ 4095) ->
  (forall v w t st', writes 10 s v -> 131 < v -> next_prime v w -> numeral 10 w t -> RV st' V X -> Q (0, Some t) st') ->
  (forall v st', writes 10 s v -> v <= 131 -> Q (1, None) st') ->
  (forall st', (~ exists v, writes 10 s v) -> Q (2, None) st') -> wp (findprime_main s) Q st.
Proof.
  intros HV Hl HB HQ1 HQ2 HQ3. unfold findprime_main. apply wp_NewE. intros e Fe.
  assert (exists l0 : list cell, l0 = replicate 4096 None /\ Z.of_nat (length l0) = 4096) as (l0 & E0 & L0) by (eexists; split; [reflexivity|by vm_compute]). rewrite <- E0. clear E0.
  assert (exists n0, n0 = 4097%nat /\ Z.of_nat n0 = 4097) as (n0 & E0 & Ln) by (eexists; split; [reflexivity|by vm_compute]). rewrite <- E0. clear E0.
  assert (forall v w t, writes 10 s v -> 131 < v -> next_prime v w -> numeral 10 w t -> Z.of_nat (length t) <= 4095) as HL.
  { intros v w t A B C D. specialize (HB v w A B C). eapply numeral_len_below; [done| |exact D]. split; [|exact HB]. clear - B C. destruct C as [C _]. lia. }
  clear HB.
  destruct (RV_newE st V X e l0 Fe HV) as [Ce HVe]. set (ste := add_block _ _ _) in *. clearbody ste. clear HV st Fe.
  apply wp_NewO. intros z0 iz Fz. destruct (RV_newO _ _ _ false z0 _ HVe Fz) as (N1 & N2 & HV1). set (o := (false, iz)) in *. cbn [craw setb with_cmem] in N2.
  wb. eapply wpV_init; [exact HV1|cbn [craw with_craw]; apply lookup_insert|]. intros st1 _ HV2. cbn [craw with_craw setb with_cmem] in HV2. rewrite delete_insert in HV2 by done.
  assert (RV st1 (<[o := 0]> V) (setb X (Ext e) l0)) as HV3. { eapply RV_eqX; [exact HV2|]. by destruct X. } clear HV2 HV1 HVe Fz.
  assert (forall st2 v r, RV st2 (<[o := v]> V) (setb X (Ext e) l0) -> (forall st', Q r st') -> wp (DelO o (DelE (Ext e, 0) (Ret r))) Q st2) as Hleave.
  { intros st2 v r H2 HQ. destruct (RV_obj _ _ _ o v H2 (lookup_insert _ _ _)) as [zz Hz]. eapply wp_DelO; [exact Hz|done|]. pose proof (RV_mem _ _ _ _ _ H2 (setb_lookup _ _ _)) as Hm.
    eapply wp_DelE; [|by apply wp_ret]. unfold del_obj. cbn [mem]. rewrite ?lookup_delete_ne by done. exact Hm. }
  wb. eapply wpV_read_any; [exact HV3|apply lookup_insert|lia|exact Hl|]. intros res v st2 Hres HV4. rewrite insert_insert in HV4. clear HV3 st1.
  destruct Hres as [[-> Hw]|[-> Hn]].
  2:{ change (negb (MP_TRUNC =? MP_OK)) with true. cbv iota. eapply Hleave; [exact HV4|]. intros. by apply HQ3. }
  change (negb (MP_OK =? MP_OK)) with false. cbv iota. wb. eapply wpV_compare_value; [exact HV4|apply lookup_insert|lia|]. intros st3 HV5.
  destruct (Z.leb_spec (Z.sgn (v - 131)) 0) as [L|L]. { eapply Hleave; [exact HV5|]. intros. eapply HQ2; [exact Hw|lia]. }
  assert (131 < v) as Hv by lia. wb. eapply wpV_find_prime; [exact HV5|apply lookup_insert|]. intros st4 w HV6 W1 W2 W3 W4. rewrite insert_insert in HV6. change (negb (MP_TRUE =? MP_TRUE)) with false. cbv iota.
  assert (next_prime v w) as Hnp by done. destruct (numeral_ex 10 w ltac:(lia)) as [t Ht].
  pose proof (HL v w t Hw Hv Hnp Ht) as Lt.
  wb. change (Ext e, 0) with (Ext e, Z.of_nat 0). eapply (wpV_to_string _ _ _ o w 10 (Ext e) 0 l0 4096 t); [exact HV6|apply lookup_insert|apply setb_lookup|lia|lia|exact Ht|lia| |lia]. intros st5 _ HV7. rewrite setb_setb in HV7.
  wb. eapply (wpV_cstring _ (Ext e) (overwrite 0 (t ++ [0]) l0) t); [exact HV7|apply setb_lookup| |by eapply (numeral_no_nul 10)|lia|].
  { intros j c Hj. apply overwrite_lookup; [exact Hj|lia]. }
  wb. eapply wpV_clear; [exact HV7|apply lookup_insert|]. intros st6 z6 _ HV8. rewrite delete_insert in HV8 by done.
  eapply wp_DelO; [eapply RV_rawobj; [exact HV8|cbn [craw with_craw]; apply lookup_insert]|done|]. eapply RV_delO in HV8; [|cbn [craw with_craw]; apply lookup_insert].
  cbn [craw with_craw setb with_cmem] in HV8. rewrite delete_insert in HV8 by done.
  assert (RV (del_obj st6 o) V (setb X (Ext e) (overwrite 0 (t ++ [0]) l0))) as HV9. { eapply RV_eqX; [exact HV8|]. by destruct X. }
  eapply wp_DelE; [eapply RV_mem; [exact HV9|apply setb_lookup]|]. apply wp_ret. eapply HQ1; [exact Hw|exact Hv|exact Hnp|exact Ht|].
  pose proof (RV_delB _ _ _ _ _ HV9 (setb_lookup _ _ _)) as HV10. by rewrite setb_del in HV10.
Qed.

(** ** randprime *)
Lemma next_strong_after v w p : next_strong v p -> next_prime v w -> w <= p.
Proof. intros (H1 & H2 & H3 & _) (_ & _ & _ & H7). destruct (Z_le_gt_dec w p) as [|G]; [done|]. exfalso. by apply (H7 p); [lia| |]. Qed.
Lemma wpV_find_strong st V X k a v p (Q : Z -> state -> Prop) : RV st V X -> V !! a = Some v -> next_strong v p -> p - v < 2 ^ Z.of_nat k ->
  (forall st', RV st' (<[a := 2 * p + 1]> V) X -> Q MP_OK st') -> wp (find_strong_prime k a) Q st.
Proof.
  intros HV Ha Hp Hk HQ. unfold find_strong_prime. eapply wpV_local0'; [exact HV|]. intros t st1 Ht HV1. assert (a <> t) as Nat_ by congruence.
  eapply (wp_loop_n k _ (fun n _ st' => exists x y, n = p - x /\ next_strong x p /\ RV st' (<[t := y]> (<[a := x]> V)) X)); [|exact Hk|].
  { exists v, 0. split; [done|]. split; [done|]. by rewrite (insert_id V a v). }
  intros n s st2 (x & y & -> & Hx & HV2). unfold strong_body. wb. unfold find_prime. eapply wpV_find_prime; [exact HV2|rewrite lookup_insert_ne by done; apply lookup_insert|].
  intros st3 w HV3 W1 W2 W3 W4. change (negb (MP_TRUE =? MP_TRUE)) with false. cbv iota. assert (next_prime x w) as Hw by done. pose proof (next_strong_after _ _ _ Hx Hw) as Lw.
  assert (<[a := w]> (<[t := y]> (<[a := x]> V)) = <[t := y]> (<[a := w]> V)) as E by mapeq. rewrite E in HV3. clear E.
  wb. eapply wpV_copy; [exact HV3|rewrite lookup_insert_ne by done; apply lookup_insert|apply lookup_insert|]. intros st4 HV4. rewrite insert_insert in HV4. change (negb (MP_OK =? MP_OK)) with false. cbv iota.
  wb. eapply wpV_mul_pow2; [exact HV4|apply lookup_insert|apply lookup_insert|lia|]. intros st5 HV5. rewrite insert_insert in HV5. change (negb (MP_OK =? MP_OK)) with false. cbv iota.
  wb. eapply wpV_add_value; [exact HV5|apply lookup_insert|apply lookup_insert|lia|]. intros st6 HV6. rewrite insert_insert in HV6. change (negb (MP_OK =? MP_OK)) with false. cbv iota.
  replace (w * 2 ^ 1 + 1) with (2 * w + 1) in HV6 by (change (2 ^ 1) with 2; ring).
  wb. eapply wpV_is_prime; [exact HV6|apply lookup_insert|]. intros st7 r HV7 Hr. destruct Hx as (X1 & X2 & X3 & X4 & X5).
  destruct Hr as [[-> Hr]|[-> Hr]].
  - change (MP_TRUE =? MP_TRUE) with true. cbv iota. assert (w = p) as ->. { destruct (Z.eq_dec w p) as [|Nw]; [done|]. exfalso. apply (X5 w); [lia|done|done|done]. }
    wb. eapply wpV_copy; [exact HV7|apply lookup_insert|rewrite lookup_insert_ne by done; apply lookup_insert|]. intros st8 HV8. apply wp_ret.
    exists (<[a := 2 * p + 1]> V), (2 * p + 1). split; [by rewrite lookup_insert_ne|]. split; [|exact HQ]. eapply RV_eqV; [exact HV8|]. mapeq.
  - change (MP_FALSE =? MP_TRUE) with false. change (negb (MP_FALSE =? MP_FALSE)) with false. cbv iota. assert (w <> p) as Nw by (intros ->; done).
    assert (w + 2 <= p) as L2. { assert (p - w <> 1); [|lia]. intros E. assert (p = w + 1) as E' by lia. rewrite E', Z.odd_add, W2 in X2. done. }
    wb. eapply wpV_add_value; [exact HV7|rewrite lookup_insert_ne by done; apply lookup_insert|rewrite lookup_insert_ne by done; apply lookup_insert|lia|]. intros st8 HV8. change (negb (MP_OK =? MP_OK)) with false. cbv iota. apply wp_ret.
    exists (p - (w + 2)). split; [lia|]. exists (w + 2), (2 * w + 1). split; [done|]. split.
    + split; [done|]. split; [done|]. split; [done|]. split; [done|]. intros z Hz. apply X5. lia.
    + eapply RV_eqV; [exact HV8|]. mapeq.
Qed.
Lemma wpV_randprime st V X strong bits d (Q : list Z + Z -> state -> Prop) : RV st V X -> 8 <= bits < 2 ^ 32 - 9 -> good_draw d ->
  let n := bits + bits mod 2 - 1 in
  (forall k bs s, strong = Some k -> taken n d bs -> seed_of n bs s -> exists p, next_strong s p /\ p - s < 2 ^ Z.of_nat k) ->
  (forall bs s p t st', taken n d bs -> seed_of n bs s -> match strong with Some _ => exists h, next_strong s h /\ p = 2 * h + 1 | None => next_prime s p end -> numeral 10 p t -> RV st' V X -> Q (inl t) st') ->
  (forall r st', r = MP_MEMORY \/ r = MP_TRUNC /\ short n d -> RV st' V X -> Q (inr r) st') -> wp (randprime_main strong bits d) Q st.
Proof.
  intros HV Hb Hd n HS HQ HF. unfold randprime_main. destruct (Z.ltb_spec bits 8); [lia|].
  pose proof (Z.mod_pos_bound bits 2 ltac:(lia)) as B2. assert ((if bits mod 2 =? 1 then bits + 1 else bits) = n + 1) as ->. { unfold n. destruct (Z.eqb_spec (bits mod 2) 1); lia. }
  cbv zeta. replace (n + 1 - 1) with n by lia. assert (1 <= n < 2 ^ 32 - 8) as Hn by (unfold n; lia). clearbody n.
  eapply wpV_local0'; [exact HV|]. intros a st1 Ha HV1. wb. eapply wpV_randomize; [exact HV1|apply lookup_insert|exact Hn|exact Hd| |].
  { intros r st2 Hr HV2. assert (negb (r =? MP_OK) = true) as -> by (destruct Hr as [->|[-> _]]; done). apply wp_ret. exists V, 0. split; [done|]. split; [exact HV2|]. intros st3 HV3. by apply HF. }
  intros bs s st2 Hbs Hs HV2. rewrite insert_insert in HV2. change (negb (MP_OK =? MP_OK)) with false. cbv iota.
  destruct (seed_bounds n bs s ltac:(lia) Hs) as (_ & [Ps _] & _).
  assert (forall st3 p, match strong with Some _ => exists h, next_strong s h /\ p = 2 * h + 1 | None => next_prime s p end -> RV st3 (<[a := p]> V) X ->
    wp (len <- mp_int_string_len a 10; malloc_text len (fun obuf => mp_int_to_string a 10 obuf len;; t <- cstring (Z.to_nat len + 1) obuf; Free obuf (Ret (inl t))))
      (fun r st2 => exists V2 v, V2 !! a = None /\ RV st2 (<[a := v]> V2) X /\ forall st3, RV st3 V2 X -> Q r st3) st3) as Hout.
  { intros st3 p Np HV3. assert (0 <= p) as Pp. { destruct strong; [destruct Np as (h & (? & _) & ->)|destruct Np as [? _]]; lia. }
    wb. eapply wpV_string_len; [exact HV3|apply lookup_insert|lia|]. destruct (Z.ltb_spec p 0); [lia|]. rewrite Z.add_0_r. destruct (outlen_enough (bitlen p) 10 ltac:(lia)) as [E1 E2]; [eapply bitlen_max; [exact HV3|apply lookup_insert]|]. set (L := outlen (bitlen p) 10) in *.
    destruct (numeral_ex 10 p ltac:(lia)) as [t Ht]. assert (Z.of_nat (length t) < L + 1) as HL.
    { pose proof (bitlen_pow p) as B. rewrite Z.abs_eq in B by lia. pose proof (numeral_len_le 10 p t L ltac:(lia) Ht ltac:(rewrite Z.abs_eq by lia; lia) E2). destruct (Z.ltb_spec p 0); lia. } clear E1.
    eapply wpV_malloc_text; [exact HV3|]. intros HM m st4 Fm HV4. assert (length (blank (L + 1)) = Z.to_nat (L + 1)) as Lb by apply replicate_length.
    wb. change (Hp m, 0) with (Hp m, Z.of_nat 0). eapply (wpV_to_string _ _ _ a p 10 (Hp m) 0 (blank (L + 1)) (L + 1) t); [exact HV4|apply lookup_insert|apply setb_lookup|lia|lia|exact Ht|lia| |lia]. intros st5 _ HV5. rewrite setb_setb in HV5.
    wb. eapply (wpV_cstring _ (Hp m) (overwrite 0 (t ++ [0]) (blank (L + 1))) t); [exact HV5|apply setb_lookup| |by eapply (numeral_no_nul 10)|lia|].
    { intros j c Hj. apply overwrite_lookup; [exact Hj|lia]. }
    eapply wp_Free; [unfold live_heap; cbn; eapply RV_mem; [exact HV5|apply setb_lookup]|]. apply wp_ret. cbn [fst].
    pose proof (RV_delB _ _ _ _ _ HV5 (setb_lookup _ _ _)) as HV6. rewrite setb_del in HV6 by done. exists V, p. split; [done|]. split; [exact HV6|]. intros st7 HV7. by eapply HQ. }
  wb. destruct strong as [k|].
  - destruct (HS k bs s eq_refl Hbs Hs) as (p & Np & Hk). eapply wpV_find_strong; [exact HV2|apply lookup_insert|exact Np|exact Hk|]. intros st3 HV3. rewrite insert_insert in HV3. eapply Hout; [|exact HV3]. by exists p.
  - unfold find_prime. eapply wpV_find_prime; [exact HV2|apply lookup_insert|]. intros st3 w HV3 W1 W2 W3 W4. rewrite insert_insert in HV3. eapply Hout; [|exact HV3]. done.
Qed.
