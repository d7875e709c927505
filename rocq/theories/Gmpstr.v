(** The text functions of the GMP interface: rules. *)
From Coq Require Import ZArith List Lia QArith.
From stdpp Require Import gmap list.
From Verif Require Import SpecHist.
From Verif Require Import Mem Prog Kern Fp Imath Imrat Gmp Wp MemLem Dig KernLem Rel RelWp RelZ Life Basic Basic2 Mult Shift Knuth Divi Powr Spec Public Gcd SpecRat Rat Buf Text Read Outlen SpecDec.
From Verif Require Import Inlen Bin Impexp Rsa RatText RatDec RatOut SpecGstr Outup.
Local Open Scope Z_scope.
Local Open Scope prog_scope.

Definition gcase (radix c : Z) : Z := if radix <? 0 then toupper c else tolower c.
Lemma wpV_case st V X b l radix : forall (cs : list Z) (off : nat) (Q : unit -> state -> Prop), RV st V X -> cmem X !! b = Some l ->
  (off + length cs <= length l)%nat -> (forall i c, cs !! i = Some c -> l !! (off + i)%nat = Some (Some c)) -> Forall (fun c => 0 <= c < 128) cs ->
  (forall st', RV st' V (setb X b (overwrite off (map (gcase radix) cs) l)) -> Q tt st') -> wp (case_loop (length cs) radix (b, Z.of_nat off)) Q st.
Proof.
  intros cs. revert st X l. induction cs as [|c cs IH]; intros st X l off Q HV Hb Hlen Hl Hc HQ; cbn [length case_loop].
  - apply wp_ret. apply HQ. cbn [map]. rewrite overwrite_nil, setb_id by done. exact HV.
  - apply Forall_cons in Hc as [Hc Hcs]. cbn [length] in Hlen. wb. eapply (wpV_loadb _ _ _ _ _ _ c); [exact HV|exact Hb|lia|rewrite Nat2Z.id; specialize (Hl O c eq_refl); by rewrite Nat.add_0_r in Hl|].
    destruct (Z.leb_spec 128 c); [lia|]. wb. eapply wpV_storeb; [exact HV|exact Hb|lia|]. intros st1 HV1. rewrite Nat2Z.id in HV1. fold (gcase radix c) in HV1.
    rewrite ptr_add. replace (Z.of_nat off + 1) with (Z.of_nat (S off)) by lia. eapply IH; [exact HV1|apply setb_lookup|rewrite insert_length; lia| |done|].
    { intros i c' Hi. rewrite list_lookup_insert_ne by lia. specialize (Hl (S i) c' Hi). by replace (S off + i)%nat with (off + S i)%nat by lia. }
    intros st2 HV2. apply HQ. rewrite setb_setb in HV2. cbn [map]. rewrite <- overwrite_cons; [done|]. rewrite map_length. lia.
Qed.
Lemma gcase_zero radix : gcase radix 0 = 0. Proof. unfold gcase. by destruct (_ <? 0). Qed.
Lemma gcase_digit radix d : 0 <= d < 36 -> gcase radix (digit_char d) = gmp_digit (radix <? 0) d.
Proof.
  intros H. unfold gcase, digit_char, gmp_digit, toupper, tolower, islower. destruct (Z.ltb_spec d 10).
  - destruct (radix <? 0).
    + destruct (Z.leb_spec 97 (48 + d)); [lia|done].
    + destruct (Z.leb_spec 65 (48 + d)); [lia|done].
  - destruct (radix <? 0).
    + destruct (Z.leb_spec 97 (55 + d)); [|done]. destruct (Z.leb_spec (55 + d) 122); lia.
    + destruct (Z.leb_spec 65 (55 + d)); [|lia]. destruct (Z.leb_spec (55 + d) 90); [cbn [andb]; lia|lia].
Qed.
(** The two vocabularies. *)
Lemma gmp_numeral_of up r v s : 2 <= r <= 36 -> gmp_numeral up r v s -> exists t, numeral r v t /\ s = map (gcase (if up : bool then -1 else 1)) t /\ Forall (fun c => 0 <= c < 128) t.
Proof.
  intros Hr (ds & H1 & H2 & H3 & H4 & ->). exists ((if v <? 0 then [45] else []) ++ map digit_char ds). split; [by exists ds|].
  split.
  - rewrite map_app. f_equal; [destruct (v <? 0); [by destruct up|done]|]. rewrite map_map. apply map_ext_in. intros d Hd. rewrite Forall_forall in H1. apply elem_of_list_In in Hd. specialize (H1 d Hd). rewrite gcase_digit by lia. by destruct up.
  - apply Forall_app. split; [destruct (v <? 0); repeat constructor; lia|]. apply Forall_forall. intros c Hc. apply elem_of_list_fmap in Hc as (d & -> & Hd). rewrite Forall_forall in H1. specialize (H1 d Hd). unfold digit_char. destruct (Z.ltb_spec d 10); lia.
Qed.
Lemma gcase_sign radix c : gcase radix c = gcase (if radix <? 0 then -1 else 1) c.
Proof. unfold gcase. by destruct (radix <? 0). Qed.

Section gstr.
Context (st : state) (V : gmap oid Z) (X : ctx).
(** The size [mp_int_string_len] gives, compared to the text. *)
Lemma string_len_bounds r v s : 2 <= r <= 36 -> Z.abs v < 2 ^ Z.min (enough_bits r) (2 ^ 29) -> numeral r v s ->
  Z.of_nat (length s) + 1 <= outlen (bitlen v) r + 1 + (if v <? 0 then 1 else 0) <= Z.of_nat (length s) + 2.
Proof.
  intros Hr Hv Hs. set (M := Z.min (enough_bits r) (2 ^ 29)) in *. assert (1 <= M <= 2 ^ 29 /\ M <= enough_bits r) as [HM1 HM2] by (pose proof (enough_bits_pos r); lia).
  pose proof (bitlen_le v M ltac:(lia) Hv) as B1. pose proof (bitlen_pos v) as B2. destruct (outlen_enough (bitlen v) r Hr ltac:(lia)) as [E1 E2].
  pose proof (outlen_tight r v s Hr ltac:(lia) Hs) as HT. pose proof (bitlen_pow v) as BP. pose proof (numeral_len_le r v s _ (proj1 Hr) Hs (Z.lt_le_trans _ _ _ BP E1) ltac:(lia)) as HLE.
  clear E1 BP Hv. lia.
Qed.
Lemma wpV_get_str_tail radix z v b (off : nat) l s len (Q : unit -> state -> Prop) :
  RV st V X -> V !! z = Some v -> cmem X !! b = Some l -> let r := Z.abs radix in 2 <= r <= 36 -> Z.abs v < 2 ^ Z.min (enough_bits r) (2 ^ 29) ->
  gmp_numeral (radix <? 0) r v s -> len = outlen (bitlen v) r + 1 + (if v <? 0 then 1 else 0) -> (off + length s + 1 <= length l)%nat ->
  (forall st', RV st' V (setb X b (overwrite off (s ++ [0]) l)) -> Q tt st') ->
  wp (CHECK (mp_int_to_string z r (b, Z.of_nat off) len);; case_loop (Z.to_nat (len - 1)) radix (b, Z.of_nat off)) Q st.
Proof.
  intros HV Hz Hb r Hr Hv Hs Hlen Hl HQ.
  destruct (gmp_numeral_of _ _ _ _ Hr Hs) as (t & Ht & -> & Hc). rewrite map_length in Hl. pose proof (string_len_bounds r v t Hr Hv Ht) as HB. rewrite <- Hlen in HB. clear Hlen.
  assert (1 <= length t)%nat as Lt by (destruct Ht as (ds & _ & _ & Hds & _ & ->); rewrite app_length, map_length; destruct ds; [done|cbn [length]; lia]).
  assert (forall p, p = t \/ p = t ++ [0] -> forall st', RV st' V (setb X b (overwrite off (t ++ [0]) l)) -> wp (case_loop (length p) radix (b, Z.of_nat off)) Q st') as HW.
  { intros p Hp st' HV'. eapply wpV_case; [exact HV'|apply setb_lookup| | | |].
    - rewrite overwrite_length; destruct Hp as [->| ->]; rewrite ?app_length; cbn [length]; lia.
    - intros i c Hi. apply overwrite_at; [|rewrite app_length; cbn [length]; lia]. destruct Hp as [->| ->]; [by apply lookup_app_l_Some|done].
    - destruct Hp as [->| ->]; [done|]. apply Forall_app. split; [done|repeat constructor; lia].
    - intros st2 HV2. apply HQ. rewrite setb_setb in HV2.
      replace (map (gcase (if radix <? 0 then -1 else 1)) t) with (map (gcase radix) t) by (apply map_ext; intros; apply gcase_sign).
      enough (overwrite off (map (gcase radix) p) (overwrite off (t ++ [0]) l) = overwrite off (map (gcase radix) t ++ [0]) l) as <- by done.
      destruct Hp as [->| ->].
      + pose proof (overwrite_app l off t [0] ltac:(cbn [length]; lia)) as E. rewrite <- E. rewrite <- (overwrite_app l off (map (gcase radix) t) [0]) by (rewrite map_length; cbn [length]; lia). rewrite map_length.
        apply list_eq. intros i. rewrite !overwrite_lk by (rewrite ?overwrite_length, ?map_length; cbn [length]; rewrite ?overwrite_length, ?map_length; cbn [length]; lia). rewrite map_length. cbn [length].
        repeat destruct (decide _); try lia; done.
      + rewrite overwrite_overwrite; [|rewrite app_length; cbn [length]; lia|rewrite map_length; done]. by rewrite map_app, map_cons, gcase_zero. }
  wb. unfold CHECK. wb. eapply wpV_to_string; [exact HV|exact Hz|exact Hb|done|lia|exact Ht|lia| |lia]. intros st1 _ HV1. change (MP_OK =? MP_OK) with true. apply wp_assert; [done|].
  assert (Z.to_nat (len - 1) = length t \/ Z.to_nat (len - 1) = length (t ++ [0])) as [E|E] by (rewrite app_length; cbn [length]; lia); rewrite E; apply HW; tauto.
Qed.
Lemma wpV_get_str radix z v b (off : nat) l s (Q : unit -> state -> Prop) :
  RV st V X -> V !! z = Some v -> cmem X !! b = Some l -> let r := Z.abs radix in 2 <= r <= 36 -> Z.abs v < 2 ^ Z.min (enough_bits r) (2 ^ 29) ->
  gmp_numeral (radix <? 0) r v s -> (off + length s + 1 <= length l)%nat ->
  (forall st', RV st' V (setb X b (overwrite off (s ++ [0]) l)) -> Q tt st') -> wp (mpz_get_str (b, Z.of_nat off) radix z) Q st.
Proof.
  intros HV Hz Hb r Hr Hv Hs Hl HQ. unfold mpz_get_str. replace (if radix <? 0 then - radix else radix) with r by (unfold r; destruct (Z.ltb_spec radix 0); lia).
  wb. eapply wpV_string_len; [exact HV|exact Hz|done|]. by eapply wpV_get_str_tail.
Qed.
End gstr.
Lemma wpV_rat_string_len st V X r n d radix (Q : Z -> state -> Prop) : RV st V X -> V !! num r = Some n -> V !! den r = Some d -> 2 <= radix <= 36 -> n <> 0 -> 0 < d ->
  outlen (bitlen n) radix <= 2 ^ 30 -> outlen (bitlen d) radix <= 2 ^ 30 - 5 ->
  Q (outlen (bitlen n) radix + 1 + (if n <? 0 then 1 else 0) + (outlen (bitlen d) radix + 1)) st -> wp (mp_rat_string_len r radix) Q st.
Proof.
  intros HV Hn Hd Hr Hn0 Hd0 Ln Ld HQ. unfold mp_rat_string_len. wb. eapply wpV_string_len; [exact HV|exact Hn|done|]. wb. eapply wpV_compare_zero; [exact HV|exact Hn|].
  destruct (Z.eqb_spec (Z.sgn n) 0) as [E|E]; [lia|]. cbn [negb]. wb. eapply wpV_string_len; [exact HV|exact Hd|done|]. destruct (Z.ltb_spec d 0); [lia|]. rewrite Z.add_0_r.
  destruct (Z.gtb_spec (outlen (bitlen n) radix + 1 + (if n <? 0 then 1 else 0) + (outlen (bitlen d) radix + 1)) INT_MAX) as [L|L].
  { unfold INT_MAX in L. destruct (n <? 0); lia. }
  by apply wp_ret.
Qed.
Lemma wpV_get_ratio st V X radix r q b (off : nat) l s (Q : unit -> state -> Prop) :
  RV st V X -> rat_at V r q -> cmem X !! b = Some l -> let rx := Z.abs radix in 2 <= rx <= 36 ->
  Z.abs (Qnum (Qred q)) < 2 ^ Z.min (enough_bits rx) (2 ^ 29) -> Zpos (Qden (Qred q)) < 2 ^ Z.min (enough_bits rx) (2 ^ 29) ->
  gmp_ratio (radix <? 0) rx q s -> (off + length s + 1 <= length l)%nat ->
  (Zpos (Qden (Qred q)) <> 1 -> forall i, (length s < i <= length s + 2)%nat -> exists c, l !! (off + i)%nat = Some (Some c) /\ 0 <= c < 128) ->
  (forall st' t, (length t <= 2)%nat -> RV st' V (setb X b (overwrite off (s ++ 0 :: t) l)) -> Q tt st') -> wp (mpq_get_str (b, Z.of_nat off) radix r) Q st.
Proof.
  intros HV [Hn Hd] Hb rx Hr Bn Bd (gn & gd & Hgn & Hgd & Es) Hl Hold HQ. unfold mpq_get_str, mp_rat_denom_ref, mp_rat_numer_ref.
  set (n := Qnum (Qred q)) in *. set (d := Zpos (Qden (Qred q))) in *. assert (0 < d) as Hd0 by done.
  wb. eapply wpV_compare_value; [exact HV|exact Hd|lia|]. destruct (Z.eqb_spec d 1) as [E1|E1].
  { rewrite E1. change (Z.sgn (1 - 1) =? 0) with true. cbv iota. subst gn. intros st0 HV0. refine (wpV_get_str st0 V X radix _ n b off l s Q HV0 Hn Hb Hr Bn Hgn Hl _). intros st' HV'. apply (HQ st' []); [cbn; lia|done]. }
  destruct (Z.eqb_spec (Z.sgn (d - 1)) 0) as [E|E]; [lia|]. clear E. clear HV st. intros st HV. specialize (Hold E1).
  assert (n <> 0) as Hn0. { intros E. apply E1. destruct (Qred_num_den q) as [_ G]. fold n d in G. rewrite E, Z.gcd_0_l, Z.abs_eq in G by lia. exact G. }
  replace (if radix <? 0 then - radix else radix) with rx by (unfold rx; destruct (Z.ltb_spec radix 0); lia).
  destruct (gmp_numeral_of _ _ _ _ Hr Hgn) as (sn & Hsn & -> & Hcn). destruct (gmp_numeral_of _ _ _ _ Hr Hgd) as (sd & Hsd & -> & Hcd).
  pose proof (string_len_bounds rx n sn Hr Bn Hsn) as HBn. pose proof (string_len_bounds rx d sd Hr ltac:(rewrite Z.abs_eq by lia; exact Bd) Hsd) as HBd. destruct (Z.ltb_spec d 0); [lia|].
  set (g := gcase (if radix <? 0 then -1 else 1)) in *. assert (g 47 = 47) as G47 by (unfold g; by destruct (radix <? 0)).
  assert (s = map g (sn ++ 47 :: sd)) as -> by (rewrite Es, map_app; cbn [map]; by rewrite G47). clear Es. rewrite map_length in Hl, Hold.
  assert (1 <= length sn)%nat as Lsn by (destruct Hsn as (ds & _ & _ & Hds & _ & ->); rewrite app_length, map_length; destruct ds; [done|cbn [length]; lia]).
  assert (1 <= length sd)%nat as Lsd by (destruct Hsd as (ds & _ & _ & Hds & _ & ->); rewrite app_length, map_length; destruct ds; [done|cbn [length]; lia]).
  set (t := sn ++ 47 :: sd) in *. assert (length t = length sn + 1 + length sd)%nat as Lt by (unfold t; rewrite app_length; cbn [length]; lia).
  assert (forall v, Z.abs v < 2 ^ Z.min (enough_bits rx) (2 ^ 29) -> outlen (bitlen v) rx <= 2 ^ 29 + 1) as HO.
  { intros v Hv. pose proof (enough_bits_pos rx). pose proof (bitlen_le v (Z.min (enough_bits rx) (2 ^ 29)) ltac:(lia) Hv) as B1. pose proof (bitlen_pos v). pose proof (outlen_le (bitlen v) rx Hr ltac:(lia)). lia. }
  pose proof (HO n Bn) as On. pose proof (HO d ltac:(rewrite Z.abs_eq by lia; exact Bd)) as Od. clear HO.
  wb. eapply (wpV_rat_string_len _ _ _ r n d); [exact HV|exact Hn|exact Hd|done|done|done|lia|lia|].
  set (len := outlen (bitlen n) rx + 1 + (if n <? 0 then 1 else 0) + (outlen (bitlen d) rx + 1)).
  assert (Z.of_nat (length t) + 1 <= len <= Z.of_nat (length t) + 3) as HL by (unfold len; lia). clearbody len. clear HBn HBd On Od Bn Bd.
  assert (exists old, length old = (Z.to_nat len - length t - 1)%nat /\ (forall i c, old !! i = Some c -> l !! (off + length t + 1 + i)%nat = Some (Some c)) /\ Forall (fun c => 0 <= c < 128) old) as (old & O1 & O2 & O3).
  { assert (Z.to_nat len - length t - 1 = 0 \/ Z.to_nat len - length t - 1 = 1 \/ Z.to_nat len - length t - 1 = 2)%nat as [->|[->| ->]] by lia.
    - exists []. split; [done|]. split; [done|constructor].
    - destruct (Hold (length t + 1)%nat ltac:(lia)) as (c & Hc & Bc). exists [c]. split; [done|]. split; [|constructor; [done|constructor]]. intros [|i] x Hx; [injection Hx as <-|done]. rewrite <- Hc. f_equal. lia.
    - destruct (Hold (length t + 1)%nat ltac:(lia)) as (c & Hc & Bc). destruct (Hold (length t + 2)%nat ltac:(lia)) as (c' & Hc' & Bc'). exists [c; c']. split; [done|]. split; [|constructor; [done|constructor; [done|constructor]]].
      intros [|[|i]] x Hx; [injection Hx as <-; rewrite <- Hc; f_equal; lia|injection Hx as <-; rewrite <- Hc'; f_equal; lia|done]. }
  assert (length old = 0 \/ off + length t + 1 + length old <= length l)%nat as Lo.
  { destruct old as [|c old] using rev_ind; [by left|]. right. clear IHold. specialize (O2 (length old) c ltac:(rewrite lookup_app_r by lia; by rewrite Nat.sub_diag)). apply lookup_lt_Some in O2. rewrite app_length. cbn [length]. lia. }
  assert (forall st', RV st' V (setb X b (overwrite off (t ++ [0]) l)) -> wp (case_loop (Z.to_nat len) radix (b, Z.of_nat off)) Q st') as HW.
  { intros st' HV'. replace (Z.to_nat len) with (length (t ++ 0 :: old)) by (rewrite app_length; cbn [length]; lia).
    eapply wpV_case; [exact HV'|apply setb_lookup| | | |].
    - rewrite overwrite_length by (rewrite app_length; cbn [length]; lia). rewrite app_length. cbn [length]. lia.
    - intros i c Hi. rewrite overwrite_lk by (rewrite app_length; cbn [length]; lia). rewrite app_length. cbn [length]. destruct (decide _) as [D|D].
      + replace (off + i - off)%nat with i by lia. replace (t ++ 0 :: old) with ((t ++ [0]) ++ old) in Hi by (by rewrite <- app_assoc). rewrite lookup_app_l in Hi by (rewrite app_length; cbn [length]; lia). by rewrite Hi.
      + replace (t ++ 0 :: old) with ((t ++ [0]) ++ old) in Hi by (by rewrite <- app_assoc). rewrite lookup_app_r in Hi by (rewrite app_length; cbn [length]; lia). rewrite app_length in Hi. cbn [length] in Hi. specialize (O2 _ _ Hi). rewrite <- O2. f_equal. lia.
    - apply Forall_app. split; [|constructor; [lia|done]]. apply Forall_app. split; [done|]. constructor; [lia|done].
    - intros st2 HV2. rewrite setb_setb in HV2. apply (HQ st2 (map (gcase radix) old)); [rewrite map_length, O1; lia|].
      replace (map g t ++ 0 :: map (gcase radix) old) with (map (gcase radix) (t ++ 0 :: old)).
      + rewrite overwrite_overwrite in HV2; [done|rewrite app_length; cbn [length]; lia|rewrite map_length, !app_length; cbn [length]; lia].
      + rewrite map_app. cbn [map]. rewrite gcase_zero. f_equal. apply map_ext. intros c. apply gcase_sign. }
  wb. unfold CHECK. wb. eapply (wpV_rat_to_string _ _ _ r n d); [exact HV|exact Hn|exact Hd|exact Hb|done|lia|exact Hsn|exact Hsd| | | | |].
  - rewrite (proj2 (Z.eqb_neq n 0) Hn0). fold t. lia.
  - done.
  - intros st1 u _ _ _ Hu HV1. destruct (Z.leb_spec (Z.of_nat (length sn) + 1 + Z.of_nat (length sd) + 1) len); [|lia]. change (MP_OK =? MP_OK) with true. apply wp_assert; [done|]. apply HW. rewrite Hu in HV1. unfold t. by rewrite <- app_assoc.
  - intros. lia.
  - intros. lia.
Qed.
(** Reading. *)
Lemma wpV_set_str st V X z v0 base s v rest (Q : Z -> state -> Prop) : RV st V X -> V !! z = Some v0 -> 2 <= base <= 36 -> reads base s v rest -> Z.of_nat (length s) < 2 ^ 31 ->
  (forall st', RV st' (<[z := v]> V) X -> Q (match rest with [] => 0 | _ => -1 end) st') -> wp (mpz_set_str z s base) Q st.
Proof.
  intros HV Hz Hb Hs Hl HQ. unfold mpz_set_str, mp_int_read_string. wb. wb. eapply wpV_read_reads; [exact HV|exact Hz|done|exact Hs|done|]. intros st' HV'. apply wp_ret. apply wp_ret.
  specialize (HQ st' HV'). by destruct rest.
Qed.
Lemma split_at_some c a b : c ∉ a -> split_at c (a ++ c :: b) = (a, Some b).
Proof. induction a as [|x a IH]; intros H; cbn [split_at app]; [by rewrite Z.eqb_refl|]. apply not_elem_of_cons in H as [H1 H2]. rewrite (proj2 (Z.eqb_neq x c)) by done. by rewrite IH. Qed.
Lemma split_at_none c a : c ∉ a -> split_at c a = (a, None).
Proof. induction a as [|x a IH]; intros H; cbn [split_at]; [done|]. apply not_elem_of_cons in H as [H1 H2]. rewrite (proj2 (Z.eqb_neq x c)) by done. by rewrite IH. Qed.
Lemma gmp_digit_of up d r : 0 <= d < r -> r <= 36 -> digit_of (gmp_digit up d) = Some d /\ d < r.
Proof.
  intros H Hr. split; [|lia]. unfold gmp_digit, digit_of. destruct (Z.ltb_spec d 10).
  - destruct (Z.leb_spec 48 (48 + d)); [|lia]. destruct (Z.leb_spec (48 + d) 57); [|lia]. cbn [andb]. f_equal. lia.
  - destruct up.
    + destruct (Z.leb_spec (55 + d) 57); [lia|]. rewrite andb_false_r. destruct (Z.leb_spec 65 (55 + d)); [|lia]. destruct (Z.leb_spec (55 + d) 90); [|lia]. cbn [andb]. f_equal. lia.
    + destruct (Z.leb_spec (87 + d) 57); [lia|]. rewrite andb_false_r. destruct (Z.leb_spec (87 + d) 90); [lia|]. rewrite andb_false_r. destruct (Z.leb_spec 97 (87 + d)); [|lia]. destruct (Z.leb_spec (87 + d) 122); [|lia]. cbn [andb]. f_equal. lia.
Qed.
Lemma gmp_digit_ge up d : 0 <= d -> 48 <= gmp_digit up d.
Proof. intros H. unfold gmp_digit. destruct (Z.ltb_spec d 10); [lia|]. destruct up; lia. Qed.
Lemma gmp_numeral_reads up r v s : 2 <= r <= 36 -> gmp_numeral up r v s -> reads r s v [].
Proof.
  intros Hr (ds & H1 & H2 & H3 & _ & ->). exists [], (if v <? 0 then [45] else []), (map (gmp_digit up) ds), ds. split.
  - split; [by rewrite app_nil_r|]. split; [constructor|]. split; [destruct (v <? 0); tauto|]. split.
    { clear H2 H3. induction H1; cbn [map]; constructor; [apply gmp_digit_of; [done|lia]|done]. }
    split; [done|]. intros _ c Hc. rewrite app_nil_r in Hc. destruct ds as [|d ds]; [done|]. cbn in Hc. injection Hc as <-. apply Forall_cons in H1 as [Hd _]. pose proof (gmp_digit_ge up d (proj1 Hd)). unfold is_space. lia.
  - rewrite H2. destruct (Z.ltb_spec v 0); [rewrite decide_True by done|rewrite decide_False by done]; lia.
Qed.
Lemma gmp_numeral_no47 up r v s : 2 <= r <= 36 -> gmp_numeral up r v s -> 47 ∉ s.
Proof.
  intros Hr (ds & H1 & _ & _ & _ & ->) E. apply elem_of_app in E as [E|E].
  - destruct (v <? 0); [apply elem_of_list_singleton in E|apply elem_of_nil in E]; done.
  - apply elem_of_list_In, in_map_iff in E as (d & E & Hd). rewrite List.Forall_forall in H1. specialize (H1 d Hd). pose proof (gmp_digit_ge up d). lia.
Qed.
Lemma digit_count_numeral r v D s : 2 <= r -> numeral r v s -> digit_count r v D -> Z.of_nat (length s) = D + if v <? 0 then 1 else 0.
Proof.
  intros Hr Hs (D1 & D2 & D3). pose proof (numeral_len_le r v s D Hr Hs D2 D1) as L. destruct (Outup.numeral_digits r v s Hr Hs) as [L1 L2].
  destruct (Z.eq_dec D 1) as [->|N]; [lia|]. specialize (D3 ltac:(lia)).
  assert (D - 1 < Z.of_nat (length s) - (if v <? 0 then 1 else 0)); [|lia]. apply (Z.pow_lt_mono_r_iff r); [lia|lia|]. lia.
Qed.
Lemma Qred_int n : Qred (inject_Z n) = n # 1.
Proof.
  unfold inject_Z, Qred. pose proof (Z.ggcd_gcd n 1) as G. pose proof (Z.ggcd_correct_divisors n 1) as C. destruct (Z.ggcd n 1) as [g [a b]]. cbn [fst snd] in *. rewrite Z.gcd_1_r in G. subst g.
  destruct C as [-> C]. assert (b = 1) as -> by lia. by rewrite Z.mul_1_l.
Qed.
Lemma pow2_radix j : 2 <= 2 ^ j <= 36 -> 1 <= j <= 5.
Proof.
  intros Hb. assert (0 <= j) by (destruct (Z.neg_nonneg_cases j); [rewrite Z.pow_neg_r in Hb by done; lia|done]).
  split; [destruct (Z.eq_dec j 0); [subst j; cbn in Hb; lia|lia]|]. destruct (Z.le_gt_cases j 5); [done|]. pose proof (Z.pow_le_mono_r 2 6 j ltac:(lia) ltac:(lia)). change (2 ^ 6) with 64 in *. lia.
Qed.
(** Rationals on the heap. *)
Lemma wpV_rat_alloc st V X (Q : option rat -> state -> Prop) : RV st V X -> (forall st', RV st' V X -> Q None st') ->
  (forall r st', fst r <> snd r -> V !! fst r = None -> V !! snd r = None -> craw X !! fst r = None -> craw X !! snd r = None -> heap_made r -> RV st' (set_rat r 0%Q V) X -> Q (Some r) st') ->
  wp mp_rat_alloc Q st.
Proof.
  intros HV HN HQ. unfold mp_rat_alloc. apply wp_MallocO; [apply wp_ret; by apply HN|]. intros z1 iz1 Fz1.
  destruct (RV_newO st V X true z1 _ HV Fz1) as (A1 & A2 & HV1). set (n := (true, iz1)) in *. set (st1 := add_obj st n z1) in *.
  apply wp_MallocO.
  { eapply wp_FreeO; [eapply RV_rawobj; [exact HV1|cbn [craw with_craw]; apply lookup_insert]|done|]. apply wp_ret. apply HN.
    eapply RV_delO in HV1; [|cbn [craw with_craw]; apply lookup_insert]. unfold with_craw in HV1. cbn [craw cmem cglob] in HV1. rewrite delete_insert in HV1 by done. destruct X; exact HV1. }
  intros z2 iz2 Fz2. destruct (RV_newO st1 V _ true z2 _ HV1 Fz2) as (B1 & B2 & HV2). set (d := (true, iz2)) in *. cbn [craw with_craw] in B2, HV2.
  assert (n <> d) as N by (intros E; rewrite <- E, lookup_insert in B2; done). rewrite lookup_insert_ne in B2 by done.
  wb. eapply wpV_rat_init; [exact HV2|exact N|cbn [craw with_craw num fst]; rewrite lookup_insert_ne by done; apply lookup_insert|cbn [craw with_craw den snd]; apply lookup_insert|].
  intros st3 _ _ HV3. change (negb (MP_OK =? MP_OK)) with false. cbv iota. apply wp_ret. apply HQ; [exact N|done|done|done|done|done|].
  eapply RV_eqX; [exact HV3|]. unfold unraw, with_craw. cbn [craw cmem cglob num den fst snd]. destruct X as [m c g]. cbn [craw cmem cglob] in *. f_equal.
  apply map_eq. intros o. destruct (decide (o = d)) as [->|]; [rewrite lookup_delete; done|]. rewrite lookup_delete_ne by done. destruct (decide (o = n)) as [->|]; [rewrite lookup_delete; done|]. rewrite lookup_delete_ne by done. rewrite !lookup_insert_ne by done. done.
Qed.
Lemma wpV_rat_free st V X r vn vd (Q : unit -> state -> Prop) : RV st V X -> fst r <> snd r -> V !! fst r = Some vn -> V !! snd r = Some vd -> heap_made r ->
  (forall st', RV st' (delete (snd r) (delete (fst r) V)) X -> Q tt st') -> wp (mp_rat_free r) Q st.
Proof.
  intros HV N Hn Hd [M1 M2] HQ. unfold mp_rat_free. pose proof (RV_not_raw _ _ _ _ _ HV Hn) as C1. pose proof (RV_not_raw _ _ _ _ _ HV Hd) as C2.
  assert (exists z p, objs st !! fst r = Some z /\ digits z = Some p) as (z & p & Hz & Hp).
  { destruct HV as (ζ & HZ & Hr). destruct (relv_some _ _ _ _ Hr Hn) as (z & Hz & _). destruct HZ as (σ & HR & Hz2). destruct (relz_get _ _ _ _ Hz2 Hz) as (f & ds & Hf & _). eexists _, _. split; [by eapply R_get|done]. }
  wb. eapply wp_getO; [exact Hz|]. rewrite Hp. wb. eapply wpV_rat_clear; [exact HV|exact N|exact Hn|exact Hd|]. unfold num, den. intros st1 zn zd _ _ HV1.
  eapply wp_FreeO; [eapply RV_rawobj; [exact HV1|cbn [craw with_craw]; apply lookup_insert]|exact M2|].
  eapply RV_delO in HV1; [|cbn [craw with_craw]; apply lookup_insert].
  eapply wp_FreeO; [eapply RV_rawobj; [exact HV1|cbn [craw with_craw]; rewrite lookup_delete_ne, lookup_insert_ne by done; apply lookup_insert]|exact M1|].
  eapply RV_delO in HV1; [|cbn [craw with_craw]; rewrite lookup_delete_ne, lookup_insert_ne by done; apply lookup_insert].
  apply wp_ret. apply HQ. eapply RV_eqX; [exact HV1|]. unfold with_craw. cbn [craw cmem cglob]. destruct X as [m c g]. cbn [craw cmem cglob] in *. f_equal.
  apply map_eq. intros o. destruct (decide (o = fst r)) as [->|]; [by rewrite lookup_delete|]. rewrite lookup_delete_ne by done. destruct (decide (o = snd r)) as [->|]; [by rewrite lookup_delete|]. rewrite lookup_delete_ne by done. by rewrite !lookup_insert_ne by done.
Qed.
