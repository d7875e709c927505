(** Rules for rsamath.c. *)
From Coq Require Import ZArith List Lia.
From stdpp Require Import gmap list.
From Verif Require Import Mem Prog Kern Fp Imath Imrat Wp MemLem Dig KernLem Rel RelWp RelZ Life Basic Basic2 Mult Shift Knuth Divi Powr Spec SpecBin Public Gcd Exptmod Buf Read Bin Rat Rsamath.
Local Open Scope Z_scope.

(** ** Bytes in the caller's buffers *)
Lemma over_lookup off s (l : list cell) i : (off + length s <= length l)%nat ->
  overwrite off s l !! i = if (decide (off <= i < off + length s)%nat) then Some <$> (s !! (i - off)%nat) else l !! i.
Proof.
  intros H. unfold overwrite. destruct (decide (off <= i < off + length s)%nat) as [D|D].
  - rewrite lookup_app_r by (rewrite take_length; lia). rewrite take_length, Nat.min_l by lia. rewrite lookup_app_l by (rewrite fmap_length; lia). by rewrite list_lookup_fmap.
  - destruct (Nat.lt_ge_cases i off).
    + rewrite lookup_app_l by (rewrite take_length; lia). by rewrite lookup_take.
    + rewrite lookup_app_r by (rewrite take_length; lia). rewrite take_length, Nat.min_l by lia. rewrite lookup_app_r by (rewrite fmap_length; lia).
      rewrite fmap_length, lookup_drop. f_equal. lia.
Qed.
Lemma overwrite_cons off c s (l : list cell) : (off + S (length s) <= length l)%nat ->
  overwrite (S off) s (<[off := Some c]> l) = overwrite off (c :: s) l.
Proof.
  intros H. apply list_eq. intros i. rewrite !over_lookup by (rewrite ?insert_length; simpl; lia). cbn [length].
  destruct (decide (S off <= i < S off + length s)%nat); destruct (decide (off <= i < off + S (length s))%nat); try lia.
  - replace (i - off)%nat with (S (i - S off))%nat by lia. done.
  - assert (i = off) as -> by lia. rewrite Nat.sub_diag, list_lookup_insert by lia. done.
  - rewrite list_lookup_insert_ne by lia. done.
Qed.
Lemma insert_over off c (l : list cell) : (off < length l)%nat -> <[off := Some c]> l = overwrite off [c] l.
Proof. intros H. rewrite <- overwrite_cons by (simpl; lia). by rewrite overwrite_nil. Qed.
Lemma overwrite_app' off s s' (l : list cell) : (off + length s + length s' <= length l)%nat ->
  overwrite off s (overwrite (off + length s) s' l) = overwrite off (s ++ s') l.
Proof.
  intros H. apply list_eq. intros i. rewrite (over_lookup off s) by (rewrite overwrite_length; lia). rewrite !over_lookup by (rewrite ?app_length; lia). rewrite app_length.
  destruct (decide (off <= i < off + length s)%nat), (decide (off + length s <= i < off + length s + length s')%nat), (decide (off <= i < off + (length s + length s'))%nat); try lia; [| |done].
  - by rewrite lookup_app_l by lia.
  - rewrite lookup_app_r by lia. do 2 f_equal. lia.
Qed.

Section rules.
Context (st : state) (V : gmap oid Z) (X : ctx).
Lemma wpV_loadb b l off v (Q : Z -> state -> Prop) :
  RV st V X -> cmem X !! b = Some l -> 0 <= off -> l !! Z.to_nat off = Some (Some v) -> Q v st -> wp (Load (b, off)) Q st.
Proof. intros (ζ & HZ & _) ? ? ? ?. by eapply wpZ_loadb. Qed.
Lemma wpV_storeb b l off v (Q : unit -> state -> Prop) :
  RV st V X -> cmem X !! b = Some l -> 0 <= off < Z.of_nat (length l) ->
  (forall st', RV st' V (setb X b (<[Z.to_nat off := Some v]> l)) -> Q tt st') -> wp (Store (b, off) v) Q st.
Proof. intros (ζ & HZ & ?) ? ? HQ. eapply wpZ_storeb; [done..|]. intros st' HZ'. apply HQ. by exists ζ. Qed.
Lemma wpV_poke {A} b l off c (k : prog A) (Q : A -> state -> Prop) :
  RV st V X -> cmem X !! b = Some l -> 0 <= off < Z.of_nat (length l) ->
  (forall st', RV st' V (setb X b (<[Z.to_nat off := c]> l)) -> wp k Q st') -> wp (Poke (b, off) c k) Q st.
Proof.
  intros (ζ & (σ & HR & Hz) & Hv) Hb Ho HQ. destruct (lookup_lt_is_Some_2 l (Z.to_nat off)) as [c0 Hc]; [lia|].
  eapply wp_Poke. { rewrite (load_blk _ _ l); [exact Hc|by apply (R_ctx _ _ _ HR)|simpl; lia]. }
  rewrite <- wr_1. apply HQ. exists ζ. split; [|done]. exists σ. split; [|done]. by apply (R_cwrite _ _ _ _ _ _ [c]).
Qed.
End rules.

Lemma padd_nat b off k : (b, Z.of_nat off) +p Z.of_nat k = (b, Z.of_nat (off + k)).
Proof. unfold padd. simpl. f_equal. lia. Qed.
Lemma padd_1 b off : (b, Z.of_nat off) +p 1 = (b, Z.of_nat (S off)).
Proof. unfold padd. simpl. f_equal. lia. Qed.
Lemma wpV_peeks bs : forall st V X b l off (Q : list cell -> state -> Prop),
  RV st V X -> cmem X !! b = Some l -> (forall i c, bs !! i = Some c -> l !! (off + i)%nat = Some (Some c)) ->
  Q (Some <$> bs) st -> wp (peeks (length bs) (b, Z.of_nat off)) Q st.
Proof.
  induction bs as [|c bs IH]; intros st V X b l off Q HV Hb Hl HQ; [by apply wp_ret|]. cbn [peeks length].
  assert (mem st !! b = Some l) as Hm. { destruct HV as (ζ & (σ & HR & _) & _). by apply (R_ctx _ _ _ HR). }
  eapply wp_Peek. { rewrite (load_blk _ _ l); [|done|simpl; lia]. cbn [snd]. rewrite Nat2Z.id, <- (Nat.add_0_r off). by apply Hl. }
  rewrite padd_1. wb. eapply IH; [done|done| |by apply wp_ret].
  intros i c' Hi. replace (S off + i)%nat with (off + S i)%nat by lia. by apply Hl.
Qed.
Lemma wpV_pokes s : forall st V X b l off (Q : unit -> state -> Prop),
  RV st V X -> cmem X !! b = Some l -> (off + length s <= length l)%nat ->
  (forall st', RV st' V (setb X b (overwrite off s l)) -> Q tt st') -> wp (pokes (Some <$> s) (b, Z.of_nat off)) Q st.
Proof.
  induction s as [|c s IH]; intros st V X b l off Q HV Hb Hl HQ.
  { apply wp_ret. apply HQ. by rewrite overwrite_nil, setb_id. }
  cbn [fmap list_fmap pokes length] in *. change (list_fmap Z cell Some s) with (Some <$> s : list cell).
  eapply wpV_poke; [exact HV|exact Hb|lia|]. intros st1 HV1. rewrite Nat2Z.id in HV1. rewrite padd_1.
  eapply IH; [exact HV1|apply setb_lookup|rewrite insert_length; lia|]. intros st2 HV2. apply HQ. by rewrite setb_setb, overwrite_cons in HV2 by lia.
Qed.
Lemma wpV_fill s : forall st V X b l off (Q : unit -> state -> Prop),
  RV st V X -> cmem X !! b = Some l -> (off + length s <= length l)%nat ->
  (forall st', RV st' V (setb X b (overwrite off s l)) -> Q tt st') -> wp (fill (b, Z.of_nat off) s) Q st.
Proof.
  induction s as [|c s IH]; intros st V X b l off Q HV Hb Hl HQ.
  { apply wp_ret. apply HQ. by rewrite overwrite_nil, setb_id. }
  cbn [fill length] in *. wb. eapply wpV_storeb; [exact HV|exact Hb|lia|]. intros st1 HV1. rewrite Nat2Z.id in HV1. rewrite padd_1.
  eapply IH; [exact HV1|apply setb_lookup|rewrite insert_length; lia|]. intros st2 HV2. apply HQ. by rewrite setb_setb, overwrite_cons in HV2 by lia.
Qed.
Lemma wpV_memset n c : forall st V X b l off (Q : unit -> state -> Prop),
  RV st V X -> cmem X !! b = Some l -> (off + n <= length l)%nat ->
  (forall st', RV st' V (setb X b (overwrite off (replicate n c) l)) -> Q tt st') -> wp (memset (b, Z.of_nat off) c (Z.of_nat n)) Q st.
Proof.
  unfold memset. intros st V X b l off Q. destruct (Z.ltb_spec (Z.of_nat n) 0); [lia|]. rewrite Nat2Z.id. clear H. revert st V X b l off Q.
  induction n as [|n IH]; intros st V X b l off Q HV Hb Hl HQ.
  { apply wp_ret. apply HQ. by rewrite overwrite_nil, setb_id. }
  cbn [memset_loop]. wb. eapply wpV_storeb; [exact HV|exact Hb|lia|]. intros st1 HV1. rewrite Nat2Z.id in HV1. rewrite padd_1.
  eapply IH; [exact HV1|apply setb_lookup|rewrite insert_length; lia|]. intros st2 HV2. apply HQ. rewrite setb_setb, overwrite_cons in HV2 by (rewrite replicate_length; lia). done.
Qed.
Lemma wpV_memmove bs st V X b l dst src (Q : unit -> state -> Prop) :
  RV st V X -> cmem X !! b = Some l -> (forall i c, bs !! i = Some c -> l !! (src + i)%nat = Some (Some c)) -> (dst + length bs <= length l)%nat ->
  (forall st', RV st' V (setb X b (overwrite dst bs l)) -> Q tt st') ->
  wp (memmove (b, Z.of_nat dst) (b, Z.of_nat src) (Z.of_nat (length bs))) Q st.
Proof.
  intros HV Hb Hs Hd HQ. unfold memmove. destruct (Z.ltb_spec (Z.of_nat (length bs)) 0); [lia|]. rewrite Nat2Z.id. wb. eapply wpV_peeks; [done|done|done|]. by eapply wpV_pokes.
Qed.

(** ** The primitives *)
Lemma wpV_transform st V X m e n c vm ve vn (Q : Z -> state -> Prop) :
  RV st V X -> V !! m = Some vm -> V !! e = Some ve -> V !! n = Some vn -> is_Some (V !! c) ->
  ((vm < 0 \/ vn <= vm \/ ve < 0) -> Q MP_RANGE st) ->
  (0 <= vm < vn -> 0 <= ve -> forall st', RV st' (<[c := if ve =? 0 then 1 else vm ^ ve mod vn]> V) X -> Q MP_OK st') ->
  wp (s_rsa_transform m e n c) Q st.
Proof.
  intros HV Hm He Hn [vc Hc] HU HQ. unfold s_rsa_transform. wb. eapply wpV_compare_zero; [exact HV|exact Hm|].
  destruct (Z.ltb_spec (Z.sgn vm) 0). { apply wp_ret. apply HU. lia. }
  wb. eapply wpV_compare; [exact HV|exact Hm|exact Hn|].
  destruct (Z.leb_spec 0 (Z.sgn (vm - vn))). { apply wp_ret. apply HU. lia. }
  eapply wpV_exptmod; [exact HV|exact Hm|exact He|exact Hn|exact Hc|lia|lia| |].
  - intros _ Hneg. apply HU. lia.
  - intros Hn0 He0 st' HV'. apply HQ; [lia|done|]. exact HV'.
Qed.
Lemma wpV_max_message_len st V X n v (Q : Z -> state -> Prop) : RV st V X -> V !! n = Some v ->
  Q (Z.max 0 (bitlen v / 8 - 11)) st -> wp (rsa_max_message_len n) Q st.
Proof.
  intros HV Hn HQ. unfold rsa_max_message_len. wb. eapply wpV_count_bits; [done|done|]. apply wp_ret. pose proof (bitlen_pos v). rewrite Z.quot_div_nonneg by lia.
  replace (if _ <? 11 then 0 else _) with (Z.max 0 (bitlen v / 8 - 11)); [done|]. destruct (Z.ltb_spec (bitlen v / 8) 11); lia.
Qed.

(** ** Padding *)
Lemma wpV_encode st V X b l off (msg : list Z) n tag filler (Q : Z -> state -> Prop) :
  RV st V X -> cmem X !! b = Some l -> (off + n <= length l)%nat -> Z.of_nat n < 2 ^ 31 ->
  (forall i c, msg !! i = Some c -> l !! (off + i)%nat = Some (Some c)) ->
  ((n < length msg + 11)%nat -> Q MP_RANGE st) ->
  ((length msg + 11 <= n)%nat -> length (filler (Z.of_nat n - Z.of_nat (length msg) - 3)) = (n - length msg - 3)%nat /\
    forall st', RV st' V (setb X b (overwrite off ([0; tag mod 256] ++ filler (Z.of_nat n - Z.of_nat (length msg) - 3) ++ [0] ++ msg) l)) -> Q MP_OK st') ->
  wp (rsa_pkcs1v15_encode (b, Z.of_nat off) (Z.of_nat (length msg)) (Z.of_nat n) tag filler) Q st.
Proof.
  intros HV Hb Hl Hn Hmsg HU HQ. unfold rsa_pkcs1v15_encode, in_int.
  destruct (Z.leb_spec (- 2 ^ 31) (Z.of_nat n - 11)); [|lia]. destruct (Z.ltb_spec (Z.of_nat n - 11) (2 ^ 31)); [|lia]. cbn [andb negb].
  destruct (Z.gtb_spec (Z.of_nat (length msg)) (Z.of_nat n - 11)). { apply wp_ret. apply HU. lia. }
  destruct HQ as [Hf HQ]; [lia|].
  destruct (Z.leb_spec (- 2 ^ 31) (Z.of_nat n - Z.of_nat (length msg))); [|lia]. destruct (Z.ltb_spec (Z.of_nat n - Z.of_nat (length msg)) (2 ^ 31)); [|lia]. cbn [andb negb].
  set (pad := filler _) in *. set (k := length msg) in *. set (ms := (n - k)%nat).
  replace (Z.of_nat n - Z.of_nat k) with (Z.of_nat ms) by lia. rewrite padd_nat.
  wb. eapply wpV_memmove; [exact HV|exact Hb|exact Hmsg|lia|]. intros st1 HV1.
  wb. eapply wpV_storeb; [exact HV1|apply setb_lookup|rewrite overwrite_length by lia; lia|]. intros st2 HV2. rewrite setb_setb in HV2.
  wb. rewrite padd_1. eapply wpV_storeb; [exact HV2|apply setb_lookup|rewrite insert_length, overwrite_length by lia; lia|]. intros st3 HV3. rewrite setb_setb in HV3.
  wb. change 2 with (Z.of_nat 2) at 1. rewrite padd_nat. eapply wpV_fill; [exact HV3|apply setb_lookup|rewrite !insert_length, overwrite_length by lia; lia|]. intros st4 HV4. rewrite setb_setb in HV4.
  wb. replace (Z.of_nat ms - 1) with (Z.of_nat (ms - 1)) by lia. rewrite padd_nat.
  eapply wpV_storeb; [exact HV4|apply setb_lookup|rewrite overwrite_length, !insert_length, overwrite_length by (rewrite ?insert_length, ?overwrite_length; lia); lia|]. intros st5 HV5. rewrite setb_setb in HV5.
  apply wp_ret. apply HQ. match goal with H : RV st5 V (setb X b ?L) |- RV st5 V (setb X b ?R) => replace R with L; [exact H|] end.
  rewrite !Nat2Z.id. set (L := overwrite (off + ms) msg l). assert (length L = length l) as EL by (unfold L; rewrite overwrite_length; lia).
  rewrite (insert_over off 0) by lia. assert (length (overwrite off [0] L) = length l) as E1 by (rewrite overwrite_length; simpl; lia).
  rewrite (insert_over (S off)) by lia. pose proof (overwrite_app L off [0] [tag mod 256] ltac:(simpl; lia)) as E2. cbn [length] in E2. rewrite (Nat.add_1_r off) in E2. rewrite E2. clear E2.
  replace (off + 2)%nat with (off + length ([0%Z] ++ [(tag mod 256)%Z]))%nat by (simpl; lia). rewrite overwrite_app by (simpl; lia).
  set (s := ([0] ++ [tag mod 256]) ++ pad). assert (length s = ms - 1)%nat as Es by (unfold s; rewrite !app_length; simpl; lia).
  rewrite (insert_over (off + (ms - 1))) by (rewrite overwrite_length; lia). rewrite <- Es. rewrite overwrite_app by (simpl; lia).
  unfold L. replace ms with (length (s ++ [0%Z])) by (rewrite app_length; simpl; lia). rewrite overwrite_app' by (rewrite app_length; simpl; lia).
  unfold s. by rewrite <- !app_assoc.
Qed.

(** The scan: [pad] has no zero and is followed by one. *)
Lemma wpV_scan st V X b l off (pre pad rest : list Z) (Q : Z * Z -> state -> Prop) :
  RV st V X -> cmem X !! b = Some l -> length pre = 2%nat -> Forall (fun c => c <> 0) pad ->
  (forall i c, (pre ++ pad ++ 0 :: rest) !! i = Some c -> l !! (off + i)%nat = Some (Some c)) -> Z.of_nat (length pad) + 3 < 2 ^ 31 ->
  Q (Z.of_nat (length pad) + 3, Z.of_nat (length pad)) st -> wp (loop 31 (pad_body (b, Z.of_nat off)) (2, 0)) Q st.
Proof.
  intros HV Hb Hpre Hpad Hl Hn HQ.
  eapply (wp_loop_n _ _ (fun n s st' => st' = st /\ exists j : nat, (j <= length pad)%nat /\ n = Z.of_nat (length pad) - Z.of_nat j /\ s = (2 + Z.of_nat j, Z.of_nat j)) _ (Z.of_nat (length pad))).
  - split; [done|]. exists 0%nat. split; [lia|]. split; [lia|done].
  - change (Z.of_nat 31) with 31. lia.
  - intros n s st' (-> & j & Hj & -> & ->). unfold pad_body. wb.
    assert (exists c, (pre ++ pad ++ 0 :: rest) !! (2 + j)%nat = Some c /\ (c = 0 <-> j = length pad)) as (c & Hc & Ec).
    { rewrite lookup_app_r by lia. rewrite Hpre. replace (2 + j - 2)%nat with j by lia. destruct (Nat.lt_ge_cases j (length pad)) as [Hlt|Hge].
      - destruct (lookup_lt_is_Some_2 pad j Hlt) as [c Hc]. exists c. rewrite lookup_app_l by done. split; [done|]. rewrite Forall_lookup in Hpad. specialize (Hpad j c Hc). lia.
      - exists 0. rewrite lookup_app_r by lia. replace (j - length pad)%nat with 0%nat by lia. split; [done|lia]. }
    unfold padd. cbn [fst snd]. eapply wpV_loadb; [exact HV|exact Hb|lia| |].
    { replace (Z.to_nat (Z.of_nat off + (2 + Z.of_nat j))) with (off + (2 + j))%nat by lia. by apply Hl. }
    unfold in_int. destruct (Z.leb_spec (- 2 ^ 31) (2 + Z.of_nat j + 1)); [|lia]. destruct (Z.ltb_spec (2 + Z.of_nat j + 1) (2 ^ 31)); [|lia]. cbn [andb negb].
    destruct (Z.eqb_spec c 0) as [E|E]; apply wp_ret.
    + apply Ec in E. subst j. replace (2 + Z.of_nat (length pad) + 1) with (Z.of_nat (length pad) + 3) by lia. done.
    + assert (j <> length pad) by tauto. exists (Z.of_nat (length pad) - Z.of_nat (S j)). split; [lia|]. split; [done|]. exists (S j). split; [lia|]. split; [done|]. f_equal; lia.
Qed.
Lemma wpV_decode st V X b l off (pad msg : list Z) c0 c1 tag (Q : Z * option Z -> state -> Prop) :
  let bs := [c0; c1] ++ pad ++ [0] ++ msg in
  RV st V X -> cmem X !! b = Some l -> (off + length bs <= length l)%nat -> Z.of_nat (length bs) < 2 ^ 31 ->
  (forall i c, bs !! i = Some c -> l !! (off + i)%nat = Some (Some c)) -> Forall (fun c => c <> 0) pad ->
  ((length bs < 11)%nat \/ c0 <> 0 \/ c1 <> tag mod 256 -> Q (MP_UNDEF, None) st) ->
  ((11 <= length bs)%nat -> c0 = 0 -> c1 = tag mod 256 ->
    forall st', RV st' V (setb X b (overwrite off (msg ++ replicate (length pad + 3) 0) l)) -> Q (MP_OK, Some (Z.of_nat (length msg))) st') ->
  wp (rsa_pkcs1v15_decode (b, Z.of_nat off) (Z.of_nat (length bs)) tag) Q st.
Proof.
  intros bs HV Hb Hl Hn Hbs Hpad HU HQ. unfold rsa_pkcs1v15_decode. assert (length bs = length pad + 3 + length msg)%nat as Lbs by (unfold bs; rewrite !app_length; simpl; lia).
  destruct (Z.ltb_spec (Z.of_nat (length bs)) 11). { apply wp_ret, HU. left. lia. }
  wb. eapply wpV_loadb; [exact HV|exact Hb|lia|rewrite Nat2Z.id, <- (Nat.add_0_r off); by apply (Hbs 0%nat)|].
  destruct (Z.eqb_spec c0 0) as [E0|E0]; cbn [negb]; [|apply wp_ret, HU; tauto].
  wb. rewrite padd_1. eapply wpV_loadb; [exact HV|exact Hb|lia|rewrite Nat2Z.id; replace (S off) with (off + 1)%nat by lia; by apply (Hbs 1%nat)|].
  destruct (Z.eqb_spec c1 (tag mod 256)) as [E1|E1]; cbn [negb]; [|apply wp_ret, HU; tauto].
  wb. eapply (wpV_scan _ _ _ _ _ _ [c0; c1] pad msg); [exact HV|exact Hb|done|done|exact Hbs|lia|]. cbn [fst snd].
  replace (Z.of_nat (length bs) - (Z.of_nat (length pad) + 3)) with (Z.of_nat (length msg)) by lia.
  replace (Z.of_nat (length pad) + 3) with (Z.of_nat (length pad + 3)) by lia. rewrite !padd_nat.
  wb. eapply wpV_memmove; [exact HV|exact Hb| |lia|].
  { intros i c Hc. rewrite <- Nat.add_assoc. apply Hbs. unfold bs. replace ([c0; c1] ++ pad ++ [0] ++ msg) with (([c0; c1] ++ pad ++ [0]) ++ msg) by (by rewrite <- !app_assoc).
    rewrite lookup_app_r by (rewrite !app_length; simpl; lia). rewrite !app_length. simpl. replace (length pad + 3 + i - S (S (length pad + 1)))%nat with i by lia. done. }
  intros st1 HV1. wb. eapply wpV_memset; [exact HV1|apply setb_lookup|rewrite overwrite_length; lia|]. intros st2 HV2. apply wp_ret. apply HQ; [lia|done|done|].
  rewrite setb_setb, overwrite_app in HV2 by (rewrite replicate_length; lia). done.
Qed.

(** ** Octet strings *)
Lemma wpV_i2osp st V X z v b l off n (Q : Z -> state -> Prop) :
  RV st V X -> V !! z = Some v -> cmem X !! b = Some l -> (off + n <= length l)%nat -> signed_size v n ->
  (forall st', RV st' V (setb X b (overwrite off (be_bytes n v) l)) -> Q MP_OK st') ->
  wp (rsa_i2osp z (b, Z.of_nat off) (Z.of_nat n)) Q st.
Proof.
  intros HV Hz Hb Hl Hn HQ. unfold rsa_i2osp. wb. eapply wpV_binary_len; [done|done|exact Hn|]. destruct (Z.ltb_spec (Z.of_nat n) (Z.of_nat n)); [lia|].
  wb. eapply wpV_memset; [exact HV|exact Hb|done|]. intros st1 HV1. wb. rewrite Z.sub_diag. change 0 with (Z.of_nat 0). rewrite padd_nat, Nat.add_0_r.
  eapply wpV_to_binary; [exact HV1|exact Hz|apply setb_lookup|by rewrite overwrite_length by (rewrite replicate_length; lia)|apply Hn|exact Hn|].
  intros st2 HV2. apply wp_ret. apply HQ. rewrite setb_setb, Nat.min_id, overwrite_overwrite in HV2 by (rewrite ?replicate_length, ?be_bytes_length; lia). done.
Qed.
