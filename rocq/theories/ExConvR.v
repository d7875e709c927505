(** Rules for the small example programs. *)
From Coq Require Import ZArith Znumtheory List Lia QArith.
From stdpp Require Import gmap list.
From Verif Require Import Mem Prog Kern Fp Imath Imrat Gmp Wp MemLem Dig KernLem Rel RelWp RelZ Life Basic Basic2 Mult Shift Knuth Divi Powr Spec SpecBin Public Gcd Root Buf Text Read Outlen Inlen Bin SpecRat Rat SpecHist SpecDec RatText RatDec RatOut Gmpr.
From Verif Require Import Rsa Rsamath GmpAlloc SpecGalloc Galloc Gmpstr Iprime SpecPrime Prime ExPiR SpecKey ExRsakey ExRsakeyR SpecConv ExConv.
Local Open Scope Z_scope.
Local Open Scope prog_scope.
Local Ltac wb := apply wp_bind.

(** ** What a string writes *)
Lemma digits_val r body ds ds' : Forall2 (digit_in r) body ds -> Forall2 (digit_in r) body ds' -> ds = ds'.
Proof.
  intros H. revert ds'. induction H as [|c d body ds Hc _ IH]; intros ds' H'; [by apply Forall2_nil_inv_l in H' as ->|].
  apply Forall2_cons_inv_l in H' as (d' & l' & Hc' & H' & ->). destruct Hc as [E _], Hc' as [E' _]. rewrite E in E'. injection E' as ->. by rewrite (IH _ H').
Qed.
Lemma reads_det r s v rest v' rest' : reads r s v rest -> reads r s v' rest' -> v = v' /\ rest = rest'.
Proof.
  intros (sp & sg & body & ds & (-> & H1 & H2 & H3 & H4 & H5) & ->) (sp' & sg' & body' & ds' & (E & H1' & H2' & H3' & H4' & H5') & ->).
  destruct (split_unique is_space sp (sg ++ body ++ rest) sp' (sg' ++ body' ++ rest') H1 H1') as [-> E1]; [| |exact E|].
  { intros c Hc. destruct H2 as [->|[->| ->]]; [by apply H5|injection Hc as <-; unfold is_space; lia..]. }
  { intros c Hc. destruct H2' as [->|[->| ->]]; [by apply H5'|injection Hc as <-; unfold is_space; lia..]. }
  assert (sg = sg' /\ body ++ rest = body' ++ rest') as [-> E2].
  { destruct H2 as [->|[->| ->]], H2' as [->|[->| ->]]; cbn in E1; try done; try (by injection E1 as ->).
    - specialize (H5 eq_refl). rewrite E1 in H5. destruct (H5 43 eq_refl). lia.
    - specialize (H5 eq_refl). rewrite E1 in H5. destruct (H5 45 eq_refl). lia.
    - specialize (H5' eq_refl). rewrite <- E1 in H5'. destruct (H5' 43 eq_refl). lia.
    - specialize (H5' eq_refl). rewrite <- E1 in H5'. destruct (H5' 45 eq_refl). lia. }
  destruct (split_unique (fun c => exists d, digit_in r c d) body rest body' rest') as [-> ->]; [exact (digits_all _ _ _ H3)|exact (digits_all _ _ _ H3')| | |exact E2|].
  - intros c Hc [d Hd]. by eapply H4.
  - intros c Hc [d Hd]. by eapply H4'.
  - by rewrite (digits_val _ _ _ _ H3 H3').
Qed.
Lemma reads_suffix r s v rest : reads r s v rest -> exists u, s = u ++ rest.
Proof. intros (sp & sg & body & ds & (-> & _) & _). exists (sp ++ sg ++ body). by rewrite <- !app_assoc. Qed.
Lemma fraction_inv r s n0 rest n d : reads r s n0 rest -> writes_fraction r s n d -> exists sp s2, rest = sp ++ 47 :: s2 /\ Forall is_space sp /\ reads r s2 d [].
Proof. intros H (sp & s2 & H1 & H2 & H3). destruct (reads_det _ _ _ _ _ _ H H1) as [-> ->]. by exists sp, s2. Qed.
Lemma point_inv r s q rest : reads_point r s q rest -> exists n fb fds, reads r s n (46 :: fb ++ rest) /\ Forall2 (digit_in r) fb fds /\ (forall c d, head rest = Some c -> ~ digit_in r c d) /\
  (forall c, head (fb ++ rest) = Some c -> ~ is_space c /\ c <> 43 /\ c <> 45).
Proof.
  intros (sp & sg & ib & ids & fb & fds & -> & Hsp & Hsg & HI & HF & Hrest & Hh & ->). eexists _, fb, fds. split; [|done].
  exists sp, sg, ib, ids. split; [|done]. split; [done|]. split; [done|]. split; [done|]. split; [done|]. split; [apply point_digit|].
  intros ->. cbn [app]. intros c Hc. destruct ib as [|x ib]; [by apply (point_head _ _ Hc)|]. eapply digit_head; [exact HI|done|exact Hc].
Qed.
Section rest.
Context (r : Z) (s : list Z) (n : Z).
Lemma no_fraction rest : reads r s n rest -> (forall sp s2 d, rest = sp ++ 47 :: s2 -> Forall is_space sp -> reads r s2 d [] -> False) -> forall m d, ~ writes_fraction r s m d.
Proof. intros H HN m d HF. destruct (fraction_inv _ _ _ _ _ _ H HF) as (sp & s2 & E & H1 & H2). by eapply HN. Qed.
Lemma no_number_intro rest : reads r s n rest -> rest <> [] ->
  (forall sp s2 d, rest = sp ++ 47 :: s2 -> Forall is_space sp -> reads r s2 d [] -> False) ->
  (forall fb fds, rest = 46 :: fb -> Forall2 (digit_in r) fb fds -> (forall c, head fb = Some c -> ~ is_space c /\ c <> 43 /\ c <> 45) -> False) -> no_number r s.
Proof.
  intros H Hne HF HP. split.
  - intros [m Hm]. by eapply no_fraction.
  - intros q [(m & Hm & _)|[(m & d & Hm & _)|Hq]].
    + destruct (reads_det _ _ _ _ _ _ H Hm) as [_ E]. done.
    + by eapply no_fraction.
    + destruct (point_inv _ _ _ _ Hq) as (m & fb & fds & H1 & H2 & _ & H4). rewrite app_nil_r in H1, H4. destruct (reads_det _ _ _ _ _ _ H H1) as [_ E]. by eapply HP.
Qed.
End rest.
Lemma pair_live (r : rat) (n d : Z) (V : gmap oid Z) : num r <> den r -> rat_live (<[den r := d]> (<[num r := n]> V)) r.
Proof. intros N. split; [rewrite lookup_insert_ne by (intros E; by apply N)|]; rewrite lookup_insert; by eexists. Qed.
Lemma space_char c : is_space c -> c <> 47 /\ c <> 46. Proof. unfold is_space. lia. Qed.
Lemma wpV_rat_read_u st V X r radix s (Q : Z * list Z -> state -> Prop) :
  RV st V X -> num r <> den r -> rat_live V r -> 2 <= radix <= 36 -> Z.of_nat (length s) < 2 ^ 31 ->
  (forall q st', writes_rat radix s q -> RV st' (set_rat r q V) X -> Q (MP_OK, []) st') ->
  (forall n d st', over_zero radix s -> RV st' (<[den r := d]> (<[num r := n]> V)) X -> Q (MP_UNDEF, []) st') ->
  (forall n d e st', no_number radix s -> e <> [] -> (exists u, s = u ++ e) -> RV st' (<[den r := d]> (<[num r := n]> V)) X -> Q (MP_TRUNC, e) st') ->
  wp (mp_rat_read_ustring r radix s) Q st.
Proof.
  intros HV N HL Hr Hl HQ1 HQ2 HQ3. unfold mp_rat_read_ustring. rewrite (proj2 (Z.eqb_neq radix 0)) by lia.
  destruct (reads_ex radix s) as (n & rest & H1). pose proof is_space_dec. destruct (span_while is_space rest) as (sp & u & E & Hsp & Hu).
  destruct (decide (head u = Some 47)) as [E47|N47].
  - destruct u as [|c u]; [done|]. injection E47 as ->. destruct (reads_ex radix u) as (d & rest2 & H2). pose proof H1 as H1'. rewrite E in H1'. wb.
    eapply wpV_rat_read_slash; [done|done|done|done|done|exact H1'|done|exact H2| | |].
    + intros -> Hd st' HV'. apply wp_ret. eapply HQ1; [|exact HV']. right; left. exists n, d. split; [|done]. by exists sp, u.
    + intros -> -> st' HV'. apply wp_ret. eapply HQ2; [|exact HV']. exists n. by exists sp, u.
    + intros N2 st1 HV1. assert (no_number radix s) as NN.
      { eapply no_number_intro; [exact H1|by rewrite E; destruct sp| |].
        - intros sp' s2 d' E' Hsp' Hd'. rewrite E in E'. destruct (split_unique is_space sp (47 :: u) sp' (47 :: s2) Hsp Hsp') as [-> [= ->]]; [intros c [= <-]; unfold is_space; lia..|done|].
          destruct (reads_det _ _ _ _ _ _ H2 Hd') as [_ ->]. done.
        - intros fb fds E' _ _. rewrite E in E'. destruct sp as [|c sp]; [done|]. injection E' as -> _. apply Forall_cons in Hsp as [Hc _]. unfold is_space in Hc. lia. }
      assert (wp (Ret (MP_TRUNC, rest2)) Q st1) as HW.
      { apply wp_ret. eapply HQ3; [exact NN|exact N2| |exact HV1]. destruct (reads_suffix _ _ _ _ H1') as [u1 ->]. destruct (reads_suffix _ _ _ _ H2) as [u2 ->]. exists (u1 ++ sp ++ 47 :: u2). by rewrite <- !app_assoc. }
      cbn [fst snd]. destruct rest2 as [|c rest2]; [done|]. destruct (decide (c = 46)) as [->|Nc].
      2:{ destruct c as [|p|p]; try exact HW. do 6 (destruct p as [p|p|]; try exact HW). done. }
      change (MP_TRUNC =? MP_TRUNC) with true. cbv iota. wb. eapply wpV_rat_read_nopoint; [exact HV1|done|by apply pair_live|done|done|exact H1| |].
      { rewrite E. destruct sp as [|c sp]; [done|]. apply Forall_cons in Hsp as [Hc _]. cbn. intros [= ->]. unfold is_space in Hc. lia. }
      intros st2 HV2. apply wp_ret. cbn [fst snd]. rewrite E. destruct (sp ++ 47 :: u) as [|c' rr] eqn:Er; [by destruct sp|]. eapply HQ3; [exact NN|done| |].
      * exact (reads_suffix _ _ _ _ H1').
      * eapply RV_eqV; [exact HV2|]. unfold set_rat. change (fst r) with (num r). change (snd r) with (den r). mapeq.
  - wb. eapply wpV_rat_read_int; [done|done|done|done|done|exact H1|exact E|done| |].
    { intros c Hc. split; [by apply Hu|]. intros ->. done. }
    intros st1 HV1. cbn [fst snd]. destruct rest as [|c rest].
    { apply wp_ret. eapply HQ1; [|exact HV1]. left. by exists n. }
    assert (forall sp' s2 d, c :: rest = sp' ++ 47 :: s2 -> Forall is_space sp' -> reads radix s2 d [] -> False) as NF.
    { intros sp' s2 d E' Hsp' _. rewrite E in E'. destruct (split_unique is_space sp u sp' (47 :: s2) Hsp Hsp') as [_ ->]; [by intros; apply Hu|intros x [= <-]; unfold is_space; lia|done|done]. }
    assert (RV st1 (<[den r := Zpos (Qden (Qred (inject_Z n)))]> (<[num r := Qnum (Qred (inject_Z n))]> V)) X) as HV1' by exact HV1.
    destruct (decide (c = 46)) as [->|Nc].
    2:{ assert (wp (Ret (MP_TRUNC, c :: rest)) Q st1) as HW.
        { apply wp_ret. eapply HQ3; [|done|by eapply reads_suffix|exact HV1']. eapply no_number_intro; [exact H1|done|exact NF|]. intros fb fds [= ->]; done. }
        destruct c as [|p|p]; try exact HW. do 6 (destruct p as [p|p|]; try exact HW). done. }
    change (MP_TRUNC =? MP_TRUNC) with true. cbv iota.
    assert ((exists c u', rest = c :: u' /\ (is_space c \/ c = 43 \/ c = 45)) \/ (forall c, head rest = Some c -> ~ is_space c /\ c <> 43 /\ c <> 45)) as [(c & u' & -> & Hc)|Hh].
    { destruct rest as [|c rest]; [by right|]. destruct (decide (is_space c \/ c = 43 \/ c = 45)) as [Hc|Hc]; [left; by exists c, rest|]. right. intros c' [= <-]. tauto. }
    + wb. eapply wpV_rat_read_badpoint; [exact HV1|done|by apply set_rat_live|done|done|exact H1|done|]. intros st2 HV2. apply wp_ret. cbn [fst snd].
      eapply (HQ3 (Qnum (Qred (inject_Z n))) (Zpos (Qden (Qred (inject_Z n))))); [|done|by eapply reads_suffix|].
      * eapply no_number_intro; [exact H1|done|exact NF|]. intros fb fds [= <-] _ Hx. destruct (Hx c eq_refl) as (? & ? & ?). tauto.
      * eapply RV_eqV; [exact HV2|]. unfold set_rat. change (fst r) with (num r). change (snd r) with (den r). mapeq.
    + destruct (digits_ex radix rest) as (fb & fds & rest3 & -> & HF & Hrest). pose proof H1 as (sp1 & sg & ib & ids & (Es & S1 & S2 & S3 & S4 & S5) & _).
      wb. eapply (wpV_rat_read_point st1 _ X r radix s _ rest3); [exact HV1|done|by apply set_rat_live|done|done| |].
      { exists sp1, sg, ib, ids, fb, fds. split_and!; [exact Es|done|done|exact S3|exact HF|exact Hrest|exact Hh|reflexivity]. }
      intros st2 HV2. apply wp_ret. cbn [fst snd]. set (q := frac _ _) in *.
      assert (RV st2 (set_rat r q V) X) as HV2'. { eapply RV_eqV; [exact HV2|]. unfold set_rat. change (fst r) with (num r). change (snd r) with (den r). mapeq. }
      destruct rest3 as [|c rest3].
      * eapply HQ1; [|exact HV2']. right; right. exists sp1, sg, ib, ids, fb, fds. split_and!; [exact Es|done|done|exact S3|exact HF|exact Hrest|exact Hh|reflexivity].
      * eapply HQ3; [|done| |exact HV2'].
        { eapply no_number_intro; [exact H1|done|exact NF|]. intros fb' fds' [= E'] HF' _. rewrite <- (app_nil_r fb') in E'.
          destruct (split_unique (fun c => exists d, digit_in radix c d) fb (c :: rest3) fb' []) as [_ ?]; [exact (digits_all _ _ _ HF)|exact (digits_all _ _ _ HF')| |done|done|done]. intros x Hx [d Hd]. by eapply Hrest. }
        rewrite Es. exists (sp1 ++ sg ++ ib ++ 46 :: fb). by rewrite <- !app_assoc.
Qed.

(** ** The text of a number *)
(** Numbers for which the length functions are right. *)
Definition fits (radix : Z) (q : Q) : Prop :=
  Z.abs (Qnum (Qred q)) < 2 ^ Z.min (enough_bits radix) (2 ^ 30 - 6) /\ Zpos (Qden (Qred q)) < 2 ^ Z.min (enough_bits radix) (2 ^ 30 - 6).
Lemma fits_len radix v : 2 <= radix <= 36 -> Z.abs v < 2 ^ Z.min (enough_bits radix) (2 ^ 30 - 6) ->
  outlen (bitlen v) radix <= 2 ^ 30 - 5 /\ 1 <= outlen (bitlen v) radix /\ forall s, numeral radix v s -> Z.of_nat (length s) <= outlen (bitlen v) radix + if v <? 0 then 1 else 0.
Proof.
  intros Hr Hv. set (M := Z.min (enough_bits radix) (2 ^ 30 - 6)) in *. assert (1 <= M <= 2 ^ 30 - 6 /\ M <= enough_bits radix) as [HM1 HM2] by (pose proof (enough_bits_pos radix); lia).
  pose proof (bitlen_le v M ltac:(lia) Hv) as B1. pose proof (bitlen_pos v) as B2. pose proof (outlen_le (bitlen v) radix Hr ltac:(lia)) as B3.
  destruct (outlen_enough (bitlen v) radix Hr ltac:(lia)) as [E1 E2]. split; [lia|]. split; [lia|]. intros s Hs. pose proof (bitlen_pow v). apply (numeral_len_le radix v s); [lia|done|lia|lia].
Qed.
Lemma shown_ex radix q : 2 <= radix -> exists t, shown radix q t.
Proof.
  intros Hr. destruct (numeral_ex radix (Qnum (Qred q)) Hr) as [n Hn]. destruct (numeral_ex radix (Zpos (Qden (Qred q))) Hr) as [d Hd]. unfold shown.
  destruct (Z.eqb_spec (Zpos (Qden (Qred q))) 1); [by exists n, n|]. exists (n ++ 47 :: d), n. split; [done|]. by exists d.
Qed.
Lemma shown_no_nul radix q t : 2 <= radix <= 36 -> shown radix q t -> 0 ∉ t.
Proof.
  intros Hr (n & Hn & Ht). pose proof (numeral_no_nul _ _ _ Hr Hn) as N1. destruct (_ =? 1); [by subst|]. destruct Ht as (d & Hd & ->). pose proof (numeral_no_nul _ _ _ Hr Hd) as N2.
  rewrite elem_of_app, elem_of_cons. intros [?|[?|?]]; done.
Qed.
Lemma den_one_int q : Zpos (Qden (Qred q)) = 1 <-> exists z, Qeq q (inject_Z z).
Proof.
  split.
  - intros E1. exists (Qnum (Qred q)). rewrite <- (Qred_correct q) at 1. unfold Qeq, inject_Z. cbn [Qnum Qden]. rewrite E1. lia.
  - intros [z E]. apply Qred_complete in E. rewrite E. destruct (red_unique z 1 (inject_Z z)) as [_ E2]; [lia|apply Z.gcd_1_r|done|]. lia.
Qed.
Section text.
Context (V : gmap oid Z) (v : rat) (q : Q) (radix : Z) (Hq : rat_at V v q) (Hr : 2 <= radix <= 36) (Hf : fits radix q).
Let is_int := Zpos (Qden (Qred q)) =? 1.
Lemma wpV_is_int st X (Q : bool -> state -> Prop) : RV st V X -> (forall st', RV st' V X -> Q is_int st') -> wp (mp_rat_is_integer v) Q st.
Proof.
  intros HV HQ. eapply wpV_rat_is_integer; [exact HV|exact Hq|]. intros st' b HV' Hb. replace b with is_int; [by apply HQ|].
  apply Bool.eq_true_iff_eq. unfold is_int. rewrite Z.eqb_eq, Hb. apply den_one_int.
Qed.
Lemma wpV_text_len st X (Q : Z -> state -> Prop) : RV st V X ->
  (forall len, 2 <= len <= 2 ^ 31 -> (forall t, shown radix q t -> Z.of_nat (length t) < len) -> Q len st) -> wp (text_len v is_int radix) Q st.
Proof.
  intros HV HQ. destruct Hq as [Hn Hd]. destruct Hf as [Fn Fd]. set (n := Qnum (Qred q)) in *. set (d := Zpos (Qden (Qred q))) in *. assert (0 < d) as Hd0 by done.
  destruct (fits_len radix n Hr Fn) as (N1 & N2 & N3). destruct (fits_len radix d Hr ltac:(rewrite Z.abs_eq by lia; done)) as (D1 & D2 & D3). destruct (Z.ltb_spec d 0); [lia|]. unfold text_len.
  destruct is_int eqn:EI.
  - eapply wpV_string_len; [exact HV|exact Hn|done|]. fold n. apply HQ; [destruct (n <? 0); lia|]. intros t (sn & Hsn & Ht). unfold is_int in EI. fold d in Ht. fold d in EI. rewrite EI in Ht. subst t. specialize (N3 sn Hsn). lia.
  - assert (n <> 0) as Hn0. { intros E0. unfold is_int in EI. apply Z.eqb_neq in EI. pose proof (proj2 (Qred_num_den q)) as G. fold n in G. rewrite E0, Z.gcd_0_l in G. fold d in EI, G. lia. }
    eapply wpV_rat_string_len; [exact HV|exact Hn|exact Hd|done|done|done|lia|lia|]. fold n. fold d. apply HQ; [destruct (n <? 0); lia|].
    intros t (sn & Hsn & Ht). unfold is_int in EI. fold d in Ht, EI. rewrite EI in Ht. destruct Ht as (sd & Hsd & ->). specialize (N3 sn Hsn). specialize (D3 sd Hsd). rewrite app_length. cbn [length]. lia.
Qed.
Lemma wpV_to_text st X b l len t (Q : Z -> state -> Prop) : RV st V X -> cmem X !! b = Some l -> shown radix q t -> 2 <= len -> Z.of_nat (length t) < len -> (length t + 1 <= length l)%nat ->
  (forall st', RV st' V (setb X b (overwrite 0 (t ++ [0]) l)) -> Q MP_OK st') -> wp (to_text v is_int radix (b, 0) len) Q st.
Proof.
  intros HV Hb (sn & Hsn & Ht) Hlen Lt Ll HQ. destruct Hq as [Hn Hd]. set (n := Qnum (Qred q)) in *. set (d := Zpos (Qden (Qred q))) in *. unfold to_text. change (b, 0) with (b, Z.of_nat 0). fold d in Ht. destruct is_int eqn:EI; unfold is_int in EI; fold d in EI; rewrite EI in Ht.
  - subst t. eapply wpV_to_string; [exact HV|exact Hn|exact Hb|done|lia|exact Hsn|lia| |lia]. intros st' _ HV'. by apply HQ.
  - destruct Ht as (sd & Hsd & ->). rewrite app_length in *. cbn [length] in *.
    assert (n <> 0) as Hn0. { intros E0. apply Z.eqb_neq in EI. pose proof (proj2 (Qred_num_den q)) as G. fold n in G. rewrite E0, Z.gcd_0_l in G. fold d in G. lia. }
    assert (n =? 0 = false) as En by (by apply Z.eqb_neq).
    eapply (wpV_rat_to_string _ _ _ v n d radix b 0 l len sn sd); [exact HV|exact Hn|exact Hd|exact Hb|done|lia|exact Hsn|exact Hsd|rewrite En, app_length; cbn [length]; lia|done| |lia|].
    + intros st' t' _ _ _ Ht HV'. destruct (Z.leb_spec (Z.of_nat (length sn) + 1 + Z.of_nat (length sd) + 1) len); [|lia]. subst t'. apply HQ. by rewrite <- app_assoc.
    + intros _ _. assert (sd <> []) as Nsd. { destruct Hsd as (ds & _ & _ & Nd & _ & ->). destruct ds; [done|]. by destruct (d <? 0). } destruct sd; [done|]. cbn [length] in *. lia.
Qed.
End text.
Definition pair_set (v : rat) (n d : Z) (V : gmap oid Z) : gmap oid Z := <[den v := d]> (<[num v := n]> V).
Lemma pair_pair v n d n' d' V : num v <> den v -> pair_set v n' d' (pair_set v n d V) = pair_set v n' d' V.
Proof. intros N. unfold pair_set. mapeq. Qed.
Lemma pair_rat v n d q V : num v <> den v -> set_rat v q (pair_set v n d V) = set_rat v q V.
Proof. intros N. unfold pair_set, set_rat. change (fst v) with (num v). change (snd v) with (den v). mapeq. Qed.
Lemma rat_pair v q V : set_rat v q V = pair_set v (Qnum (Qred q)) (Zpos (Qden (Qred q))) V.
Proof. done. Qed.
Lemma wpV_local_rat {A} (bad : A) (f : rat -> prog A) st V X (Q : A -> state -> Prop) : RV st V X ->
  (forall v st1, num v <> den v -> V !! num v = None -> V !! den v = None -> RV st1 (pair_set v 0 1 V) X ->
     wp (f v) (fun x st2 => (exists n d, RV st2 (pair_set v n d V) X) /\ forall st3, RV st3 V X -> Q x st3) st1) -> wp (local_rat bad f) Q st.
Proof.
  intros HV HB. unfold local_rat. apply wp_NewO. intros zn i Fn. destruct (RV_newO st V X false zn _ HV Fn) as (N1 & N2 & HV1). set (n := (false, i)) in *.
  apply wp_NewO. intros zd j Fd. destruct (RV_newO _ V _ false zd _ HV1 Fd) as (D1 & D2 & HV2). set (d := (false, j)) in *. cbn [craw with_craw] in D2, HV2. apply lookup_insert_None in D2 as [D2 Nnd].
  wb. eapply wpV_rat_init; [exact HV2|exact Nnd|cbn [craw with_craw num fst]; rewrite lookup_insert_ne by congruence; apply lookup_insert|cbn [craw with_craw den snd]; apply lookup_insert|]. intros st1 _ _ HV3. change (negb (MP_OK =? MP_OK)) with false. cbv iota.
  assert (unraw (n, d) (with_craw (with_craw X (<[n := zn]> (craw X))) (<[d := zd]> (<[n := zn]> (craw X)))) = X) as EX.
  { unfold unraw, with_craw. cbn [craw cmem cglob num den fst snd]. destruct X as [a b c]. cbn [craw cmem cglob] in *. f_equal. rewrite (delete_insert_ne _ n d) by congruence. rewrite (delete_insert _ n) by done. by rewrite delete_insert. }
  rewrite EX in HV3. wb. eapply wp_mono; [apply (HB (n, d)); [exact Nnd|exact N1|exact D1|exact HV3]|]. intros x st2 [(vn & vd & HV4) HQ].
  wb. eapply (wpV_rat_clear _ _ _ (n, d) vn vd); [exact HV4|exact Nnd|unfold pair_set; cbn [num den fst snd]; rewrite lookup_insert_ne by congruence; apply lookup_insert|apply lookup_insert|]. intros st3 z1 z2 _ _ HV5. cbn [num den fst snd] in HV5.
  assert (delete d (delete n (pair_set (n, d) vn vd V)) = V) as EV.
  { unfold pair_set. cbn [num den fst snd]. rewrite (delete_insert_ne _ n d) by congruence. rewrite (delete_insert _ n) by done. by rewrite delete_insert. }
  rewrite EV in HV5.
  eapply wp_DelO; [eapply RV_rawobj; [exact HV5|cbn [craw with_craw]; apply lookup_insert]|done|]. eapply RV_delO in HV5; [|cbn [craw with_craw]; apply lookup_insert]. cbn [craw with_craw] in HV5.
  rewrite delete_insert in HV5 by (rewrite lookup_insert_ne by congruence; done).
  eapply wp_DelO; [eapply RV_rawobj; [exact HV5|cbn [craw with_craw]; apply lookup_insert]|done|]. eapply RV_delO in HV5; [|cbn [craw with_craw]; apply lookup_insert]. cbn [craw with_craw] in HV5.
  rewrite delete_insert in HV5 by done. apply wp_ret, HQ. eapply RV_eqX; [exact HV5|]. by destruct X.
Qed.
(** ** The base converter *)
Section basecvt.
Context (V : gmap oid Z) (X : ctx) (v : rat) (i o : Z) (N : num v <> den v) (Hi : 2 <= i <= 36) (Ho : 2 <= o <= 36).
Lemma pair_rat_at q : rat_at (set_rat v q V) v q.
Proof. unfold rat_at, set_rat. change (fst v) with (num v). change (snd v) with (den v). rewrite (lookup_insert_ne _ (den v) (num v)) by congruence. by rewrite !lookup_insert. Qed.
Lemma wpV_basecvt_loop : forall args st n d res (Q : Z * list said -> state -> Prop), RV st (pair_set v n d V) X -> Forall (fun s => Z.of_nat (length s) < 2 ^ 31) args ->
  (forall s q, In s args -> writes_rat i s q -> fits o q) ->
  (forall r out st' n d, session i o (res =? MP_OK) args out (r =? MP_OK) -> RV st' (pair_set v n d V) X -> Q (r, out) st') -> wp (basecvt_loop v i o res args) Q st.
Proof.
  induction args as [|s args IH]; intros st n d res Q HV HL HF HQ; cbn [basecvt_loop].
  { apply wp_ret. eapply HQ; [constructor|exact HV]. }
  apply Forall_cons in HL as [Hl HL]. wb. eapply wpV_rat_read_u; [exact HV|exact N|by apply pair_live|exact Hi|exact Hl| | |].
  - intros q st1 Hq HV1. rewrite pair_rat in HV1 by done. cbn [fst snd]. change (MP_OK =? MP_OK) with true. cbn [negb andb].
    assert (fits o q) as Fq by (apply (HF s); [by left|done]). pose proof (pair_rat_at q) as Aq.
    wb. eapply wpV_is_int; [exact Aq|exact HV1|]. intros st2 HV2. wb. eapply wpV_text_len; [exact Aq|exact Ho|exact Fq|exact HV2|]. intros len Hlen Ht.
    apply wp_Malloc. { right. apply wp_ret. eapply HQ; [|rewrite rat_pair in HV2; exact HV2]. change (MP_OK =? MP_OK) with true. by eapply S_memory. }
    intros [_ HM] b Fb. destruct (RV_newB _ _ _ b (blank len) Fb HV2) as [C1 HV3]. set (st3 := add_block _ _ _) in *. clearbody st3.
    assert (length (blank len) = Z.to_nat len) as Lb by apply replicate_length. destruct (shown_ex o q (proj1 Ho)) as [t Hs]. specialize (Ht t Hs).
    wb. eapply (wpV_to_text _ _ _ _ Aq Ho); [exact HV3|apply setb_lookup|exact Hs|lia|exact Ht|lia|]. intros st4 HV4. rewrite setb_setb in HV4. change (MP_OK =? MP_OK) with true. cbn [negb].
    wb. change (Hp b, 0) with (Hp b, Z.of_nat 0). eapply (wpV_cstring (set_rat v q V) (Hp b) (overwrite 0 (t ++ [0]) (blank len)) t); [exact HV4|apply setb_lookup| |by eapply shown_no_nul|lia|].
    { intros j c Hj. apply overwrite_lookup; [exact Hj|lia]. }
    eapply wp_Free; [unfold live_heap; cbn; eapply RV_mem; [exact HV4|apply setb_lookup]|]. cbn [fst]. pose proof (RV_delB _ _ _ _ _ HV4 (setb_lookup _ _ _)) as HV5. rewrite setb_del in HV5 by done.
    rewrite rat_pair in HV5. wb. eapply IH; [exact HV5|exact HL|intros s' q' Hin; apply HF; by right|]. intros r out st' n' d' HS HV'. apply wp_ret. cbn [fst snd]. eapply HQ; [|exact HV']. eapply S_number; [exact Hq|exact Hs|exact HS].
  - intros n' d' st1 Hz HV1. fold (pair_set v n' d' (pair_set v n d V)) in HV1. rewrite pair_pair in HV1 by done. apply wp_ret. eapply HQ; [|exact HV1]. by apply S_over_zero.
  - intros n' d' e st1 Hn He Hu HV1. fold (pair_set v n' d' (pair_set v n d V)) in HV1. rewrite pair_pair in HV1 by done. cbn [fst snd Z.eqb MP_TRUNC MP_OK negb andb]. destruct e as [|c e]; [done|].
    wb. eapply IH; [exact HV1|exact HL|intros s' q' Hin; apply HF; by right|]. intros r out st' n2 d2 HS HV'. apply wp_ret. cbn [fst snd]. eapply HQ; [|exact HV']. by eapply S_junk.
Qed.
End basecvt.
Lemma wpV_basecvt st V X i o args (Q : Z * list said -> state -> Prop) : RV st V X -> args <> [] -> 2 <= i <= 36 -> 2 <= o <= 36 -> Forall (fun s => Z.of_nat (length s) < 2 ^ 31) args ->
  (forall s q, In s args -> writes_rat i s q -> fits o q) ->
  (forall b out st', session i o true args out b -> RV st' V X -> Q (if b : bool then 0 else 1, out) st') -> wp (basecvt_main i o args) Q st.
Proof.
  intros HV Na Hi Ho HL HF HQ. unfold basecvt_main. destruct args as [|a args]; [done|]. set (l := a :: args) in *. clearbody l.
  rewrite (proj2 (Z.ltb_ge i 2)), (proj2 (Z.ltb_ge o 2)) by lia. assert (i >? 36 = false) as -> by (rewrite Z.gtb_ltb; apply Z.ltb_ge; lia). assert (o >? 36 = false) as -> by (rewrite Z.gtb_ltb; apply Z.ltb_ge; lia). cbn [orb].
  eapply wpV_local_rat; [exact HV|]. intros v st1 N _ _ HV1. wb. eapply (wpV_basecvt_loop V X v i o N Hi Ho); [exact HV1|exact HL|exact HF|]. intros r out st' n d HS HV'. apply wp_ret. cbn [fst snd].
  split; [by eexists _, _|]. intros st3 HV3. pose proof (HQ (r =? MP_OK) out st3 HS HV3) as HX. destruct (r =? MP_OK); exact HX.
Qed.
Lemma basecvt_radix st V X i o args (Q : Z * list said -> state -> Prop) : RV st V X -> args <> [] -> ~ (2 <= i <= 36 /\ 2 <= o <= 36) -> Q (3, []) st -> wp (basecvt_main i o args) Q st.
Proof.
  intros HV Na Hr HQ. unfold basecvt_main. destruct args as [|a args]; [done|].
  destruct ((i <? 2) || (i >? 36)) eqn:E1; [by apply wp_ret|]. destruct ((o <? 2) || (o >? 36)) eqn:E2; [by apply wp_ret|]. exfalso. apply Hr.
  apply orb_false_iff in E1 as [A1 A2], E2 as [B1 B2]. rewrite Z.gtb_ltb in A2, B2. apply Z.ltb_ge in A1, A2, B1, B2. lia.
Qed.
(** ** The input example *)
Lemma wpV_input st V X radix s (Q : list Z + Z * list Z -> state -> Prop) : RV st V X -> 2 <= radix <= 36 -> Z.of_nat (length s) < 2 ^ 31 -> (forall q, writes_rat 10 s q -> fits radix q) ->
  (forall q t st', writes_rat 10 s q -> shown radix q t -> RV st' V X -> Q (inl t) st') ->
  (forall st', over_zero 10 s -> RV st' V X -> Q (inr (MP_UNDEF, [])) st') ->
  (forall e st', no_number 10 s -> e <> [] -> (exists u, s = u ++ e) -> RV st' V X -> Q (inr (MP_TRUNC, e)) st') -> wp (input_main radix s) Q st.
Proof.
  intros HV Hr Hl HF HQ1 HQ2 HQ3. unfold input_main. rewrite (proj2 (Z.ltb_ge radix 2)) by lia. assert (radix >? 36 = false) as -> by (rewrite Z.gtb_ltb; apply Z.ltb_ge; lia). cbn [orb].
  eapply wpV_local_rat; [exact HV|]. intros v st1 N _ _ HV1. wb. change (mp_rat_read_ustring v 0 s) with (mp_rat_read_ustring v 10 s). eapply wpV_rat_read_u; [exact HV1|exact N|by apply pair_live|lia|exact Hl| | |].
  - intros q st2 Hq HV2. rewrite pair_rat in HV2 by done. cbn [fst snd]. change (MP_OK =? MP_OK) with true. cbn [negb]. pose proof (HF q Hq) as Fq. pose proof (pair_rat_at V v N q) as Aq.
    wb. eapply wpV_is_int; [exact Aq|exact HV2|]. intros st3 HV3. wb. eapply wpV_text_len; [exact Aq|exact Hr|exact Fq|exact HV3|]. intros len Hlen Ht.
    eapply wpV_malloc_text; [exact HV3|]. intros HN b st4 Fb HV4.
    assert (length (blank len) = Z.to_nat len) as Lb by apply replicate_length. destruct (shown_ex radix q (proj1 Hr)) as [t Hs]. specialize (Ht t Hs).
    wb. eapply (wpV_to_text _ _ _ _ Aq Hr); [exact HV4|apply setb_lookup|exact Hs|lia|exact Ht|lia|]. intros st5 HV5. rewrite setb_setb in HV5. change (MP_OK =? MP_OK) with true. cbn [negb].
    wb. change (Hp b, 0) with (Hp b, Z.of_nat 0). eapply (wpV_cstring (set_rat v q V) (Hp b) (overwrite 0 (t ++ [0]) (blank len)) t); [exact HV5|apply setb_lookup| |by eapply shown_no_nul|lia|].
    { intros j c Hj. apply overwrite_lookup; [exact Hj|lia]. }
    eapply wp_Free; [unfold live_heap; cbn; eapply RV_mem; [exact HV5|apply setb_lookup]|]. cbn [fst]. pose proof (RV_delB _ _ _ _ _ HV5 (setb_lookup _ _ _)) as HV6. rewrite setb_del in HV6 by done.
    apply wp_ret. rewrite rat_pair in HV6. split; [by eexists _, _|]. intros st7 HV7. by eapply HQ1.
  - intros n d st2 Hz HV2. fold (pair_set v n d (pair_set v 0 1 V)) in HV2. rewrite pair_pair in HV2 by done. apply wp_ret. split; [by eexists _, _|]. intros st3 HV3. by apply HQ2.
  - intros n d e st2 Hn He Hu HV2. fold (pair_set v n d (pair_set v 0 1 V)) in HV2. rewrite pair_pair in HV2 by done. apply wp_ret. split; [by eexists _, _|]. intros st3 HV3. by apply HQ3.
Qed.
