(** Text of rationals and their allocation in the [NDEBUG] build when requests are
    refused. *)
From Coq Require Import ZArith List Lia QArith Qabs.
From stdpp Require Import gmap list.
From Verif Require Import SpecHist.
From Verif Require Import Mem Prog Kern Fp Imath Imrat Wp MemLem Dig KernLem Rel RelWp RelZ Life Basic Basic2 Mult Shift Knuth Divi Powr Spec Public Gcd SpecRat Rat Buf Text Read Outlen SpecDec.
From Verif Require Import RatText RatDec RatOut SpecGstr SpecRef Refuse Soft Soft2 Soft3 Soft5 Soft6 SoftRat.
Local Open Scope Z_scope.
Local Open Scope prog_scope.

Section soft_rat_text.
Context (st : state) (V : gmap oid Z) (X : ctx).
Lemma sV_rat_to_string r n d radix b (off : nat) l limit sn sd (Q : Z -> state -> Prop) :
  RV st V X -> V !! num r = Some n -> V !! den r = Some d -> cmem X !! b = Some l -> 2 <= radix <= 36 -> 2 <= limit ->
  numeral radix n sn -> numeral radix d sd ->
  Z.of_nat (length (if (n =? 0)%Z then sn else sn ++ 47%Z :: sd)) < limit ->
  (off + length (if (n =? 0)%Z then sn else sn ++ 47%Z :: sd) + 1 <= length l)%nat ->
  (forall st', RV st' V X -> Q MP_MEMORY st') ->
  (forall st', n <> 0 -> RV st' V (setb X b (overwrite off (sn ++ [47]) l)) -> Q MP_MEMORY st') ->
  (forall st', RV st' V (setb X b (overwrite off ((if n =? 0 then sn else sn ++ 47 :: sd) ++ [0]) l)) -> Q MP_OK st') ->
  sw (mp_rat_to_string r radix (b, Z.of_nat off) limit) Q st.
Proof.
  intros HV Hn Hd Hb Hr Hlim Hsn Hsd Hl Ho F1 F2 HQ. unfold mp_rat_to_string.
  destruct (numeral_short _ _ _ _ _ _ _ HV Hn (proj1 Hr) Hsn) as [L1 _]. destruct (numeral_short _ _ _ _ _ _ _ HV Hd (proj1 Hr) Hsd) as [L2 _].
  set (full := if n =? 0 then sn else sn ++ 47 :: sd) in *.
  assert (length sn <= length full)%nat as Lf by (unfold full; destruct (n =? 0); [done|rewrite app_length; lia]).
  assert (n <> 0 -> full = sn ++ 47 :: sd) as Ef by (intros Nz; unfold full; by rewrite (proj2 (Z.eqb_neq n 0) Nz)).
  assert (n <> 0 -> (length full = length sn + 1 + length sd)%nat) as Lf' by (intros Nz; rewrite (Ef Nz), app_length; cbn [length]; lia).
  apply s_req. eapply sV_to_string; [exact HV|exact Hn|exact Hb|done|done|exact Hsn|lia| | |lia].
  { intros st' H'. right. split; [done|]. by apply F1. }
  intros st1 H1 HV1. left. split; [done|].
  apply s_quiet; [unfold mp_int_compare_zero; qt|]. eapply wpV_compare_zero; [exact HV1|exact Hn|]. destruct (Z.eqb_spec (Z.sgn n) 0) as [E|E].
  { apply s_ret. apply HQ. assert (n = 0) as E0 by lia. unfold full. by rewrite E0. }
  assert (n <> 0) as N0 by lia. specialize (Lf' N0). specialize (Ef N0).
  apply s_quiet; [|eapply (wpV_strlen _ _ _ b); [exact HV1|apply setb_lookup| |exact (numeral_nz _ _ _ Hsn)| |]].
  { generalize (Z.to_nat limit), (b, Z.of_nat off), 0%Z. intros k. induction k as [|k IH]; intros; cbn; [done|]. qt; try apply IH. }
  { lia. } { intros i c Hi. apply overwrite_at; [done|rewrite app_length; cbn; lia]. }
  rewrite !Z.add_0_l. destruct (Z.eqb_spec (limit - Z.of_nat (length sn)) 0); [lia|].
  rewrite ptr_add. replace (Z.of_nat off + Z.of_nat (length sn)) with (Z.of_nat (off + length sn)) by lia.
  apply s_quiet; [qt|].
  eapply wpV_storeb; [exact HV1|apply setb_lookup|rewrite overwrite_length; [lia|rewrite app_length; cbn; lia]|]. intros st2 HV2.
  rewrite setb_setb, Nat2Z.id, slash_eq in HV2 by lia.
  rewrite ptr_add. replace (Z.of_nat off + (Z.of_nat (length sn) + 1)) with (Z.of_nat (off + length sn + 1)) by lia.
  eapply sV_to_string; [exact HV2|exact Hd|apply setb_lookup|done|lia|exact Hsd| | | |lia].
  - rewrite overwrite_length by (rewrite app_length; cbn; lia). lia.
  - intros st3 HV3. by apply F2.
  - intros st3 H3 HV3. rewrite setb_setb, slash_over in HV3 by (rewrite app_length; cbn; lia).
    apply HQ. rewrite Ef, <- app_assoc. exact HV3.
Qed.
End soft_rat_text.
(** The structure is refused before anything was done; initialising it makes no
    request. *)
Lemma sV_rat_alloc st V X (Q : option rat -> state -> Prop) : RV st V X -> (forall st', RV st' V X -> Q None st') ->
  (forall r st', fst r <> snd r -> V !! fst r = None -> V !! snd r = None -> craw X !! fst r = None -> craw X !! snd r = None -> heap_made r -> RV st' (set_rat r 0%Q V) X -> Q (Some r) st') ->
  sw mp_rat_alloc Q st.
Proof.
  intros HV HN HQ. unfold mp_rat_alloc. cbn [soft]. apply wp_MallocO; [apply wp_ret; by apply HN|]. intros z1 iz1 Fz1. cbn [soft].
  destruct (RV_newO st V X true z1 _ HV Fz1) as (A1 & A2 & HV1). set (n := (true, iz1)) in *. set (st1 := add_obj st n z1) in *.
  apply wp_MallocO.
  { cbn [soft]. eapply wp_FreeO; [eapply RV_rawobj; [exact HV1|cbn [craw with_craw]; apply lookup_insert]|done|]. apply wp_ret. apply HN.
    eapply RV_delO in HV1; [|cbn [craw with_craw]; apply lookup_insert]. unfold with_craw in HV1. cbn [craw cmem cglob] in HV1. rewrite delete_insert in HV1 by done. destruct X; exact HV1. }
  intros z2 iz2 Fz2. destruct (RV_newO st1 V _ true z2 _ HV1 Fz2) as (B1 & B2 & HV2). set (d := (true, iz2)) in *. cbn [craw with_craw] in B2, HV2.
  assert (n <> d) as N by (intros E; rewrite <- E, lookup_insert in B2; done). rewrite lookup_insert_ne in B2 by done.
  apply soft_bind, wp_bind. eapply sV_rat_init; [exact HV2|exact N|cbn [craw with_craw num fst]; rewrite lookup_insert_ne by done; apply lookup_insert|cbn [craw with_craw den snd]; apply lookup_insert|].
  intros st3 HV3. change (negb (MP_OK =? MP_OK)) with false. cbv iota. apply s_ret. apply HQ; [exact N|done|done|done|done|done|].
  eapply RV_eqX; [exact HV3|]. unfold unraw, with_craw. cbn [craw cmem cglob num den fst snd]. destruct X as [m c g]. cbn [craw cmem cglob] in *. f_equal.
  apply map_eq. intros o. destruct (decide (o = d)) as [->|]; [rewrite lookup_delete; done|]. rewrite lookup_delete_ne by done. destruct (decide (o = n)) as [->|]; [rewrite lookup_delete; done|]. rewrite lookup_delete_ne by done. rewrite !lookup_insert_ne by done. done.
Qed.
(** A whole number: only making room for its digits can be refused. *)
Lemma sV_rat_read_int st V X r radix s n rest sp rest' (Q : Z * option (list Z) -> state -> Prop) :
  RV st V X -> num r <> den r -> rat_live V r -> 2 <= radix <= 36 -> Z.of_nat (length s) < 2 ^ 31 ->
  reads radix s n rest -> rest = sp ++ rest' -> Forall is_space sp -> (forall c, head rest' = Some c -> ~ is_space c /\ c <> 47) ->
  (forall st', spoilt st' V X (num r) -> Q (MP_MEMORY, None) st') ->
  (forall st', RV st' (set_rat r (inject_Z n) V) X -> Q (match rest with [] => MP_OK | _ => MP_TRUNC end, Some rest) st') ->
  sw (mp_rat_read_cstring r radix s) Q st.
Proof.
  intros HV N [[vn Hn] [vd Hd]] Hr Hl H1 E1 Hsp Hh HF HQ. unfold mp_rat_read_cstring.
  apply soft_bind, wp_bind. eapply sf_read_cstring; [exact HV|exact Hn| |].
  { intros st' s' HX. cbn [fst snd]. change (negb (MP_MEMORY =? MP_OK) && negb (MP_MEMORY =? MP_TRUNC)) with true. cbv iota. apply s_ret. by apply HF. }
  eapply wpV_read_reads; [exact HV|exact Hn|done|exact H1|done|]. intros st1 HV1. cbn [fst snd].
  assert (negb (match rest with [] => MP_OK | _ => MP_TRUNC end =? MP_OK) && negb (match rest with [] => MP_OK | _ => MP_TRUNC end =? MP_TRUNC) = false) as -> by (by destruct rest).
  rewrite E1 at 1. rewrite skip_space; [|done|intros c Hc; by apply Hh].
  assert (sw (mp_int_set_value (den r) 1;; Ret (match rest with [] => MP_OK | _ => MP_TRUNC end, Some rest))%prog Q st1) as HW.
  { apply soft_bind, wp_bind. eapply sV_set_one; [exact HV1|lk|lia|]. intros st2 HV2. apply s_ret. apply HQ. destruct (red_unique n 1 (inject_Z n)) as [E2 E3]; [lia|by rewrite Z.gcd_1_r|done|].
    unfold set_rat. rewrite <- E2, <- E3. done. }
  destruct rest' as [|c rest']; [exact HW|]. destruct (Hh c eq_refl) as [_ Hc].
  destruct c as [|p|p]; try exact HW. do 6 (destruct p as [p|p|]; try exact HW). done.
Qed.
