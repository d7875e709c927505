(** Rational numbers as text: writing and reading fractions. *)
From Coq Require Import ZArith List Lia QArith.
From stdpp Require Import gmap list.
From Verif Require Import SpecHist.
From Verif Require Import Mem Prog Kern Fp Imath Imrat Wp MemLem Dig KernLem Rel RelWp RelZ Life Basic Basic2 Mult Shift Knuth Divi Powr Spec Public Gcd SpecRat Rat Buf Text Read Outlen SpecDec.
Local Open Scope Z_scope.
Local Open Scope list_scope.

Lemma wpV_loadb st V X b l off v (Q : Z -> state -> Prop) :
  RV st V X -> cmem X !! b = Some l -> 0 <= off -> l !! Z.to_nat off = Some (Some v) -> Q v st -> wp (Load (b, off)) Q st.
Proof. intros (ζ & HZ & _) ? ? ? ?. by eapply wpZ_loadb. Qed.
Lemma wpV_storeb st V X b l off v (Q : unit -> state -> Prop) :
  RV st V X -> cmem X !! b = Some l -> 0 <= off < Z.of_nat (length l) ->
  (forall st', RV st' V (setb X b (<[Z.to_nat off := Some v]> l)) -> Q tt st') -> wp (Store (b, off) v) Q st.
Proof. intros (ζ & HZ & ?) ? ? HQ. eapply wpZ_storeb; [done..|]. intros st' HR'. apply HQ. by exists ζ. Qed.
Lemma ptr_add b x y : (b, x) +p y = (b, x + y). Proof. done. Qed.

Lemma wpV_strlen st V X b l (Q : Z -> state -> Prop) : RV st V X -> cmem X !! b = Some l ->
  forall s n (off : nat) len0, (length s < n)%nat -> Forall (fun c => c <> 0) s ->
  (forall i c, (s ++ [0]) !! i = Some c -> l !! (off + i)%nat = Some (Some c)) ->
  Q (len0 + Z.of_nat (length s)) st -> wp (strlen_loop n (b, Z.of_nat off) len0) Q st.
Proof.
  intros HV Hb. induction s as [|c s IH]; intros n off len0 Hn Hs Hl HQ; (destruct n as [|n]; [cbn in Hn; lia|]); cbn [strlen_loop].
  - wb. eapply (wpV_loadb _ _ _ _ _ _ 0); [exact HV|exact Hb|lia|rewrite Nat2Z.id; specialize (Hl O 0 eq_refl); by rewrite Nat.add_0_r in Hl|]. cbn. apply wp_ret. by rewrite Z.add_0_r in HQ.
  - apply Forall_cons in Hs as [Hc Hs]. wb. eapply (wpV_loadb _ _ _ _ _ _ c); [exact HV|exact Hb|lia|rewrite Nat2Z.id; specialize (Hl O c eq_refl); by rewrite Nat.add_0_r in Hl|].
    rewrite (proj2 (Z.eqb_neq c 0) Hc). rewrite ptr_add. replace (Z.of_nat off + 1) with (Z.of_nat (S off)) by lia. apply IH; [cbn in Hn; lia|done| |].
    + intros i x Hx. rewrite <- (Hl (S i) x); [f_equal; lia|exact Hx].
    + cbn [length] in HQ. replace (len0 + 1 + Z.of_nat (length s)) with (len0 + Z.of_nat (S (length s))) by lia. done.
Qed.
Lemma digit_char_nz d : 0 <= d -> 48 <= digit_char d.
Proof. intros H. unfold digit_char. destruct (Z.ltb_spec d 10); lia. Qed.
Lemma numeral_nz r v s : numeral r v s -> Forall (fun c => c <> 0) s.
Proof.
  intros (ds & Hd & _ & _ & _ & ->). apply Forall_app. split; [destruct (v <? 0); by repeat constructor|].
  apply Forall_forall. intros c Hc%elem_of_list_fmap. destruct Hc as (d & -> & Hd'). rewrite Forall_forall in Hd. specialize (Hd d Hd'). cbn in Hd. pose proof (digit_char_nz d). lia.
Qed.
Lemma overwrite_at l off s i c : s !! i = Some c -> (off + length s <= length l)%nat -> overwrite off s l !! (off + i)%nat = Some (Some c).
Proof. intros. apply overwrite_lookup; [done|lia]. Qed.
Lemma overwrite_snd l off s s' : (off + length s + length s' <= length l)%nat -> overwrite (off + length s) s' (overwrite off s l) = overwrite off (s ++ s') l.
Proof. apply overwrite_app. Qed.

(** Writing the numerator and the slash. *)
Lemma slash_eq l off (s : list Z) : (off + length s + 1 <= length l)%nat ->
  <[(off + length s)%nat := Some 47]> (overwrite off (s ++ [0]) l) = overwrite off (s ++ [47]) l.
Proof.
  intros Hl. unfold overwrite. rewrite !app_length. cbn [length]. rewrite !fmap_app, <- !app_assoc. rewrite insert_app_r_alt by (rewrite take_length; lia).
  f_equal. rewrite take_length, insert_app_r_alt by (rewrite fmap_length; lia). f_equal. rewrite fmap_length. replace (_ - _ - _)%nat with O by lia. done.
Qed.
Lemma slash_over l off (s d : list Z) : (off + length s + 1 + length d <= length l)%nat ->
  overwrite (off + length s + 1) d (overwrite off (s ++ [47]) l) = overwrite off (s ++ 47 :: d) l.
Proof.
  intros Hl. replace (off + length s + 1)%nat with (off + length (s ++ [47%Z]))%nat by (rewrite app_length; cbn; lia).
  rewrite overwrite_snd by (rewrite app_length; cbn; lia). by rewrite <- app_assoc.
Qed.

Section to_string.
Context (st : state) (V : gmap oid Z) (X : ctx).
Lemma wpV_rat_to_string r n d radix b (off : nat) l limit sn sd (Q : Z -> state -> Prop) :
  RV st V X -> V !! num r = Some n -> V !! den r = Some d -> cmem X !! b = Some l -> 2 <= radix <= 36 -> 2 <= limit ->
  numeral radix n sn -> numeral radix d sd ->
  (off + Nat.min (length (if (n =? 0)%Z then sn else sn ++ 47%Z :: sd)) (Z.to_nat limit) + 1 <= length l)%nat ->
  (forall st', n = 0 -> RV st' V (setb X b (overwrite off (sn ++ [0]) l)) -> Q MP_OK st') ->
  (forall st' t, Z.of_nat (length sn) < limit -> n <> 0 -> Z.of_nat (length sn) + 3 <= limit -> 
     (if Z.of_nat (length sn) + 1 + Z.of_nat (length sd) + 1 <=? limit then t = sn ++ 47 :: sd ++ [0] else (length t <= Z.to_nat limit + 1)%nat /\ last t = Some 0) ->
     RV st' V (setb X b (overwrite off t l)) -> Q (if Z.of_nat (length sn) + 1 + Z.of_nat (length sd) + 1 <=? limit then MP_OK else MP_TRUNC) st') ->
  (forall st' t, limit <= Z.of_nat (length sn) -> (length t <= Z.to_nat limit + 1)%nat -> last t = Some 0 -> RV st' V (setb X b (overwrite off t l)) -> Q MP_TRUNC st') ->
  (n <> 0 -> Z.of_nat (length sn) < limit -> Z.of_nat (length sn) + 3 <= limit) ->
  wp (mp_rat_to_string r radix (b, Z.of_nat off) limit) Q st.
Proof.
  intros HV Hn Hd Hb Hr Hlim Hsn Hsd Hl HQ0 HQ1 HQ2 Hx. unfold mp_rat_to_string.
  destruct (numeral_short _ _ _ _ _ _ _ HV Hn (proj1 Hr) Hsn) as [L1 _]. destruct (numeral_short _ _ _ _ _ _ _ HV Hd (proj1 Hr) Hsd) as [L2 _].
  set (full := if n =? 0 then sn else sn ++ 47 :: sd) in *.
  assert (length sn <= length full)%nat as Lf by (unfold full; destruct (n =? 0); [done|rewrite app_length; lia]).
  assert (n <> 0 -> (length full = length sn + 1 + length sd)%nat) as Lf' by (intros Nz; unfold full; rewrite (proj2 (Z.eqb_neq n 0) Nz), app_length; cbn [length]; lia).
  wb. eapply wpV_to_string; [exact HV|exact Hn|exact Hb|done|done|exact Hsn|lia| |].
  2:{ intros st' s' H1 H2 HV'. cbn. apply wp_ret. eapply HQ2; [done| | |exact HV']; [rewrite app_length; cbn; lia|by rewrite last_snoc]. }
  intros st1 H1 HV1. cbn. wb. eapply wpV_compare_zero; [exact HV1|exact Hn|]. destruct (Z.eqb_spec (Z.sgn n) 0) as [E|E].
  { apply wp_ret. apply HQ0; [lia|done]. }
  assert (n <> 0) as N0 by lia. specialize (Hx N0 H1). specialize (Lf' N0).
  wb. eapply (wpV_strlen _ _ _ b); [exact HV1|apply setb_lookup| |exact (numeral_nz _ _ _ Hsn)| |].
  { lia. } { intros i c Hi. apply overwrite_at; [done|rewrite app_length; cbn; lia]. }
  rewrite !Z.add_0_l. destruct (Z.eqb_spec (limit - Z.of_nat (length sn)) 0); [lia|].
  wb. rewrite ptr_add. replace (Z.of_nat off + Z.of_nat (length sn)) with (Z.of_nat (off + length sn)) by lia.
  eapply wpV_storeb; [exact HV1|apply setb_lookup|rewrite overwrite_length; [lia|rewrite app_length; cbn; lia]|]. intros st2 HV2.
  rewrite setb_setb, Nat2Z.id, slash_eq in HV2 by lia.
  rewrite ptr_add. replace (Z.of_nat off + (Z.of_nat (length sn) + 1)) with (Z.of_nat (off + length sn + 1)) by lia.
  eapply wpV_to_string; [exact HV2|exact Hd|apply setb_lookup|done|lia|exact Hsd| | |].
  - rewrite overwrite_length by (rewrite app_length; cbn; lia). lia.
  - intros st3 H3 HV3. rewrite setb_setb, slash_over in HV3 by (rewrite app_length; cbn; lia).
    specialize (HQ1 st3 (sn ++ 47 :: sd ++ [0]) H1 N0 Hx). destruct (Z.leb_spec (Z.of_nat (length sn) + 1 + Z.of_nat (length sd) + 1) limit); [|lia]. by apply HQ1.
  - intros st3 s' H3 H4 HV3. rewrite setb_setb, slash_over in HV3 by (rewrite app_length; cbn; lia).
    specialize (HQ1 st3 (sn ++ 47 :: s' ++ [0]) H1 N0 Hx). destruct (Z.leb_spec (Z.of_nat (length sn) + 1 + Z.of_nat (length sd) + 1) limit); [lia|]. apply HQ1; [|done].
    split; [rewrite app_length; cbn; rewrite app_length; cbn; lia|]. rewrite app_comm_cons, app_assoc. by rewrite last_snoc.
Qed.
End to_string.

(** ** Reading *)
Lemma wpV_read_reads st V X o v0 r s v rest (Q : Z * list Z -> state -> Prop) :
  RV st V X -> V !! o = Some v0 -> 2 <= r <= 36 -> reads r s v rest -> Z.of_nat (length s) < 2 ^ 31 ->
  (forall st', RV st' (<[o := v]> V) X -> Q (match rest with [] => MP_OK | _ => MP_TRUNC end, rest) st') ->
  wp (mp_int_read_cstring o r s) Q st.
Proof.
  intros HV Ho Hr (sp & sg & body & ds & (-> & H1 & H2 & H3 & H4 & H5) & ->) Hl HQ. eapply wpV_read_cstring; [done..|]. done.
Qed.
Lemma reads_len r s v rest : reads r s v rest -> (length rest <= length s)%nat.
Proof. intros (sp & sg & body & ds & (-> & _) & _). rewrite !app_length. lia. Qed.

Lemma skip_space sp t : Forall is_space sp -> (forall c, head t = Some c -> ~ is_space c) -> skip_while isspace (sp ++ t) = t.
Proof.
  intros H1 H2. apply skip_app; [eapply Forall_impl; [exact H1|]; intros c Hc; by apply isspace_spec|].
  intros c Hc. destruct (isspace c) eqn:E; [|done]. apply isspace_spec in E. by destruct (H2 c Hc).
Qed.
Section read.
Context (st : state) (V : gmap oid Z) (X : ctx).
(** With a slash. *)
Lemma wpV_rat_read_slash r radix s n sp s2 d rest (Q : Z * option (list Z) -> state -> Prop) :
  RV st V X -> num r <> den r -> rat_live V r -> 2 <= radix <= 36 -> Z.of_nat (length s) < 2 ^ 31 ->
  reads radix s n (sp ++ 47 :: s2) -> Forall is_space sp -> reads radix s2 d rest ->
  (rest = [] -> d <> 0 -> forall st', RV st' (set_rat r (frac n d) V) X -> Q (MP_OK, Some []) st') ->
  (rest = [] -> d = 0 -> forall st', RV st' (<[den r := d]> (<[num r := n]> V)) X -> Q (MP_UNDEF, Some []) st') ->
  (rest <> [] -> forall st', RV st' (<[den r := d]> (<[num r := n]> V)) X -> Q (MP_TRUNC, Some rest) st') ->
  wp (mp_rat_read_cstring r radix s) Q st.
Proof.
  intros HV N [[vn Hn] [vd Hd]] Hr Hl H1 Hsp H2 HQ1 HQ2 HQ3. unfold mp_rat_read_cstring.
  pose proof (reads_len _ _ _ _ H1) as L1. rewrite app_length in L1. cbn [length] in L1.
  wb. eapply wpV_read_reads; [exact HV|exact Hn|done|exact H1|done|]. intros st1 HV1. cbn [fst snd].
  assert (match sp ++ 47 :: s2 with [] => MP_OK | _ => MP_TRUNC end = MP_TRUNC) as E by (by destruct sp). rewrite E. cbn [Z.eqb MP_TRUNC MP_OK negb andb].
  rewrite skip_space; [|done|intros c [= <-]; intros [?|?]; lia].
  wb. eapply wpV_read_reads; [exact HV1|lk|done|exact H2|lia|]. intros st2 HV2. cbn [fst snd].
  destruct rest as [|c rest].
  - cbn [Z.eqb MP_OK negb]. wb. eapply wpV_compare_zero; [exact HV2|lk|]. destruct (Z.eqb_spec (Z.sgn d) 0) as [E1|E1].
    + apply wp_ret. apply HQ2; [done|lia|done].
    + wb. eapply wpV_rat_reduce with (q := frac n d); [exact HV2|done|lk|lk|lia|by rewrite frac_eq by lia|]. intros st3 HV3. apply wp_ret. apply HQ1; [done|lia|]. by rewrite set_rat_over in HV3.
  - cbn [Z.eqb MP_TRUNC MP_OK negb]. apply wp_ret. by apply HQ3.
Qed.
(** Without. *)
Lemma wpV_rat_read_int r radix s n rest sp rest' (Q : Z * option (list Z) -> state -> Prop) :
  RV st V X -> num r <> den r -> rat_live V r -> 2 <= radix <= 36 -> Z.of_nat (length s) < 2 ^ 31 ->
  reads radix s n rest -> rest = sp ++ rest' -> Forall is_space sp -> (forall c, head rest' = Some c -> ~ is_space c /\ c <> 47) ->
  (forall st', RV st' (set_rat r (inject_Z n) V) X -> Q (match rest with [] => MP_OK | _ => MP_TRUNC end, Some rest) st') ->
  wp (mp_rat_read_cstring r radix s) Q st.
Proof.
  intros HV N [[vn Hn] [vd Hd]] Hr Hl H1 E1 Hsp Hh HQ. unfold mp_rat_read_cstring.
  wb. eapply wpV_read_reads; [exact HV|exact Hn|done|exact H1|done|]. intros st1 HV1. cbn [fst snd].
  assert (negb (match rest with [] => MP_OK | _ => MP_TRUNC end =? MP_OK) && negb (match rest with [] => MP_OK | _ => MP_TRUNC end =? MP_TRUNC) = false) as -> by (by destruct rest).
  rewrite E1 at 1. rewrite skip_space; [|done|intros c Hc; by apply Hh].
  assert (wp (mp_int_set_value (den r) 1;; Ret (match rest with [] => MP_OK | _ => MP_TRUNC end, Some rest))%prog Q st1) as HW.
  { wb. eapply wpV_set_value; [exact HV1|lk|lia|]. intros st2 HV2. apply wp_ret. apply HQ. destruct (red_unique n 1 (inject_Z n)) as [E2 E3]; [lia|by rewrite Z.gcd_1_r|done|].
    unfold set_rat. rewrite <- E2, <- E3. done. }
  destruct rest' as [|c rest']; [exact HW|]. destruct (Hh c eq_refl) as [_ Hc].
  destruct c as [|p|p]; try exact HW. do 6 (destruct p as [p|p|]; try exact HW). done.
Qed.
End read.
