(** Reading numbers with a radix point. *)
From Coq Require Import ZArith List Lia QArith.
From stdpp Require Import gmap list.
From Verif Require Import SpecHist.
From Verif Require Import Mem Prog Kern Fp Imath Imrat Wp MemLem Dig KernLem Rel RelWp RelZ Life Basic Basic2 Mult Shift Knuth Divi Powr Spec Public Gcd SpecRat Rat Buf Text Read Outlen SpecDec RatText.
Local Open Scope Z_scope.
Local Open Scope list_scope.

Lemma horner_app r a b : horner r (a ++ b) = horner r a * r ^ Z.of_nat (length b) + horner r b.
Proof.
  induction b as [|d b IH] using rev_ind; [rewrite app_nil_r; cbn [length]; rewrite Z.pow_0_r; unfold horner at 3; cbn; lia|].
  rewrite app_assoc, !horner_snoc, IH, app_length. cbn [length]. rewrite Nat.add_1_r, Nat2Z.inj_succ, Z.pow_succ_r by lia. ring.
Qed.
Lemma horner_bounds r ds : 0 < r -> Forall (fun d => 0 <= d < r) ds -> 0 <= horner r ds < r ^ Z.of_nat (length ds).
Proof. intros Hr H. rewrite <- lval_rev, <- rev_length. apply lval_bounds; [done|by apply Forall_rev]. Qed.
Lemma digits_range r body ds : Forall2 (digit_in r) body ds -> Forall (fun d => 0 <= d < r) ds.
Proof. induction 1 as [|c d body ds [H1 H2] _ IH]; constructor; [|done]. pose proof (digit_of_range _ _ H1). lia. Qed.
Lemma digit_zero c : digit_of c = Some 0 <-> c = 48.
Proof.
  unfold digit_of. split; [|by intros ->]. destruct (Z.leb_spec 48 c), (Z.leb_spec c 57), (Z.leb_spec 65 c), (Z.leb_spec c 90), (Z.leb_spec 97 c), (Z.leb_spec c 122); cbn [andb]; intros [=]; lia.
Qed.
Lemma lz_count_cons c s : lz_count (c :: s) = if c =? 48 then S (lz_count s) else O.
Proof. destruct (Z.eqb_spec c 48) as [->|N]; [done|]. destruct c as [|p|p]; try done. do 6 (destruct p as [p|p|]; try done). Qed.
Lemma lead_bounds r fb fds rest : 2 <= r -> Forall2 (digit_in r) fb fds -> horner r fds <> 0 ->
  exists m, length fb = (lz_count (fb ++ rest) + S m)%nat /\ r ^ Z.of_nat m <= horner r fds < r ^ Z.of_nat (S m).
Proof.
  intros Hr H. induction H as [|c d fb fds Hcd HF IH]; intros Hn; [done|]. cbn [app]. rewrite lz_count_cons.
  pose proof (digits_range _ _ _ HF) as HD. pose proof (horner_bounds r fds ltac:(lia) HD) as HB.
  assert (horner r (d :: fds) = d * r ^ Z.of_nat (length fds) + horner r fds) as E by (change (d :: fds) with ([d] ++ fds); rewrite horner_app; change (horner r [d]) with (0 * r + d); lia).
  pose proof (Forall2_length _ _ _ HF) as EL. destruct (Z.eqb_spec c 48) as [->|N].
  - assert (d = 0) as -> by (destruct Hcd as [Hc _]; rewrite (proj2 (digit_zero 48) eq_refl) in Hc; congruence). rewrite E in *. rewrite Z.mul_0_l, Z.add_0_l in *. destruct (IH Hn) as (m & E1 & E2). exists m. split; [cbn [length]; lia|done].
  - assert (d <> 0) by (intros ->; destruct Hcd as [Hc _]; apply N; by apply digit_zero). pose proof (digit_of_range c d (proj1 Hcd)). destruct Hcd as [_ Hd].
    exists (length fds). cbn [length]. split; [lia|]. rewrite E, Nat2Z.inj_succ, Z.pow_succ_r by lia. nia.
Qed.

Section loops.
Context (X : ctx) (radix : Z) (Hr : 2 <= radix <= 36).
Lemma wpV_strip n : forall st V o F (Q : Z -> state -> Prop), RV st V X -> V !! o = Some F -> 0 < F < radix ^ Z.of_nat n ->
  (forall st' j F', 0 <= j -> F = F' * radix ^ j -> 0 < F' -> F' mod radix <> 0 -> RV st' (<[o := F']> V) X -> Q MP_OK st') -> wp (strip_loop n o radix) Q st.
Proof.
  induction n as [|n IH]; intros st V o F Q HV Ho HF HQ.
  { cbn in HF. lia. }
  cbn [strip_loop]. wb. eapply wpV_divisible_value; [exact HV|exact Ho|lia|]. intros st1 HV1. rewrite (proj2 (Z.eqb_neq radix 0)) by lia.
  rewrite Z.rem_mod_nonneg by lia. destruct (Z.eqb_spec (F mod radix) 0) as [E|E].
  - wb. eapply wpV_div_value; [exact HV1|exact Ho|by eexists|lia|lia|]. intros _ st2 HV2. cbn [fst Z.eqb MP_OK negb assign] in *.
    rewrite Z.quot_div_nonneg in HV2 by lia. assert (F = (F / radix) * radix) as EF by (pose proof (Z.div_mod F radix ltac:(lia)); lia).
    eapply IH; [exact HV2|apply lookup_insert| |].
    + rewrite Nat2Z.inj_succ, Z.pow_succ_r in HF by lia. split; [nia|]. apply Z.div_lt_upper_bound; lia.
    + intros st3 j F' Hj EF' H1 H2 HV3. rewrite insert_insert in HV3. eapply (HQ st3 (j + 1) F'); [lia| |done|done|done]. rewrite EF, EF', Z.pow_add_r, Z.pow_1_r by lia. lia.
  - apply wp_ret. apply (HQ st1 0 F); [lia|rewrite Z.pow_0_r; lia|lia|done|]. by rewrite insert_id.
Qed.
Lemma wpV_grow n : forall st V d f a F (Q : Z -> state -> Prop), RV st V X -> d <> f -> V !! d = Some (radix ^ a) -> V !! f = Some F -> 0 <= a -> F <= radix ^ (a + Z.of_nat n) ->
  (forall st' m, a <= m -> F <= radix ^ m -> (m = a \/ radix ^ (m - 1) < F) -> RV st' (<[d := radix ^ m]> V) X -> Q MP_OK st') -> wp (grow_loop n d f radix) Q st.
Proof.
  induction n as [|n IH]; intros st V d f a F Q HV N Hd Hf Ha HF HQ; cbn [grow_loop]; (wb; eapply wpV_compare; [exact HV|exact Hd|exact Hf|]).
  - rewrite Z.add_0_r in HF. destruct (Z.ltb_spec (Z.sgn (radix ^ a - F)) 0); [lia|]. apply wp_ret. apply (HQ st a); [lia|done|by left|]. by rewrite insert_id.
  - destruct (Z.ltb_spec (Z.sgn (radix ^ a - F)) 0) as [E|E].
    + wb. eapply wpV_mul_value; [exact HV|exact Hd|exact Hd|lia|]. intros st1 HV1. cbn [Z.eqb MP_OK negb].
      replace (radix ^ a * radix) with (radix ^ (a + 1)) in HV1 by (rewrite Z.pow_add_r, Z.pow_1_r by lia; done).
      eapply IH; [exact HV1|done|apply lookup_insert|by rewrite lookup_insert_ne|lia|replace (a + 1 + Z.of_nat n) with (a + Z.of_nat (S n)) by lia; done|].
      intros st2 m Hm H1 H2 HV2. rewrite insert_insert in HV2. apply (HQ st2 m); [lia|done| |done]. right. destruct H2 as [->|H2]; [|done]. rewrite Z.add_simpl_r. lia.
    + apply wp_ret. apply (HQ st a); [lia|lia|by left|]. by rewrite insert_id.
Qed.
Lemma wpV_shift n : forall st V d D (Q : Z -> state -> Prop), RV st V X -> V !! d = Some D ->
  (forall st', RV st' (<[d := D * radix ^ Z.of_nat n]> V) X -> Q MP_OK st') -> wp (shift_loop n d radix) Q st.
Proof.
  induction n as [|n IH]; intros st V d D Q HV Hd HQ; cbn [shift_loop].
  - apply wp_ret. apply HQ. rewrite Z.pow_0_r, Z.mul_1_r. by rewrite insert_id.
  - wb. eapply wpV_mul_value; [exact HV|exact Hd|exact Hd|lia|]. intros st1 HV1. cbn [Z.eqb MP_OK negb]. eapply IH; [exact HV1|apply lookup_insert|].
    intros st2 HV2. apply HQ. rewrite insert_insert in HV2. rewrite Nat2Z.inj_succ, Z.pow_succ_r by lia. by rewrite Z.mul_assoc.
Qed.
End loops.

(** The exponent found is the number of digits. *)
Lemma exponent r F F' j m M : 2 <= r -> 0 <= j -> F = F' * r ^ j -> 0 < F' -> F' mod r <> 0 -> 0 <= M -> r ^ M <= F < r ^ (M + 1) ->
  1 <= m -> F' <= r ^ m -> (m = 1 \/ r ^ (m - 1) < F') -> m + j = M + 1.
Proof.
  intros Hr Hj -> HF Hd HM [B1 B2] Hm H1 H2.
  assert (F' <> r ^ m) as N. { intros ->. apply Hd. rewrite <- (Z.succ_pred m), Z.pow_succ_r, Z.mul_comm by lia. apply Z.mod_mul. lia. }
  assert (F' * r ^ j < r ^ (m + j)) as E1. { rewrite Z.pow_add_r by lia. apply Z.mul_lt_mono_pos_r; [apply Z.pow_pos_nonneg; lia|lia]. }
  assert (r ^ (m - 1 + j) <= F' * r ^ j) as E2. { rewrite Z.pow_add_r by lia. apply Z.mul_le_mono_nonneg_r; [apply Z.pow_nonneg; lia|]. destruct H2 as [->|H2]; [cbn; lia|lia]. }
  assert (M < m + j) as L1. { apply (Z.pow_lt_mono_r_iff r); lia. }
  assert (m - 1 + j < M + 1) as L2. { apply (Z.pow_lt_mono_r_iff r); lia. }
  lia.
Qed.

Lemma digit_head r body ds rest' c : Forall2 (digit_in r) body ds -> body <> [] -> head (body ++ rest') = Some c -> ~ is_space c /\ c <> 43 /\ c <> 45.
Proof. intros HF Hn. destruct HF as [|x d body ds [Hx _] _]; [done|]. intros [= <-]. pose proof (digit_of_range _ _ Hx). tauto. Qed.

(** After the white space. *)
Lemma skip_sign r sp sg ib ids t : Forall is_space sp -> (sg = [] \/ sg = [43] \/ sg = [45]) -> Forall2 (digit_in r) ib ids ->
  (forall c, head t = Some c -> ~ is_space c /\ c <> 43 /\ c <> 45) ->
  skip_while isspace (sp ++ sg ++ ib ++ t) = sg ++ ib ++ t /\
  (match sg ++ ib ++ t with 45 :: _ => MP_NEG | _ => MP_ZPOS end) = (if decide (sg = [45]) then MP_NEG else MP_ZPOS).
Proof.
  intros Hsp Hsg HF Ht. assert (sg = [] -> forall c, head (ib ++ t) = Some c -> ~ is_space c /\ c <> 43 /\ c <> 45) as Hh.
  { intros _ c Hc. destruct ib as [|x ib]; [by apply Ht|]. by eapply digit_head. }
  split.
  - apply skip_space; [done|]. intros c Hc. destruct Hsg as [->|[->| ->]]; [by apply Hh|injection Hc as <-; unfold is_space; lia|injection Hc as <-; unfold is_space; lia].
  - destruct Hsg as [->|[->| ->]]; [|done|done]. rewrite decide_False by done. cbn [app]. destruct (ib ++ t) as [|c u] eqn:E; [done|].
    destruct (Hh eq_refl c eq_refl) as (_ & _ & Hc). destruct c as [|p|p]; try done. do 6 (destruct p as [p|p|]; try done).
Qed.
Lemma reads_front r sg ib ids t : (sg = [] \/ sg = [43] \/ sg = [45]) -> Forall2 (digit_in r) ib ids ->
  (forall c, head t = Some c -> ~ is_space c /\ c <> 43 /\ c <> 45) -> (forall c d, head t = Some c -> ~ digit_in r c d) ->
  reads r (sg ++ ib ++ t) (if decide (sg = [45]) then - horner r ids else horner r ids) t.
Proof.
  intros Hsg HF Ht Hd. exists [], sg, ib, ids. split; [|done]. split; [done|]. split; [constructor|]. split; [done|]. split; [exact HF|]. split; [exact Hd|].
  intros _ c Hc. destruct ib as [|x ib]; [by apply Ht|]. by eapply digit_head.
Qed.
Lemma point_head u c : head (46 :: u) = Some c -> ~ is_space c /\ c <> 43 /\ c <> 45.
Proof. intros [= <-]. unfold is_space. lia. Qed.
Lemma point_digit r u c d : head (46 :: u) = Some c -> ~ digit_in r c d.
Proof. intros [= <-] [[=] _]. Qed.

Section read.
Context (st : state) (V : gmap oid Z) (X : ctx).
Notation sgn_of sg := (if decide (sg = [45]) then -1 else 1).
Lemma wpV_rat_read_point r radix s q rest (Q : Z * option (list Z) -> state -> Prop) :
  RV st V X -> num r <> den r -> rat_live V r -> 2 <= radix <= 36 -> Z.of_nat (length s) < 2 ^ 31 -> reads_point radix s q rest ->
  (forall st', RV st' (set_rat r q V) X -> Q (match rest with [] => MP_OK | _ => MP_TRUNC end, Some rest) st') ->
  wp (mp_rat_read_cdecimal r radix s) Q st.
Proof.
  intros HV N [[vn Hn] [vd Hd]] Hr Hl (sp & sg & ib & ids & fb & fds & -> & Hsp & Hsg & HI & HF & Hrest & Hh & ->) HQ.
  destruct (skip_sign radix sp sg ib ids (46 :: fb ++ rest) Hsp Hsg HI) as [E1 E2]; [apply point_head|].
  unfold mp_rat_read_cdecimal. rewrite E1, E2. clear E1 E2.
  assert (reads radix (sg ++ ib ++ 46 :: fb ++ rest) (sgn_of sg * horner radix ids) (46 :: fb ++ rest)) as HR.
  { replace (sgn_of sg * horner radix ids) with (if decide (sg = [45]) then - horner radix ids else horner radix ids) by (destruct (decide _); lia).
    apply reads_front; [done|done|apply point_head|apply point_digit]. }
  rewrite !app_length in Hl. cbn [length] in Hl. rewrite app_length in Hl.
  wb. eapply wpV_read_reads; [exact HV|exact Hn|done|exact HR|rewrite !app_length; cbn [length]; rewrite app_length; lia|]. intros st1 HV1. cbn [fst snd Z.eqb MP_TRUNC MP_OK negb andb].
  wb. eapply wpV_set_value; [exact HV1|lk|lia|]. intros st2 HV2.
  pose proof (digits_range _ _ _ HF) as DF. pose proof (horner_bounds radix fds ltac:(lia) DF) as BF. pose proof (Forall2_length _ _ _ HF) as LF.
  pose proof (digits_range _ _ _ HI) as DI. pose proof (horner_bounds radix ids ltac:(lia) DI) as BI.
  set (I := horner radix ids) in *. set (F := horner radix fds) in *. set (q := frac _ _) in *.
  assert (quo q (sgn_of sg * (I * radix ^ Z.of_nat (length fds) + F)) (radix ^ Z.of_nat (length fds))) as Hq.
  { unfold q. rewrite horner_app. fold I F. rewrite frac_eq; [done|]. pose proof (Z.pow_pos_nonneg radix (Z.of_nat (length fds))). lia. }
  clearbody q. pose proof (Z.pow_pos_nonneg radix (Z.of_nat (length fds)) ltac:(lia) ltac:(lia)) as HP.
  assert (F = 0 -> forall st', RV st' (<[den r := 1]> (<[num r := sgn_of sg * I]> V)) X -> RV st' (set_rat r q V) X) as HZ.
  { intros EF st' HV'. destruct (red_unique (sgn_of sg * I) 1 q) as [E2 E3]; [lia|by rewrite Z.gcd_1_r| |].
    - rewrite EF, Z.add_0_r in Hq. nia.
    - unfold set_rat. rewrite <- E2, <- E3. done. }
  destruct (fb ++ rest) as [|c0 u0] eqn:Ef.
  { apply app_eq_nil in Ef as [-> ->]. apply wp_ret. apply HQ. apply HZ; [|exact HV2]. inversion HF; subst fds. done. }
  destruct (Hh c0 eq_refl) as (S1 & S2 & S3). assert (isspace c0 = false) as -> by (destruct (isspace c0) eqn:E; [by apply isspace_spec in E|done]).
  rewrite (proj2 (Z.eqb_neq c0 45) S3), (proj2 (Z.eqb_neq c0 43) S2). cbn [orb]. rewrite <- Ef in *. clear c0 u0 Ef S1 S2 S3.
  eapply wpV_with_zero_g; [exact HV2|]. intros t st3 Ht HV3. assert (t <> num r /\ t <> den r) as [T1 T2]. { split; intros ->; [rewrite lookup_insert_ne in Ht by done|]; by rewrite lookup_insert in Ht. }
  wb. eapply wpV_read_reads; [exact HV3|lk|done| | |].
  { exists [], [], fb, fds. split; [|rewrite decide_False by done; reflexivity]. split; [done|]. split; [constructor|]. split; [by left|]. split; [exact HF|]. split; [exact Hrest|]. intros _. exact Hh. }
  { rewrite app_length. lia. }
  intros st4 HV4. cbn [fst snd]. fold F in HV4. rewrite insert_insert in HV4.
  set (sr := match rest with [] => MP_OK | _ => MP_TRUNC end) in *.
  assert (negb (sr =? MP_OK) && negb (sr =? MP_TRUNC) = false) as -> by (unfold sr; by destruct rest).
  wb. eapply wpV_compare_zero; [exact HV4|lk|]. destruct (Z.eqb_spec (Z.sgn F) 0) as [E|E].
  { apply wp_ret. split; [done|]. eexists _, F, X. split; [exact Ht|]. split; [exact HV4|]. intros st5 HV5. apply HQ. apply HZ; [lia|done]. }
  assert (F <> 0) as NF by lia. destruct (lead_bounds radix fb fds rest ltac:(lia) HF NF) as (M & EM & BM). fold F in BM.
  wb. eapply (wpV_strip X radix Hr); [exact HV4|lk| |].
  { split; [lia|]. eapply Z.lt_le_trans; [apply BF|]. apply Z.pow_le_mono_r; [lia|]. rewrite app_length. lia. }
  intros st5 j F' Hj EF H1 H2 HV5. rewrite insert_insert in HV5. cbn [Z.eqb MP_OK negb].
  wb. eapply wpV_set_value; [exact HV5|lk|lia|]. intros st6 HV6.
  wb. eapply (wpV_grow X radix Hr _ _ _ _ _ 1); [exact HV6|done|rewrite Z.pow_1_r; lk|lk|lia| |].
  { transitivity F; [rewrite EF; pose proof (Z.pow_pos_nonneg radix j); nia|]. transitivity (radix ^ Z.of_nat (length fds)); [lia|]. apply Z.pow_le_mono_r; [lia|]. rewrite app_length. lia. }
  intros st7 m Hm H3 H4 HV7. cbn [Z.eqb MP_OK negb].
  assert (m + j = Z.of_nat M + 1) as Em. { eapply (exponent radix F F'); [lia|done|done|done|done|lia| |done|done|done]. by replace (Z.of_nat M + 1) with (Z.of_nat (S M)) by lia. }
  wb. eapply (wpV_shift X radix Hr); [exact HV7|lk|]. intros st8 HV8. cbn [Z.eqb MP_OK negb]. rewrite <- Z.pow_add_r in HV8 by lia.
  set (e := m + Z.of_nat (lz_count (fb ++ rest))) in *. assert (e + j = Z.of_nat (length fds)) as Ee by (unfold e; lia).
  assert (radix ^ Z.of_nat (length fds) = radix ^ e * radix ^ j) as Ep by (rewrite <- Ee; apply Z.pow_add_r; lia).
  pose proof (Z.pow_pos_nonneg radix e ltac:(lia) ltac:(lia)) as Pe. pose proof (Z.pow_pos_nonneg radix j ltac:(lia) ltac:(lia)) as Pj. clearbody e.
  wb. eapply wpV_mul; [exact HV8|lk|lk|lk|]. intros st9 HV9. cbn [Z.eqb MP_OK negb].
  wb. eapply wpV_set_sign; [exact HV9|lk|by left|]. intros st10 HV10. change (MP_ZPOS =? 0) with true in HV10. cbv iota in HV10.
  assert (0 <= I * radix ^ e) as PI by (apply Z.mul_nonneg_nonneg; lia).
  replace (Z.abs (sgn_of sg * I * radix ^ e)) with (I * radix ^ e) in HV10 by (clear - PI; rewrite <- Z.mul_assoc; destruct (decide _); lia).
  wb. eapply wpV_add; [exact HV10|lk|lk|lk|]. intros st11 HV11. cbn [Z.eqb MP_OK negb].
  wb. eapply wpV_set_sign; [exact HV11|lk|destruct (decide (sg = [45])); [right; split; [done|clear - PI H1; lia]|by left]|]. intros st12 HV12.
  assert ((if (if decide (sg = [45]) then MP_NEG else MP_ZPOS) =? 0 then Z.abs (I * radix ^ e + F') else - Z.abs (I * radix ^ e + F')) = sgn_of sg * (I * radix ^ e + F')) as ES.
  { rewrite Z.abs_eq by (clear - PI H1; lia). destruct (decide (sg = [45])); [change (MP_NEG =? 0) with false|change (MP_ZPOS =? 0) with true]; cbv iota; lia. }
  rewrite ES in HV12. clear ES.
  wb. eapply wpV_rat_reduce with (q := q); [exact HV12|done|lk|lk|lia| |].
  { rewrite Ep, EF in Hq. apply (Z.mul_reg_r _ _ (radix ^ j)); [lia|]. rewrite <- (Z.mul_assoc (Qnum q)), <- Hq. ring. }
  intros st13 HV13. cbn [Z.eqb MP_OK negb]. apply wp_ret. split; [done|].
  exists (set_rat r q V), F', X. assert (set_rat r q V !! t = None) as HN.
  { unfold set_rat. rewrite !lookup_insert_ne by done. rewrite !lookup_insert_ne in Ht by done. done. }
  split; [exact HN|]. split; [|intros st14 HV14; by apply HQ]. eapply RV_eqV; [exact HV13|]. unfold set_rat. change (fst r) with (num r). change (snd r) with (den r). mapeq.
Qed.
(** No point: an integer. *)
Lemma wpV_rat_read_nopoint r radix s n rest (Q : Z * option (list Z) -> state -> Prop) :
  RV st V X -> num r <> den r -> rat_live V r -> 2 <= radix <= 36 -> Z.of_nat (length s) < 2 ^ 31 ->
  reads radix s n rest -> head rest <> Some 46 ->
  (forall st', RV st' (set_rat r (inject_Z n) V) X -> Q (match rest with [] => MP_OK | _ => MP_TRUNC end, Some rest) st') ->
  wp (mp_rat_read_cdecimal r radix s) Q st.
Proof.
  intros HV N [[vn Hn] [vd Hd]] Hr Hl (sp & sg & body & ds & (-> & Hsp & Hsg & HF & Hrest & Hn0) & Ev) Hh HQ. unfold mp_rat_read_cdecimal.
  rewrite skip_space; [|done|].
  2:{ intros c Hc. destruct Hsg as [->|[->| ->]]; [by apply Hn0|injection Hc as <-; unfold is_space; lia|injection Hc as <-; unfold is_space; lia]. }
  wb. eapply wpV_read_reads; [exact HV|exact Hn|done| |rewrite !app_length in *; lia|].
  { exists [], sg, body, ds. split; [|exact Ev]. split; [done|]. split; [constructor|]. done. }
  intros st1 HV1. cbn [fst snd].
  assert (negb (match rest with [] => MP_OK | _ => MP_TRUNC end =? MP_OK) && negb (match rest with [] => MP_OK | _ => MP_TRUNC end =? MP_TRUNC) = false) as -> by (by destruct rest).
  wb. eapply wpV_set_value; [exact HV1|lk|lia|]. intros st2 HV2.
  assert (Q (match rest with [] => MP_OK | _ => MP_TRUNC end, Some rest) st2) as HW.
  { apply HQ. destruct (red_unique n 1 (inject_Z n)) as [E2 E3]; [lia|by rewrite Z.gcd_1_r|done|]. unfold set_rat. rewrite <- E2, <- E3. done. }
  assert (wp (Ret (match rest with [] => MP_OK | _ => MP_TRUNC end, Some rest)) Q st2) as HW' by by apply wp_ret.
  destruct rest as [|c u]; [exact HW'|]. destruct c as [|p|p]; try exact HW'. do 6 (destruct p as [p|p|]; try exact HW'). done.
Qed.
(** A point followed by white space or a sign. *)
Lemma wpV_rat_read_badpoint r radix s n c u (Q : Z * option (list Z) -> state -> Prop) :
  RV st V X -> num r <> den r -> rat_live V r -> 2 <= radix <= 36 -> Z.of_nat (length s) < 2 ^ 31 ->
  reads radix s n (46 :: c :: u) -> is_space c \/ c = 43 \/ c = 45 ->
  (forall st', RV st' (set_rat r (inject_Z n) V) X -> Q (MP_TRUNC, None) st') ->
  wp (mp_rat_read_cdecimal r radix s) Q st.
Proof.
  intros HV N [[vn Hn] [vd Hd]] Hr Hl (sp & sg & body & ds & (-> & Hsp & Hsg & HF & Hrest & Hn0) & Ev) Hc HQ. unfold mp_rat_read_cdecimal.
  rewrite skip_space; [|done|].
  2:{ intros c' Hc'. destruct Hsg as [->|[->| ->]]; [by apply Hn0|injection Hc' as <-; unfold is_space; lia|injection Hc' as <-; unfold is_space; lia]. }
  wb. eapply wpV_read_reads; [exact HV|exact Hn|done| |rewrite !app_length in *; lia|].
  { exists [], sg, body, ds. split; [|exact Ev]. split; [done|]. split; [constructor|]. done. }
  intros st1 HV1. cbn [fst snd Z.eqb MP_TRUNC MP_OK negb andb].
  wb. eapply wpV_set_value; [exact HV1|lk|lia|]. intros st2 HV2.
  assert (isspace c || (c =? 45) || (c =? 43) = true) as ->.
  { destruct Hc as [Hc|[->| ->]]; [|by rewrite orb_true_r|by rewrite orb_true_r]. apply isspace_spec in Hc. by rewrite Hc. }
  apply wp_ret. apply HQ. destruct (red_unique n 1 (inject_Z n)) as [E2 E3]; [lia|by rewrite Z.gcd_1_r|done|]. unfold set_rat. rewrite <- E2, <- E3. done.
Qed.
(** Either notation. *)
Lemma reads_point_int r s q rest : reads_point r s q rest -> exists n u, reads r s n (46 :: u) /\ forall c, head u = Some c -> ~ is_space c /\ c <> 43 /\ c <> 45.
Proof.
  intros (sp & sg & ib & ids & fb & fds & -> & Hsp & Hsg & HI & HF & Hrest & Hh & ->). eexists _, _. split; [|exact Hh].
  exists sp, sg, ib, ids. split; [|done]. split; [done|]. split; [done|]. split; [done|]. split; [done|]. split; [apply point_digit|].
  intros ->. cbn [app]. intros c Hc. destruct ib as [|x ib]; [by apply (point_head _ _ Hc)|]. eapply digit_head; [exact HI|done|exact Hc].
Qed.
Lemma set_rat_live r q W : num r <> den r -> rat_live (set_rat r q W) r.
Proof. intros N. split; unfold set_rat; [rewrite lookup_insert_ne by done|]; rewrite lookup_insert; by eexists. Qed.
Lemma wpV_rat_read_u_frac r radix s n sp s2 d (Q : Z * list Z -> state -> Prop) :
  RV st V X -> num r <> den r -> rat_live V r -> 2 <= radix <= 36 -> Z.of_nat (length s) < 2 ^ 31 ->
  reads radix s n (sp ++ 47 :: s2) -> Forall is_space sp -> reads radix s2 d [] ->
  (d <> 0 -> forall st', RV st' (set_rat r (frac n d) V) X -> Q (MP_OK, []) st') ->
  (d = 0 -> forall st', RV st' (<[den r := d]> (<[num r := n]> V)) X -> Q (MP_UNDEF, []) st') ->
  wp (mp_rat_read_ustring r radix s) Q st.
Proof.
  intros HV N HL Hr Hl H1 Hsp H2 HQ1 HQ2. unfold mp_rat_read_ustring. rewrite (proj2 (Z.eqb_neq radix 0)) by lia.
  wb. eapply wpV_rat_read_slash; [done..| | |]; intros; apply wp_ret; [by apply HQ1|by apply HQ2|done].
Qed.
Lemma wpV_rat_read_u_int r radix s n (Q : Z * list Z -> state -> Prop) :
  RV st V X -> num r <> den r -> rat_live V r -> 2 <= radix <= 36 -> Z.of_nat (length s) < 2 ^ 31 -> reads radix s n [] ->
  (forall st', RV st' (set_rat r (inject_Z n) V) X -> Q (MP_OK, []) st') ->
  wp (mp_rat_read_ustring r radix s) Q st.
Proof.
  intros HV N HL Hr Hl H1 HQ. unfold mp_rat_read_ustring. rewrite (proj2 (Z.eqb_neq radix 0)) by lia.
  wb. eapply wpV_rat_read_int with (sp := []) (rest' := []); [done..|constructor|done|]. intros st' HV'. apply wp_ret. by apply HQ.
Qed.
End read.
Lemma wpV_rat_read_u_point st V X r radix s q rest (Q : Z * list Z -> state -> Prop) :
  RV st V X -> num r <> den r -> rat_live V r -> 2 <= radix <= 36 -> Z.of_nat (length s) < 2 ^ 31 -> reads_point radix s q rest ->
  (forall st', RV st' (set_rat r q V) X -> Q (match rest with [] => MP_OK | _ => MP_TRUNC end, rest) st') ->
  wp (mp_rat_read_ustring r radix s) Q st.
Proof.
  intros HV N HL Hr Hl H1 HQ. unfold mp_rat_read_ustring. rewrite (proj2 (Z.eqb_neq radix 0)) by lia.
  destruct (reads_point_int _ _ _ _ H1) as (n & u & H2 & H3).
  wb. eapply wpV_rat_read_int with (sp := []) (rest' := 46 :: u); [done..|constructor| |].
  { intros c [= <-]. unfold is_space. lia. }
  intros st1 HV1. cbn [fst snd Z.eqb MP_TRUNC]. rewrite Z.eqb_refl.
  wb. eapply wpV_rat_read_point; [exact HV1|done|by apply set_rat_live|done|done|exact H1|]. intros st2 HV2. apply wp_ret. cbn [fst snd]. apply HQ.
  eapply RV_eqV; [exact HV2|]. unfold set_rat. change (fst r) with (num r). change (snd r) with (den r). mapeq.
Qed.
