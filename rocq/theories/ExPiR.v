(** Rules for examples/pi.c. *)
From Coq Require Import ZArith List Lia.
From stdpp Require Import gmap list.
From Verif Require Import Mem Prog Kern Fp Imath Imrat Gmp Wp MemLem Dig KernLem Rel RelWp RelZ Life Basic Basic2 Mult Shift Knuth Divi Powr Spec SpecBin Public Gcd Root Buf Read Bin Rat Rsa Gmpr Text Rsamath ExPi Arctan.
Local Open Scope Z_scope.

Ltac look := repeat first [done | rewrite lookup_insert_ne by congruence | rewrite lookup_insert].
(** [K] terms of the series, the last being zero. *)
Definition enough (M x : Z) (K : nat) : Prop :=
  (1 <= K)%nat /\ M < x ^ (2 * Z.of_nat K - 1) /\ (K = 1%nat \/ x ^ (2 * Z.of_nat (K - 2) + 1) <= M).
Lemma div_zero_lt a b : 0 < b -> a / b = 0 -> a < b.
Proof. intros Hb E. pose proof (Z.div_mod a b ltac:(lia)). pose proof (Z.mod_pos_bound a b Hb). nia. Qed.
Lemma div_pos_le a b : 0 < b -> 0 < a / b -> b <= a.
Proof. intros Hb E. destruct (Z.leb_spec b a) as [L|L]; [done|]. destruct (Z.ltb_spec a 0). { pose proof (Z.div_lt_upper_bound a b 0 Hb ltac:(lia)). lia. } rewrite Z.div_small in E; lia. Qed.
Lemma next_term M x k : 2 <= x -> M * x / (x * x) ^ Z.of_nat k / (x * x) = M / x ^ (2 * Z.of_nat k + 1).
Proof.
  intros Hx. assert (0 < (x * x) ^ Z.of_nat k) by (apply Z.pow_pos_nonneg; nia). assert (0 < x ^ (2 * Z.of_nat k + 1)) by (apply Z.pow_pos_nonneg; lia). rewrite Z.div_div by nia.
  replace ((x * x) ^ Z.of_nat k * (x * x)) with (x ^ (2 * Z.of_nat k + 1) * x); [apply Z.div_mul_cancel_r; lia|].
  rewrite Z.pow_add_r, Z.pow_1_r, Z.pow_mul_r, Z.pow_2_r by lia. ring.
Qed.
Lemma step_term M x k : 2 <= x -> M * x / (x * x) ^ Z.of_nat k / (x * x) = M * x / (x * x) ^ Z.of_nat (S k).
Proof.
  intros Hx. assert (0 < (x * x) ^ Z.of_nat k) by (apply Z.pow_pos_nonneg; nia). rewrite Z.div_div by nia. f_equal. rewrite Nat2Z.inj_succ, Z.pow_succ_r by lia. ring.
Qed.
Lemma wpV_arctan st V X r mul x p sum vs (Q : Z -> state -> Prop) :
  RV st V X -> V !! sum = Some vs -> 2 <= r < 2 ^ 63 -> 1 <= mul < 2 ^ 63 -> 2 <= x -> x * x < 2 ^ 63 -> 0 <= p < 2 ^ 32 - 1 ->
  (forall K st', enough (mul * r ^ (p + 1)) x K -> RV st' (<[sum := Z.quot (asum (mul * r ^ (p + 1)) x K) r]> V) X -> Q MP_OK st') ->
  wp (arctan r mul x p sum) Q st.
Proof.
  intros HV Hs Hr Hm Hx Hxx Hp HQ. unfold arctan. set (M := mul * r ^ (p + 1)) in *.
  eapply wpV_local0'; [exact HV|]. intros t st1 Ft HV1. eapply wpV_local0'; [exact HV1|]. intros v st2 Fv HV2.
  assert (t <> v) as Ntv by (intros ->; by rewrite lookup_insert in Fv). assert (sum <> t) by congruence. assert (sum <> v) by (intros ->; rewrite lookup_insert_ne in Fv by done; congruence).
  assert (V !! v = None) as Fv' by (by rewrite lookup_insert_ne in Fv).
  apply wp_require. eapply (wpV_expt_value _ _ _ r (p + 1) t); [exact HV2|look|lia|lia|]. intros _ st3 HV3. split; [done|]. rewrite (Z.mod_small (p + 1)) in HV3 by lia.
  apply wp_require. eapply (wpV_mul_value _ _ _ t mul t); [exact HV3|look|look|lia|]. intros st4 HV4. split; [done|]. rewrite insert_insert in HV4.
  apply wp_require. eapply (wpV_mul_value _ _ _ t x t); [exact HV4|look|look|nia|]. intros st5 HV5. split; [done|]. rewrite insert_insert in HV5.
  replace (r ^ (p + 1) * mul * x) with (M * x) in HV5 by (unfold M; ring).
  assert (x * x <? 2 ^ 63 = true) as -> by (apply Z.ltb_lt; lia). cbn [negb].
  wb. eapply (wpV_zero _ _ _ sum); [exact HV5|look|]. intros st6 HV6.
  assert (0 < r ^ (p + 1)) by (apply Z.pow_pos_nonneg; lia). assert (0 < M) by (unfold M; nia). assert (0 < M * x) as PMx by nia.
  set (V0 := <[v:=0]> (<[t:=0]> V)) in *.
  assert (Z.log2 (M * x) + 1 <= 2 ^ 30) as LB. { pose proof (bitlen_max _ _ _ t _ HV5 ltac:(look)) as [_ B]. unfold bitlen in B. rewrite Z.abs_eq in B by lia. destruct (Z.eqb_spec (M * x) 0); lia. }
  set (env := fun (tv vv sv : Z) => <[sum := sv]> (<[v := vv]> (<[t := tv]> V))).
  apply wp_require. eapply (wp_loop_n _ _ (fun n s st => exists (k : nat) vv, let tv := M * x / (x * x) ^ Z.of_nat k in
      n = Z.log2 tv + 1 /\ 0 < tv /\ n + Z.of_nat k <= 2 ^ 30 /\ s = ((if Nat.even k then 1 else -1), 2 * Z.of_nat k + 1) /\ RV st (env tv vv (asum M x k)) X) _ (Z.log2 (M * x) + 1)).
  { exists 0%nat, 0. cbn zeta. rewrite Z.pow_0_r, Z.div_1_r. split_and!; [done|done|lia|done|]. unfold env. cbn [asum]. unfold V0 in HV6. rewrite (insert_commute _ t v) in HV6 by done. by rewrite insert_insert in HV6. }
  { lia. }
  { clear st1 HV1 st2 HV2 st3 HV3 st4 HV4 st5 HV5 st6 HV6. intros n [sg co] st1 (k & vv & En & Pt & Hn & Es & HV1). injection Es as -> ->. cbn [arctan_body].
    set (tk := M * x / (x * x) ^ Z.of_nat k) in *. assert (0 < x * x) by nia.
    assert (tk / (x * x) = M / x ^ (2 * Z.of_nat k + 1)) as E1 by (apply next_term; lia). assert (tk / (x * x) = M * x / (x * x) ^ Z.of_nat (S k)) as E2 by (apply step_term; lia).
    unfold env in HV1. pose proof (Z.log2_nonneg tk).
    wb. eapply (wpV_div_value _ _ _ t); [exact HV1|look|eexists; look|lia|nia|]. intros _ st2 HV2. cbn [assign] in HV2. rewrite Z.quot_div_nonneg in HV2 by lia. cbn [fst]. change (MP_OK =? MP_OK) with true. cbn [negb].
    set (tk' := tk / (x * x)) in *. assert (0 <= tk') by (apply Z.div_pos; lia).
    wb. eapply (wpV_div_value _ _ _ t); [exact HV2|look|eexists; look|lia|lia|]. intros _ st3 HV3. cbn [assign] in HV3. rewrite Z.quot_div_nonneg in HV3 by lia. cbn [fst]. change (MP_OK =? MP_OK) with true. cbn [negb].
    assert (tk' / (2 * Z.of_nat k + 1) = aterm M x k) as Ea by (unfold aterm; by rewrite <- E1). rewrite Ea in HV3.
    set (W3 := <[v:=aterm M x k]> _) in HV3.
    assert (W3 = <[sum := asum M x k]> (<[v := aterm M x k]> (<[t := tk']> V))) as EW3.
    { unfold W3. apply map_eq. intros o. destruct (decide (o = v)) as [->|]; [by look|]. destruct (decide (o = t)) as [->|]; [by look|]. destruct (decide (o = sum)) as [->|]; [by look|]. by rewrite !lookup_insert_ne by done. }
    rewrite EW3 in HV3. clear EW3. clearbody W3. clear W3 HV1 HV2.
    apply wp_requireL. eapply (wp_mono _ (fun res st4 => res = MP_OK /\ RV st4 (<[sum := asum M x (S k)]> (<[v := aterm M x k]> (<[t := tk']> V))) X)).
    { cbn [asum]. destruct (Nat.even k); cbn [Z.gtb Z.compare].
      - eapply (wpV_add _ _ _ sum v sum); [exact HV3|look..|]. intros st4 HV4. split; [done|]. by rewrite insert_insert in HV4.
      - eapply (wpV_sub _ _ _ sum v sum); [exact HV3|look..|]. intros st4 HV4. split; [done|]. rewrite insert_insert in HV4. by rewrite Z.add_opp_r. }
    intros res st4 [-> HV4]. split; [done|]. wb. eapply (wpV_compare_zero _ _ _ t); [exact HV4|look|]. 
    destruct (Z.eqb_spec (Z.sgn tk') 0) as [Ez|Ez]; cbn [negb]; apply wp_ret.
    - (* the end *) split; [done|]. wb. eapply (wpV_div_value _ _ _ sum); [exact HV4|look|eexists; look|lia|lia|]. intros _ st5 HV5. cbn [assign] in HV5. rewrite insert_insert in HV5. apply wp_ret. cbn [fst].
      assert (tk' = 0) as Z0 by lia. eexists (<[sum := _]> (<[t := tk']> V)), _. split; [look|]. split; [by rewrite insert_commute in HV5 by done|].
      intros st6 HV6. eexists (<[sum := _]> V), _. split; [look|]. split; [by rewrite insert_commute in HV6 by done|]. intros st7 HV7. apply (HQ (S k)); [|exact HV7].
      assert (M / x ^ (2 * Z.of_nat k + 1) = 0) as D0 by (rewrite <- E1; exact Z0). apply div_zero_lt in D0; [|apply Z.pow_pos_nonneg; lia].
      split; [lia|]. split; [by replace (2 * Z.of_nat (S k) - 1) with (2 * Z.of_nat k + 1) by lia|]. destruct k as [|k]; [by left|right].
      unfold tk in Pt. rewrite <- (step_term M x k Hx), (next_term M x k Hx) in Pt. apply div_pos_le in Pt; [|apply Z.pow_pos_nonneg; lia]. by replace (S (S k) - 2)%nat with k by lia.
    - (* the next round *) assert (0 < tk') as Pt' by lia. assert (Z.log2 tk' < Z.log2 tk) as Hlt.
      { apply Z.log2_lt_pow2; [done|]. pose proof (Z.log2_spec tk Pt) as [_ L]. rewrite Z.pow_succ_r in L by lia. unfold tk'. apply Z.div_lt_upper_bound; [lia|]. assert (0 < 2 ^ Z.log2 tk) by (apply Z.pow_pos_nonneg; lia). nia. }
      pose proof (Z.log2_nonneg tk'). exists (Z.log2 tk' + 1). split; [lia|]. exists (S k), (aterm M x k). cbn zeta. rewrite <- E2. fold tk'. split_and!; [done|done|lia| |exact HV4].
      f_equal; [|lia]. rewrite Nat.even_succ, <- Nat.negb_even. by destruct (Nat.even k). }
Qed.
(** A local integer in a body that also writes to buffers. *)
Lemma wpV_local_buf {A} (body : oid -> prog A) st V X (Q : A -> state -> Prop) :
  RV st V X ->
  (forall t st1, V !! t = None -> craw X !! t = None -> RV st1 (<[t := 0]> V) X ->
     wp (body t) (fun r st2 => exists V2 v X2, V2 !! t = None /\ craw X2 !! t = None /\ RV st2 (<[t := v]> V2) X2 /\ (forall st3, RV st3 V2 X2 -> Q r st3)) st1) ->
  wp (local_int (fun t => mp_int_init t;; Ret tt)%prog body) Q st.
Proof.
  intros HV HB. unfold local_int. apply wp_NewO. intros z iz Fz. destruct (RV_newO st V X false z _ HV Fz) as (H1 & H2 & H3). set (t := (false, iz)) in *.
  wb. wb. eapply wpV_init; [exact H3|cbn [craw with_craw]; apply lookup_insert|]. intros st1 _ HV1. apply wp_ret.
  assert (RV st1 (<[t := 0]> V) X) as HV1'. { unfold with_craw in HV1. cbn [craw cmem cglob] in HV1. rewrite delete_insert in HV1 by done. destruct X; exact HV1. }
  wb. eapply wp_mono; [by apply HB|]. intros r st2 (V2 & v & X2 & N & C & HV2 & HQ).
  wb. eapply wpV_clear; [exact HV2|apply lookup_insert|]. intros st3 z3 _ HV3.
  eapply wp_DelO; [eapply RV_rawobj; [exact HV3|cbn [craw with_craw]; apply lookup_insert]|done|].
  apply wp_ret. apply HQ. eapply RV_delO in HV3; [|cbn [craw with_craw]; apply lookup_insert].
  unfold with_craw in HV3. cbn [craw cmem cglob] in HV3. rewrite !delete_insert in HV3 by done. destruct X2; exact HV3.
Qed.
Definition pi_value (r nd : Z) (K1 K2 : nat) : Z := Z.quot (asum (16 * r ^ (nd + 1)) 5 K1) r - Z.quot (asum (4 * r ^ (nd + 1)) 239 K2) r.
Lemma wpV_pi st V X r nd b l (Q : Z -> state -> Prop) :
  RV st V X -> cmem X !! b = Some l -> 2 <= r <= 36 -> 1 <= nd < 2 ^ 31 - 2 -> Z.of_nat (length l) = nd + 2 ->
  (forall K1 K2, enough (16 * r ^ (nd + 1)) 5 K1 -> enough (4 * r ^ (nd + 1)) 239 K2 -> r ^ nd <= pi_value r nd K1 K2 < r ^ (nd + 1)) ->
  (forall K1 K2 s st', enough (16 * r ^ (nd + 1)) 5 K1 -> enough (4 * r ^ (nd + 1)) 239 K2 -> numeral r (pi_value r nd K1 K2) s -> Z.of_nat (length s) = nd + 1 ->
     RV st' V (setb X b (Some <$> (s ++ [0]))) -> Q 0 st') ->
  wp (pi_main r nd (b, 0)) Q st.
Proof.
  intros HV Hb Hr Hn Hl Hval HQ. unfold pi_main. assert (in_int (nd + 2) = true) as ->. { unfold in_int. apply andb_true_intro. split; [apply Z.leb_le|apply Z.ltb_lt]; lia. }
  cbn [negb]. eapply wpV_local_buf; [exact HV|]. intros s1 st1 F1 C1 HV1. eapply wpV_local_buf; [exact HV1|]. intros s2 st2 F2 C2 HV2.
  assert (s1 <> s2) as N by (intros ->; by rewrite lookup_insert in F2). assert (V !! s2 = None) as F2' by (by rewrite lookup_insert_ne in F2).
  wb. eapply (wpV_arctan _ _ _ r 16 5 nd s1); [exact HV2|look|lia|lia|lia|lia|lia|]. intros K1 st3 HK1 HV3. change (MP_OK =? MP_OK) with true. cbn [negb].
  wb. eapply (wpV_arctan _ _ _ r 4 239 nd s2); [exact HV3|look|lia|lia|lia|lia|lia|]. intros K2 st4 HK2 HV4. change (MP_OK =? MP_OK) with true. cbn [negb].
  wb. eapply (wpV_sub _ _ _ s1 s2 s1); [exact HV4|look..|]. intros st5 HV5. change (MP_OK =? MP_OK) with true. cbn [negb]. fold (pi_value r nd K1 K2) in HV5.
  specialize (Hval K1 K2 HK1 HK2). assert (0 < r ^ nd) by (apply Z.pow_pos_nonneg; lia).
  destruct (numeral_exists r (pi_value r nd K1 K2) ltac:(lia)) as [s Hs].
  assert (Z.of_nat (length s) = nd + 1) as Ls.
  { pose proof (numeral_len_le r _ s (nd + 1) ltac:(lia) Hs ltac:(lia) ltac:(lia)) as L1. pose proof (numeral_len_ge r _ s nd ltac:(lia) Hs ltac:(lia) ltac:(lia)) as L2. destruct (Z.ltb_spec (pi_value r nd K1 K2) 0); lia. }
  assert (overwrite 0 (s ++ [0]) l = Some <$> (s ++ [0])) as Eo. { unfold overwrite. rewrite take_0, drop_ge; [by rewrite app_nil_r|]. rewrite app_length. simpl. lia. }
  wb. change (b, 0) with (b, Z.of_nat 0). eapply (wpV_to_string _ _ _ s1 _ r b 0 l (nd + 2) s); [exact HV5|look|exact Hb|lia|lia|exact Hs|lia| |lia].
  intros st6 _ HV6. rewrite Eo in HV6. apply wp_ret.
  set (w := pi_value r nd K1 K2) in *.
  exists (<[s1 := w]> V), (Z.quot (asum (4 * r ^ (nd + 1)) 239 K2) r), (setb X b (Some <$> (s ++ [0]))). split; [by look|]. split; [exact C2|]. split.
  { match type of HV6 with RV _ ?m _ => match goal with |- RV _ ?m' _ => replace m' with m; [exact HV6|] end end.
    apply map_eq. intros o. destruct (decide (o = s1)) as [->|]; [by look|]. destruct (decide (o = s2)) as [->|]; [by look|]. by rewrite !lookup_insert_ne by done. }
  intros st7 HV7. exists V, w, (setb X b (Some <$> (s ++ [0]))). split; [done|]. split; [exact C1|]. split; [exact HV7|]. intros st8 HV8. by eapply HQ.
Qed.
