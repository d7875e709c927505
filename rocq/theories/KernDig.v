(** Rules for the loops on single digits and for shifts. *)
From Coq Require Import ZArith List Lia.
From stdpp Require Import gmap list.
From Verif Require Import Mem Prog Kern Wp MemLem Dig KernLem KernMul.
Local Open Scope Z_scope.

(** ** Adding a digit *)
Lemma wp_dadd_loop l p w (Q : ptr * Z -> state -> Prop) st :
  darr (mem st) p l -> digs l -> 0 <= w < RADIX ->
  (forall lc w', length lc = length l -> digs lc -> 0 <= w' < RADIX ->
     val lc + Bn (length l) * w' = val l + w ->
     Q (p +p Z.of_nat (length l), w') (set_mem st (wrd (mem st) p lc))) ->
  wp (dadd_loop (length l) p w) Q st.
Proof.
  revert p w st. induction l as [|d l IH]; intros p w st Ha Hd Hw HQ; simpl.
  - apply wp_ret. rewrite padd_0 in HQ. specialize (HQ [] w). rewrite wrd_nil, set_mem_id in HQ.
    apply HQ; try done. cbn [length val]; rewrite Bn_0; lia.
  - apply Forall_cons in Hd as [Dd Hd]. apply darr_cons in Ha as [Ha1 Ha2]. unfold dig in Dd.
    wb. eapply wp_load; [exact Ha1|]. rewrite w64_id by (rewrite RADIX_val in *; lia).
    wb. eapply wp_store; [exact Ha1|]. set (x := d + w). pose proof (halves x) as Hx. pose proof (lower_dig x) as Hlo.
    assert (0 <= UPPER_HALF x < RADIX) as Hup. { apply upper_bound. unfold x. rewrite RADIX_val in *. lia. }
    apply IH; [|done|done|].
    + apply store_disj; [by eapply load_0le| |done]. right; left. simpl. lia.
    + intros lc w' Llc Dlc Hw' V. rewrite mem_set_mem, set_mem_set_mem, wrd_cons by (by eapply load_0le).
      rewrite padd_padd. replace (1 + Z.of_nat (length l)) with (Z.of_nat (S (length l))) by lia.
      apply HQ; [simpl; lia|by constructor|done|]. cbn [length val]. rewrite Bn_S. unfold x in *. lia.
Qed.
(** ** Multiplying by a digit *)
Lemma mul_step d b w : dig d -> dig b -> 0 <= w < RADIX -> 0 <= d * b + w < RADIX * RADIX.
Proof. unfold dig. intros. nia. Qed.
Lemma wp_dmul_loop l p b w (Q : ptr * Z -> state -> Prop) st :
  darr (mem st) p l -> digs l -> dig b -> 0 <= w < RADIX ->
  (forall lc w', length lc = length l -> digs lc -> 0 <= w' < RADIX ->
     val lc + Bn (length l) * w' = val l * b + w ->
     Q (p +p Z.of_nat (length l), w') (set_mem st (wrd (mem st) p lc))) ->
  wp (dmul_loop (length l) p b w) Q st.
Proof.
  intros Ha Hd Hb. revert p w st Ha. induction l as [|d l IH]; intros p w st Ha Hw HQ; simpl.
  - apply wp_ret. rewrite padd_0 in HQ. specialize (HQ [] w). rewrite wrd_nil, set_mem_id in HQ.
    apply HQ; try done. cbn [length val]; rewrite Bn_0; lia.
  - apply Forall_cons in Hd as [Dd Hd]. apply darr_cons in Ha as [Ha1 Ha2].
    wb. eapply wp_load; [exact Ha1|]. pose proof (mul_step d b w Dd Hb Hw) as Hs. rewrite w64_id by done.
    wb. eapply wp_store; [exact Ha1|]. set (x := d * b + w) in *. pose proof (halves x) as Hx. pose proof (lower_dig x) as Hlo.
    pose proof (upper_bound x RADIX Hs) as Hup.
    apply IH; [done| |done|].
    + apply store_disj; [by eapply load_0le| |done]. right; left. simpl. lia.
    + intros lc w' Llc Dlc Hw' V. rewrite mem_set_mem, set_mem_set_mem, wrd_cons by (by eapply load_0le).
      rewrite padd_padd. replace (1 + Z.of_nat (length l)) with (Z.of_nat (S (length l))) by lia.
      apply HQ; [simpl; lia|by constructor|done|]. cbn [length val]. rewrite Bn_S. unfold x in *. nia.
Qed.
Lemma wp_dbmul_loop l p b q w (Q : unit -> state -> Prop) st :
  darr (mem st) p l -> digs l -> dig b -> 0 <= w < RADIX -> valid (mem st) q (length l) ->
  disj q (length l) p (length l) -> val l * b + w < Bn (length l) ->
  (forall lc, length lc = length l -> digs lc -> val lc = val l * b + w ->
     Q tt (set_mem st (wrd (mem st) q lc))) ->
  wp (dbmul_loop (length l) p b q w) Q st.
Proof.
  intros Ha Hd Hb. revert p q w st Ha. induction l as [|d l IH]; intros p q w st Ha Hw Hv Hj Hlt HQ; simpl.
  - simpl in Hlt. rewrite Bn_0 in Hlt. assert (w = 0) as -> by lia. simpl. apply wp_ret.
    specialize (HQ []). rewrite wrd_nil, set_mem_id in HQ. by apply HQ.
  - pose proof Hd as Hd0. apply Forall_cons in Hd as [Dd Hd]. apply darr_cons in Ha as [Ha1 Ha2]. apply valid_S in Hv as [[c0 Hc0] Hv].
    wb. eapply wp_load; [exact Ha1|]. pose proof (mul_step d b w Dd Hb Hw) as Hs. rewrite w64_id by done.
    wb. eapply wp_store; [exact Hc0|]. set (x := d * b + w) in *. pose proof (halves x) as Hx. pose proof (lower_dig x) as Hlo.
    pose proof (upper_bound x RADIX Hs) as Hup.
    apply IH; [done| |done| | | |].
    + apply store_disj; [by eapply load_0le| |done]. dj.
    + apply store_valid; [by eexists|done].
    + dj.
    + simpl in Hlt. rewrite Bn_S in Hlt. unfold dig in *. unfold x in *. nia.
    + intros lc Llc Dlc V. rewrite mem_set_mem, set_mem_set_mem, wrd_cons by (by eapply load_0le).
      apply HQ; [simpl; lia|by constructor|]. simpl. unfold x in *. nia.
Qed.
(** ** Dividing by a digit, from the top digit down *)
Lemma lor_word w d : 0 <= w < RADIX -> dig d -> Z.lor (w64 (Z.shiftl w 32)) d = w * RADIX + d.
Proof.
  intros Hw Hd. rewrite w64_id.
  - rewrite lor_shl by (try lia; rewrite pow32; exact Hd). by rewrite pow32.
  - rewrite Z.shiftl_mul_pow2, pow32 by lia. nia.
Qed.
Lemma wp_ddiv_loop l p b w (Q : Z -> state -> Prop) st :
  darr (mem st) p l -> digs l -> 0 < b < RADIX -> 0 <= w < b ->
  (forall lc, length lc = length l -> digs lc ->
     val lc = (w * Bn (length l) + val l) / b ->
     Q ((w * Bn (length l) + val l) mod b) (set_mem st (wrd (mem st) p lc))) ->
  wp (ddiv_loop (length l) (p +p (Z.of_nat (length l) - 1)) b w) Q st.
Proof.
  intros Ha Hd Hb. revert w st Ha Q. induction l as [|d l IH] using rev_ind; intros w st Ha Q Hw HQ.
  - simpl. apply wp_ret. specialize (HQ []). rewrite wrd_nil, set_mem_id in HQ. simpl in HQ. rewrite Bn_0 in HQ.
    rewrite Z.mul_1_r, Z.add_0_r, Z.mod_small, Z.div_small in HQ by lia. by apply HQ.
  - rewrite app_length in *. cbn [length] in *. rewrite Nat.add_1_r in *. cbn [ddiv_loop].
    apply digs_app in Hd as [Hd Dd]. apply digs_1 in Dd. apply darr_app in Ha as [Ha1 Ha2].
    apply darr_cons in Ha2 as [Ha2 _].
    replace (Z.of_nat (S (length l)) - 1) with (Z.of_nat (length l)) by lia.
    wb. eapply wp_load; [exact Ha2|]. rewrite lor_word by (unfold dig in *; lia). set (x := w * RADIX + d).
    assert (0 <= x < RADIX * b) as Hx. { unfold x, dig in *. nia. }
    assert (forall q r, dig q -> 0 <= r < b -> x = b * q + r ->
      wp (Store (p +p Z.of_nat (length l)) q;;
          ddiv_loop (length l) (p +p Z.of_nat (length l) +p -1) b r)%prog Q st) as Hstep.
    { intros q r Dq Hr E. assert (0 <= p.2) as Hp.
      { pose proof (load_0le _ _ _ Ha2). destruct l as [|e l]; [simpl in *; lia|]. apply darr_cons in Ha1 as [Ha1 _].
        by eapply load_0le. }
      wb. eapply wp_store; [exact Ha2|]. rewrite padd_padd.
      replace (Z.of_nat (length l) + -1) with (Z.of_nat (length l) - 1) by lia.
      apply IH; [done| |done|].
      - apply store_disj; [simpl; lia| |done]. right; right. simpl. rewrite fmap_length. lia.
      - intros lc Llc Dlc V. rewrite mem_set_mem, set_mem_set_mem. rewrite <- Llc, wrd_snoc by done.
        assert (w * Bn (S (length l)) + val (l ++ [d]) = (b * q + r) * Bn (length l) + val l) as E2.
        { rewrite Bn_S, val_snoc, <- E. unfold x. ring. }
        assert ((w * Bn (S (length l)) + val (l ++ [d])) = q * Bn (length l) * b + (r * Bn (length l) + val l)) as E3.
        { rewrite E2. ring. }
        rewrite Llc.
        replace ((r * Bn (length l) + val l) mod b) with ((w * Bn (S (length l)) + val (l ++ [d])) mod b).
        2:{ rewrite E3, Z.add_comm, Z.mod_add by lia. done. }
        apply HQ; [rewrite app_length; simpl; lia|apply digs_app; split; [done|by constructor]|].
        rewrite val_snoc, Llc, V, E3, Z.div_add_l by lia. lia. }
    destruct (Z.geb_spec x b) as [Hge|Hlt].
    + destruct (Z.eqb_spec b 0); [lia|].
      assert (0 <= x / b < RADIX) as Hq. { split; [apply Z.div_pos; lia|]. apply Z.div_lt_upper_bound; lia. }
      rewrite u32_id by done. apply Hstep; [done|apply Z.mod_pos_bound; lia|]. apply Z.div_mod. lia.
    + apply Hstep; [apply dig_0|lia|lia].
Qed.

(** ** Moving digits *)
Lemma wp_move_up l to from (Q : unit -> state -> Prop) st :
  darr (mem st) from l -> valid (mem st) to (length l) -> ahead to from (length l) ->
  Q tt (set_mem st (wrd (mem st) to l)) -> wp (move_up (length l) to from) Q st.
Proof.
  revert to from st. induction l as [|d l IH]; intros to from st Ha Hv Hah HQ; simpl.
  - apply wp_ret. by rewrite wrd_nil, set_mem_id in HQ.
  - apply darr_cons in Ha as [Ha1 Ha2]. apply valid_S in Hv as [[c Hc] Hv].
    wb. eapply wp_load; [done|]. wb. eapply wp_store; [done|]. assert (0 <= to.2) by (by eapply load_0le).
    apply IH.
    + rewrite mem_set_mem. by apply store_ahead.
    + rewrite mem_set_mem. apply store_valid; [by eexists|done].
    + by apply ahead_step.
    + rewrite mem_set_mem, set_mem_set_mem, wrd_cons by done. done.
Qed.
Lemma wp_move_down l to from (Q : unit -> state -> Prop) st :
  darr (mem st) from l -> valid (mem st) to (length l) -> 0 <= to.2 -> 0 <= from.2 -> from.2 <= to.2 \/ from.1 <> to.1 ->
  Q tt (set_mem st (wrd (mem st) to l)) ->
  wp (move_down (length l) (to +p (Z.of_nat (length l) - 1)) (from +p (Z.of_nat (length l) - 1))) Q st.
Proof.
  revert st. induction l as [|d l IH] using rev_ind; intros st Ha Hv Ht Hf Hle HQ.
  - simpl. apply wp_ret. by rewrite wrd_nil, set_mem_id in HQ.
  - rewrite app_length in *. cbn [length] in *. rewrite Nat.add_1_r in *. cbn [move_down].
    apply darr_app in Ha as [Ha1 Ha2]. apply darr_cons in Ha2 as [Ha2 _].
    replace (Z.of_nat (S (length l)) - 1) with (Z.of_nat (length l)) by lia.
    destruct (Hv (length l)) as [c Hc]; [lia|].
    wb. eapply wp_load; [exact Ha2|]. wb. eapply wp_store; [exact Hc|]. rewrite !padd_padd.
    replace (Z.of_nat (length l) + -1) with (Z.of_nat (length l) - 1) by lia.
    apply IH; [| |done|done|done|].
    + rewrite mem_set_mem. apply store_disj; [simpl; lia| |done]. simpl. rewrite fmap_length.
      destruct Hle; [right; right; lia|left; congruence].
    + rewrite mem_set_mem. apply store_valid; [by eexists|]. eapply valid_le; [done|lia].
    + rewrite mem_set_mem, set_mem_set_mem, wrd_snoc by done. done.
Qed.

(** ** Shifts by less than a digit *)
Lemma wp_shr_loop l p nbits d (Q : unit -> state -> Prop) st :
  darr (mem st) p l -> digs l -> 0 < nbits < 32 -> dig d ->
  (forall lc, length lc = length l -> digs lc ->
     val lc = ((d mod 2 ^ nbits) * Bn (length l) + val l) / 2 ^ nbits ->
     Q tt (set_mem st (wrd (mem st) p lc))) ->
  wp (shr_loop (length l) (p +p (Z.of_nat (length l) - 1)) nbits d) Q st.
Proof.
  intros Ha Hd Hb. revert d st Ha Q. induction l as [|x l IH] using rev_ind; intros d st Ha Q Dd HQ.
  - simpl. apply wp_ret. specialize (HQ []). rewrite wrd_nil, set_mem_id in HQ. apply HQ; try done. cbn [length val]. rewrite Bn_0.
    assert (0 < 2 ^ nbits) by (apply Z.pow_pos_nonneg; lia).
    rewrite Z.mul_1_r, Z.add_0_r, Z.div_small; [done|]. apply Z.mod_pos_bound. done.
  - rewrite app_length in *. cbn [length] in *. rewrite Nat.add_1_r in *. cbn [shr_loop].
    apply digs_app in Hd as [Hd Dx]. apply digs_1 in Dx. apply darr_app in Ha as [Ha1 Ha2].
    apply darr_cons in Ha2 as [Ha2 _].
    replace (Z.of_nat (S (length l)) - 1) with (Z.of_nat (length l)) by lia.
    assert (0 <= p.2) as Hp.
    { pose proof (load_0le _ _ _ Ha2). destruct l as [|e l]; [simpl in *; lia|]. apply darr_cons in Ha1 as [Ha1 _].
      by eapply load_0le. }
    wb. eapply wp_load; [exact Ha2|]. wb. eapply wp_store; [exact Ha2|]. rewrite padd_padd.
    replace (Z.of_nat (length l) + -1) with (Z.of_nat (length l) - 1) by lia.
    set (P := 2 ^ nbits). set (P' := 2 ^ (32 - nbits)).
    assert (P * P' = RADIX) as HPP. { unfold P, P'. rewrite <- Z.pow_add_r by lia. rewrite <- pow32. f_equal. lia. }
    assert (0 < P) as HP by (apply Z.pow_pos_nonneg; lia). assert (0 < P') as HP' by (apply Z.pow_pos_nonneg; lia).
    set (y := (d mod P) * P' + x / P).
    assert (0 <= x / P < P') as Hxq. { split; [apply Z.div_pos; unfold dig in *; lia|]. apply Z.div_lt_upper_bound; unfold dig in *; lia. }
    pose proof (Z.mod_pos_bound d P HP) as Hdm.
    assert (Z.lor (Z.shiftr x nbits) (u32 (Z.shiftl d (32 - nbits))) = y) as ->.
    { rewrite Z.lor_comm, Z.shiftr_div_pow2 by lia. fold P.
      replace (u32 (Z.shiftl d (32 - nbits))) with (Z.shiftl (d mod P) (32 - nbits)).
      - rewrite lor_shl by (fold P'; lia). done.
      - unfold u32. rewrite pow32, !Z.shiftl_mul_pow2 by lia. fold P'. rewrite <- HPP. by rewrite Z.mul_mod_distr_r by lia. }
    assert (dig y) as Dy. { unfold dig, y. nia. }
    apply IH; [done| |done|].
    + rewrite mem_set_mem. apply store_disj; [simpl; lia| |done]. right; right. simpl. rewrite fmap_length. lia.
    + intros lc Llc Dlc V. rewrite mem_set_mem, set_mem_set_mem. rewrite <- Llc, wrd_snoc by done. fold P in V, HQ.
      apply HQ; [rewrite app_length; simpl; lia|apply digs_app; split; [done|by constructor]|].
      rewrite !val_snoc, Llc, V, Bn_S.
      assert (d mod P * (RADIX * Bn (length l)) + (val l + Bn (length l) * x) =
        (Bn (length l) * y) * P + (x mod P * Bn (length l) + val l)) as ->.
      { rewrite (Z.div_mod x P) at 1 by lia. unfold y. rewrite <- HPP. ring. }
      rewrite Z.div_add_l by lia. lia.
Qed.
Lemma wp_shl_loop l p rest d (Q : ptr * Z -> state -> Prop) st :
  darr (mem st) p l -> digs l -> 0 < rest < 32 -> dig d ->
  (forall lc d', length lc = length l -> digs lc -> dig d' ->
     val lc + Bn (length l) * Z.shiftr d' (32 - rest) = val l * 2 ^ rest + Z.shiftr d (32 - rest) ->
     Q (p +p Z.of_nat (length l), d') (set_mem st (wrd (mem st) p lc))) ->
  wp (shl_loop (length l) p rest d) Q st.
Proof.
  intros Ha Hd Hb. revert p d st Ha. induction l as [|x l IH]; intros p d st Ha Dd HQ; simpl.
  - apply wp_ret. specialize (HQ [] d). rewrite wrd_nil, set_mem_id, padd_0 in HQ. apply HQ; try done.
    cbn [length val]; rewrite Bn_0; lia.
  - apply Forall_cons in Hd as [Dx Hd]. apply darr_cons in Ha as [Ha1 Ha2].
    wb. eapply wp_load; [exact Ha1|]. wb. eapply wp_store; [exact Ha1|].
    set (P := 2 ^ rest). set (P' := 2 ^ (32 - rest)).
    assert (P * P' = RADIX) as HPP. { unfold P, P'. rewrite <- Z.pow_add_r by lia. rewrite <- pow32. f_equal. lia. }
    assert (0 < P) as HP by (apply Z.pow_pos_nonneg; lia). assert (0 < P') as HP' by (apply Z.pow_pos_nonneg; lia).
    rewrite Z.shiftr_div_pow2 in HQ |- * by lia. fold P' in HQ |- *.
    assert (0 <= d / P' < P) as Hdq. { split; [apply Z.div_pos; unfold dig in *; lia|]. apply Z.div_lt_upper_bound; unfold dig in *; lia. }
    pose proof (Z.mod_pos_bound x P' HP') as Hxm.
    set (y := (x mod P') * P + d / P').
    assert (Z.lor (u32 (Z.shiftl x rest)) (d / P') = y) as ->.
    { replace (u32 (Z.shiftl x rest)) with (Z.shiftl (x mod P') rest).
      - rewrite lor_shl by (fold P; lia). done.
      - unfold u32. rewrite pow32, !Z.shiftl_mul_pow2 by lia. fold P. rewrite <- HPP, (Z.mul_comm P P'). by rewrite Z.mul_mod_distr_r by lia. }
    assert (dig y) as Dy. { unfold dig, y. nia. }
    apply IH; [done| |done|].
    + rewrite mem_set_mem. apply store_disj; [by eapply load_0le| |done]. right; left. simpl. lia.
    + intros lc d' Llc Dlc Dd' V. rewrite mem_set_mem, set_mem_set_mem, wrd_cons by (by eapply load_0le).
      rewrite padd_padd. replace (1 + Z.of_nat (length l)) with (Z.of_nat (S (length l))) by lia.
      rewrite !Z.shiftr_div_pow2 in V by lia. fold P P' in V, HQ.
      apply HQ; [simpl; lia|by constructor|done|].
      rewrite Z.shiftr_div_pow2 by lia. fold P'. cbn [length val]. rewrite Bn_S.
      pose proof (Z.div_mod x P' ltac:(lia)) as Ex. unfold y.
      assert (x * P = RADIX * (x / P') + (x mod P') * P) as Exp. { rewrite Ex at 1. rewrite <- HPP. ring. }
      assert (RADIX * (val lc + Bn (length l) * (d' / P')) = RADIX * (val l * P + x / P')) as E by (by rewrite V).
      lia.
Qed.

(** ** Subtracting from a power of two *)
Lemma wp_qsub_loop l p w (Q : Z -> state -> Prop) st :
  darr (mem st) p l -> digs l -> (w = 0 \/ w = 1) ->
  (forall lc w', length lc = length l -> digs lc -> (w' = 0 \/ w' = 1) ->
     val lc = Bn (length l) * w' - w - val l ->
     Q w' (set_mem st (wrd (mem st) p lc))) ->
  wp (qsub_loop (length l) p w) Q st.
Proof.
  intros Ha Hd. revert p w st Ha. induction l as [|x l IH]; intros p w st Ha Hw HQ; simpl.
  - apply wp_ret. specialize (HQ [] w). rewrite wrd_nil, set_mem_id in HQ. apply HQ; try done. cbn [length val]; rewrite Bn_0; lia.
  - apply Forall_cons in Hd as [Dx Hd]. apply darr_cons in Ha as [Ha1 Ha2].
    wb. eapply wp_load; [exact Ha1|]. unfold dig in Dx.
    rewrite w64_id by (rewrite RADIX_val in *; lia). set (y := RADIX - w - x).
    wb. eapply wp_store; [exact Ha1|]. pose proof (halves y) as Hy. pose proof (lower_dig y) as Hlo.
    set (w1 := if UPPER_HALF y =? 0 then 1 else 0).
    assert (UPPER_HALF y = 1 - w1) as Hup.
    { unfold w1. assert (0 <= UPPER_HALF y < 2). { apply upper_bound. unfold y. lia. }
      destruct (Z.eqb_spec (UPPER_HALF y) 0); lia. }
    apply IH; [done| | |].
    + rewrite mem_set_mem. apply store_disj; [by eapply load_0le| |done]. right; left. simpl. lia.
    + unfold w1. destruct (UPPER_HALF y =? 0); auto.
    + intros lc w' Llc Dlc Dd' V. rewrite mem_set_mem, set_mem_set_mem, wrd_cons by (by eapply load_0le).
      apply HQ; [simpl; lia|by constructor|done|]. cbn [length val]. rewrite Bn_S. rewrite V. unfold y in *. nia.
Qed.

(** ** Powers of two *)
Lemma wp_tz_loop fuel d k (Q : Z -> state -> Prop) st :
  0 < d < 2 ^ Z.of_nat fuel ->
  (forall j, 0 <= j -> (exists e, Z.odd e = true /\ d = 2 ^ j * e) -> Q (k + j) st) -> wp (tz_loop fuel d k) Q st.
Proof.
  revert d k. induction fuel as [|f IH]; intros d k Hd HQ.
  - change (2 ^ Z.of_nat 0) with 1 in Hd. lia.
  - cbn [tz_loop]. destruct (Z.odd d) eqn:Ho.
    + apply wp_ret. rewrite <- (Z.add_0_r k). apply HQ; [lia|]. exists d. split; [done|lia].
    + assert (d = 2 * (d / 2)) as E.
      { pose proof (Z.div_mod d 2 ltac:(lia)) as E. rewrite Zmod_odd, Ho in E. lia. }
      rewrite Z.shiftr_div_pow2 by lia. change (2 ^ 1) with 2. apply IH.
      * rewrite Nat2Z.inj_succ, Z.pow_succ_r in Hd by lia. lia.
      * intros j Hj (e & He1 & He2). replace (k + 1 + j) with (k + (j + 1)) by lia. apply HQ; [lia|].
        exists e. split; [done|]. rewrite Z.pow_add_r by lia. lia.
Qed.
Lemma wp_dp2k_loop fuel l p k (Q : Z -> state -> Prop) st :
  darr (mem st) p l -> digs l -> val l <> 0 -> (length l <= fuel)%nat ->
  (forall j, 0 <= j -> (exists e, Z.odd e = true /\ val l = 2 ^ j * e) -> Q (k + j) st) -> wp (dp2k_loop fuel p k) Q st.
Proof.
  revert l p k. induction fuel as [|f IH]; intros l p k Ha Hd Hnz Hlen HQ.
  - destruct l; [done|simpl in Hlen; lia].
  - destruct l as [|x l]; [done|]. apply Forall_cons in Hd as [Dx Hd]. apply darr_cons in Ha as [Ha1 Ha2].
    cbn [dp2k_loop]. wb. eapply wp_load; [exact Ha1|]. simpl in Hnz, HQ, Hlen. destruct (Z.eqb_spec x 0) as [->|Hx].
    + apply (IH l); [done|done|lia|lia|]. intros j Hj (e & He1 & He2). replace (k + 32 + j) with (k + (j + 32)) by lia.
      apply HQ; [lia|]. exists e. split; [done|]. rewrite Z.pow_add_r, pow32 by lia. lia.
    + unfold dig in Dx. apply wp_tz_loop; [change (2 ^ Z.of_nat 32) with (2 ^ 32); rewrite pow32; lia|].
      intros j Hj (e & He1 & He2). apply HQ; [done|].
      assert (j < 32). { destruct (Z.lt_ge_cases j 32); [done|]. assert (2 ^ 32 <= 2 ^ j) by (apply Z.pow_le_mono_r; lia).
        rewrite pow32 in *. assert (0 < e); nia. }
      exists (e + 2 ^ (32 - j) * val l). split.
      * rewrite Z.odd_add. rewrite He1, Z.odd_mul. replace (32 - j) with (Z.succ (31 - j)) by lia.
        rewrite Z.pow_succ_r, Z.odd_mul by lia. done.
      * rewrite Z.mul_add_distr_l, <- He2. f_equal. rewrite <- pow32. replace 32 with (j + (32 - j)) at 1 by lia.
        rewrite Z.pow_add_r by lia. ring.
Qed.
Lemma wp_isp2_top fuel d k (Q : Z -> state -> Prop) st :
  0 < d < 2 ^ Z.of_nat fuel -> 0 <= k ->
  (forall j, 0 <= j -> d = 2 ^ j -> Q (k + j) st) -> ((forall j, 0 <= j -> d <> 2 ^ j) -> Q (-1) st) ->
  wp (isp2_top fuel d k) Q st.
Proof.
  revert d k. induction fuel as [|f IH]; intros d k Hd Hk HY HN.
  - change (2 ^ Z.of_nat 0) with 1 in Hd. lia.
  - cbn [isp2_top]. destruct (Z.gtb_spec d 1) as [Hgt|Hle].
    + destruct (Z.odd d) eqn:Ho.
      * apply wp_ret. apply HN. intros j Hj ->. destruct (decide (j = 0)) as [->|]; [done|].
        replace j with (Z.succ (j - 1)) in Ho by lia. rewrite Z.pow_succ_r, Z.odd_mul in Ho by lia. done.
      * assert (d = 2 * (d / 2)) as E.
        { pose proof (Z.div_mod d 2 ltac:(lia)) as E. rewrite Zmod_odd, Ho in E. lia. }
        rewrite Z.shiftr_div_pow2 by lia. change (2 ^ 1) with 2. apply IH; [|lia| |].
        -- rewrite Nat2Z.inj_succ, Z.pow_succ_r in Hd by lia. lia.
        -- intros j Hj Hd2. replace (k + 1 + j) with (k + Z.succ j) by lia. apply HY; [lia|]. rewrite Z.pow_succ_r by lia. lia.
        -- intros Hno. apply HN. intros j Hj Hd2. destruct (decide (j = 0)) as [->|]; [lia|].
           apply (Hno (j - 1)); [lia|]. replace j with (Z.succ (j - 1)) in Hd2 by lia. rewrite Z.pow_succ_r in Hd2 by lia. lia.
    + apply wp_ret. rewrite <- (Z.add_0_r k). apply HY; [done|]. change (2 ^ 0) with 1. lia.
Qed.
Lemma odd_digit_pow2 x v j : dig x -> x <> 0 -> 0 < v -> 0 <= j -> x + RADIX * v <> 2 ^ j.
Proof.
  unfold dig. intros Hx Hx0 Hv Hj E. assert (32 <= j).
  { destruct (Z.le_gt_cases 32 j) as [|Hlt]; [done|]. assert (2 ^ j < 2 ^ 32) by (apply Z.pow_lt_mono_r; lia). rewrite pow32 in *. nia. }
  replace j with (32 + (j - 32)) in E by lia. rewrite Z.pow_add_r, pow32 in E by lia.
  assert (x = RADIX * (2 ^ (j - 32) - v)) as E2 by lia.
  assert (0 < 2 ^ (j - 32)) by (apply Z.pow_pos_nonneg; lia).
  assert (2 ^ (j - 32) - v < 1) by nia. assert (0 < 2 ^ (j - 32) - v) by nia. lia.
Qed.
Lemma wp_isp2_loop l p k (Q : Z -> state -> Prop) st :
  darr (mem st) p l -> digs l -> canon l -> val l <> 0 -> 0 <= k ->
  (forall j, 0 <= j -> val l = 2 ^ j -> Q (k + j) st) -> ((forall j, 0 <= j -> val l <> 2 ^ j) -> Q (-1) st) ->
  wp (isp2_loop (length l) p k) Q st.
Proof.
  revert p k. induction l as [|x l IH]; intros p k Ha Hd Hc Hnz Hk HY HN; [done|].
  apply Forall_cons in Hd as [Dx Hd]. apply darr_cons in Ha as [Ha1 Ha2]. destruct l as [|y l].
  - cbn [length isp2_loop]. simpl in Hnz, HY, HN. rewrite Z.mul_0_r, Z.add_0_r in *.
    wb. eapply wp_load; [exact Ha1|]. unfold dig in Dx. apply wp_isp2_top; try done.
    change (2 ^ Z.of_nat 32) with (2 ^ 32). rewrite pow32. lia.
  - assert (0 < val (y :: l)) as Hpos.
    { destruct Hc as [_ Hc]. specialize (Hc ltac:(simpl; lia)).
      replace (length (x :: y :: l) - 1)%nat with (S (length l)) in Hc by (simpl; lia). rewrite Bn_S in Hc.
      change (val (x :: y :: l)) with (x + RADIX * val (y :: l)) in Hc. pose proof (Bn_pos (length l)). unfold dig in Dx. nia. }
    cbn [length isp2_loop]. change (val (x :: y :: l)) with (x + RADIX * val (y :: l)) in *.
    wb. eapply wp_load; [exact Ha1|]. destruct (Z.eqb_spec x 0) as [->|Hx]; cbn [negb].
    + apply IH; [done|done| |lia|lia| |].
      * destruct Hc as [_ Hc]. split; [simpl; lia|]. intros H1. specialize (Hc ltac:(simpl; lia)).
        replace (length (0%Z :: y :: l) - 1)%nat with (S (length (y :: l) - 1)) in Hc by (cbn [length] in H1 |- *; lia). rewrite Bn_S in Hc.
        change (val (0%Z :: y :: l)) with (0 + RADIX * val (y :: l)) in Hc. pose proof RADIX_pos. nia.
      * intros j Hj E. replace (k + 32 + j) with (k + (32 + j)) by lia. apply HY; [lia|]. rewrite Z.pow_add_r, pow32 by lia. lia.
      * intros Hno. apply HN. intros j Hj E.
        destruct (Z.le_gt_cases 32 j) as [H32|Hlt].
        -- apply (Hno (j - 32)); [lia|]. replace j with (32 + (j - 32)) in E by lia. rewrite Z.pow_add_r, pow32 in E by lia.
           pose proof RADIX_pos. nia.
        -- assert (2 ^ j < 2 ^ 32) by (apply Z.pow_lt_mono_r; lia). rewrite pow32 in *. nia.
    + apply wp_ret. apply HN. intros j Hj. by apply odd_digit_pow2.
Qed.
Lemma wp_norm_loop fuel d k (Q : Z -> state -> Prop) st :
  0 < d < RADIX -> 2 ^ 31 <= d * 2 ^ Z.of_nat fuel ->
  (forall j, 0 <= j -> (0 < j -> d * 2 ^ j < RADIX) -> 2 ^ 31 <= d * 2 ^ j < RADIX -> Q (k + j) st) ->
  wp (norm_loop fuel d k) Q st.
Proof.
  revert d k. induction fuel as [|f IH]; intros d k Hd Hf HQ.
  - cbn [norm_loop]. change (2 ^ Z.of_nat 0) with 1 in Hf. destruct (Z.ltb_spec d (2 ^ 31)); [lia|].
    apply wp_ret. rewrite <- (Z.add_0_r k). apply HQ; change (2 ^ 0) with 1; lia.
  - cbn [norm_loop]. destruct (Z.ltb_spec d (2 ^ 31)).
    + rewrite Z.shiftl_mul_pow2 by lia. change (2 ^ 1) with 2. rewrite u32_id by (rewrite RADIX_val in *; lia).
      apply IH; [rewrite RADIX_val in *; lia| |].
      * rewrite Nat2Z.inj_succ, Z.pow_succ_r in Hf by lia. lia.
      * intros j Hj H1 H2. replace (k + 1 + j) with (k + Z.succ j) by lia.
        assert (d * 2 ^ Z.succ j = d * 2 * 2 ^ j) as E by (rewrite Z.pow_succ_r by lia; ring).
        apply HQ; [lia|rewrite E; lia|rewrite E; lia].
    + apply wp_ret. rewrite <- (Z.add_0_r k). apply HQ; change (2 ^ 0) with 1; lia.
Qed.
