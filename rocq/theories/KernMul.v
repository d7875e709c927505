(** Rules for schoolbook multiplication and squaring. *)
From Coq Require Import ZArith List Lia.
From stdpp Require Import gmap list.
From Verif Require Import Mem Prog Kern Wp MemLem Dig KernLem.
Local Open Scope Z_scope.

Lemma wp_umul_inner a lb lc x da dbt dct w (Q : Z -> state -> Prop) st :
  load (mem st) da = Some (Some a) -> darr (mem st) dbt lb -> darr (mem st) dct lc ->
  is_Some (load (mem st) (dct +p Z.of_nat (length lc))) ->
  length lc = length lb -> digs lb -> digs lc -> dig a -> dig w ->
  disj dct (S (length lc)) da 1 -> disj dct (S (length lc)) dbt (length lb) ->
  (forall w' lc', length lc' = S (length lc) -> digs lc' ->
     val lc' = val lc + a * val lb + w ->
     Q w' (set_mem st (wrd (mem st) dct lc'))) ->
  x = length lb ->
  wp (umul_inner x da dbt dct w) Q st.
Proof.
  intros Hda Hb Hc Hv Hlen Hdb Hdc Ha Hw Hj1 Hj2 HQ ->.
  revert lc dbt dct w st Hda Hb Hc Hv Hlen Hdb Hdc Hw Hj1 Hj2 HQ.
  induction lb as [|b lb IH]; intros lc dbt dct w st Hda Hb Hc Hv Hlen Hdb Hdc Hw Hj1 Hj2 HQ.
  - destruct lc; [|done]. simpl in *. rewrite padd_0 in Hv. destruct Hv as [c0 Hc0].
    wb. eapply wp_store; [done|]. apply wp_ret. rewrite u32_id by done.
    specialize (HQ w [w] eq_refl). apply HQ; [by apply Forall_singleton|simpl; lia].
  - destruct lc as [|c lc]; [done|]. simpl in Hlen. injection Hlen as Hlen.
    apply darr_cons in Hb as [Hb1 Hb2]. apply darr_cons in Hc as [Hc1 Hc2].
    apply Forall_cons in Hdb as [Hdb1 Hdb2]. apply Forall_cons in Hdc as [Hdc1 Hdc2].
    assert (0 <= dct.2) as H0 by (by eapply load_0le).
    simpl. wb. eapply wp_load; [done|]. wb. eapply wp_load; [done|]. wb. eapply wp_load; [done|].
    wb. eapply wp_store; [done|].
    unfold dig in Ha, Hw, Hdb1, Hdc1.
    assert (0 <= a * b + w + c < RADIX * RADIX) as Hr by nia.
    rewrite w64_id by done.
    apply (IH lc); simpl.
    + rewrite load_store_ne; [done| |done]. intros ->. unfold disj in Hj1. simpl in Hj1.
      destruct Hj1 as [?|?]; [done|lia].
    + apply store_disj; [done| |done]. clear Hj1. dj.
    + apply store_disj; [done| |done]. right; left. simpl. lia.
    + rewrite load_store_ne; [|intros He; apply (f_equal snd) in He; simpl in He; lia|done].
      rewrite padd_padd. replace (1 + Z.of_nat (length lc)) with (Z.of_nat (S (length lc))) by lia. done.
    + done.
    + done.
    + done.
    + by apply upper_bound.
    + clear Hj2. dj.
    + clear Hj1. dj.
    + intros w' lc' Hl Hd' Hv'. rewrite set_mem_set_mem, wrd_cons by done.
      apply HQ; simpl; [lia|constructor; [apply lower_dig|done]|].
      pose proof (halves (a * b + w + c)) as Hh. rewrite Hv'. nia.
Qed.

Lemma wp_umul_row a lb lc da db dc y (Q : unit -> state -> Prop) st :
  load (mem st) da = Some (Some a) -> darr (mem st) db lb -> darr (mem st) dc (lc ++ [0]) ->
  length lc = length lb -> digs lb -> digs lc -> dig a ->
  disj dc (S (length lb)) da 1 -> disj dc (S (length lb)) db (length lb) ->
  (forall lc', length lc' = S (length lb) -> digs lc' -> val lc' = val lc + a * val lb ->
     Q tt (set_mem st (wrd (mem st) dc lc'))) ->
  y = Z.of_nat (length lb) ->
  wp (if a =? 0 then Ret tt
      else bind (umul_inner (Z.to_nat y) da db dc 0) (fun _ => Ret tt)) Q st.
Proof.
  intros Ha Hb Hc Hlen Hdb Hdc Hda Hj1 Hj2 HQ ->.
  destruct (Z.eqb_spec a 0) as [->|Hnz].
  - apply wp_ret. specialize (HQ (lc ++ [0])). rewrite wrd_id, set_mem_id in HQ by done.
    apply HQ.
    + rewrite app_length; simpl; lia.
    + apply digs_app. split; [done|]. apply Forall_singleton, dig_0.
    + rewrite val_snoc. lia.
  - wb. rewrite Nat2Z.id. apply darr_app in Hc as [Hc1 Hc2]. apply darr_cons in Hc2 as [Hc2 _].
    apply (wp_umul_inner a lb lc); try done.
    + by rewrite Hlen.
    + by rewrite Hlen.
    + intros w' lc' Hl Hd' Hv. apply wp_ret. apply HQ; [lia|done|lia].
Qed.

Lemma wp_umul_loop la lb lc da db dc x y (Q : unit -> state -> Prop) st :
  darr (mem st) da la -> darr (mem st) db lb ->
  darr (mem st) dc (lc ++ replicate (length la) 0) ->
  length lc = length lb -> digs la -> digs lb -> digs lc ->
  disj dc (length lb + length la) da (length la) ->
  disj dc (length lb + length la) db (length lb) ->
  (forall lc', length lc' = (length lb + length la)%nat -> digs lc' ->
     val lc' = val lc + val la * val lb ->
     Q tt (set_mem st (wrd (mem st) dc lc'))) ->
  x = length la -> y = Z.of_nat (length lb) ->
  wp (umul_loop x da db dc y) Q st.
Proof.
  intros Ha Hb Hc Hlen Hda Hdb Hdc Hj1 Hj2 HQ -> ->.
  revert da dc lc st Ha Hb Hc Hlen Hda Hdc Hj1 Hj2 HQ.
  induction la as [|a la IH]; intros da dc lc st Ha Hb Hc Hlen Hda Hdc Hj1 Hj2 HQ.
  - simpl in *. apply wp_ret. rewrite app_nil_r in Hc.
    specialize (HQ lc ltac:(lia) Hdc ltac:(lia)). by rewrite wrd_id, set_mem_id in HQ by done.
  - simpl. apply darr_cons in Ha as [Ha1 Ha2]. apply Forall_cons in Hda as [Hda1 Hda2].
    wb. eapply wp_load; [done|]. wb. simpl in Hc.
    assert (valid (mem st) dc (length lb + S (length la))) as Hvc.
    { apply darr_valid in Hc. rewrite app_length in Hc. simpl in Hc. by rewrite replicate_length, Hlen in Hc. }
    assert (0 <= dc.2) as H0 by (eapply valid_0le; [done|lia]).
    assert (lc ++ 0 :: replicate (length la) 0 = (lc ++ [0]) ++ replicate (length la) 0) as He
      by (by rewrite <- app_assoc). rewrite He in Hc. clear He.
    apply darr_app in Hc as [Hc1 Hc2]. rewrite app_length in Hc2. simpl in Hc2.
    apply (wp_umul_row a lb lc); try done.
    { clear Hj2. dj. }
    { clear Hj1. dj. }
    intros lc1 Hl1 Hd1 Hv1.
    destruct lc1 as [|c0 lc1]; [done|]. simpl in Hl1. injection Hl1 as Hl1.
    apply Forall_cons in Hd1 as [Hd0 Hd1].
    assert (valid (mem st) dc (length (c0 :: lc1))) as Hv' by (eapply valid_le; [done|simpl; lia]).
    apply (IH (da +p 1) (dc +p 1) lc1); simpl.
    + apply darr_wrd_disj; [done| |done]. clear Hj2. dj.
    + apply darr_wrd_disj; [done| |done]. clear Hj1. dj.
    + apply darr_app. split.
      * pose proof (darr_wrd_same _ _ _ H0 Hv') as H. by apply darr_cons in H as [_ H].
      * rewrite padd_padd. replace (1 + Z.of_nat (length lc1)) with (Z.of_nat (length lc + 1)) by lia.
        apply darr_wrd_disj; [done| |done]. right; left. simpl. lia.
    + done.
    + done.
    + done.
    + clear Hj2. dj.
    + clear Hj1. dj.
    + intros lc' Hl' Hd' Hv2. rewrite set_mem_set_mem.
      rewrite <- (wrd_cons _ dc c0 lc1) by done.
      rewrite wrd_wrd_le by lia. rewrite wrd_cons by done. apply HQ; simpl.
      * lia.
      * by constructor.
      * simpl in Hv1. rewrite Hv2. nia.
Qed.

Lemma wp_s_umul la lb da db dc na nb (Q : unit -> state -> Prop) st :
  na = Z.of_nat (length la) -> nb = Z.of_nat (length lb) ->
  darr (mem st) da la -> darr (mem st) db lb ->
  darr (mem st) dc (replicate (length la + length lb) 0) ->
  digs la -> digs lb ->
  disj dc (length la + length lb) da (length la) ->
  disj dc (length la + length lb) db (length lb) ->
  (forall lc, length lc = (length la + length lb)%nat -> digs lc -> val lc = val la * val lb ->
     Q tt (set_mem st (wrd (mem st) dc lc))) ->
  wp (s_umul da db dc na nb) Q st.
Proof.
  intros -> -> Ha Hb Hc Hda Hdb Hj1 Hj2 HQ. unfold s_umul. rewrite Nat2Z.id.
  apply (wp_umul_loop la lb (replicate (length lb) 0)); try done.
  - rewrite <- replicate_add. by rewrite (Nat.add_comm (length lb)).
  - by rewrite replicate_length.
  - apply digs_zeros.
  - by rewrite (Nat.add_comm (length lb)).
  - by rewrite (Nat.add_comm (length lb)).
  - intros lc Hl Hd Hv. rewrite val_zeros in Hv. apply HQ; [lia|done|lia].
Qed.

(** ** Squaring *)
Definition sq_w2 (a b c w : Z) : Z :=
  w64 (w64 (w64 (a * b) + w64 (a * b)) + w64 (w + c)).
Definition sq_w3 (a b c w : Z) : Z :=
  if (HIGH_BIT_SET (w64 (a * b)) || ADD_WILL_OVERFLOW (w64 (w64 (a * b) + w64 (a * b))) (w64 (w + c)))%bool
  then w64 (w64 (UPPER_HALF (sq_w2 a b c w) + DIGIT_MAX) + 1) else UPPER_HALF (sq_w2 a b c w).
Lemma usqr_inner_S n da dat dct w :
  usqr_inner (S n) da dat dct w =
  bind (Load da) (fun a => bind (Load dat) (fun b => bind (Load dct) (fun c =>
  bind (Store dct (LOWER_HALF (sq_w2 a b c w))) (fun _ =>
  usqr_inner n da (dat +p 1) (dct +p 1) (sq_w3 a b c w))))).
Proof. reflexivity. Qed.
Lemma usqr_word_aux a b c w : dig a -> dig b -> dig c -> 0 <= w < 2 * RADIX ->
  let t := w64 (a * b) in
  let u := w64 (w + c) in
  let w1 := w64 (t + t) in
  let w2 := w64 (w1 + u) in
  let w3 := if (HIGH_BIT_SET t || ADD_WILL_OVERFLOW w1 u)%bool
            then w64 (w64 (UPPER_HALF w2 + DIGIT_MAX) + 1) else UPPER_HALF w2 in
  0 <= w3 < 2 * RADIX /\ LOWER_HALF w2 + RADIX * w3 = 2 * a * b + w + c.
Proof.
  intros Ha Hb Hc Hw. unfold dig in Ha, Hb, Hc.
  assert (0 <= a * b < RADIX * RADIX) by nia.
  assert (a * b <= (RADIX - 1) * (RADIX - 1)) by nia.
  intros t. assert (t = a * b) as Et by (subst t; by apply w64_id). clearbody t.
  intros u. assert (u = w + c) as Eu by (subst u; apply w64_id; rewrite RADIX_val in *; lia). clearbody u.
  assert (HIGH_BIT_SET t = (2 ^ 63 <=? t)) as EHB.
  { unfold HIGH_BIT_SET. rewrite Z.shiftr_div_pow2 by lia. destruct (Z.leb_spec (2 ^ 63) t).
    - assert (1 <= t / 2 ^ 63) by (apply Z.div_le_lower_bound; lia).
      destruct (Z.eqb_spec (t / 2 ^ 63) 0); [lia|done].
    - rewrite Z.div_small by lia. done. }
  set (T := 2 ^ 64). assert (T = RADIX * RADIX) as ET by (subst T; by rewrite RADIX_val).
  set (HH := 2 ^ 63) in EHB. assert (2 * HH = T) as EH by reflexivity. clearbody HH.
  intros w1.
  assert (forall x, 0 <= x < 2 * T -> w64 x = if T <=? x then x - T else x) as Hw64.
  { intros x Hx. unfold w64. fold T. destruct (Z.leb_spec T x).
    - symmetry. apply Zmod_unique with 1; lia.
    - apply Z.mod_small. lia. }
  assert (w1 = if T <=? t + t then t + t - T else t + t) as E1 by (subst w1; apply Hw64; lia). clearbody w1.
  assert (0 <= w1 < T) by (destruct (Z.leb_spec T (t + t)); lia).
  assert (0 <= u < T) by (rewrite ET, RADIX_val in *; lia).
  intros w2.
  assert (w2 = if T <=? w1 + u then w1 + u - T else w1 + u) as E2 by (subst w2; apply Hw64; lia). clearbody w2.
  assert (0 <= w2 < T) by (destruct (Z.leb_spec T (w1 + u)); lia).
  pose proof (halves w2) as Hh. pose proof (lower_dig w2) as Hd. unfold dig in Hd.
  assert (0 <= UPPER_HALF w2 < RADIX) by (apply upper_bound; lia).
  assert (t + t + u < 2 * T) by (rewrite ET, RADIX_val in *; lia).
  assert (w64 (w64 (UPPER_HALF w2 + (2 ^ 32 - 1)) + 1) = UPPER_HALF w2 + RADIX) as E3.
  { rewrite pow32. rewrite (w64_id (UPPER_HALF w2 + (RADIX - 1))) by (rewrite RADIX_val in *; lia).
    rewrite w64_id by (rewrite RADIX_val in *; lia). lia. }
  intros w3. assert (w3 = if ((HH <=? t) || (T - 1 - u <? w1))%bool then UPPER_HALF w2 + RADIX else UPPER_HALF w2) as Ew3.
  { subst w3. rewrite EHB. unfold ADD_WILL_OVERFLOW, DIGIT_MAX, WORD_MAX. rewrite E3. done. }
  clearbody w3. subst w3. clear E3 EHB Hw64. clearbody T.
  destruct (Z.leb_spec HH t), (Z.ltb_spec (T - 1 - u) w1), (Z.leb_spec T (t + t)), (Z.leb_spec T (w1 + u));
    simpl; try lia.
  all: split; [lia|]. all: nia.
Qed.

Lemma usqr_word a b c w : dig a -> dig b -> dig c -> 0 <= w < 2 * RADIX ->
  0 <= sq_w3 a b c w < 2 * RADIX /\
  LOWER_HALF (sq_w2 a b c w) + RADIX * sq_w3 a b c w = 2 * a * b + w + c.
Proof. intros. apply (usqr_word_aux a b c w); done. Qed.

Lemma wp_usqr_inner a la lc da dat dct w x (Q : Z -> state -> Prop) st :
  load (mem st) da = Some (Some a) -> darr (mem st) dat la -> darr (mem st) dct lc ->
  length lc = length la -> digs la -> digs lc -> dig a -> 0 <= w < 2 * RADIX ->
  disj dct (length lc) da 1 -> disj dct (length lc) dat (length la) ->
  (forall w' lc', length lc' = length lc -> digs lc' -> 0 <= w' < 2 * RADIX ->
     val lc' + Bn (length lc) * w' = val lc + 2 * a * val la + w ->
     Q w' (set_mem st (wrd (mem st) dct lc'))) ->
  x = length la ->
  wp (usqr_inner x da dat dct w) Q st.
Proof.
  intros Hda Hb Hc Hlen Hdb Hdc Ha Hw Hj1 Hj2 HQ ->.
  revert lc dat dct w st Hda Hb Hc Hlen Hdb Hdc Hw Hj1 Hj2 HQ.
  induction la as [|b la IH]; intros lc dat dct w st Hda Hb Hc Hlen Hdb Hdc Hw Hj1 Hj2 HQ.
  - destruct lc; [|done]. simpl. apply wp_ret.
    specialize (HQ w [] eq_refl ltac:(constructor) Hw). simpl in HQ. rewrite wrd_nil, set_mem_id, Bn_0 in HQ.
    apply HQ. lia.
  - destruct lc as [|c lc]; [done|]. simpl in Hlen. injection Hlen as Hlen.
    apply darr_cons in Hb as [Hb1 Hb2]. apply darr_cons in Hc as [Hc1 Hc2].
    apply Forall_cons in Hdb as [Hdb1 Hdb2]. apply Forall_cons in Hdc as [Hdc1 Hdc2].
    assert (0 <= dct.2) as H0 by (by eapply load_0le).
    cbn [length]. rewrite usqr_inner_S.
    wb. eapply wp_load; [done|]. wb. eapply wp_load; [done|]. wb. eapply wp_load; [done|].
    wb. eapply wp_store; [done|].
    pose proof (usqr_word a b c w Ha Hdb1 Hdc1 Hw) as Hu. destruct Hu as [Hu1 Hu2].
    apply (IH lc); simpl.
    + rewrite load_store_ne; [done| |done]. intros ->. unfold disj in Hj1. simpl in Hj1.
      destruct Hj1 as [?|?]; [done|lia].
    + apply store_disj; [done| |done]. clear Hj1. dj.
    + apply store_disj; [done| |done]. right; left. simpl. lia.
    + done.
    + done.
    + done.
    + done.
    + clear Hj2. dj.
    + clear Hj1. dj.
    + intros w' lc' Hl Hd' Hw' Hv'. rewrite set_mem_set_mem, wrd_cons by done.
      apply HQ; simpl; [lia|constructor; [apply lower_dig|done]|done|].
      rewrite Bn_S. nia.
Qed.

Lemma wp_usqr_carry lr fuel dct w (Q : unit -> state -> Prop) st :
  darr (mem st) (dct +p 1) lr -> digs lr -> 0 <= w < RADIX * RADIX ->
  val lr + UPPER_HALF w < Bn (length lr) -> (length lr <= fuel)%nat ->
  (forall lr', length lr' = length lr -> digs lr' -> val lr' = val lr + UPPER_HALF w ->
     Q tt (set_mem st (wrd (mem st) (dct +p 1) lr'))) ->
  wp (usqr_carry fuel dct w) Q st.
Proof.
  revert lr dct w st. induction fuel as [|fuel IH]; intros lr dct w st Hr Hd Hw Hv Hf HQ.
  all: assert (0 <= UPPER_HALF w < RADIX) as Hu by (by apply upper_bound).
  all: simpl; destruct (Z.eqb_spec (UPPER_HALF w) 0) as [E|Hnz].
  - apply wp_ret. specialize (HQ lr eq_refl Hd ltac:(lia)). by rewrite wrd_id, set_mem_id in HQ.
  - destruct lr; [|simpl in *; lia]. simpl in Hv. rewrite Bn_0 in Hv. lia.
  - apply wp_ret. specialize (HQ lr eq_refl Hd ltac:(lia)). by rewrite wrd_id, set_mem_id in HQ.
  - destruct lr as [|c lr]; [simpl in Hv; rewrite Bn_0 in Hv; lia|].
    apply darr_cons in Hr as [Hr1 Hr2]. apply Forall_cons in Hd as [Hd1 Hd2].
    assert (0 <= (dct +p 1).2) as H0 by (by eapply load_0le).
    wb. eapply wp_load; [done|]. wb. eapply wp_store; [done|].
    unfold dig in Hd1. rewrite w64_id by (rewrite RADIX_val in *; lia).
    pose proof (halves (UPPER_HALF w + c)) as Hh.
    pose proof (lower_dig (UPPER_HALF w + c)) as Hld. unfold dig in Hld.
    simpl in Hv. rewrite Bn_S in Hv. pose proof (val_bounds _ Hd2).
    apply (IH lr); simpl.
    + apply store_disj; [done| |done]. right; left. simpl. lia.
    + done.
    + rewrite RADIX_val in *; lia.
    + pose proof RADIX_pos. nia.
    + simpl in Hf. lia.
    + intros lr' Hl' Hd' Hv'. rewrite set_mem_set_mem, wrd_cons by done. apply HQ; simpl.
      * lia.
      * constructor; [apply lower_dig|done].
      * rewrite Hv'. nia.
Qed.

Global Arguments usqr_carry : simpl never.
Lemma darr_snoc m p l d : darr m p (l ++ [d]) <-> darr m p l /\ load m (p +p Z.of_nat (length l)) = Some (Some d).
Proof.
  rewrite darr_app, darr_cons. pose proof (darr_nil m (p +p Z.of_nat (length l) +p 1)). naive_solver.
Qed.

Lemma usqr_loop_S n da dc :
  usqr_loop (S n) da dc =
  bind (Load da) (fun a =>
  bind (if a =? 0 then Ret tt
        else
          bind (Load dc) (fun c =>
          bind (Store dc (LOWER_HALF (w64 (a * a + c)))) (fun _ =>
          bind (usqr_inner n da (da +p 1) (dc +p 1) (UPPER_HALF (w64 (a * a + c)))) (fun w =>
          bind (Load (dc +p (Z.of_nat n + 1))) (fun c =>
          bind (Store (dc +p (Z.of_nat n + 1)) (u32 (w64 (w + c)))) (fun _ =>
          usqr_carry (2 * S n) (dc +p (Z.of_nat n + 1)) (w64 (w + c))))))))
   (fun _ => usqr_loop n (da +p 1) (dc +p 2))).
Proof. reflexivity. Qed.

Lemma wp_usqr_loop la lc da dc x (Q : unit -> state -> Prop) st :
  darr (mem st) da la -> darr (mem st) dc lc -> length lc = (2 * length la)%nat ->
  digs la -> digs lc -> val lc + val la * val la < Bn (length lc) ->
  disj dc (length lc) da (length la) ->
  (forall lc', length lc' = length lc -> digs lc' -> val lc' = val lc + val la * val la ->
     Q tt (set_mem st (wrd (mem st) dc lc'))) ->
  x = length la ->
  wp (usqr_loop x da dc) Q st.
Proof.
  intros Ha Hc Hlen Hda Hdc Hb Hj HQ ->. revert da dc lc st Ha Hc Hlen Hda Hdc Hb Hj HQ.
  induction la as [|a la IH]; intros da dc lc st Ha Hc Hlen Hda Hdc Hb Hj HQ.
  - destruct lc; [|done]. simpl. apply wp_ret.
    specialize (HQ [] eq_refl Hdc eq_refl). by rewrite wrd_nil, set_mem_id in HQ.
  - cbn [length]. rewrite usqr_loop_S. apply darr_cons in Ha as [Ha1 Ha2]. apply Forall_cons in Hda as [Hda1 Hda2].
    assert (0 <= dc.2) as H0.
    { eapply (valid_0le _ _ (length lc)); [by apply darr_valid|]. rewrite Hlen. simpl. lia. }
    wb. eapply wp_load; [done|]. wb.
    pose proof (val_bounds _ Hda2) as Hbla. pose proof (val_bounds _ Hdc) as Hblc.
    assert (forall (lc1 : list Z), length lc1 = length lc -> digs lc1 ->
       val lc1 = val lc + a * a + 2 * a * (RADIX * val la) ->
       wp (usqr_loop (length la) (da +p 1) (dc +p 2)) Q (set_mem st (wrd (mem st) dc lc1))) as Hrest.
    { intros lc1 Hl1 Hd1 Hv1.
      destruct lc1 as [|c0 [|c1 lc1]]; [simpl in *; lia|simpl in *; lia|].
      assert (length lc1 = 2 * length la)%nat as Hl by (simpl in *; lia).
      apply Forall_cons in Hd1 as [Hd0 Hd1]. apply Forall_cons in Hd1 as [Hd1 Hd2].
      assert (valid (mem st) dc (length (c0 :: c1 :: lc1))) as Hvc by (rewrite Hl1; by apply darr_valid).
      simpl in Hb, Hv1.
      apply (IH (da +p 1) (dc +p 2) lc1); simpl.
      - apply darr_wrd_disj; [done| |done]. simpl in *. dj.
      - pose proof (darr_wrd_same _ _ _ H0 Hvc) as H. apply darr_cons in H as [_ H].
        apply darr_cons in H as [_ H]. by rewrite padd_padd in H.
      - lia.
      - done.
      - done.
      - simpl in Hl1. rewrite <- Hl1, !Bn_S in Hb.
        unfold dig in *. pose proof RADIX_pos. pose proof (Bn_pos (length lc1)).
        assert (RADIX * (RADIX * (val lc1 + val la * val la)) < RADIX * (RADIX * Bn (length lc1))) by nia.
        nia.
      - simpl in *. dj.
      - intros lc' Hl' Hd' Hv'. rewrite set_mem_set_mem.
        assert (forall l, wrd (wrd (mem st) dc (c0 :: c1 :: lc1)) (dc +p 2) l =
                          wrd (wrd (mem st) dc (c0 :: c1 :: lc1)) (dc +p Z.of_nat (length [c0; c1])) l) as E by done.
        rewrite E, <- (wrd_app _ dc [c0; c1] lc1) by done.
        rewrite wrd_wrd_same by done. rewrite wrd_app by done. apply HQ; simpl.
        + simpl in *. lia.
        + constructor; [done|]. by constructor.
        + nia. }
    destruct (Z.eqb_spec a 0) as [->|Hnz].
    { apply wp_ret. specialize (Hrest lc eq_refl Hdc ltac:(lia)). by rewrite wrd_id, set_mem_id in Hrest. }
    (* a row *)
    destruct lc as [|c lc]; [done|].
    assert (exists lm x lr, lc = lm ++ x :: lr /\ length lm = length la /\ length lr = length la) as
      (lm & x & lr & -> & Hlm & Hlr).
    { simpl in Hlen. exists (take (length la) lc).
      destruct (drop (length la) lc) as [|x lr] eqn:E.
      { apply (f_equal length) in E. rewrite drop_length in E. simpl in E. lia. }
      exists x, lr. split; [by rewrite <- E, take_drop|]. rewrite take_length. split; [lia|].
      apply (f_equal length) in E. rewrite drop_length in E. simpl in E. lia. }
    apply darr_cons in Hc as [Hc1 Hc2]. apply darr_app in Hc2 as [Hc2 Hc3].
    apply darr_cons in Hc3 as [Hc3 Hc4]. rewrite !padd_padd in Hc4. rewrite padd_padd in Hc3.
    apply Forall_cons in Hdc as [Hd1 Hdc]. apply digs_app in Hdc as [Hd2 Hdc]. apply Forall_cons in Hdc as [Hd3 Hd4].
    pose proof Hj as Hj'. simpl in Hj'. rewrite app_length in Hj'. simpl in Hj'.
    unfold dig in Hda1, Hd1. assert (0 <= a * a + c < RADIX * RADIX) as Hr by nia.
    wb. eapply wp_load; [done|]. wb. eapply wp_store; [done|]. wb.
    rewrite (w64_id (a * a + c)) by done.
    assert (0 <= UPPER_HALF (a * a + c) < RADIX) as Hup by (by apply upper_bound).
    assert (darr (store (mem st) dc (Some (LOWER_HALF (a * a + c)))) (dc +p 1) lm) as Hc2'.
    { apply store_disj; [done| |done]. right; left. simpl. lia. }
    apply (wp_usqr_inner a la lm); simpl.
    { rewrite load_store_ne; [done| |done]. intros ->. unfold disj in Hj. simpl in Hj. destruct Hj; [done|lia]. }
    { apply store_disj; [done| |done]. simpl. clear Hj. dj. }
    { done. }
    { done. }
    { done. }
    { done. }
    { done. }
    { lia. }
    { clear Hj. dj. }
    { clear Hj. dj. }
    2: done.
    intros w' lm' Hlm' Hdm' Hw' Hvm'. rewrite set_mem_set_mem, wrd_cons by done.
    set (c' := LOWER_HALF (a * a + c)) in *.
    assert (forall q l, q = dc +p Z.of_nat (length (c' :: lm')) -> darr (mem st) q l ->
              darr (wrd (mem st) dc (c' :: lm')) q l) as Hout.
    { intros q l -> Hq. apply darr_wrd_disj; [done| |done]. right; left. simpl. lia. }
    assert (dc +p (Z.of_nat (length la) + 1) = dc +p Z.of_nat (length (c' :: lm'))) as Eq1.
    { apply padd_eq. simpl. lia. }
    wb. apply (wp_load _ x).
    { simpl. rewrite Eq1. assert (darr (wrd (mem st) dc (c' :: lm')) (dc +p Z.of_nat (length (c' :: lm'))) [x]) as H.
      { apply Hout; [done|]. apply darr_cons. split; [|apply darr_nil].
        rewrite <- Hc3. f_equal. apply padd_eq. simpl. lia. }
      by apply darr_cons in H as [H _]. }
    wb. eapply wp_store.
    { simpl. rewrite Eq1. assert (darr (wrd (mem st) dc (c' :: lm')) (dc +p Z.of_nat (length (c' :: lm'))) [x]) as H.
      { apply Hout; [done|]. apply darr_cons. split; [|apply darr_nil].
        rewrite <- Hc3. f_equal. apply padd_eq. simpl. lia. }
      by apply darr_cons in H as [H _]. }
    simpl. rewrite set_mem_set_mem.
    unfold dig in Hd3. rewrite w64_id by (rewrite RADIX_val in *; lia).
    set (x' := u32 (w' + x)).
    assert (dig x') as Hdx by apply u32_dig.
    assert (store (wrd (mem st) dc (c' :: lm')) (dc +p (Z.of_nat (length la) + 1)) (Some x')
            = wrd (mem st) dc ((c' :: lm') ++ [x'])) as Est.
    { rewrite Eq1, <- wrd_app by done. done. }
    rewrite Est. clear Est.
    pose proof (halves (w' + x)) as Hh2. change (LOWER_HALF (w' + x)) with x' in Hh2.
    pose proof (halves (a * a + c)) as Hh1. fold c' in Hh1.
    rewrite Hlm in Hvm'.
    (* the carry fits *)
    assert (val lr + UPPER_HALF (w' + x) < Bn (length lr)) as Hfit.
    { simpl in Hb. rewrite val_app, app_length in Hb. simpl in Hb.
      rewrite Bn_S, Bn_add, Bn_S, Hlm, Hlr in Hb. rewrite Hlr.
      pose proof (val_bounds _ Hdm') as Hbm. rewrite Hlm', Hlm in Hbm.
      pose proof (Bn_pos (length la)) as HB. set (M := Bn (length la)) in *.
      pose proof RADIX_pos.
      pose proof (lower_dig (a * a + c)) as Hc'. fold c' in Hc'. unfold dig in Hc', Hdx.
      assert (RADIX * M * RADIX * (val lr + UPPER_HALF (w' + x)) < RADIX * M * RADIX * M) as Hlt.
      { set (vr := val lr) in *. set (vm := val lm) in *. set (vm' := val lm') in *.
        set (va := val la) in *. set (u := UPPER_HALF (w' + x)) in *. set (u1 := UPPER_HALF (a*a+c)) in *.
        assert (c' + RADIX * (vm' + M * (x' + RADIX * (vr + u)))
                = c + RADIX * (vm + M * (x + RADIX * vr)) + a * a + 2 * a * (RADIX * va)) as Etot.
        { replace (M * (x' + RADIX * (vr + u))) with (M * (w' + x) + M * RADIX * vr) by (rewrite Hh2; ring).
          replace (vm' + (M * (w' + x) + M * RADIX * vr)) with ((vm' + M * w') + M * (x + RADIX * vr)) by ring.
          rewrite Hvm'. replace (a * a) with (c' + RADIX * u1 - c) by lia. ring. }
        assert (0 <= RADIX * va * (RADIX * va)) by nia.
        assert (0 <= RADIX * (vm' + M * x') + c') by nia.
        nia. }
      assert (0 < RADIX * M * RADIX) by nia. nia. }
    apply (wp_usqr_carry lr); simpl.
    { rewrite padd_padd.
      apply darr_wrd_disj; [done| |].
      - right; left. simpl. rewrite app_length. simpl. lia.
      - rewrite Hlm in Hc4. by replace (Z.of_nat (length la) + 1 + 1) with (1 + (Z.of_nat (length la) + 1)) by lia. }
    { done. }
    { rewrite RADIX_val in *; lia. }
    { done. }
    { lia. }
    intros lr' Hlr' Hdr' Hvr'. rewrite set_mem_set_mem.
    assert (dc +p (Z.of_nat (length la) + 1) +p 1 = dc +p Z.of_nat (length ((c' :: lm') ++ [x']))) as ->.
    { rewrite padd_padd. apply padd_eq. rewrite app_length. simpl. lia. }
    rewrite wrd_app by done. apply Hrest.
    { simpl. rewrite !app_length. simpl. lia. }
    { simpl. constructor; [apply lower_dig|]. rewrite <- app_assoc. apply digs_app. split; [done|].
      simpl. by constructor. }
    simpl. rewrite <- app_assoc, !val_app. simpl. rewrite Hlm', Hlm, Hvr'.
    set (M := Bn (length la)) in *. clear - Hh1 Hh2 Hvm'.
    set (vr := val lr) in *. set (vm := val lm) in *. set (vm' := val lm') in *.
    set (va := val la) in *. set (u := UPPER_HALF (w' + x)) in *. set (u1 := UPPER_HALF (a*a+c)) in *.
    rewrite Bn_1. replace (x' + RADIX * 0 + RADIX * (vr + u)) with (x' + RADIX * (vr + u)) by lia.
    replace (M * (x' + RADIX * (vr + u))) with (M * (w' + x) + M * RADIX * vr) by (rewrite Hh2; ring).
    replace (vm' + (M * (w' + x) + M * RADIX * vr)) with ((vm' + M * w') + M * (x + RADIX * vr)) by ring.
    rewrite Hvm'. replace (a * a) with (c' + RADIX * u1 - c) by lia. ring.
Qed.

Lemma wp_s_usqr la da dc na (Q : unit -> state -> Prop) st :
  na = Z.of_nat (length la) ->
  darr (mem st) da la -> darr (mem st) dc (replicate (2 * length la) 0) -> digs la ->
  disj dc (2 * length la) da (length la) ->
  (forall lc, length lc = (2 * length la)%nat -> digs lc -> val lc = val la * val la ->
     Q tt (set_mem st (wrd (mem st) dc lc))) ->
  wp (s_usqr da dc na) Q st.
Proof.
  intros -> Ha Hc Hda Hj HQ. unfold s_usqr. rewrite Nat2Z.id.
  apply (wp_usqr_loop la (replicate (2 * length la) 0)); try done.
  - by rewrite replicate_length.
  - apply digs_zeros.
  - rewrite val_zeros, replicate_length. replace (2 * length la)%nat with (length la + length la)%nat by lia.
    rewrite Bn_add. pose proof (val_bounds _ Hda). nia.
  - by rewrite replicate_length.
  - intros lc'. rewrite replicate_length, val_zeros. intros. apply HQ; auto with lia.
Qed.
