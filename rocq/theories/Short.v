(** When the reported length is too short. *)
From Coq Require Import ZArith List Lia.
From stdpp Require Import gmap list.
From Verif Require Import Mem Prog Kern Fp Imath Exec Wp Spec Public Concrete Buf Text Inlen Outlen Read.
Local Open Scope Z_scope.

Lemma mem_put_ext o v st n : mem (put o v st) !! Ext n = mem st !! Ext n.
Proof. unfold put. cbn [mem]. by rewrite !lookup_insert_ne by done. Qed.
Lemma short_report r p N k : 2 <= r <= 36 -> 1 <= p < 2 ^ 20 -> 1 <= N -> N + 1 < k -> outlen p r = N -> r ^ N <= 2 ^ p - 1 -> exists st V W z v b l n,
  Rep st V W /\ V !! z = Some v /\ bufs W !! b = Some l /\ n < Z.of_nat (length l) /\
  calls (mp_int_string_len z r) st (fun x st' => x = n) /\
  calls (mp_int_to_string z r (b, 0) n) st (fun x st' => x = MP_TRUNC).
Proof.
  intros Hr Hp HN Hk Ho Hge. set (K := Z.to_nat k). assert (1 < 2 ^ p) as P2 by (apply Z.pow_gt_1; lia). set (v := 2 ^ p - 1) in *.
  assert (Z.abs v = v) as Ea by lia. assert (Z.log2 v = p - 1) as El by (unfold v; rewrite Z.sub_1_r, Z.log2_pred_pow2; lia).
  assert (bitlen v = p) as Eb. { unfold bitlen. destruct (Z.eqb_spec v 0); [lia|]. rewrite Ea, El. lia. }
  set (st := put_buf bX (replicate K None) (put (H 9) v exS)).
  assert (Rep st (<[H 9 := v]> exV) (exW K)) as HR.
  { apply Rep_put_buf; [apply Rep_put; [apply ex_rep|reflexivity|rewrite Ea, El; lia]| |done]. unfold bX. rewrite mem_put_ext. by vm_compute. }
  exists st, (<[H 9 := v]> exV), (exW K), (H 9), v, bX, (replicate K None), (N + 1). clearbody st.
  split; [done|]. split; [apply lookup_insert|]. split; [apply lookup_insert|]. split; [rewrite replicate_length; lia|]. split.
  - eapply by_rule; [done|]. intros st1 HV. eapply wpV_string_len; [done|apply lookup_insert|lia|]. rewrite Eb, Ho. destruct (Z.ltb_spec v 0) as [L|L]; lia.
  - eapply by_rule; [done|]. intros st1 HV. destruct (numeral_exists r v ltac:(lia)) as [s Hs].
    assert (N + 1 <= Z.of_nat (length s)) as Hl. { pose proof (numeral_len_ge r v s N ltac:(lia) Hs ltac:(lia) ltac:(lia)) as L. destruct (Z.ltb_spec v 0); lia. }
    eapply (wpV_to_string _ _ _ _ _ _ _ 0); [done|apply lookup_insert|apply lookup_insert|lia|lia|done|rewrite replicate_length; lia|lia|]. done.
Qed.
Lemma below r N p M K : 0 < r -> 0 <= p -> 0 <= N -> 0 <= M -> 0 < K -> r ^ K <= 2 ^ M -> M * N <= p * K -> 0 < p -> 0 < N -> Z.odd r = true -> r ^ N <= 2 ^ p - 1.
Proof.
  intros H1 H2 H3 H4 H5 H6 H7 H8 H9 Ho. assert (r ^ N <= 2 ^ p) as Hle by (by apply (pow_exchange r N p M K)).
  assert (r ^ N <> 2 ^ p) as Hne. { intros E. apply (f_equal Z.odd) in E. rewrite !Z.odd_pow, Ho in E by done. done. }
  clear H6. lia.
Qed.
Lemma powup_13 : 13 ^ 2 ^ 30 <= 2 ^ powup 30 13 /\ 0 <= powup 30 13.
Proof. exact (powup_ok 30 13 eq_refl). Qed.
Lemma below_13_num : powup 30 13 * 5458 <= 20197 * 2 ^ 30.
Proof. by vm_compute. Qed.
Lemma below_13 : 13 ^ 5458 <= 2 ^ 20197 - 1.
Proof.
  destruct powup_13 as [H1 H2]. pose proof below_13_num as H3. set (M := powup 30 13) in *. clearbody M.
  refine (below 13 5458 20197 M (2 ^ 30) _ _ _ H2 _ H1 H3 _ _ _); clear H1 H2 H3; first [done|lia].
Qed.
