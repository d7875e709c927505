(** Properties of the conversion of rationals to and from text (C39-C41).  See
    [SpecDec] for the vocabulary.  A string that is read is given as the list of
    its characters without the terminator; a string that is written goes to a
    buffer in memory.  [Qnum (Qred q)] and [Qden (Qred q)] are the numerator and
    the denominator of [q] in lowest terms. *)
From Coq Require Import ZArith List Lia QArith.
From stdpp Require Import gmap list.
From Verif Require Import SpecHist.
From Verif Require Import Mem Prog Kern Fp Imath Imrat Exec Wp KernLem Spec Public SpecRat Rat Buf Text Inlen Outlen Read Concrete ConcreteRat SpecDec RatText RatDec RatOut.
Local Open Scope Z_scope.
Local Open Scope prog_scope.

Definition exSqb (n : nat) : state := put_buf bX (replicate n None) exSq.
Lemma exqb_rep n : Rep (exSqb n) exVq (exW n).
Proof. apply Rep_put_buf; [apply exq_rep|by vm_compute|done]. Qed.

(** ** C39 Fractions *)
(** The text of a rational with its terminator, if the buffer has room for it. *)
Theorem C39_to_string st V W r q radix b (off : nat) l limit s :
  Rep st V W -> rat_at V r q -> bufs W !! b = Some l -> 2 <= radix <= 36 -> rat_text radix q s ->
  Z.of_nat (length s) < limit -> (off + length s + 1 <= length l)%nat ->
  calls (mp_rat_to_string r radix (b, Z.of_nat off) limit) st
    (fun x st' => x = MP_OK /\ Rep st' V (with_buf W b (overwrite off (s ++ [0]) l))).
Proof.
  intros H [Hn Hd] Hb Hr (sn & sd & Hsn & Hsd & Es) Hl Ho. eapply by_rule; [done|]. intros st1 HV.
  destruct (numeral_short _ _ _ _ _ _ _ HV Hn (proj1 Hr) Hsn) as [L1 _]. destruct (numeral_short _ _ _ _ _ _ _ HV Hd (proj1 Hr) Hsd) as [L2 _].
  assert (length sn <= length s)%nat as L3 by (rewrite Es; destruct (_ =? _); [done|rewrite app_length; lia]).
  assert (Qnum (Qred q) <> 0 -> s = sn ++ 47 :: sd) as E1 by (intros E; by rewrite Es, (proj2 (Z.eqb_neq _ _) E)).
  eapply (wpV_rat_to_string _ _ _ r (Qnum (Qred q)) (Zpos (Qden (Qred q)))); [exact HV|exact Hn|exact Hd|exact Hb|done|lia|exact Hsn|exact Hsd|rewrite <- Es; lia| | | |].
  - intros st' E H'. split; [done|]. apply RV_done_buf. rewrite Es, E. exact H'.
  - intros st' t _ E _ Ht H'. specialize (E1 E). rewrite E1, app_length in Hl. cbn [length] in Hl.
    destruct (Z.leb_spec (Z.of_nat (length sn) + 1 + Z.of_nat (length sd) + 1) limit); [|lia]. split; [done|]. apply RV_done_buf. rewrite Ht in H'. by rewrite E1, <- app_assoc.
  - intros. lia.
  - intros E _. specialize (E1 E). rewrite E1, app_length in Hl. cbn [length] in Hl. lia.
Qed.
Example C39_to_string_ex :
  rat_text 10 qB [45; 53; 47; 49; 50] /\ result_buf (mp_rat_to_string rB 10 (bX, 0) 6) (exSqb 6) = Some (MP_OK, Some [Some 45; Some 53; Some 47; Some 49; Some 50; Some 0]).
Proof. split; [exists [45; 53], [49; 50]; split; [exists [5]; by repeat constructor|]; split; [exists [1; 2]; by repeat constructor|done]|by vm_compute]. Qed.
Print Assumptions C39_to_string.
(** Without room for it, MP_TRUNC, and at most [limit + 1] characters are written
    (see C18 about the one too many).  If the numerator fits but less than three
    characters remain for the slash, the denominator and the terminator, see
    [C39_slash_refuted]. *)
Theorem C39_to_string_limit st V W r q radix b (off : nat) l limit s sn :
  Rep st V W -> rat_at V r q -> bufs W !! b = Some l -> 2 <= radix <= 36 -> rat_text radix q s -> numeral radix (Qnum (Qred q)) sn ->
  2 <= limit <= Z.of_nat (length s) -> (limit <= Z.of_nat (length sn) \/ Z.of_nat (length sn) + 3 <= limit) -> (off + Z.to_nat limit + 1 <= length l)%nat ->
  calls (mp_rat_to_string r radix (b, Z.of_nat off) limit) st
    (fun x st' => x = MP_TRUNC /\ exists t, (length t <= Z.to_nat limit + 1)%nat /\ last t = Some 0 /\ Rep st' V (with_buf W b (overwrite off t l))).
Proof.
  intros H [Hn Hd] Hb Hr (sn' & sd & Hsn' & Hsd & Es) Hsn Hl Hx Ho. eapply by_rule; [done|]. intros st1 HV. assert (2 <= radix) as Hr2 by lia. assert (sn' = sn) as -> by exact (numeral_unique _ _ _ _ Hr2 Hsn' Hsn).
  assert (Qnum (Qred q) <> 0 -> s = sn ++ 47 :: sd) as E1 by (intros E; by rewrite Es, (proj2 (Z.eqb_neq _ _) E)).
  eapply (wpV_rat_to_string _ _ _ r (Qnum (Qred q)) (Zpos (Qden (Qred q)))); [exact HV|exact Hn|exact Hd|exact Hb|done|lia|exact Hsn|exact Hsd|rewrite <- Es; lia| | | |].
  - intros st' E H'. rewrite E in Es, Hsn. rewrite Z.eqb_refl in Es. apply numeral_zero in Hsn; [|lia]. rewrite Es, Hsn in Hl. cbn [length] in Hl. lia.
  - intros st' t _ E _ Ht H'. specialize (E1 E). rewrite E1, app_length in Hl. cbn [length] in Hl.
    destruct (Z.leb_spec (Z.of_nat (length sn) + 1 + Z.of_nat (length sd) + 1) limit); [lia|]. destruct Ht as [T1 T2]. split; [done|]. exists t. split; [done|]. split; [done|]. by apply RV_done_buf.
  - intros st' t L T1 T2 H'. split; [done|]. exists t. split; [done|]. split; [done|]. by apply RV_done_buf.
  - intros E L. lia.
Qed.
Example C39_to_string_limit_ex :
  result_buf (mp_rat_to_string rB 10 (bX, 0) 5) (exSqb 7) = Some (MP_TRUNC, Some [Some 45; Some 53; Some 47; Some 49; Some 50; Some 0; None]).
Proof. by vm_compute. Qed.
Print Assumptions C39_to_string_limit.
(** -5/12 with room for three or four characters: the numerator fits, what is left
    after the slash is less than the two characters [mp_int_to_string] insists on,
    and an assertion fails instead of MP_TRUNC being returned. *)
Theorem C39_slash_refuted : exists st V W r q b l limit,
  Rep st V W /\ rat_at V r q /\ bufs W !! b = Some l /\ 2 <= limit /\ length l = 10%nat /\
  run true orc_yes (mp_rat_to_string r 10 (b, 0) limit) 0 st = AssertFail.
Proof.
  exists (exSqb 10), exVq, (exW 10), rB, qB, bX, (replicate 10 None), 4. split; [apply exqb_rep|]. split; [apply exq_B|]. by vm_compute.
Qed.
Print Assumptions C39_slash_refuted.
(** A buffer of the size [mp_rat_string_len] reports is enough (under the same
    restriction as in C19, and for less than 2^30 - 4 bits, where the two lengths
    cannot overflow when they are added). *)
Theorem C39_string_len st V W r q radix :
  Rep st V W -> rat_at V r q -> 2 <= radix <= 36 ->
  Z.abs (Qnum (Qred q)) < 2 ^ Z.min (enough_bits radix) (2 ^ 30 - 4) -> Zpos (Qden (Qred q)) < 2 ^ Z.min (enough_bits radix) (2 ^ 30 - 4) ->
  calls (mp_rat_string_len r radix) st (fun n st' => Rep st' V W /\ (forall s, rat_text radix q s -> Z.of_nat (length s) + 1 <= n) /\
    forall b (off : nat) l, bufs W !! b = Some l -> Z.of_nat off + n <= Z.of_nat (length l) ->
      calls (mp_rat_to_string r radix (b, Z.of_nat off) n) st' (fun x st'' => x = MP_OK)).
Proof.
  intros H [Hn Hd] Hr Bn Bd. set (n := Qnum (Qred q)) in *. set (d := Zpos (Qden (Qred q))) in *. assert (0 < d) as Hd0 by done.
  set (M := Z.min (enough_bits radix) (2 ^ 30 - 4)) in *. assert (1 <= M <= 2 ^ 30 - 4 /\ M <= enough_bits radix) as [HM1 HM2] by (pose proof (enough_bits_pos radix); lia).
  assert (forall v, Z.abs v < 2 ^ M -> outlen (bitlen v) radix <= 2 ^ 30 - 3 /\ 1 <= outlen (bitlen v) radix /\ forall s, numeral radix v s -> Z.of_nat (length s) <= outlen (bitlen v) radix + if v <? 0 then 1 else 0) as HO.
  { intros v Hv. pose proof (bitlen_le v M ltac:(lia) Hv) as B1. pose proof (bitlen_pos v) as B2. pose proof (outlen_le (bitlen v) radix Hr ltac:(lia)) as B3.
    destruct (outlen_enough (bitlen v) radix Hr ltac:(lia)) as [E1 E2]. split; [lia|]. split; [lia|]. intros s Hs. pose proof (bitlen_pow v). apply (numeral_len_le radix v s); [lia|done|lia|lia]. }
  destruct (HO n Bn) as (N1 & N2 & N3). destruct (HO d ltac:(rewrite Z.abs_eq by lia; done)) as (D1 & D2 & D3). destruct (Z.ltb_spec d 0); [lia|].
  eapply by_rule; [done|]. intros st1 HV. unfold mp_rat_string_len.
  assert (forall tot, (forall s, rat_text radix q s -> Z.of_nat (length s) + 1 <= tot) ->
    Rep st1 V W /\ (forall s, rat_text radix q s -> Z.of_nat (length s) + 1 <= tot) /\
    forall b (off : nat) l, bufs W !! b = Some l -> Z.of_nat off + tot <= Z.of_nat (length l) -> calls (mp_rat_to_string r radix (b, Z.of_nat off) tot) st1 (fun x st'' => x = MP_OK)) as FIN.
  { intros tot Ht. split; [by apply RV_done|]. split; [done|]. intros b off l Hb Hl. destruct (numeral_ex radix n (proj1 Hr)) as [sn Hsn]. destruct (numeral_ex radix d (proj1 Hr)) as [sd Hsd].
    assert (rat_text radix q (if n =? 0 then sn else sn ++ 47 :: sd)) as Hs by (exists sn, sd; split; [exact Hsn|]; split; [exact Hsd|reflexivity]). set (s := if n =? 0 then _ else _) in *. specialize (Ht s Hs).
    pose proof (C39_to_string st1 V W r q radix b off l tot s ltac:(by apply RV_done) (conj Hn Hd) Hb Hr Hs ltac:(lia) ltac:(lia)) as HC.
    unfold calls in *. intros orc t. specialize (HC orc t). destruct (run true orc _ t st1); [tauto|done|done|done|done]. }
  wb. eapply wpV_string_len; [exact HV|exact Hn|done|]. wb. eapply wpV_compare_zero; [exact HV|exact Hn|]. destruct (Z.eqb_spec (Z.sgn n) 0) as [E|E]; cbn [negb].
  - wb. apply wp_ret. destruct (Z.gtb_spec (outlen (bitlen n) radix + 1 + (if n <? 0 then 1 else 0) + 0) INT_MAX) as [L|L].
    { unfold INT_MAX in L. destruct (n <? 0); lia. }
    apply wp_ret. apply FIN. intros s (sn & sd & Hsn & Hsd & ->). fold n. destruct (Z.eqb_spec n 0); [|lia]. specialize (N3 sn Hsn). lia.
  - wb. eapply wpV_string_len; [exact HV|exact Hd|done|]. destruct (Z.ltb_spec d 0); [lia|]. rewrite Z.add_0_r.
    destruct (Z.gtb_spec (outlen (bitlen n) radix + 1 + (if n <? 0 then 1 else 0) + (outlen (bitlen d) radix + 1)) INT_MAX) as [L|L].
    { unfold INT_MAX in L. destruct (n <? 0); lia. }
    apply wp_ret. apply FIN. intros s (sn & sd & Hsn & Hsd & ->). fold n. destruct (Z.eqb_spec n 0); [lia|]. specialize (N3 sn Hsn). specialize (D3 sd Hsd). rewrite app_length. cbn [length]. lia.
Qed.
Example C39_string_len_ex : result_rat (mp_rat_string_len rB 10) rB exSq = Some (6, Some (-5), Some 12) /\
  Z.abs (Qnum (Qred qB)) < 2 ^ Z.min (enough_bits 10) (2 ^ 30 - 4) /\ Zpos (Qden (Qred qB)) < 2 ^ Z.min (enough_bits 10) (2 ^ 30 - 4).
Proof.
  split; [by vm_compute|]. change (Z.min (enough_bits 10) (2 ^ 30 - 4)) with (10 + 1073741810). rewrite Z.pow_add_r by done.
  assert (0 < 2 ^ 1073741810) as P by (apply Z.pow_pos_nonneg; done). revert P. generalize (2 ^ 1073741810). intros K P. change (2 ^ 10) with 1024.
  change (Qnum (Qred qB)) with (-5). change (Zpos (Qden (Qred qB))) with 12. lia.
Qed.
Print Assumptions C39_string_len.

(** Reading.  With a slash and nothing behind the denominator: the quotient in
    lowest terms, or MP_UNDEF; with something behind it, MP_TRUNC and an unreduced
    quotient (the denominator can even be zero, see [C39_junk_refuted]). *)
Theorem C39_read_fraction st V W r radix s n sp s2 d rest :
  Rep st V W -> structs [r] -> rat_live V r -> 2 <= radix <= 36 -> Z.of_nat (length s) < 2 ^ 31 ->
  reads radix s n (sp ++ 47 :: s2) -> Forall is_space sp -> reads radix s2 d rest ->
  calls (mp_rat_read_cstring r radix s) st (fun x st' =>
    match rest with
    | [] => if d =? 0 then x = (MP_UNDEF, Some []) /\ Rep st' (<[snd r := 0]> (<[fst r := n]> V)) W
            else x = (MP_OK, Some []) /\ Rep st' (set_rat r (frac n d) V) W
    | _ :: _ => x = (MP_TRUNC, Some rest) /\ Rep st' (<[snd r := d]> (<[fst r := n]> V)) W
    end).
Proof.
  intros H HS HL Hr Hl H1 Hsp H2. eapply by_rule; [done|]. intros st1 HV. eapply wpV_rat_read_slash; [exact HV|apply (HS r r); by left|done|done|done|exact H1|done|exact H2| | |].
  - intros -> Nd st' HV'. destruct (Z.eqb_spec d 0); [done|]. split; [done|by apply RV_done].
  - intros -> -> st' HV'. rewrite Z.eqb_refl. split; [done|by apply RV_done].
  - intros Nr st' HV'. destruct rest; [done|]. split; [done|by apply RV_done].
Qed.
(** " -6 / 4" and "1/0" *)
Example C39_read_fraction_ex :
  reads 10 [32; 45; 54; 32; 47; 32; 52] (-6) ([32] ++ 47 :: [32; 52]) /\ reads 10 [32; 52] 4 [] /\
  result_rat (mp_rat_read_cstring rA 10 [32; 45; 54; 32; 47; 32; 52]) rA exSq = Some ((MP_OK, Some []), Some (-3), Some 2) /\
  result_rat (mp_rat_read_cstring rA 10 [49; 47; 48]) rA exSq = Some ((MP_UNDEF, Some []), Some 1, Some 0).
Proof.
  split; [|split; [|split; by vm_compute]].
  - exists [32], [45], [54], [6]. split; [|done]. split; [done|]. split; [repeat constructor; unfold is_space; lia|]. split; [tauto|]. split; [by repeat constructor|]. split; [|done]. intros c x [= <-] [[=] _].
  - exists [32], [], [52], [4]. split; [|done]. split; [done|]. split; [repeat constructor; unfold is_space; lia|]. split; [tauto|]. split; [by repeat constructor|]. split; [done|]. intros _ c [= <-]. unfold is_space. lia.
Qed.
Print Assumptions C39_read_fraction.
(** Without a slash: an integer. *)
Theorem C39_read_integer st V W r radix s n sp rest :
  Rep st V W -> structs [r] -> rat_live V r -> 2 <= radix <= 36 -> Z.of_nat (length s) < 2 ^ 31 ->
  reads radix s n (sp ++ rest) -> Forall is_space sp -> (forall c, head rest = Some c -> ~ is_space c /\ c <> 47) ->
  calls (mp_rat_read_cstring r radix s) st (fun x st' =>
    x = (match sp ++ rest with [] => MP_OK | _ :: _ => MP_TRUNC end, Some (sp ++ rest)) /\ Rep st' (set_rat r (inject_Z n) V) W).
Proof.
  intros H HS HL Hr Hl H1 Hsp Hh. eapply by_rule; [done|]. intros st1 HV. eapply wpV_rat_read_int; [exact HV|apply (HS r r); by left|done|done|done|exact H1|done|done|done|].
  intros st' HV'. split; [done|by apply RV_done].
Qed.
Example C39_read_integer_ex : result_rat (mp_rat_read_cstring rA 10 [45; 49; 50; 32; 120]) rA exSq = Some ((MP_TRUNC, Some [32; 120]), Some (-12), Some 1).
Proof. by vm_compute. Qed.
Print Assumptions C39_read_integer.
(** On any string at all: MP_OK, and a rational in lowest terms; or MP_TRUNC or
    MP_UNDEF, and some pair of integers.  Nothing else changes. *)
Theorem C39_read_any st V W r radix s :
  Rep st V W -> structs [r] -> rat_live V r -> 2 <= radix <= 36 -> Z.of_nat (length s) < 2 ^ 31 ->
  calls (mp_rat_read_cstring r radix s) st (fun x st' =>
    (fst x = MP_OK /\ exists q, Rep st' (set_rat r q V) W) \/
    ((fst x = MP_TRUNC \/ fst x = MP_UNDEF) /\ exists n d, Rep st' (<[snd r := d]> (<[fst r := n]> V)) W)).
Proof.
  intros H HS HL Hr Hl. eapply by_rule; [done|]. intros st1 HV. eapply wpV_rat_read_any; [exact HV|apply (HS r r); by left|done|done|done| |].
  - intros st' q e HV'. left. split; [done|]. exists q. by apply RV_done.
  - intros st' n d x e Hx HV'. right. split; [done|]. exists n, d. by apply RV_done.
Qed.
Example C39_read_any_ex : result_rat (mp_rat_read_cstring rA 10 [47; 47]) rA exSq = Some ((MP_TRUNC, Some [47]), Some 0, Some 0).
Proof. by vm_compute. Qed.
Print Assumptions C39_read_any.
(** [mp_rat_read_string] is the same without the rest of the string. *)
Theorem C39_read_string st V W r radix s n sp s2 d :
  Rep st V W -> structs [r] -> rat_live V r -> 2 <= radix <= 36 -> Z.of_nat (length s) < 2 ^ 31 ->
  reads radix s n (sp ++ 47 :: s2) -> Forall is_space sp -> reads radix s2 d [] -> d <> 0 ->
  calls (mp_rat_read_string r radix s) st (fun x st' => x = MP_OK /\ Rep st' (set_rat r (frac n d) V) W).
Proof.
  intros H HS HL Hr Hl H1 Hsp H2 Hd. eapply by_rule; [done|]. intros st1 HV. unfold mp_rat_read_string. wb. eapply wpV_rat_read_slash; [exact HV|apply (HS r r); by left|done|done|done|exact H1|done|exact H2| |done|done].
  intros _ _ st' HV'. apply wp_ret. split; [done|by apply RV_done].
Qed.
Example C39_read_string_ex : result_rat (mp_rat_read_string rA 16 [102; 70; 47; 45; 57]) rA exSq = Some (MP_OK, Some (-85), Some 3).
Proof. by vm_compute. Qed.
Print Assumptions C39_read_string.
(** "6/4x": MP_TRUNC with 6/4 stored, not in lowest terms; "6/0x": MP_TRUNC with a
    zero denominator stored. *)
Theorem C39_junk_refuted : exists st V W r q,
  Rep st V W /\ structs [r] /\ rat_at V r q /\
  match run true orc_yes (mp_rat_read_cstring r 10 [54; 47; 52; 120]) 0 st with
  | Done x st' _ => (x, value_of st' (fst r), value_of st' (snd r)) | _ => ((0, None), None, None) end = ((MP_TRUNC, Some [120]), Some 6, Some 4) /\
  match run true orc_yes (mp_rat_read_cstring r 10 [54; 47; 48; 120]) 0 st with
  | Done x st' _ => (x, value_of st' (fst r), value_of st' (snd r)) | _ => ((0, None), None, None) end = ((MP_TRUNC, Some [120]), Some 6, Some 0).
Proof.
  exists exSq, exVq, world0, rB, qB. split; [apply exq_rep|]. split; [|split; [apply exq_B|by vm_compute]]. intros r s [<-|[]] [<-|[]]. by vm_compute.
Qed.
Print Assumptions C39_junk_refuted.
(** What was written is read back. *)
Theorem C39_round_trip st V W r r' q radix b (off : nat) l limit s :
  Rep st V W -> rat_at V r q -> structs [r'] -> rat_live V r' -> bufs W !! b = Some l -> 2 <= radix <= 36 -> rat_text radix q s ->
  Z.of_nat (length s) < limit < 2 ^ 31 -> (off + length s + 1 <= length l)%nat ->
  calls (x1 <- mp_rat_to_string r radix (b, Z.of_nat off) limit; x2 <- mp_rat_read_string r' radix s; Ret (x1, x2)) st
    (fun x st' => x = (MP_OK, MP_OK) /\ Rep st' (set_rat r' q V) (with_buf W b (overwrite off (s ++ [0]) l))).
Proof.
  intros H [Hn Hd] HS HL Hb Hr Ht Hl Ho. pose proof Ht as (sn & sd & Hsn & Hsd & Es). eapply by_rule; [done|]. intros st1 HV.
  destruct (numeral_short _ _ _ _ _ _ _ HV Hn (proj1 Hr) Hsn) as [L1 _]. destruct (numeral_short _ _ _ _ _ _ _ HV Hd (proj1 Hr) Hsd) as [L2 _].
  assert (length sn <= length s)%nat as L3 by (rewrite Es; destruct (_ =? _); [done|rewrite app_length; lia]).
  assert (Qnum (Qred q) <> 0 -> s = sn ++ 47 :: sd) as E1 by (intros E; by rewrite Es, (proj2 (Z.eqb_neq _ _) E)).
  assert (forall st', RV st' V (setb (ctx_of W) b (overwrite off (s ++ [0]) l)) -> wp (x2 <- mp_rat_read_string r' radix s; Ret (MP_OK, x2))
    (fun x st' => x = (MP_OK, MP_OK) /\ Rep st' (set_rat r' q V) (with_buf W b (overwrite off (s ++ [0]) l))) st') as HW.
  { intros st' HV'. unfold mp_rat_read_string. wb. wb. eapply wpV_rat_read_text; [exact HV'|apply (HS r' r'); by left|done|done|lia|exact Ht|]. intros st'' HV''. apply wp_ret. apply wp_ret. split; [done|by apply RV_done_buf]. }
  wb. eapply (wpV_rat_to_string _ _ _ r (Qnum (Qred q)) (Zpos (Qden (Qred q)))); [exact HV|exact Hn|exact Hd|exact Hb|done|lia|exact Hsn|exact Hsd|rewrite <- Es; lia| | | |].
  - intros st' E H'. apply HW. rewrite Es, E. exact H'.
  - intros st' t _ E _ Htt H'. specialize (E1 E). rewrite E1, app_length in Hl. cbn [length] in Hl.
    destruct (Z.leb_spec (Z.of_nat (length sn) + 1 + Z.of_nat (length sd) + 1) limit); [|lia]. apply HW. rewrite Htt in H'. by rewrite E1, <- app_assoc.
  - intros. lia.
  - intros E _. specialize (E1 E). rewrite E1, app_length in Hl. cbn [length] in Hl. lia.
Qed.
Example C39_round_trip_ex : result_rat (x1 <- mp_rat_to_string rB 10 (bX, 0) 6; x2 <- mp_rat_read_string rA 10 [45; 53; 47; 49; 50]; Ret (x1, x2)) rA (exSqb 6) = Some ((MP_OK, MP_OK), Some (-5), Some 12).
Proof. by vm_compute. Qed.
Print Assumptions C39_round_trip.

(** ** C40 Fixed point output *)
Lemma fixed_ex r k f : 2 <= r -> 0 <= f < r ^ Z.of_nat k -> exists s, fixed r k f s.
Proof.
  intros Hr. revert f. induction k as [|k IH]; intros f Hf. { exists [], []. rewrite Z.pow_0_r in Hf. split; [done|]. split; [constructor|]. split; [|done]. unfold horner. cbn. lia. }
  rewrite Nat2Z.inj_succ, Z.pow_succ_r in Hf by lia. destruct (IH (f / r)) as (s & ds & L & H1 & H2 & ->). { split; [apply Z.div_pos; lia|]. apply Z.div_lt_upper_bound; lia. }
  exists (map digit_char (ds ++ [f mod r])), (ds ++ [f mod r]). rewrite app_length, L. split; [cbn [length]; lia|]. split; [apply Forall_app; split; [done|]; constructor; [apply Z.mod_pos_bound; lia|constructor]|].
  split; [|done]. rewrite horner_snoc, H2. rewrite (Z.div_mod f r) at 3 by lia. lia.
Qed.
(** [N] is [|q| * radix^prec] rounded in the mode [m].  The digits of [N] with the
    point before the last [prec] of them, after a minus sign if [q] is negative and
    [N] is not zero, are written - provided that the rounding, if it is upwards, does
    not turn the fraction digits into [0..010..0] or carry out of them (see
    [C40_carry_refuted]), and that there is room for the text, its terminator and,
    if [prec] is not zero, one more character (see [C40_exact_refuted]). *)
Theorem C40_to_decimal st V W r q radix prec m b (off : nat) l limit N s :
  Rep st V W -> rat_at V r q -> bufs W !! b = Some l -> 2 <= radix <= 36 -> 0 <= prec < 2 ^ 31 - 1 ->
  let n := Qnum (Qred q) in let d := Zpos (Qden (Qred q)) in let F := Z.abs n * radix ^ prec / d in
  rounds m (Z.abs n * radix ^ prec) d N -> (N = F \/ forall k, 1 <= k -> F mod radix ^ prec + 1 <> radix ^ k) ->
  decimal_text radix (Z.to_nat prec) (n <? 0) N s -> Z.of_nat (length s) + (if prec =? 0 then 1 else 2) <= limit -> (off + length s + 1 <= length l)%nat ->
  calls (mp_rat_to_decimal r radix prec (rounding_code m) (b, Z.of_nat off) limit) st
    (fun x st' => x = MP_OK /\ Rep st' V (with_buf W b (overwrite off (s ++ [0]) l))).
Proof.
  intros H [Hn Hd] Hb Hr Hp n d F HR HC Hs Hl Ho. eapply by_rule; [done|]. intros st1 HV.
  assert (2 + (if (n <? 0) && negb (N =? 0) then 1 else 0) <= limit) as HL2.
  { pose proof Hs as (i & f & Hi & _ & Es). assert (1 <= length i)%nat as Li by (destruct Hi as (ds & _ & _ & Hds & _ & ->); rewrite app_length, map_length; destruct ds; [done|cbn [length]; lia]).
    rewrite Es, !app_length in Hl. destruct (_ && _), (prec =? 0); cbn [length] in Hl; lia. }
  eapply (wpV_rat_to_decimal _ _ _ _ n d radix prec m b off l limit N s); [exact HV|exact Hn|exact Hd|done|exact Hb|done|done|exact HR|exact HC|exact Hs|lia|exact HL2| | |].
  - intros E. rewrite (proj2 (Z.eqb_neq _ _) E) in Hl. lia.
  - intros _ st' H'. split; [done|by apply RV_done_buf].
  - intros L. destruct (prec =? 0); lia.
Qed.
(** -5/12 to two digits, to the nearest: -0.42 *)
Example C40_to_decimal_ex :
  rounds Half_up (Z.abs (Qnum (Qred qB)) * 10 ^ 2) (Zpos (Qden (Qred qB))) 42 /\
  decimal_text 10 2 true 42 [45; 48; 46; 52; 50] /\
  result_buf (mp_rat_to_decimal rB 10 2 1 (bX, 0) 7) (exSqb 6) = Some (MP_OK, Some [Some 45; Some 48; Some 46; Some 52; Some 50; Some 0]).
Proof.
  split; [by vm_compute|]. split; [|by vm_compute]. exists [48], [52; 50]. split; [exists [0]; by repeat constructor|]. split; [exists [4; 2]; by repeat constructor|done].
Qed.
Print Assumptions C40_to_decimal.
(** Without room: MP_TRUNC, and nothing is written beyond [limit + 1] characters. *)
Theorem C40_to_decimal_limit st V W r q radix prec m b (off : nat) l limit N s :
  Rep st V W -> rat_at V r q -> bufs W !! b = Some l -> 2 <= radix <= 36 -> 0 <= prec < 2 ^ 31 - 1 ->
  let n := Qnum (Qred q) in let d := Zpos (Qden (Qred q)) in let F := Z.abs n * radix ^ prec / d in
  rounds m (Z.abs n * radix ^ prec) d N -> (N = F \/ forall k, 1 <= k -> F mod radix ^ prec + 1 <> radix ^ k) ->
  decimal_text radix (Z.to_nat prec) (n <? 0) N s -> 3 <= limit <= Z.of_nat (length s) -> (off + Z.to_nat limit + 1 <= length l)%nat ->
  calls (mp_rat_to_decimal r radix prec (rounding_code m) (b, Z.of_nat off) limit) st
    (fun x st' => x = MP_TRUNC /\ exists t, (length t <= Z.to_nat limit + 1)%nat /\ Rep st' V (with_buf W b (overwrite off t l))).
Proof.
  intros H [Hn Hd] Hb Hr Hp n d F HR HC Hs Hl Ho. eapply by_rule; [done|]. intros st1 HV.
  eapply (wpV_rat_to_decimal _ _ _ _ n d radix prec m b off l limit N s); [exact HV|exact Hn|exact Hd|done|exact Hb|done|done|exact HR|exact HC|exact Hs|lia|destruct (_ && _); lia|lia|lia|].
  intros L st' t Ht H'. split; [done|]. exists t. split; [done|by apply RV_done_buf].
Qed.
Example C40_to_decimal_limit_ex :
  result_buf (mp_rat_to_decimal rB 10 2 1 (bX, 0) 5) (exSqb 6) = Some (MP_TRUNC, Some [Some 45; Some 48; Some 46; None; None; None]).
Proof. by vm_compute. Qed.
Print Assumptions C40_to_decimal_limit.
(** A buffer of the size [mp_rat_decimal_len] reports is enough. *)
Theorem C40_decimal_len st V W r q radix prec :
  Rep st V W -> rat_at V r q -> 2 <= radix <= 36 -> 0 <= prec < 2 ^ 29 ->
  let n := Qnum (Qred q) in let d := Zpos (Qden (Qred q)) in let F := Z.abs n * radix ^ prec / d in
  Z.abs n < 2 ^ Z.min (enough_bits radix) (2 ^ 30 - 4) ->
  calls (mp_rat_decimal_len r radix prec) st (fun x st' => Rep st' V W /\
    forall m N, rounds m (Z.abs n * radix ^ prec) d N -> (N = F \/ forall k, 1 <= k -> F mod radix ^ prec + 1 <> radix ^ k) ->
    (forall s, decimal_text radix (Z.to_nat prec) (n <? 0) N s -> Z.of_nat (length s) + 1 <= x) /\
    forall b (off : nat) l, bufs W !! b = Some l -> Z.of_nat off + x <= Z.of_nat (length l) ->
      calls (mp_rat_to_decimal r radix prec (rounding_code m) (b, Z.of_nat off) x) st' (fun y st'' => y = MP_OK)).
Proof.
  intros H [Hn Hd] Hr Hp n d F Bn. assert (0 < d) as Hd0 by done.
  set (M := Z.min (enough_bits radix) (2 ^ 30 - 4)) in *. assert (1 <= M <= 2 ^ 30 - 4 /\ M <= enough_bits radix) as [HM1 HM2] by (pose proof (enough_bits_pos radix); lia).
  pose proof (bitlen_le n M ltac:(lia) Bn) as B1. pose proof (bitlen_pos n) as B2. pose proof (outlen_le (bitlen n) radix Hr ltac:(lia)) as B3.
  destruct (outlen_enough (bitlen n) radix Hr ltac:(lia)) as [E1 E2].
  eapply by_rule; [done|]. intros st1 HV. unfold mp_rat_decimal_len. wb. eapply wpV_string_len; [exact HV|exact Hn|done|]. fold n.
  assert ((if prec =? 0 then 1 else to_int32 (u32 (1 + prec + 1))) = if prec =? 0 then 1 else prec + 2) as Ef.
  { destruct (prec =? 0); [done|]. unfold u32, to_int32. rewrite !(Z.mod_small (1 + prec + 1)) by lia. destruct (Z.ltb_spec (1 + prec + 1) (2 ^ 31)); lia. }
  cbv zeta. rewrite Ef. clear Ef. set (O := outlen (bitlen n) radix) in *. set (x := O + 1 + (if n <? 0 then 1 else 0) + if prec =? 0 then 1 else prec + 2).
  assert (x <= INT_MAX) as Hx by (unfold x, INT_MAX; destruct (n <? 0), (prec =? 0); lia).
  destruct (Z.gtb_spec x INT_MAX); [lia|]. apply wp_ret. split; [by apply RV_done|]. intros m N HR HC.
  set (P := radix ^ prec) in *. assert (0 < P) as HP by (apply Z.pow_pos_nonneg; lia). assert (0 <= N <= Z.abs n * P) as HN.
  { assert (0 <= Z.abs n * P) as A0 by (apply Z.mul_nonneg_nonneg; lia). set (A := Z.abs n * P) in *. clear - HR A0 Hd0. destruct m; cbn [rounds] in HR; nia. }
  assert (0 <= N / P <= Z.abs n) as HT. { split; [apply Z.div_pos; lia|]. apply Z.div_le_upper_bound; lia. }
  assert (forall s, decimal_text radix (Z.to_nat prec) (n <? 0) N s -> Z.of_nat (length s) + (if prec =? 0 then 1 else 2) <= x) as HS.
  { intros s (i & f & Hi & Hf & Es). rewrite Z2Nat.id in Hi, Hf by lia. fold P in Hi, Hf. destruct Hf as (fds & Lf & _ & _ & ->).
    pose proof (bitlen_pow n) as B5. pose proof (numeral_len_le radix (N / P) i O ltac:(lia) Hi ltac:(rewrite Z.abs_eq by lia; lia) ltac:(lia)) as L1. destruct (Z.ltb_spec (N / P) 0); [lia|].
    rewrite Es, !app_length. unfold x. clear Es HC HR. destruct (Z.eqb_spec prec 0) as [->|Np].
    - change (Z.to_nat 0 =? 0)%nat with true. cbn [length]. destruct (n <? 0); cbn [andb]; [|cbn [length]; lia]. destruct (negb _); cbn [length]; lia.
    - rewrite (proj2 (Nat.eqb_neq (Z.to_nat prec) 0)) by lia. cbn [length]. rewrite map_length, Lf. destruct (n <? 0); cbn [andb]; [|cbn [length]; lia]. destruct (negb _); cbn [length]; lia. }
  split. { intros s Hs. specialize (HS s Hs). destruct (prec =? 0); lia. }
  intros b off l Hb Hl. destruct (numeral_ex radix (N / P) (proj1 Hr)) as [i Hi]. destruct (fixed_ex radix (Z.to_nat prec) (N mod P) (proj1 Hr)) as [f Hf]. { unfold P. rewrite Z2Nat.id by lia. apply Z.mod_pos_bound. done. }
  assert (decimal_text radix (Z.to_nat prec) (n <? 0) N ((if (n <? 0) && negb (N =? 0) then [45] else []) ++ i ++ (if (Z.to_nat prec =? 0)%nat then [] else 46 :: f))) as Hs.
  { exists i, f. rewrite Z2Nat.id by lia. done. }
  specialize (HS _ Hs).
  pose proof (C40_to_decimal st1 V W r q radix prec m b off l x N _ ltac:(by apply RV_done) (conj Hn Hd) Hb Hr ltac:(lia) HR HC Hs HS ltac:(destruct (prec =? 0); lia)) as HC2.
  unfold calls in *. intros orc t. specialize (HC2 orc t). destruct (run true orc _ t st1); [tauto|done|done|done|done].
Qed.
Example C40_decimal_len_ex : result_rat (mp_rat_decimal_len rB 10 2) rB exSq = Some (7, Some (-5), Some 12).
Proof. by vm_compute. Qed.
Print Assumptions C40_decimal_len.
(** A further rational in the example state. *)
Definition rX : oid * oid := (H 27, H 28).
Definition exSx (n : nat) (q : Q) : state := put_buf bX (replicate n None) (put (H 28) (Zpos (Qden (Qred q))) (put (H 27) (Qnum (Qred q)) exSq)).
Definition exVx (q : Q) : gmap oid Z := <[H 28 := Zpos (Qden (Qred q))]> (<[H 27 := Qnum (Qred q)]> exVq).
Ltac exx_rep := apply Rep_put_buf; [apply Rep_put; [apply Rep_put; [apply exq_rep|by vm_compute|by vm_compute]|by vm_compute|by vm_compute]|by vm_compute|done].
(** 999/1000 rounded up to two digits is 1.00; 0.100 is written. *)
Theorem C40_carry_refuted : exists st V W r q b l N s,
  Rep st V W /\ rat_at V r q /\ bufs W !! b = Some l /\
  rounds Up (Z.abs (Qnum (Qred q)) * 10 ^ 2) (Zpos (Qden (Qred q))) N /\ decimal_text 10 2 (Qnum (Qred q) <? 0) N s /\
  s = [49; 46; 48; 48] /\
  match run true orc_yes (mp_rat_to_decimal r 10 2 (rounding_code Up) (b, 0) 10) 0 st with Done x st' _ => (x, take 6 <$> mem st' !! b) | _ => (0, None) end
    = (MP_OK, Some [Some 48; Some 46; Some 49; Some 48; Some 48; Some 0]).
Proof.
  exists (exSx 12 (999 # 1000)), (exVx (999 # 1000)), (exW 12), rX, (999 # 1000), bX, (replicate 12 None), 100, [49; 46; 48; 48].
  split; [exx_rep|]. split; [by vm_compute|]. split; [done|]. split; [by vm_compute|]. split; [|by vm_compute].
  exists [49], [48; 48]. split; [exists [1]; by repeat constructor|]. split; [exists [0; 0]; by repeat constructor|done].
Qed.
Print Assumptions C40_carry_refuted.
(** A buffer that holds the text and its terminator exactly: 1/3 to two digits with
    room for five characters gives MP_TRUNC, although "0.33" and the terminator have
    been written; and 1/100 fails an assertion. *)
Theorem C40_exact_refuted : exists st1 V1 st2 V2 W r b q1 q2,
  Rep st1 V1 W /\ rat_at V1 r q1 /\ Rep st2 V2 W /\ rat_at V2 r q2 /\ bufs W !! b = Some (replicate 8 None) /\
  match run true orc_yes (mp_rat_to_decimal r 10 2 (rounding_code Down) (b, 0) 5) 0 st1 with Done x st' _ => (x, take 5 <$> mem st' !! b) | _ => (0, None) end
    = (MP_TRUNC, Some [Some 48; Some 46; Some 51; Some 51; Some 0]) /\
  run true orc_yes (mp_rat_to_decimal r 10 2 (rounding_code Down) (b, 0) 5) 0 st2 = AssertFail.
Proof.
  exists (exSx 8 (1 # 3)), (exVx (1 # 3)), (exSx 8 (1 # 100)), (exVx (1 # 100)), (exW 8), rX, bX, (1 # 3), (1 # 100).
  split; [exx_rep|]. split; [by vm_compute|]. split; [exx_rep|]. split; [by vm_compute|]. split; [done|]. by vm_compute.
Qed.
Print Assumptions C40_exact_refuted.
(** A rounding mode that is none of the four gives MP_BADARG, and the storage of the
    temporaries is not freed. *)
Theorem C40_mode_refuted : exists st V W r q b,
  Rep st V W /\ rat_at V r q /\
  match run true orc_yes (mp_rat_to_decimal r 10 2 4 (b, 0) 10) 0 st with Done x st' _ => (x, (size (mem st) <? size (mem st'))%nat) | _ => (0, false) end
    = (MP_BADARG, true).
Proof.
  exists (exSx 12 (999 # 1000)), (exVx (999 # 1000)), (exW 12), rX, (999 # 1000), bX. split; [exx_rep|]. split; [by vm_compute|]. by vm_compute.
Qed.
Print Assumptions C40_mode_refuted.

(** ** C41 Input with a radix point *)
(** Exactly the number that was written, in lowest terms; MP_OK if that was all,
    otherwise MP_TRUNC and the place where the number ends. *)
Theorem C41_read_point st V W r radix s q rest :
  Rep st V W -> structs [r] -> rat_live V r -> 2 <= radix <= 36 -> Z.of_nat (length s) < 2 ^ 31 -> reads_point radix s q rest ->
  calls (mp_rat_read_cdecimal r radix s) st (fun x st' =>
    x = (match rest with [] => MP_OK | _ :: _ => MP_TRUNC end, Some rest) /\ Rep st' (set_rat r q V) W).
Proof.
  intros H HS HL Hr Hl H1. eapply by_rule; [done|]. intros st1 HV. eapply wpV_rat_read_point; [exact HV|apply (HS r r); by left|done|done|done|exact H1|].
  intros st' HV'. split; [done|by apply RV_done].
Qed.
(** " -0.125 " *)
Example C41_read_point_ex :
  reads_point 10 [32; 45; 48; 46; 49; 50; 53; 32] (-125 # 1000) [32] /\
  result_rat (mp_rat_read_cdecimal rA 10 [32; 45; 48; 46; 49; 50; 53; 32]) rA exSq = Some ((MP_TRUNC, Some [32]), Some (-1), Some 8).
Proof.
  split; [|by vm_compute]. exists [32], [45], [48], [0], [49; 50; 53], [1; 2; 5]. split; [done|]. split; [repeat constructor; unfold is_space; lia|]. split; [tauto|].
  split; [by repeat constructor|]. split; [by repeat constructor|]. split; [intros c d [= <-] [[=] _]|]. split; [|done]. intros c [= <-]. unfold is_space. lia.
Qed.
Print Assumptions C41_read_point.
(** Without a point: an integer. *)
Theorem C41_read_nopoint st V W r radix s n rest :
  Rep st V W -> structs [r] -> rat_live V r -> 2 <= radix <= 36 -> Z.of_nat (length s) < 2 ^ 31 -> reads radix s n rest -> head rest <> Some 46 ->
  calls (mp_rat_read_cdecimal r radix s) st (fun x st' =>
    x = (match rest with [] => MP_OK | _ :: _ => MP_TRUNC end, Some rest) /\ Rep st' (set_rat r (inject_Z n) V) W).
Proof.
  intros H HS HL Hr Hl H1 Hh. eapply by_rule; [done|]. intros st1 HV. eapply wpV_rat_read_nopoint; [exact HV|apply (HS r r); by left|done|done|done|exact H1|done|].
  intros st' HV'. split; [done|by apply RV_done].
Qed.
Example C41_read_nopoint_ex : result_rat (mp_rat_read_cdecimal rA 10 [45; 49; 50; 47; 53]) rA exSq = Some ((MP_TRUNC, Some [47; 53]), Some (-12), Some 1).
Proof. by vm_compute. Qed.
Print Assumptions C41_read_nopoint.
(** A point followed by white space or a sign: MP_TRUNC and the integer before it,
    and the place where the number ends is not reported. *)
Theorem C41_read_badpoint st V W r radix s n c u :
  Rep st V W -> structs [r] -> rat_live V r -> 2 <= radix <= 36 -> Z.of_nat (length s) < 2 ^ 31 -> reads radix s n (46 :: c :: u) -> is_space c \/ c = 43 \/ c = 45 ->
  calls (mp_rat_read_cdecimal r radix s) st (fun x st' => x = (MP_TRUNC, None) /\ Rep st' (set_rat r (inject_Z n) V) W).
Proof.
  intros H HS HL Hr Hl H1 Hc. eapply by_rule; [done|]. intros st1 HV. eapply wpV_rat_read_badpoint; [exact HV|apply (HS r r); by left|done|done|done|exact H1|done|].
  intros st' HV'. split; [done|by apply RV_done].
Qed.
Example C41_read_badpoint_ex : result_rat (mp_rat_read_cdecimal rA 10 [55; 46; 45; 53]) rA exSq = Some ((MP_TRUNC, None), Some 7, Some 1).
Proof. by vm_compute. Qed.
Print Assumptions C41_read_badpoint.
(** On any string at all: a rational in lowest terms, and MP_OK or MP_TRUNC. *)
Theorem C41_read_any st V W r radix s :
  Rep st V W -> structs [r] -> rat_live V r -> 2 <= radix <= 36 -> Z.of_nat (length s) < 2 ^ 31 ->
  calls (mp_rat_read_cdecimal r radix s) st (fun x st' => (fst x = MP_OK \/ fst x = MP_TRUNC) /\ exists q, Rep st' (set_rat r q V) W).
Proof.
  intros H HS HL Hr Hl. eapply by_rule; [done|]. intros st1 HV. eapply wpV_rat_readd_any; [exact HV|apply (HS r r); by left|done|done|done|].
  intros st' q x e Hx HV'. split; [done|]. exists q. by apply RV_done.
Qed.
Example C41_read_any_ex : result_rat (mp_rat_read_cdecimal rA 10 [120; 46; 45; 53]) rA exSq = Some ((MP_TRUNC, Some [120; 46; 45; 53]), Some 0, Some 1).
Proof. by vm_compute. Qed.
Print Assumptions C41_read_any.
(** [mp_rat_read_decimal] is the same without the rest of the string. *)
Theorem C41_read_decimal st V W r radix s q rest :
  Rep st V W -> structs [r] -> rat_live V r -> 2 <= radix <= 36 -> Z.of_nat (length s) < 2 ^ 31 -> reads_point radix s q rest ->
  calls (mp_rat_read_decimal r radix s) st (fun x st' => x = match rest with [] => MP_OK | _ :: _ => MP_TRUNC end /\ Rep st' (set_rat r q V) W).
Proof.
  intros H HS HL Hr Hl H1. eapply by_rule; [done|]. intros st1 HV. unfold mp_rat_read_decimal. wb. eapply wpV_rat_read_point; [exact HV|apply (HS r r); by left|done|done|done|exact H1|].
  intros st' HV'. apply wp_ret. split; [done|by apply RV_done].
Qed.
Example C41_read_decimal_ex : result_rat (mp_rat_read_decimal rA 16 [46; 70; 56]) rA exSq = Some (MP_OK, Some 31, Some 32).
Proof. by vm_compute. Qed.
Print Assumptions C41_read_decimal.
(** What [mp_rat_to_decimal] writes is read back as the rounded number. *)
Theorem C41_round_trip st V W r r' q radix prec m b (off : nat) l limit N s :
  Rep st V W -> rat_at V r q -> structs [r'] -> rat_live V r' -> bufs W !! b = Some l -> 2 <= radix <= 36 -> 0 <= prec < 2 ^ 31 - 1 ->
  let n := Qnum (Qred q) in let d := Zpos (Qden (Qred q)) in let F := Z.abs n * radix ^ prec / d in
  rounds m (Z.abs n * radix ^ prec) d N -> (N = F \/ forall k, 1 <= k -> F mod radix ^ prec + 1 <> radix ^ k) -> 0 <= N ->
  decimal_text radix (Z.to_nat prec) (n <? 0) N s -> Z.of_nat (length s) + 2 <= limit < 2 ^ 31 -> (off + length s + 1 <= length l)%nat ->
  calls (x1 <- mp_rat_to_decimal r radix prec (rounding_code m) (b, Z.of_nat off) limit; x2 <- mp_rat_read_decimal r' radix s; Ret (x1, x2)) st
    (fun x st' => x = (MP_OK, MP_OK) /\
       Rep st' (set_rat r' (frac (if n <? 0 then - N else N) (radix ^ prec)) V) (with_buf W b (overwrite off (s ++ [0]) l))).
Proof.
  intros H [Hn Hd] HS HL Hb Hr Hp n d F HR HC HN Hs Hl Ho. eapply by_rule; [done|]. intros st1 HV.
  assert (2 + (if (n <? 0) && negb (N =? 0) then 1 else 0) <= limit) as HL2.
  { pose proof Hs as (i & f & Hi & _ & Es). assert (1 <= length i)%nat as Li by (destruct Hi as (ds & _ & _ & Hds & _ & ->); rewrite app_length, map_length; destruct ds; [done|cbn [length]; lia]).
    rewrite Es, !app_length in Hl. destruct (_ && _); cbn [length] in Hl; lia. }
  wb. eapply (wpV_rat_to_decimal _ _ _ _ n d radix prec m b off l limit N s); [exact HV|exact Hn|exact Hd|done|exact Hb|done|done|exact HR|exact HC|exact Hs|lia|exact HL2|lia| |lia].
  intros _ st' H'. unfold mp_rat_read_decimal. wb. wb. eapply wpV_rat_readd_text; [exact H'|apply (HS r' r'); by left|done|done|lia|exact HN|exact Hs|].
  intros st'' H''. apply wp_ret. apply wp_ret. split; [done|]. rewrite Z2Nat.id in H'' by lia. by apply RV_done_buf.
Qed.
Example C41_round_trip_ex : result_rat (x1 <- mp_rat_to_decimal rB 10 2 1 (bX, 0) 7; x2 <- mp_rat_read_decimal rA 10 [45; 48; 46; 52; 50]; Ret (x1, x2)) rA (exSqb 6) = Some ((MP_OK, MP_OK), Some (-21), Some 50).
Proof. by vm_compute. Qed.
Print Assumptions C41_round_trip.
(** [mp_rat_read_ustring] takes any of the three notations. *)
Theorem C41_read_either st V W r radix s q :
  Rep st V W -> structs [r] -> rat_live V r -> 2 <= radix <= 36 -> Z.of_nat (length s) < 2 ^ 31 ->
  (exists n, reads radix s n [] /\ q = inject_Z n) \/ reads_point radix s q [] \/
  (exists n sp s2 d, reads radix s n (sp ++ 47 :: s2) /\ Forall is_space sp /\ reads radix s2 d [] /\ d <> 0 /\ q = frac n d) ->
  calls (mp_rat_read_ustring r radix s) st (fun x st' => x = (MP_OK, []) /\ Rep st' (set_rat r q V) W).
Proof.
  intros H HS HL Hr Hl Hs. eapply by_rule; [done|]. intros st1 HV. assert (num r <> den r) as N by (apply (HS r r); by left). destruct Hs as [(n & H1 & ->)|[H1|(n & sp & s2 & d & H1 & H2 & H3 & H4 & ->)]].
  - eapply wpV_rat_read_u_int; [exact HV|done|done|done|done|exact H1|]. intros st' HV'. split; [done|by apply RV_done].
  - eapply wpV_rat_read_u_point; [exact HV|done|done|done|done|exact H1|]. intros st' HV'. split; [done|by apply RV_done].
  - eapply wpV_rat_read_u_frac; [exact HV|done|done|done|done|exact H1|done|exact H3| |done]. intros _ st' HV'. split; [done|by apply RV_done].
Qed.
Example C41_read_either_ex :
  result_rat (mp_rat_read_ustring rA 10 [49; 47; 50]) rA exSq = Some ((MP_OK, []), Some 1, Some 2) /\
  result_rat (mp_rat_read_ustring rA 10 [46; 53]) rA exSq = Some ((MP_OK, []), Some 1, Some 2) /\
  result_rat (mp_rat_read_ustring rA 10 [45; 52]) rA exSq = Some ((MP_OK, []), Some (-4), Some 1).
Proof. by vm_compute. Qed.
Print Assumptions C41_read_either.
