(** The functions of the GMP interface that obtain memory themselves (C57).  See
    [Spec], [SpecGmp], [SpecGstr] and [SpecGalloc]. *)
From Coq Require Import ZArith List Lia QArith.
From stdpp Require Import gmap list.
From Verif Require Import SpecHist.
From Verif Require Import Mem Prog Kern Fp Imath Imrat Gmp Exec Wp MemLem Dig KernLem Rel RelWp RelZ Life Basic Basic2 Mult Shift Knuth Divi Powr Spec SpecBin SpecGmp Public Gcd SpecRat Rat Buf Text Read Outlen SpecDec Concrete ConcreteRat.
From Verif Require Import Inlen Bin Gmpr Impexp Rsa RatText RatDec RatOut SpecGstr Outup Gmpstr GmpAlloc SpecGalloc Chk Galloc.
Local Open Scope Z_scope.
Local Open Scope prog_scope.

(** ** C57 Text in a new block *)
(** With a NULL buffer the text is in a block that did not exist before, which is
    then the caller's; at most one byte of it is not used. *)
Theorem C57_get_str st V W z v radix s :
  Rep st V W -> V !! z = Some v -> 2 <= Z.abs radix <= 36 -> Z.abs v < 2 ^ Z.min (enough_bits (Z.abs radix)) (2 ^ 29) ->
  gmp_numeral (radix <? 0) (Z.abs radix) v s ->
  calls (mpz_get_str_any None radix z) st (fun p st' => exists l, fresh_block (bufs W) p (s ++ [0]) 1 l /\ Rep st' V (with_buf W (fst p) l)).
Proof.
  intros H Hz Hr Hv Hs. eapply by_rule; [done|]. intros st1 HV. eapply wpV_get_str_new; [exact HV|exact Hz|done..|].
  intros p l st' Hp H'. exists l. split; [exact Hp|by apply RV_done_buf].
Qed.
Definition text_at (r : outcome ptr) : option (list cell) := match r with Done p st _ => mem st !! fst p | _ => None end.
Example C57_get_str_ex : text_at (exec (mpz_get_str_any None 16 hD) exS) = Some [Some 45; Some 99; Some 0] /\ gmp_numeral false 16 vD [45; 99].
Proof. split; [by vm_compute|]. exists [12]. by repeat constructor. Qed.
Print Assumptions C57_get_str.
(** Freeing it gives everything back. *)
Theorem C57_get_str_free st V W z v radix s :
  Rep st V W -> V !! z = Some v -> 2 <= Z.abs radix <= 36 -> Z.abs v < 2 ^ Z.min (enough_bits (Z.abs radix)) (2 ^ 29) ->
  gmp_numeral (radix <? 0) (Z.abs radix) v s ->
  calls (p <- mpz_get_str_any None radix z; Free p (Ret tt)) st (fun _ st' => Rep st' V W).
Proof.
  intros H Hz Hr Hv Hs. eapply by_rule; [done|]. intros st1 HV. wb. eapply wpV_get_str_new; [exact HV|exact Hz|done..|].
  intros p l st' (n & rest & -> & Hn & El & _) H'. cbn [fst] in H'. eapply wp_Free; [cbn [live_heap]; eapply RV_mem; [exact H'|apply setb_lookup]|]. apply wp_ret. cbn [fst].
  pose proof (RV_delB _ _ _ _ _ H' (setb_lookup _ _ _)) as H2. rewrite setb_del in H2 by exact Hn. by apply RV_done.
Qed.
Example C57_get_str_free_ex : match exec (p <- mpz_get_str_any None 16 hD; Free p (Ret tt)) exS with Done _ st _ => Some (size (mem st)) | _ => None end = Some (size (mem exS)).
Proof. by vm_compute. Qed.
Print Assumptions C57_get_str_free.
(** With a buffer, the result is that buffer, and it gets the text (as in C52). *)
Theorem C57_get_str_given st V W z v radix b (off : nat) l s :
  Rep st V W -> V !! z = Some v -> bufs W !! b = Some l -> 2 <= Z.abs radix <= 36 ->
  Z.abs v < 2 ^ Z.min (enough_bits (Z.abs radix)) (2 ^ 29) ->
  gmp_numeral (radix <? 0) (Z.abs radix) v s -> (off + length s + 1 <= length l)%nat ->
  calls (mpz_get_str_any (Some (b, Z.of_nat off)) radix z) st (fun p st' => p = (b, Z.of_nat off) /\ Rep st' V (with_buf W b (overwrite off (s ++ [0]) l))).
Proof.
  intros H Hz Hb Hr Hv Hs Hl. eapply by_rule; [done|]. intros st1 HV. unfold mpz_get_str_any.
  replace (if radix <? 0 then - radix else radix) with (Z.abs radix) by (destruct (Z.ltb_spec radix 0); lia).
  wb. eapply wpV_string_len; [exact HV|exact Hz|done|]. wb. eapply wpV_get_str_tail; [exact HV|exact Hz|exact Hb|exact Hr|exact Hv|exact Hs|done|exact Hl|].
  intros st' H'. apply wp_ret. split; [done|by apply RV_done_buf].
Qed.
Example C57_get_str_given_ex : result_buf (mpz_get_str_any (Some (bX, 1)) (-16) hD) (exB 4) = Some ((bX, 1), Some [None; Some 45; Some 67; Some 0]).
Proof. by vm_compute. Qed.
Print Assumptions C57_get_str_given.
(** A rational that is an integer: *)
Theorem C57_mpq_get_str_int st V W r q radix s :
  Rep st V W -> rat_at V r q -> 2 <= Z.abs radix <= 36 -> Zpos (Qden (Qred q)) = 1 ->
  Z.abs (Qnum (Qred q)) < 2 ^ Z.min (enough_bits (Z.abs radix)) (2 ^ 29) ->
  gmp_numeral (radix <? 0) (Z.abs radix) (Qnum (Qred q)) s ->
  calls (mpq_get_str_any None radix r) st (fun p st' => exists l, fresh_block (bufs W) p (s ++ [0]) 1 l /\ Rep st' V (with_buf W (fst p) l)).
Proof.
  intros H [Hn Hd] Hx Hd1 Bn Hs. eapply by_rule; [done|]. intros st1 HV. unfold mpq_get_str_any, mp_rat_denom_ref, mp_rat_numer_ref. wb. rewrite Hd1 in Hd.
  eapply wpV_compare_value; [exact HV|exact Hd|lia|]. intros st2 HV2. change (Z.sgn (1 - 1) =? 0) with true. cbv iota.
  eapply wpV_get_str_new; [exact HV2|exact Hn|done..|]. intros p l st' Hp H'. exists l. split; [exact Hp|by apply RV_done_buf].
Qed.
Example C57_mpq_get_str_int_ex : text_at (exec (mpq_get_str_any None 10 rC) exSq) = Some [Some 48; Some 0] /\ Zpos (Qden (Qred 0)) = 1.
Proof. by vm_compute. Qed.
Print Assumptions C57_mpq_get_str_int.
(** It is not so for a rational that is not an integer: for 8/9 the block has 6 bytes,
    the text and its terminator 4, and the case of the other two, which nobody has
    written, is changed too. *)
Theorem C57_mpq_get_str_refuted : exists st V W r q,
  Rep st V W /\ rat_at V r q /\ (q == 8 # 9)%Q /\ gmp_ratio false 10 q [56; 47; 57] /\ run false orc_yes (mpq_get_str_any None 10 r) 0 st = UB.
Proof.
  exists (put (H 28) 9 (put (H 27) 8 exSq)), (<[H 28 := 9]> (<[H 27 := 8]> exVq)), world0, (H 27, H 28), (8 # 9)%Q.
  split; [do 2 (apply Rep_put; [|reflexivity|by vm_compute]); apply exq_rep|].
  split; [by vm_compute|]. split; [done|]. split; [|by vm_compute].
  exists [56], [57]. split; [exists [8]; by repeat constructor|]. split; [exists [9]; by repeat constructor|done].
Qed.
Print Assumptions C57_mpq_get_str_refuted.

(** ** C57 Export to a new block *)
(** The words are in a new block, of exactly their size; for zero there is none. *)
Theorem C57_export st V W z v size count order endian :
  Rep st V W -> V !! z = Some v -> (0 < size)%nat -> valid_order order -> valid_endian endian -> word_count size v count -> Z.of_nat (size * count) < 2 ^ 63 ->
  if_granted (mpz_export_any None order (Z.of_nat size) endian 0 z) st (fun x st' => snd x = Z.of_nat count /\
    match fst x with
    | None => v = 0 /\ Rep st' V W
    | Some p => exists l, fresh_block (bufs W) p (words order endian size count (Z.abs v)) 0 l /\ Rep st' V (with_buf W (fst p) l)
    end).
Proof.
  intros H Hz Hs Ho He Hc Hf. eapply chk_wp; [apply export_chk_ok|]. eapply wpV_export_new; [by apply Rep_RV|exact Hz|done..| |].
  - intros -> ->. split; [done|]. by split.
  - intros p l st' Hv Hp H'. split; [done|]. exists l. split; [exact Hp|by apply RV_done_buf].
Qed.
Example C57_export_ex : match exec (mpz_export_any None 1 2 (-1) 0 hB) exS with Done (Some p, 5) st _ => mem st !! fst p | _ => None end = Some (Some <$> words 1 (-1) 2 5 (2 ^ 64 + 7)).
Proof. by vm_compute. Qed.
Print Assumptions C57_export.
(** When the request for the block is refused, the null pointer is written to. *)
Theorem C57_export_refused_refuted : exists st V W z v orc,
  Rep st V W /\ V !! z = Some v /\ run true orc (mpz_export_any None 1 2 (-1) 0 z) 0 st = UB.
Proof. exists exS, exV, world0, hB, vB, (orc_first 0). split; [apply ex_rep|]. split; by vm_compute. Qed.
Print Assumptions C57_export_refused_refuted.

(** ** C57 The copy [mpq_set_str] makes *)
(** The function reads what C52 says, the copy is gone afterwards, and nothing else
    has changed. *)
Theorem C57_set_str st V W r base s1 s2 n d rest1 rest2 :
  Rep st V W -> structs [r] -> rat_live V r -> 2 <= base <= 36 -> Z.of_nat (length s1) < 2 ^ 31 -> Z.of_nat (length s2) < 2 ^ 31 ->
  47 ∉ s1 -> 0 ∉ s1 -> 0 ∉ s2 -> reads base s1 n rest1 -> reads base s2 d rest2 ->
  if_granted (mpq_set_str_copy r (s1 ++ 47 :: s2) base) st (fun x st' =>
    x = (match rest1, rest2 with [], [] => 0 | _, _ => -1 end) /\ Rep st' (<[snd r := d]> (<[fst r := n]> V)) W).
Proof.
  intros H HS [[v1 H1] [v2 H2]] Hb L1 L2 N47 N1 N2 R1 R2. assert (fst r <> snd r) as N by (apply (HS r r); by left).
  edestruct (wpV_mpq_set_str_copy st V (ctx_of W) r base s1 s2 n d rest1 rest2 v1 v2 (fun x st' => x = (match rest1, rest2 with [], [] => 0 | _, _ => -1 end) /\ Rep st' (<[snd r := d]> (<[fst r := n]> V)) W)) as (p' & HC & HW); try done; [by apply Rep_RV| |by eapply chk_wp].
  intros st' H'. split; [done|by apply RV_done].
Qed.
Example C57_set_str_ex : result_rat (mpq_set_str_copy rA [45; 54; 47; 52] 10) rA exSq = Some (0, Some (-6), Some 4) /\ result_rat (mpq_set_str_copy rA [51; 47; 48; 52; 120] 10) rA exSq = Some (-1, Some 3, Some 4).
Proof. by vm_compute. Qed.
Print Assumptions C57_set_str.
Theorem C57_set_str_int st V W r base s n rest :
  Rep st V W -> structs [r] -> rat_live V r -> 2 <= base <= 36 -> Z.of_nat (length s) < 2 ^ 31 -> 47 ∉ s -> 0 ∉ s -> reads base s n rest ->
  if_granted (mpq_set_str_copy r s base) st (fun x st' => x = (match rest with [] => 0 | _ => -1 end) /\ Rep st' (set_rat r (inject_Z n) V) W).
Proof.
  intros H HS [[v1 H1] [v2 H2]] Hb L1 N47 N1 R1. assert (fst r <> snd r) as N by (apply (HS r r); by left).
  edestruct (wpV_mpq_set_str_int_copy st V (ctx_of W) r base s n rest v1 v2 (fun x st' => x = (match rest with [] => 0 | _ => -1 end) /\ Rep st' (set_rat r (inject_Z n) V) W)) as (p' & HC & HW); try done; [by apply Rep_RV| |by eapply chk_wp].
  intros st' H'. split; [done|apply RV_done]. eapply RV_eqV; [exact H'|]. unfold set_rat. rewrite Qred_int. done.
Qed.
Example C57_set_str_int_ex : result_rat (mpq_set_str_copy rA [45; 54] 10) rA exSq = Some (0, Some (-6), Some 1).
Proof. by vm_compute. Qed.
Print Assumptions C57_set_str_int.
(** When the request for the copy is refused, the null pointer is written to. *)
Theorem C57_set_str_refused_refuted : exists st V W r orc,
  Rep st V W /\ rat_live V r /\ run true orc (mpq_set_str_copy r [45; 54] 10) 0 st = UB.
Proof. exists exSq, exVq, world0, rA, (orc_first 0). split; [apply exq_rep|]. split; [by split; eexists; vm_compute|by vm_compute]. Qed.
Print Assumptions C57_set_str_refused_refuted.
