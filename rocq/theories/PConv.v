(** Properties of the programs of examples/basecvt.c, input.c, rounding.c, findprime.c
    and randprime.c (C63).  The specification is in SpecConv. *)
From Coq Require Import ZArith List Lia QArith String.
From stdpp Require Import gmap list.
From Verif Require Import Mem Prog Kern Imath Imrat Exec Wp Spec SpecRat SpecHist SpecDec SpecGalloc SpecPrime SpecKey Outlen Public Gmpr Galloc Concrete PExhaust ExCalc ExRsakey ExRsakeyR SpecConv ExConv ExConvR ExConvS ExConvB.
Local Open Scope Z_scope.
Local Open Scope list_scope.

(** The result of a run from the empty state, and how many blocks and structures are left. *)
Definition ran {A} (orc : oracle) (p : prog A) : option (A * nat * nat) :=
  match run true orc p 0 st0 with Done x s _ => Some (x, size (mem s), size (objs s)) | _ => None end.

(** ** C63 The base converter *)
(** For every list of arguments, what is printed and the exit status are those of a
    session of the specification.  Everything the caller has is as before.
    [fits]: the number is small enough for the length functions (C39). *)
Theorem C63_basecvt st V W i o args :
  Rep st V W -> args <> [] -> 2 <= i <= 36 -> 2 <= o <= 36 -> Forall (fun s => Z.of_nat (List.length s) < 2 ^ 31) args ->
  (forall s q, In s args -> writes_rat i s q -> fits o q) ->
  calls (basecvt_main i o args) st (fun x st' => Rep st' V W /\ exists c, session i o true args (snd x) c /\ fst x = if c : bool then 0 else 1).
Proof.
  intros H Ha Hi Ho HL HF. eapply by_rule; [done|]. intros st1 HV. eapply wpV_basecvt; [exact HV|done..|]. intros b out st' HS HV'. split; [by apply RV_done|]. by exists b.
Qed.
Print Assumptions C63_basecvt.
(** Arguments of up to 3000 characters need no further condition. *)
Theorem C63_basecvt_short st V W i o args :
  Rep st V W -> args <> [] -> 2 <= i <= 36 -> 2 <= o <= 36 -> Forall (fun s => Z.of_nat (List.length s) <= 3000) args ->
  calls (basecvt_main i o args) st (fun x st' => Rep st' V W /\ exists c, session i o true args (snd x) c /\ fst x = if c : bool then 0 else 1).
Proof.
  intros H Ha Hi Ho HL. apply C63_basecvt; [done..| |].
  - eapply Forall_impl; [exact HL|]. cbn. intros s Hs. lia.
  - intros s q Hin Hq. eapply short_fits; [exact Hi|done| |exact Hq]. rewrite Forall_forall in HL. apply HL. by apply elem_of_list_In.
Qed.
Example C63_basecvt_ex :
  Forall (fun s => Z.of_nat (List.length s) <= 3000) [bytes "255"; bytes "1/2"; bytes "0.5"; bytes "x"; bytes "12.5z"; bytes "-6/4"; bytes "1/0"; bytes "7"] /\
  ran orc_yes (basecvt_main 10 16 [bytes "255"; bytes "1/2"; bytes "0.5"; bytes "x"; bytes "12.5z"; bytes "-6/4"; bytes "1/0"; bytes "7"]) =
    Some (1, [Line (bytes "FF"); Line (bytes "1/2"); Line (bytes "1/2"); Junk (bytes "x"); Junk (bytes "z"); Line (bytes "-3/2"); Unreadable], 0%nat, 0%nat).
Proof. split; [repeat (apply Forall_cons; split; [by vm_compute|]); apply Forall_nil; exact I|by vm_compute]. Qed.
Print Assumptions C63_basecvt_short.
(** A printed line has the value of the argument: the numeral of an integer, or
    two numerals without a common factor, the second one above 1. *)
Theorem C63_line_value r s q t : 2 <= r <= 36 -> writes_rat r s q -> shown r q t ->
  exists n d, numeral r n (fst d) /\ (snd d = None /\ t = fst d /\ Qeq q (inject_Z n) \/ exists m y, snd d = Some y /\ numeral r m y /\ 1 < m /\ Z.gcd n m = 1 /\ t = fst d ++ 47 :: y /\ Qeq q (frac n m)).
Proof.
  intros Hr _ (x & Hx & Ht). exists (Qnum (Qred q)). destruct (Z.eqb_spec (Zpos (Qden (Qred q))) 1) as [E|E].
  - exists (x, None). cbn. split; [done|]. left. split; [done|]. split; [done|]. rewrite <- (Qred_correct q) at 1. unfold Qeq, inject_Z. cbn [Qnum Qden]. rewrite E. lia.
  - destruct Ht as (y & Hy & ->). exists (x, Some y). cbn. split; [done|]. right. destruct (Rat.Qred_num_den q) as [Hp Hg]. exists (Zpos (Qden (Qred q))), y.
    split; [done|]. split; [done|]. split; [lia|]. split; [done|]. split; [done|]. rewrite <- (Qred_correct q) at 1. pose proof (Rat.frac_eq (Qnum (Qred q)) (Zpos (Qden (Qred q))) ltac:(done)) as E2. unfold Qeq. lia.
Qed.
Print Assumptions C63_line_value.
Theorem C63_basecvt_radix st V W i o args :
  Rep st V W -> args <> [] -> ~ (2 <= i <= 36 /\ 2 <= o <= 36) -> calls (basecvt_main i o args) st (fun x st' => Rep st' V W /\ x = (3, [])).
Proof. intros H Ha Hr. eapply by_rule; [done|]. intros st1 HV. eapply basecvt_radix; [exact HV|done|done|]. split; [by apply RV_done|done]. Qed.
Example C63_basecvt_radix_ex : ran orc_yes (basecvt_main 10 37 [bytes "255"]) = Some (3, [], 0%nat, 0%nat).
Proof. by vm_compute. Qed.
Print Assumptions C63_basecvt_radix.
(** The exit status does not tell that something went wrong: it is 0 when memory
    runs out, and when an argument that is no number is followed by one that is. *)
Theorem C63_status_refuted : exists orc args i o,
  ran orc (basecvt_main i o [bytes "5"]) = Some (0, [No_memory], 0%nat, 0%nat) /\
  ran orc_yes (basecvt_main i o args) = Some (0, [Junk (bytes "x"); Line (bytes "101")], 0%nat, 0%nat) /\ In (bytes "x") args /\ no_number i (bytes "x").
Proof.
  exists (orc_but 6), [bytes "x"; bytes "5"], 10, 2. split; [by vm_compute|]. split; [by vm_compute|]. split; [by left|].
  change (bytes "x") with [120]. assert (reads 10 [120] 0 [120]) as HR.
  { exists [], [], [], []. split; [|done]. split_and!; [done|by constructor|by left|by constructor| |].
    - intros c d [= <-] [E ?]. vm_compute in E. injection E as <-. lia.
    - intros _ c [= <-]. unfold is_space. lia. }
  eapply no_number_intro; [exact HR|done| |].
  - intros [|c sp] s2 d E Hs _; [done|]. injection E as <- E. apply Forall_cons in Hs as [Hs _]. unfold is_space in Hs. lia.
  - done.
Qed.
Print Assumptions C63_status_refuted.

(** ** C63 input.c *)
(** The line that is printed is the number in the radix asked for; otherwise the
    error is reported with the part of the input that is not understood. *)
Theorem C63_input st V W radix s :
  Rep st V W -> 2 <= radix <= 36 -> Z.of_nat (List.length s) < 2 ^ 31 -> (forall q, writes_rat 10 s q -> fits radix q) ->
  calls (input_main radix s) st (fun x st' => Rep st' V W /\
    match x with
    | inl t => exists q, writes_rat 10 s q /\ shown radix q t
    | inr (r, e) => r = MP_UNDEF /\ over_zero 10 s /\ e = [] \/ r = MP_TRUNC /\ no_number 10 s /\ e <> [] /\ exists u, s = u ++ e
    end).
Proof.
  intros H Hr Hl HF. eapply by_rule; [done|]. intros st1 HV. eapply wpV_input; [exact HV|done..| | |].
  - intros q t st' Hq Ht HV'. split; [by apply RV_done|]. by exists q.
  - intros st' Hz HV'. split; [by apply RV_done|]. by left.
  - intros e st' Hn He Hu HV'. split; [by apply RV_done|]. by right.
Qed.
Theorem C63_input_short st V W radix s :
  Rep st V W -> 2 <= radix <= 36 -> Z.of_nat (List.length s) <= 3000 ->
  calls (input_main radix s) st (fun x st' => Rep st' V W /\
    match x with
    | inl t => exists q, writes_rat 10 s q /\ shown radix q t
    | inr (r, e) => r = MP_UNDEF /\ over_zero 10 s /\ e = [] \/ r = MP_TRUNC /\ no_number 10 s /\ e <> [] /\ exists u, s = u ++ e
    end).
Proof. intros H Hr Hl. apply C63_input; [done..|lia|]. intros q Hq. eapply (short_fits 10); [lia|done|exact Hl|exact Hq]. Qed.
Example C63_input_ex : ran orc_yes (input_main 16 (bytes "-25.5")) = Some (inl (bytes "-33/2"), 0%nat, 0%nat) /\
  ran orc_yes (input_main 16 (bytes "12/0")) = Some (inr (MP_UNDEF, []), 0%nat, 0%nat) /\ ran orc_yes (input_main 16 (bytes "12/7,")) = Some (inr (MP_TRUNC, bytes ","), 0%nat, 0%nat).
Proof. by vm_compute. Qed.
Print Assumptions C63_input.
Print Assumptions C63_input_short.

(** ** C63 rounding.c *)
(** The number rounded in the mode asked for, with that many digits - except for
    the carries that C40 refutes; a string that is no number is reported. *)
Theorem C63_rounding st V W m prec radix s :
  Rep st V W -> 2 <= radix <= 36 -> 0 <= prec < 2 ^ 29 -> Z.of_nat (List.length s) <= 3000 ->
  (forall q N, writes_decimal radix s q -> rounds m (Z.abs (Qnum (Qred q)) * radix ^ prec) (Zpos (Qden (Qred q))) N ->
     let F := Z.abs (Qnum (Qred q)) * radix ^ prec / Zpos (Qden (Qred q)) in N = F \/ forall k, 1 <= k -> F mod radix ^ prec + 1 <> radix ^ k) ->
  if_granted (rounding_main (rounding_code m) prec radix s) st (fun x st' => Rep st' V W /\
    match x with
    | (r, Some t) => r = MP_OK /\ exists q N, writes_decimal radix s q /\ rounds m (Z.abs (Qnum (Qred q)) * radix ^ prec) (Zpos (Qden (Qred q))) N /\ decimal_text radix (Z.to_nat prec) (Qnum (Qred q) <? 0) N t
    | (r, None) => r = MP_TRUNC /\ forall q, ~ writes_decimal radix s q
    end).
Proof.
  intros H Hr Hp Hl HF. eapply chk_wp; [apply rounding_chk_ok|]. eapply wpV_rounding_main; [by apply Rep_RV|done|done|lia| | |].
  - intros q Hq. split.
    + apply below_enough; [done|lia|]. apply (pow_20000 radix s); [done|done|]. pose proof (decimal_bound _ _ _ (proj1 Hr) Hq) as B. set (x := radix ^ _) in *. clearbody x. lia.
    + destruct (rounds_exists m (Z.abs (Qnum (Qred q)) * radix ^ prec) (Zpos (Qden (Qred q)))) as [N HN]; [apply Z.mul_nonneg_nonneg; [lia|apply Z.pow_nonneg; lia]|lia|]. exists N. split; [done|]. by apply HF.
  - intros q N t st' Hq HR Ht HV'. split; [by apply RV_done|]. split; [done|]. by exists q, N.
  - intros st' Hn HV'. split; [by apply RV_done|]. done.
Qed.
Example C63_rounding_ex : ran orc_yes (rounding_main (rounding_code Half_up) 2 10 (bytes "-1.235")) = Some (MP_OK, Some (bytes "-1.24"), 0%nat, 0%nat) /\
  ran orc_yes (rounding_main (rounding_code Half_down) 2 10 (bytes "-1.235")) = Some (MP_OK, Some (bytes "-1.23"), 0%nat, 0%nat) /\
  ran orc_yes (rounding_main (rounding_code Half_down) 2 10 (bytes "1/2")) = Some (MP_TRUNC, None, 0%nat, 0%nat).
Proof. by vm_compute. Qed.
Print Assumptions C63_rounding.
(** An unknown mode prints a buffer nothing was written to; so does a refused
    request for the buffer end in undefined behaviour; a radix above 36 fails an
    assertion; and a carry gives a wrong number. *)
Theorem C63_rounding_refuted : exists s s' orc,
  run true orc_yes (rounding_main 4 2 10 s) 0 st0 = UB /\ run true orc (rounding_main (rounding_code Half_up) 2 10 s) 0 st0 = UB /\
  run true orc_yes (rounding_main (rounding_code Half_up) 2 37 s) 0 st0 = AssertFail /\
  s' = bytes "0.999" /\ ran orc_yes (rounding_main (rounding_code Up) 2 10 s') = Some (MP_OK, Some (bytes "0.100"), 0%nat, 0%nat).
Proof. exists (bytes "-1.235"), (bytes "0.999"), (orc_but 30). by vm_compute. Qed.
Print Assumptions C63_rounding_refuted.

(** ** C63 findprime.c *)
(** The least odd apparent prime from the number on is printed; numbers up to 131
    and other strings are refused. *)
Theorem C63_findprime st V W s :
  Rep st V W -> Z.of_nat (List.length s) < 2 ^ 31 -> (forall v w, writes 10 s v -> 131 < v -> next_prime v w -> w < 10 ^ 4095) ->
  calls (findprime_main s) st (fun x st' =>
    match x with
    | (0, Some t) => Rep st' V W /\ exists v w, writes 10 s v /\ 131 < v /\ next_prime v w /\ numeral 10 w t
    | (1, None) => exists v, writes 10 s v /\ v <= 131
    | (2, None) => ~ exists v, writes 10 s v
    | _ => False
    end).
Proof.
  intros H Hl HB. eapply by_rule; [done|]. intros st1 HV. eapply wpV_findprime; [exact HV|done|exact HB| | |].
  - intros v w t st' Hw Hv Hn Ht HV'. split; [by apply RV_done|]. by exists v, w.
  - intros v st' Hw Hv. by exists v.
  - intros st' Hn. done.
Qed.
Lemma writes_reads r s v : writes r s v -> reads r s v [].
Proof.
  intros (sp & sg & body & ds & -> & Hsp & HF & Hv). exists sp, sg, body, ds. split.
  - split; [by rewrite app_nil_r|]. split; [done|]. split; [destruct Hv as [[[->| ->] _]|[-> _]]; auto|]. split; [done|]. split; [done|].
    intros -> c Hc. rewrite app_nil_r in Hc. destruct body as [|x body]; [done|]. eapply (RatDec.digit_head r (x :: body) ds []); [exact HF|done|exact Hc].
  - destruct Hv as [[Hs ->]|[-> ->]]; [|done]. destruct (decide _) as [->|]; [|done]. destruct Hs; done.
Qed.
Example C63_findprime_ex : ran orc_yes (findprime_main (bytes "132")) = Some (0, Some (bytes "137"), 0%nat, 0%nat) /\
  writes 10 (bytes "132") 132 /\ (forall v w, writes 10 (bytes "132") v -> 131 < v -> next_prime v w -> w <= 137).
Proof.
  assert (writes 10 (bytes "132") 132) as HW.
  { exists [], [], (bytes "132"), [1; 3; 2]. split; [done|]. split; [constructor|]. split; [repeat constructor|]. left. by split; [left|]. }
  split; [by vm_compute|]. split; [done|]. intros v w Hv _ (H1 & H2 & H3 & H4). destruct (Z_le_gt_dec w 137) as [|G]; [done|]. exfalso.
  destruct (reads_det _ _ _ _ _ _ (writes_reads _ _ _ Hv) (writes_reads _ _ _ HW)) as [-> _]. apply (H4 137); [lia|done|]. left. apply Prime.ptab_spec. assert (existsb (Z.eqb 137) Iprime.s_ptab = true) as E by (by vm_compute). apply existsb_exists in E as (x & Hx & E). by apply Z.eqb_eq in E as <-.
Qed.
Print Assumptions C63_findprime.
(** When it refuses a number, the memory of the number is not freed. *)
Theorem C63_findprime_leak_refuted : exists s, writes 10 s 131 /\ ran orc_yes (findprime_main s) = Some (1, None, 1%nat, 0%nat).
Proof.
  exists (bytes "131"). split; [|by vm_compute]. exists [], [], (bytes "131"), [1; 3; 1]. split; [done|]. split; [constructor|]. split; [repeat constructor|]. left. by split; [left|].
Qed.
Print Assumptions C63_findprime_leak_refuted.

(** ** C63 randprime.c *)
(** The least odd apparent prime from the number on that the random bytes make,
    with one bit less than the number asked for (made even). *)
Theorem C63_randprime st V W bits d :
  Rep st V W -> 8 <= bits < 2 ^ 32 - 9 -> good_draw d -> let n := bits + bits mod 2 - 1 in
  calls (randprime_main None bits d) st (fun x st' => Rep st' V W /\
    match x with
    | inl t => exists bs s p, taken n d bs /\ seed_of n bs s /\ next_prime s p /\ numeral 10 p t
    | inr r => r = MP_MEMORY \/ r = MP_TRUNC /\ short n d
    end).
Proof.
  intros H Hb Hd n. eapply by_rule; [done|]. intros st1 HV. eapply wpV_randprime; [exact HV|done|done|done| |].
  - intros bs s p t st' H1 H2 H3 H4 HV'. split; [by apply RV_done|]. by exists bs, s, p.
  - intros r st' Hr HV'. split; [by apply RV_done|done].
Qed.
Example C63_randprime_ex : ran orc_yes (randprime_main None 10 (Some [7; 8; 9])) = Some (inl (bytes "269"), 0%nat, 0%nat) /\ good_draw (Some [7; 8; 9]) /\
  ran orc_yes (randprime_main None 10 (Some [7])) = Some (inr MP_TRUNC, 0%nat, 0%nat).
Proof. split; [by vm_compute|]. split; [|by vm_compute]. repeat (apply Forall_cons; split; [unfold SpecBin.is_byte; lia|]); by apply Forall_nil. Qed.
Print Assumptions C63_randprime.
(** With the option for strong primes: twice the least odd apparent prime [h] for
    which that and one is one too, and one - if there is such an [h] in reach (the
    program goes on until it has found one). *)
Theorem C63_randprime_strong st V W bits d k :
  Rep st V W -> 8 <= bits < 2 ^ 32 - 9 -> good_draw d -> let n := bits + bits mod 2 - 1 in
  (forall bs s, taken n d bs -> seed_of n bs s -> exists h, next_strong s h /\ h - s < 2 ^ Z.of_nat k) ->
  calls (randprime_main (Some k) bits d) st (fun x st' => Rep st' V W /\
    match x with
    | inl t => exists bs s h, taken n d bs /\ seed_of n bs s /\ next_strong s h /\ numeral 10 (2 * h + 1) t
    | inr r => r = MP_MEMORY \/ r = MP_TRUNC /\ short n d
    end).
Proof.
  intros H Hb Hd n HS. eapply by_rule; [done|]. intros st1 HV. eapply (wpV_randprime _ _ _ (Some k) bits d); [exact HV|done|done| | |].
  - intros k' bs s [= <-]. apply HS.
  - intros bs s p t st' H1 H2 (h & H3 & ->) H4 HV'. split; [by apply RV_done|]. by exists bs, s, h.
  - intros r st' Hr HV'. split; [by apply RV_done|done].
Qed.
Example C63_randprime_strong_ex : ran orc_yes (randprime_main (Some 5%nat) 10 (Some [7; 8; 9])) = Some (inl (bytes "563"), 0%nat, 0%nat).
Proof. by vm_compute. Qed.
Print Assumptions C63_randprime_strong.
(** The number need not have as many bits as were asked for: ten were. *)
Theorem C63_randprime_bits_refuted : exists d, good_draw d /\ ran orc_yes (randprime_main None 10 d) = Some (inl (bytes "269"), 0%nat, 0%nat) /\ 269 < 2 ^ 9.
Proof. exists (Some [7; 8; 9]). split; [repeat (apply Forall_cons; split; [unfold SpecBin.is_byte; lia|]); by apply Forall_nil|]. split; [by vm_compute|lia]. Qed.
Print Assumptions C63_randprime_bits_refuted.
