(** Programs written against the GMP interface (C65).  See [SpecGHist] for what each
    call means for the store of integers and rationals; [do_gcall] and [drive_g]
    ([GHist]) run the function of the interface for each call. *)
From Coq Require Import ZArith List Lia QArith Qabs.
From stdpp Require Import gmap list.
From Verif Require Import Mem Prog Kern Imath Imrat Gmp Exec Wp Spec SpecBin SpecHist SpecRat SpecDec SpecGmp SpecGstr SpecQHist SpecGHist Public Concrete Text Hist Rat Gmpstr Impexp ExConvR QHist GHist PQHist.
Local Open Scope Z_scope.
Local Open Scope prog_scope.
Local Open Scope list_scope.

(** The numerator and the denominator are set as integers and brought to lowest
    terms: 6/-4.  If it is negative, it is rounded down to an integer, which is
    counted up and multiplied, and the rational is cleared. *)
Definition exG : gclient :=
  GThen (PInit xA) (fun _ => GThen (ZSetSi (fst xA) 6) (fun _ => GThen (ZSetSi (snd xA) (-4)) (fun _ => GThen (PCanonicalize xA) (fun _ =>
  GThen (PSgn xA) (fun r => match r with
    | Plain (Num n) => if n <? 0 then GThen (ZInit (H 5)) (fun _ => GThen (ZFdivQ (H 5) (fst xA) (snd xA)) (fun _ => GThen (ZSubUi (H 5) (H 5) 5) (fun _ =>
        GThen (Lib (Int (Sqr (H 5) (H 5)))) (fun _ => GThen (PClear xA) (fun _ => GStop)))))
                       else GStop
    | _ => GStop end))))).
Lemma exG_ok : gwell_behaved exG (blank_mixed xO).
Proof.
  unfold exG. cbn [gwell_behaved]. split; [split; [done|]; split; by vm_compute; eexists|]. intros r0 M0 [-> ->].
  cbn [gwell_behaved]. split; [split; [by vm_compute; eexists|done]|]. intros r1 M1 [-> ->].
  cbn [gwell_behaved]. split; [split; [by vm_compute; eexists|done]|]. intros r2 M2 [-> ->].
  cbn [gwell_behaved]. split; [split; [by vm_compute; eexists|by vm_compute]|]. intros r3 M3 [-> ->].
  cbn [gwell_behaved]. split; [by vm_compute; eexists|]. intros r4 M4 (n & -> & -> & _).
  destruct (n <? 0); [|done]. cbn [gwell_behaved]. split; [by vm_compute; eexists|]. intros r5 M5 [-> ->].
  cbn [gwell_behaved]. split; [split_and!; [by vm_compute; eexists|by vm_compute; eexists|by vm_compute; eexists|by vm_compute]|]. intros r6 M6 [-> ->].
  cbn [gwell_behaved]. split; [split_and!; [by vm_compute; eexists|by vm_compute; eexists|done]|]. intros r7 M7 [-> ->].
  cbn [gwell_behaved]. split; [split; [split; by vm_compute; eexists|]; intros o ->%elem_of_list_singleton; apply not_member; by vm_compute|]. intros r8 M8 (a & S' & -> & [-> ->] & ->).
  cbn [gwell_behaved]. split; [by vm_compute; eexists|]. done.
Qed.

(** ** C65 Programs written against the GMP interface behave like a store of integers and rationals *)
Theorem C65_history k st M :
  qshows st M -> gwell_behaved k M -> calls (drive_g k) st (fun h st' => exists M', ghistory k M h M' /\ qshows st' M').
Proof.
  intros HS HW. apply wp_calls. eapply wp_mono; [apply drive_g_ok; [by apply qshows_QH|done]|]. intros h st' (M' & Hh & HS'). exists M'. split; [done|]. by apply qshows_QH.
Qed.
Example C65_history_ex : qshows (declares xO) (blank_mixed xO) /\ gwell_behaved exG (blank_mixed xO) /\
  match exec (drive_g exG) (declares xO) with Done h st' _ => map snd h = [Plain Nothing; Plain Nothing; Plain Nothing; Plain Nothing; Plain (Num (-1));
    Plain Nothing; Plain Nothing; Plain Nothing; Plain (Num 0); Plain Nothing] /\ value_of st' (H 5) = Some 49 | _ => False end.
Proof. split; [apply blank_mixed_ok|]. split; [apply exG_ok|]. by vm_compute. Qed.
Print Assumptions C65_history.

(** No undefined behaviour, no failing assertion (the interface asserts that every
    operation succeeds), no endless loop. *)
Theorem C65_safe k st M orc t :
  qshows st M -> gwell_behaved k M ->
  run true orc (drive_g k) t st <> UB /\ run true orc (drive_g k) t st <> AssertFail /\ run true orc (drive_g k) t st <> OutOfFuel.
Proof.
  intros HS HW. pose proof (C65_history k st M HS HW orc t) as HC. destruct (run true orc (drive_g k) t st); done.
Qed.
Lemma exG_runs : match run true orc_yes (drive_g exG) 0 (declares xO) with Done _ _ _ => True | _ => False end. Proof. by vm_compute. Qed.
Example C65_safe_ex : exists h st' t', run true orc_yes (drive_g exG) 0 (declares xO) = Done h st' t'. Proof. pose proof exG_runs as E. destruct (run _ _ _ _ _); try done. by eexists _, _, _. Qed.
Print Assumptions C65_safe.

(** A rational whose members were not written to, or that was canonicalized after
    that, is in lowest terms in memory, and the quotient is what the store says. *)
Theorem C65_lowest_terms k st M :
  qshows st M -> gwell_behaved k M ->
  calls (drive_g k) st (fun h st' => exists M', ghistory k M h M' /\
    forall r q, fracs M' !! r = Some (Some q) -> exists n d b1 b2, holds st' (fst r) b1 n /\ holds st' (snd r) b2 (Zpos d) /\
      Z.gcd n (Zpos d) = 1 /\ (q == n # d)%Q /\ canonical st' (fst r) /\ canonical st' (snd r)).
Proof.
  intros HS HW orc t. pose proof (C65_history k st M HS HW orc t) as HC. destruct (run true orc (drive_g k) t st) as [h st' t'|n| | |]; try done.
  destruct HC as (M' & Hh & HS' & HT'). exists M'. split; [done|]. intros r q Hq. destruct (proj2 (proj2 HT') r q Hq) as [E1 E2].
  destruct (shows_holds _ _ _ _ HS' E1) as [b1 B1]. destruct (shows_holds _ _ _ _ HS' E2) as [b2 B2]. exists (Qnum (Qred q)), (Qden (Qred q)), b1, b2. destruct (Qred_num_den q) as [_ G].
  split_and!; [done|done|done| |by eapply holds_canonical|by eapply holds_canonical]. rewrite <- (Qred_correct q) at 1. by destruct (Qred q).
Qed.
(** "6/-4": stored as it stands, in lowest terms after [mpq_canonicalize]. *)
Definition exG1 (canon : bool) : gclient := GThen (PInit xA) (fun _ => GThen (PSetStr xA [54; 47; 45; 52] 10) (fun _ => if canon then GThen (PCanonicalize xA) (fun _ => GStop) else GStop)).
Definition exG1_run (canon : bool) := match exec (drive_g (exG1 canon)) (declares xO) with Done h st' _ => Some (map snd h, value_of st' (fst xA), value_of st' (snd xA)) | _ => None end.
Example C65_lowest_terms_ex : gwell_behaved (exG1 false) (blank_mixed xO) /\
  exG1_run false = Some ([Plain Nothing; Plain (Num 0)], Some 6, Some (-4)) /\ exG1_run true = Some ([Plain Nothing; Plain (Num 0); Plain Nothing], Some (-3), Some 2).
Proof.
  split; [|by vm_compute]. unfold exG1. cbn [gwell_behaved]. split; [split; [done|]; split; by vm_compute; eexists|]. intros r0 M0 [-> ->].
  cbn [gwell_behaved]. split; [split; [by vm_compute; eexists|done]|]. done.
Qed.
Print Assumptions C65_lowest_terms.

(** Every block from malloc at the end belongs to one integer of the store, be it
    the member of a rational, or is the caller's, and no structure is left behind:
    the temporary variables of the interface are gone. *)
Theorem C65_no_leak k st M :
  qshows st M -> gwell_behaved k M ->
  calls (drive_g k) st (fun h st' => exists M', ghistory k M h M' /\
    (forall n l, mem st' !! Hp n = Some l -> (exists o, has (whole M') o /\ block_of st' o = Some (Hp n)) \/ is_Some (text (whole M) !! Hp n)) /\
    (forall o1 o2, has (whole M') o1 -> has (whole M') o2 -> block_of st' o1 = block_of st' o2 -> o1 = o2) /\
    (forall o, is_Some (objs st' !! o) -> has (whole M') o \/ blank_at (whole M') o)).
Proof.
  intros HS HW orc t. pose proof (C65_history k st M HS HW orc t) as HC. destruct (run true orc (drive_g k) t st) as [h st' t'|n| | |]; try done.
  destruct HC as (M' & Hh & HS' & HT'). exists M'. split; [done|]. split_and!.
  - intros n l Hl. destruct (shows_heap _ _ _ _ HS' Hl) as [(o & v & Ho & Hb)|Ht]; [left; exists o; split; [by eexists|done]|right].
    destruct (text (whole M) !! Hp n) eqn:E; [by eexists|]. apply (ghistory_text _ _ _ _ _ Hh) in E. rewrite E in Ht. by destruct Ht.
  - intros o1 o2 [v1 H1] [v2 H2]. destruct HS' as (W & HR & _). by eapply rep_apart.
  - intros o Ho. by eapply shows_objs.
Qed.
Example C65_no_leak_ex : match exec (drive_g exG) (declares xO) with Done _ st' _ => length (List.filter (fun p => match fst p with Hp _ => true | _ => false end) (map_to_list (mem st'))) = 1%nat /\ match block_of st' (H 5) with Some (Hp _) => True | _ => False end | _ => False end.
Proof. by vm_compute. Qed.
Print Assumptions C65_no_leak.

(** What is not an output of any of the calls, nor a member of a rational that is,
    is not changed. *)
Theorem C65_outputs k st M :
  qshows st M -> gwell_behaved k M ->
  calls (drive_g k) st (fun h st' => forall o v, ints (whole M) !! o = Some v -> (forall c x, (c, x) ∈ h -> o ∉ changed c) -> exists b, holds st' o b v).
Proof.
  intros HS HW orc t. pose proof (C65_history k st M HS HW orc t) as HC. destruct (run true orc (drive_g k) t st) as [h st' t'|n| | |]; try done.
  destruct HC as (M' & Hh & HS' & HT'). intros o v Ho HN. eapply shows_holds; [exact HS'|]. by eapply ghistory_ints.
Qed.
Example C65_outputs_ex : changed (ZAddMul (H 5) (H 1) (H 3)) = [H 5] /\ changed (PMul xA xB xB) = [H 1; H 2] /\ changed (ZDivisible (H 1) (H 3)) = [] /\ changed (ZSwap (H 1) (H 3)) = [H 1; H 3]. Proof. done. Qed.
Print Assumptions C65_outputs.

(** What a call answers and leaves is settled by the call and the store: [geffect]
    allows one outcome only.  Left out are the comparisons, of whose answers only the
    sign is settled, [mpz_sizeinbase], which may answer one too many, the two
    characters behind the text of a fraction, and the calls of the library proper. *)
Definition settled (c : gcall) : Prop :=
  match c with
  | Lib _ | ZSizeinbase _ _ | PGetStr _ _ _ _ | ZCmp _ _ | ZCmpSi _ _ | ZCmpabs _ _ | ZSgn _ | PCmp _ _ | PSgn _ => False
  | _ => True
  end.
Lemma gmp_numeral_unique up k v s s' : 2 <= k <= 36 -> gmp_numeral up k v s -> gmp_numeral up k v s' -> s = s'.
Proof.
  intros Hk H H'. destruct (gmp_numeral_of _ _ _ _ Hk H) as (t & Ht & -> & _). destruct (gmp_numeral_of _ _ _ _ Hk H') as (t' & Ht' & -> & _). by rewrite (numeral_unique k v t t' (proj1 Hk) Ht Ht').
Qed.
Lemma word_count_unique size v n n' : (0 < size)%nat -> word_count size v n -> word_count size v n' -> n = n'.
Proof.
  intros Hs [H1 H2] [H3 H4]. destruct (lt_eq_lt_dec n n') as [[L|E]|L]; [|done|].
  - specialize (H4 n L). lia.
  - specialize (H2 n' L). lia.
Qed.
Lemma has_bytes_unique l off bs bs' : length bs = length bs' -> has_bytes l off bs -> has_bytes l off bs' -> bs = bs'.
Proof.
  intros HL [_ H] [_ H']. apply list_eq. intros i. destruct (bs !! i) as [x|] eqn:E.
  - destruct (bs' !! i) as [y|] eqn:E'; [|apply lookup_ge_None in E'; apply lookup_lt_Some in E; lia]. specialize (H i x E). specialize (H' i y E'). congruence.
  - apply lookup_ge_None in E. symmetry. apply lookup_ge_None. lia.
Qed.
Theorem C65_settled c M r1 M1 r2 M2 :
  settled c -> glegal c M -> geffect c M r1 M1 -> geffect c M r2 M2 -> r1 = r2 /\ M1 = M2.
Proof.
  destruct c; cbn [settled glegal geffect]; cbv zeta; intros HS HL HE1 HE2; try done;
    try (destruct HE1 as [-> ->], HE2 as [-> ->]; done).
  - destruct HE1 as (v & E1 & -> & ->), HE2 as (v' & E2 & -> & ->). destruct HL as (_ & _ & _ & N & _). assert (v = v') as ->; [|done]. rewrite E1 in E2. by apply Z.mul_reg_r in E2.
  - destruct HE1 as (v & E1 & -> & ->), HE2 as (v' & E2 & -> & ->). destruct HL as (_ & _ & N & _). assert (v = v') as ->; [|done]. rewrite E1 in E2. apply Z.mul_reg_r in E2; [done|lia].
  - destruct HE1 as (b & -> & -> & B1), HE2 as (b' & -> & -> & B2). assert (b = b') as ->; [|done]. destruct b, b'; try done; [symmetry; by apply B2, B1|by apply B1, B2].
  - destruct HE1 as (v & rest & K1 & -> & ->), HE2 as (v' & rest' & K2 & -> & ->). destruct (reads_det _ _ _ _ _ _ K1 K2) as [-> ->]. done.
  - destruct HE1 as (l & t & L1 & K1 & -> & ->), HE2 as (l' & t' & L2 & K2 & -> & ->). rewrite L1 in L2. injection L2 as <-. destruct HL as (_ & Hk & _). rewrite (gmp_numeral_unique _ _ _ _ _ Hk K1 K2). done.
  - destruct HE1 as (l & n & L1 & K1 & -> & ->), HE2 as (l' & n' & L2 & K2 & -> & ->). rewrite L1 in L2. injection L2 as <-. destruct HL as (_ & Hs & _). rewrite (word_count_unique _ _ _ _ Hs K1 K2). done.
  - destruct HE1 as (l & v & L1 & V1 & K1 & -> & ->), HE2 as (l' & v' & L2 & V2 & K2 & -> & ->). rewrite L1 in L2. injection L2 as <-. destruct HL as (_ & Hs & _).
    assert (v = v') as ->; [|done]. eapply words_inj; [exact Hs|exact V1|exact V2|]. eapply has_bytes_unique; [|exact K1|exact K2]. by rewrite !words_length.
  - destruct HE1 as [(n & rest & N1 & K1 & -> & ->)|(s1 & s2 & n & d & t1 & t2 & E1 & N1 & K1 & J1 & -> & ->)], HE2 as [(n' & rest' & N2 & K2 & -> & ->)|(s1' & s2' & n' & d' & t1' & t2' & E2 & N2 & K2 & J2 & -> & ->)].
    + destruct (reads_det _ _ _ _ _ _ K1 K2) as [-> ->]. done.
    + subst s. set_solver.
    + subst s. set_solver.
    + pose proof (split_at_some 47 s1 s2 N1) as F1. pose proof (split_at_some 47 s1' s2' N2) as F2. rewrite <- E1 in F1. rewrite <- E2, F1 in F2. injection F2 as <- <-.
      destruct (reads_det _ _ _ _ _ _ K1 K2) as [-> ->], (reads_det _ _ _ _ _ _ J1 J2) as [-> ->]. done.
Qed.
Example C65_settled_ex : settled (ZFdivQ (H 5) (H 1) (H 2)) /\ settled (PSetStr xA [54; 47; 45; 52] 10) /\ glegal (ZInit (H 5)) (blank_mixed xO).
Proof. split; [done|]. split; [done|]. by vm_compute; eexists. Qed.
Print Assumptions C65_settled.
