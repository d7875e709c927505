(** Programs that use rationals and integers together (C56).  See [SpecQHist] for
    the store a client may think it works with; [do_qcall] and [drive_q] ([QHist])
    run the library's function for each call. *)
From Coq Require Import ZArith List Lia QArith Qabs.
From stdpp Require Import gmap list.
From Verif Require Import Mem Prog Kern Imath Imrat Exec Wp Spec SpecBin SpecHist SpecRat SpecDec SpecQHist Public Concrete Hist Rat QHist.
Local Open Scope Z_scope.
Local Open Scope prog_scope.
Local Open Scope list_scope.

(** The members of two rationals and an integer. *)
Definition xA : oid * oid := (H 1, H 2).
Definition xB : oid * oid := (H 3, H 4).
Definition xO : list oid := [H 1; H 2; H 3; H 4; H 5].
Definition blank_mixed (os : list oid) : mixed := Mixed (blank_store os) ∅.
(** 6/-4 + 1/3 is computed in place; if it is negative, its reciprocal is taken
    and the numerator copied to an integer. *)
Definition exQ : qclient :=
  QThen (QInit xA) (fun _ => QThen (QInit xB) (fun _ => QThen (Int (Init (H 5))) (fun _ =>
  QThen (QSetValue xA 6 (-4)) (fun _ => QThen (QSetValue xB 1 3) (fun _ => QThen (QAdd xA xB xA) (fun _ =>
  QThen (QCompareZero xA) (fun r => match r with
    | Plain (Num n) => if n <? 0 then QThen (QRecip xA xB) (fun _ => QThen (QNumer xB (H 5)) (fun _ => QThen (Int (Sqr (H 5) (H 5))) (fun _ => QThen (QClear xA) (fun _ => QThen (QClear xB) (fun _ => QStop)))))
                       else QStop
    | _ => QStop end))))))).
Lemma not_member M o : bool_decide (Forall (fun p => o <> p.1.1 /\ o <> p.1.2) (map_to_list (fracs M))) = true -> ~ member M o.
Proof.
  intros E (r & [x Hr] & Ho). apply bool_decide_eq_true in E. rewrite Forall_forall in E. apply elem_of_map_to_list in Hr. destruct (E _ Hr) as [N1 N2]. cbn in N1, N2. destruct Ho; congruence.
Qed.
Lemma exQ_ok : qwell_behaved exQ (blank_mixed xO).
Proof.
  unfold exQ. cbn [qwell_behaved]. split; [split; [done|]; split; by vm_compute; eexists|]. intros r0 M0 [-> ->].
  cbn [qwell_behaved]. split; [split; [done|]; split; by vm_compute; eexists|]. intros r1 M1 [-> ->].
  cbn [qwell_behaved]. split; [split; [by vm_compute; eexists|]; intros o ->%elem_of_list_singleton; apply not_member; by vm_compute|]. intros r2 M2 (a & S' & -> & [-> ->] & ->).
  cbn [qwell_behaved]. split; [split; [by vm_compute; eexists|done]|]. intros r3 M3 E3. cbn in E3. destruct E3 as [-> ->].
  cbn [qwell_behaved]. split; [split; [by vm_compute; eexists|done]|]. intros r4 M4 E4. cbn in E4. destruct E4 as [-> ->].
  cbn [qwell_behaved]. split; [split_and!; by vm_compute; eexists|]. intros r5 M5 [-> ->].
  cbn [qwell_behaved]. split; [by vm_compute; eexists|]. intros r6 M6 (n & -> & -> & _).
  destruct (n <? 0); [|done]. cbn [qwell_behaved]. split; [split; by vm_compute; eexists|]. intros r7 M7 E7. cbn in E7. destruct (Qeq_dec _ _) as [E|_]; [by vm_compute in E|]. destruct E7 as [-> ->].
  cbn [qwell_behaved]. split; [split_and!; [by vm_compute; eexists|by vm_compute; eexists|apply not_member; by vm_compute]|]. intros r8 M8 [-> ->].
  cbn [qwell_behaved]. split; [split; [split; by vm_compute; eexists|]; intros o ->%elem_of_list_singleton; apply not_member; by vm_compute|]. intros r9 M9 (a & S' & -> & [-> ->] & ->).
  cbn [qwell_behaved]. split; [by vm_compute; eexists|]. intros r10 M10 [-> ->].
  cbn [qwell_behaved]. split; [by vm_compute; eexists|]. done.
Qed.
Lemma blank_mixed_ok os : qshows (declares os) (blank_mixed os).
Proof. split; [apply declares_shows|]. split_and!; cbn; [intros r [? ?]; done|intros r s [? ?]; done|done]. Qed.

(** ** C56 Programs with rationals behave like a store of rationals *)
Theorem C56_history k st M :
  qshows st M -> qwell_behaved k M -> calls (drive_q k) st (fun h st' => exists M', qhistory k M h M' /\ qshows st' M').
Proof.
  intros HS HW. apply wp_calls. eapply wp_mono; [apply drive_q_ok; [by apply qshows_QH|done]|]. intros h st' (M' & Hh & HS'). exists M'. split; [done|]. by apply qshows_QH.
Qed.
Example C56_history_ex : qshows (declares xO) (blank_mixed xO) /\ qwell_behaved exQ (blank_mixed xO) /\
  match exec (drive_q exQ) (declares xO) with Done h st' _ => map snd h = [Plain (Num 0); Plain (Num 0); Plain (Num 0); Plain (Num 0); Plain (Num 0); Plain (Num 0); Plain (Num (-1));
    Plain (Num 0); Plain (Num 0); Plain (Num 0); Plain Nothing; Plain Nothing] /\ value_of st' (H 5) = Some 36 | _ => False end.
Proof. split; [apply blank_mixed_ok|]. split; [apply exQ_ok|]. by vm_compute. Qed.
Print Assumptions C56_history.
Theorem C56_start os : qshows (declares os) (blank_mixed os) /\ forall r, fracs (blank_mixed os) !! r = None.
Proof. split; [apply blank_mixed_ok|done]. Qed.
Print Assumptions C56_start.

(** After any number of calls every rational is in lowest terms in memory: the
    numerator and the denominator are in good order, the denominator is positive,
    there is no common factor, and the quotient is what the store says. *)
Theorem C56_lowest_terms k st M :
  qshows st M -> qwell_behaved k M ->
  calls (drive_q k) st (fun h st' => exists M', qhistory k M h M' /\
    forall r q, fracs M' !! r = Some (Some q) -> exists n d b1 b2, holds st' (fst r) b1 n /\ holds st' (snd r) b2 (Zpos d) /\
      Z.gcd n (Zpos d) = 1 /\ (q == n # d)%Q /\ canonical st' (fst r) /\ canonical st' (snd r)).
Proof.
  intros HS HW orc t. pose proof (C56_history k st M HS HW orc t) as HC. destruct (run true orc (drive_q k) t st) as [h st' t'|n| | |]; try done.
  destruct HC as (M' & Hh & HS' & HT'). exists M'. split; [done|]. intros r q Hq. destruct (proj2 (proj2 HT') r q Hq) as [E1 E2].
  destruct (shows_holds _ _ _ _ HS' E1) as [b1 B1]. destruct (shows_holds _ _ _ _ HS' E2) as [b2 B2]. exists (Qnum (Qred q)), (Qden (Qred q)), b1, b2. destruct (Qred_num_den q) as [_ G].
  split_and!; [done|done|done| |by eapply holds_canonical|by eapply holds_canonical]. rewrite <- (Qred_correct q) at 1. by destruct (Qred q).
Qed.
Definition exQ1 : qclient := QThen (QInit xA) (fun _ => QThen (QSetValue xA 6 (-4)) (fun _ => QStop)).
Example C56_lowest_terms_ex : qwell_behaved exQ1 (blank_mixed xO) /\
  match exec (drive_q exQ1) (declares xO) with Done _ st' _ => value_of st' (fst xA) = Some (-3) /\ value_of st' (snd xA) = Some 2 | _ => False end.
Proof.
  split; [|by vm_compute]. unfold exQ1. cbn [qwell_behaved]. split; [split; [done|]; split; by vm_compute; eexists|]. intros r0 M0 [-> ->].
  cbn [qwell_behaved]. split; [split; [by vm_compute; eexists|done]|]. done.
Qed.
Print Assumptions C56_lowest_terms.

(** No undefined behaviour, no failing assertion, no endless loop. *)
Theorem C56_safe k st M orc t :
  qshows st M -> qwell_behaved k M ->
  run true orc (drive_q k) t st <> UB /\ run true orc (drive_q k) t st <> AssertFail /\ run true orc (drive_q k) t st <> OutOfFuel.
Proof.
  intros HS HW. pose proof (C56_history k st M HS HW orc t) as HC. destruct (run true orc (drive_q k) t st); done.
Qed.
Lemma exQ_runs : match run true orc_yes (drive_q exQ) 0 (declares xO) with Done _ _ _ => True | _ => False end. Proof. by vm_compute. Qed.
Example C56_safe_ex : exists h st' t', run true orc_yes (drive_q exQ) 0 (declares xO) = Done h st' t'. Proof. pose proof exQ_runs as E. destruct (run _ _ _ _ _); try done. by eexists _, _, _. Qed.
Print Assumptions C56_safe.

(** Every block from malloc at the end belongs to one integer of the store, be it
    the member of a rational, or is the caller's, and no structure is left behind. *)
Theorem C56_no_leak k st M :
  qshows st M -> qwell_behaved k M ->
  calls (drive_q k) st (fun h st' => exists M', qhistory k M h M' /\
    (forall n l, mem st' !! Hp n = Some l -> (exists o, has (whole M') o /\ block_of st' o = Some (Hp n)) \/ is_Some (text (whole M) !! Hp n)) /\
    (forall o1 o2, has (whole M') o1 -> has (whole M') o2 -> block_of st' o1 = block_of st' o2 -> o1 = o2) /\
    (forall o, is_Some (objs st' !! o) -> has (whole M') o \/ blank_at (whole M') o)).
Proof.
  intros HS HW orc t. pose proof (C56_history k st M HS HW orc t) as HC. destruct (run true orc (drive_q k) t st) as [h st' t'|n| | |]; try done.
  destruct HC as (M' & Hh & HS' & HT'). exists M'. split; [done|]. split_and!.
  - intros n l Hl. destruct (shows_heap _ _ _ _ HS' Hl) as [(o & v & Ho & Hb)|Ht]; [left; exists o; split; [by eexists|done]|right].
    destruct (text (whole M) !! Hp n) eqn:E; [by eexists|]. apply (qhistory_text _ _ _ _ _ Hh) in E. rewrite E in Ht. by destruct Ht.
  - intros o1 o2 [v1 H1] [v2 H2]. destruct HS' as (W & HR & _). by eapply rep_apart.
  - intros o Ho. by eapply shows_objs.
Qed.
Example C56_no_leak_ex : match exec (drive_q exQ) (declares xO) with Done _ st' _ => length (List.filter (fun p => match fst p with Hp _ => true | _ => false end) (map_to_list (mem st'))) = 1%nat /\ match block_of st' (H 5) with Some (Hp _) => True | _ => False end | _ => False end.
Proof. by vm_compute. Qed.
Print Assumptions C56_no_leak.

(** A rational that is not an output of any of the calls is not changed. *)
Theorem C56_outputs k st M :
  qshows st M -> qwell_behaved k M ->
  calls (drive_q k) st (fun h st' => forall r q, fracs M !! r = Some (Some q) -> (forall c x, (c, x) ∈ h -> r ∉ qoutputs c) ->
    exists b1 b2, holds st' (fst r) b1 (Qnum (Qred q)) /\ holds st' (snd r) b2 (Zpos (Qden (Qred q)))).
Proof.
  intros HS HW orc t. pose proof (C56_history k st M HS HW orc t) as HC. destruct (run true orc (drive_q k) t st) as [h st' t'|n| | |]; try done.
  destruct HC as (M' & Hh & HS' & HT'). intros r q Hq HN. pose proof (qhistory_frame _ _ _ _ _ _ Hh Hq HN) as Hq'. destruct (proj2 (proj2 HT') r q Hq') as [E1 E2].
  destruct (shows_holds _ _ _ _ HS' E1) as [b1 B1]. destruct (shows_holds _ _ _ _ HS' E2) as [b2 B2]. by exists b1, b2.
Qed.
Example C56_outputs_ex : qoutputs (QAdd xA xB xA) = [xA] /\ qoutputs (QCompare xA xB) = [] /\ qoutputs (QNumer xA (H 5)) = []. Proof. done. Qed.
Print Assumptions C56_outputs.

(** Reading 1/2.5: the point after the fraction makes [mp_rat_read_ustring] start
    again, so that it stores 1 and stops before the slash; 3/6 and -1.25 are taken
    whole. *)
Definition exQ2 (s : list Z) : qclient := QThen (QInit xA) (fun _ => QThen (QReadUString xA 0 s) (fun _ => QStop)).
Definition exQ2_run (s : list Z) :=
  match exec (drive_q (exQ2 s)) (declares xO) with Done h st' _ => Some (map snd h, value_of st' (fst xA), value_of st' (snd xA)) | _ => None end.
Example C56_ustring_ex : (forall s, Z.of_nat (length s) < 2 ^ 31 -> qwell_behaved (exQ2 s) (blank_mixed xO)) /\
  exQ2_run [49; 47; 50; 46; 53] = Some ([Plain (Num 0); Tail MP_TRUNC (Some [47; 50; 46; 53])], Some 1, Some 1) /\
  exQ2_run [51; 47; 54] = Some ([Plain (Num 0); Tail MP_OK (Some [])], Some 1, Some 2) /\
  exQ2_run [45; 49; 46; 50; 53] = Some ([Plain (Num 0); Tail MP_OK (Some [])], Some (-5), Some 4).
Proof.
  split; [|by vm_compute]. intros s Hs. unfold exQ2. cbn [qwell_behaved]. split; [split; [done|]; split; by vm_compute; eexists|]. intros r0 M0 [-> ->].
  cbn [qwell_behaved]. split; [split; [by vm_compute; eexists|]; split; [by left|done]|]. done.
Qed.
