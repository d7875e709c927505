(** C55: whole programs on a machine that may run out of memory, in the [NDEBUG]
    build.  See [SpecLow] for [safe], [answers], [careful], [story], [shows_low], and
    [SpecRef] for [withstands]. *)
From Coq Require Import ZArith List Lia.
From stdpp Require Import gmap list.
From Verif Require Import Mem Prog Kern Imath Exec Wp Spec SpecBin SpecHist SpecRef SpecLow Public Concrete Refuse Soft Hist Low PRefuse PHist.
Local Open Scope Z_scope.
Local Open Scope prog_scope.
Local Open Scope list_scope.

Definition ok (r : answer) : bool := match r with Num n => n =? MP_OK | _ => false end.
(** A client that releases a number when an addition has spoilt it, and tries again. *)
Definition exR : client :=
  Then (InitValue (H 2) (2 ^ 32 - 1)) (fun r => if ok r then
  Then (Add (H 2) (H 2) (H 2)) (fun r => if ok r then Then (Clear (H 2)) (fun _ => Stop) else
    Then (Clear (H 2)) (fun _ => Then (InitValue (H 2) 5) (fun _ => Stop)))
  else Stop).
Definition exRT : lowstore := Low (blank_store exO) ∅ 32.
Lemma exR_careful : careful exR exRT.
Proof.
  unfold exR. cbn [careful safe]. split; [split; [by vm_compute; eexists|done]|]. intros r0 T0 [(S0 & [-> ->] & ->)|[-> ->]]; [|by vm_compute].
  change (ok (Num MP_OK)) with true. cbv iota. cbn [careful safe]. split; [split_and!; by vm_compute; eexists|]. intros r1 T1 [(S1 & [-> ->] & ->)|[-> ->]].
  - change (ok (Num MP_OK)) with true. cbv iota. cbn [careful safe]. split; [left; left; by vm_compute; eexists|]. done.
  - change (ok (Num MP_MEMORY)) with false. cbv iota. cbn [careful safe]. split; [right; by vm_compute|]. intros r2 T2 [(S2 & [-> ->] & ->)|[]].
    cbn [careful safe]. split; [split; [by vm_compute; eexists|done]|]. done.
Qed.

(** ** C55 Running out of memory *)
(** Whichever requests are refused, each call either does its work or says that it
    failed, and then leaves what [fails] says; nothing undefined happens. *)
Theorem C55_withstands k st T :
  shows_low st T -> careful k T -> withstands (drive k) st (fun h st' => exists T', story k T h T' /\ shows_low st' T').
Proof.
  intros HS HW. pose proof HS as (W & B & HR & _). eapply by_soft; [exact HR|]. intros _.
  eapply wp_mono; [apply drive_low; [by apply shows_LH|done]|]. intros h st' (T' & Hh & HT). exists T'. split; [done|]. by apply shows_LH.
Qed.
(** A program can start; and from any state of a program that has seen no failure. *)
Theorem C55_start st S : shows st S -> shows_low st (Low S ∅ (multiply_threshold (glob st))).
Proof.
  intros (W & HR & HB & H1 & H2 & H3). exists W, ∅. cbn [held lost threshold]. split_and!; try done.
  - by rewrite (rep_glob _ _ _ HR).
  - intros o. rewrite lookup_empty. split; [by intros ?%elem_of_empty|by intros [? ?]].
  - intros b _. by rewrite HB.
Qed.
Example C55_start_ex : shows (declares exO) (blank_store exO) /\ multiply_threshold (glob (declares exO)) = 32. Proof. split; [apply declares_shows|done]. Qed.
Print Assumptions C55_start.
Example C55_withstands_ex : shows_low (declares exO) exRT /\ careful exR exRT /\
  (match run false (orc_first 0) (drive exR) 0 (declares exO) with Done h st' _ => map snd h = [Num MP_OK; Num MP_MEMORY; Nothing; Num MP_OK] /\ value_of st' (H 2) = Some 5 | _ => False end) /\
  (match run false orc_yes (drive exR) 0 (declares exO) with Done h st' _ => map snd h = [Num MP_OK; Num MP_OK; Nothing] | _ => False end).
Proof. split; [exact (C55_start _ _ (declares_shows exO))|]. split; [apply exR_careful|]. by vm_compute. Qed.
Print Assumptions C55_withstands.

(** The integers that are not lost have their values, in good order. *)
Theorem C55_values k st T :
  shows_low st T -> careful k T ->
  withstands (drive k) st (fun h st' => exists T', story k T h T' /\
    forall o v, ints (held T') !! o = Some v -> o ∉ lost T' /\ canonical st' o /\ exists b, holds st' o b v).
Proof.
  intros HS HW orc t. destruct (C55_withstands k st T HS HW orc t) as (h & st' & t' & E & T' & Hh & W & B & HR & _ & H2 & H3 & _). exists h, st', t'. split; [done|]. exists T'. split; [done|].
  intros o v Ho. destruct (rep_holds _ _ _ HR _ _ Ho) as (b & Hb & _). split; [|split; [by eapply holds_canonical|by exists b]].
  intros Hl. apply H2 in Hl as [b' Hb']. destruct (H3 _ _ Hb') as (z & Hz & _). rewrite (rep_blanks _ _ _ HR _ _ Ho) in Hz. done.
Qed.
Example C55_values_ex : match run false (orc_first 0) (drive exR) 0 (declares exO) with Done _ st' _ => objs st' !! H 2 = Some (Mpz (Some (Sng (H 2), 0)) 1 1 0) /\ mem st' !! Sng (H 2) = Some [Some 5] | _ => False end.
Proof. by vm_compute. Qed.
Print Assumptions C55_values.

(** Integers that are no output keep their values through successes and failures. *)
Lemma fails_frame c T r T' o v : fails c T r T' -> ints (held T) !! o = Some v -> o ∉ outputs c -> ints (held T') !! o = Some v.
Proof.
  intros Hf Ho N. destruct c; cbn [fails outputs] in *; try done.
  all: repeat match goal with H : _ /\ _ |- _ => destruct H | H : _ \/ _ |- _ => destruct H | H : exists _, _ |- _ => destruct H end; subst; try done.
  all: rewrite ?elem_of_cons in N; cbn; rewrite ?lookup_insert_ne, ?lookup_delete_ne by (intros <-; apply N; by left); try done.
  all: repeat match goal with |- context [assign ?q _ _] => destruct q as [?|]; cbn [assign out_opt app] in * end; rewrite ?lookup_insert_ne; try done; intros ->; apply N; set_solver.
Qed.
Lemma story_frame k T h T' o v : story k T h T' -> ints (held T) !! o = Some v -> (forall c r, (c, r) ∈ h -> o ∉ outputs c) -> ints (held T') !! o = Some v.
Proof.
  induction 1 as [|c k T r T' h T'' He Hh IH]; intros Ho N; [done|]. apply IH.
  - assert (o ∉ outputs c) as Nc by (apply (N c r); set_solver). destruct He as [(S' & He & ->)|Hf]; [by eapply effect_frame|by eapply fails_frame].
  - intros c' r' Hc. apply (N c' r'). set_solver.
Qed.
Theorem C55_outputs k st T :
  shows_low st T -> careful k T ->
  withstands (drive k) st (fun h st' => forall o v, ints (held T) !! o = Some v ->
    (forall c r, (c, r) ∈ h -> o ∉ outputs c) -> exists b, holds st' o b v).
Proof.
  intros HS HW orc t. destruct (C55_values k st T HS HW orc t) as (h & st' & t' & E & T' & Hh & HV). exists h, st', t'. split; [done|]. intros o v Ho HN.
  by apply (HV o v (story_frame _ _ _ _ _ _ Hh Ho HN)).
Qed.
Example C55_outputs_ex : shows_low exJ (Low (Store exJV ∅ ∅ ∅) ∅ 32) /\
  match run false (orc_first 0) (drive (Then (Add hJ hJ hL) (fun _ => Stop))) 0 exJ with Done h st' _ => map snd h = [Num MP_MEMORY] /\ value_of st' hJ = Some (2 ^ 160 - 1) /\ value_of st' hK = Some (-1) | _ => False end.
Proof.
  split; [|by vm_compute]. apply (C55_start exJ (Store exJV ∅ ∅ ∅)). exists world0. split; [apply exJ_rep|]. split_and!; try done.
Qed.
Print Assumptions C55_outputs.

(** No storage is lost sight of: a block on the heap belongs to one integer, live or
    lost, or it is the caller's; and no structure is left behind. *)
Theorem C55_no_leak k st T :
  shows_low st T -> careful k T ->
  withstands (drive k) st (fun h st' => exists T', story k T h T' /\
    (forall n l, mem st' !! Hp n = Some l -> (exists o, (has (held T') o \/ o ∈ lost T') /\ block_of st' o = Some (Hp n)) \/ is_Some (text (held T') !! Hp n)) /\
    (forall o1 o2, (has (held T') o1 \/ o1 ∈ lost T') -> (has (held T') o2 \/ o2 ∈ lost T') -> block_of st' o1 = block_of st' o2 -> o1 = o2) /\
    (forall o, is_Some (objs st' !! o) -> has (held T') o \/ o ∈ lost T' \/ blank_at (held T') o)).
Proof.
  intros HS HW orc t. destruct (C55_withstands k st T HS HW orc t) as (h & st' & t' & E & T' & Hh & W & B & HR & H1 & H2 & H3 & H4 & H5 & H6 & H7 & H8 & _). exists h, st', t'. split; [done|]. exists T'. split; [done|].
  assert (forall o b, B !! o = Some b -> ints (held T') !! o = None /\ block_of st' o = Some b) as HL.
  { intros o b Ho. destruct (H3 _ _ Ho) as (z & Hz & Hd & _). assert (ints (held T') !! o = None) as HN.
    { destruct (ints (held T') !! o) eqn:Eo; [|done]. by rewrite (rep_blanks _ _ _ HR _ _ Eo) in Hz. }
    split; [done|]. unfold block_of. rewrite (rep_others _ _ _ HR _ HN), Hz. cbn. by rewrite Hd. }
  split; [|split].
  - intros n l Hl. destruct (rep_all _ _ _ HR _ _ Hl) as [(o & v & Ho & Hb)|[(o & E1 & _)|[l' Hl']]]; [left; exists o; split; [left; by exists v|done]|done|].
    destruct (text (held T') !! Hp n) as [x|] eqn:Et; [right; by eexists|left]. destruct (decide (map_Exists (fun _ b => b = Hp n) B)) as [(o & b & Ho & ->)|Nx].
    + exists o. split; [right; apply H2; by eexists|by apply HL].
    + exfalso. assert (forall o, B !! o <> Some (Hp n)) as Nb. { intros o Ho. apply Nx. by exists o, (Hp n). } apply H6 in Nb. congruence.
  - assert (forall o1 o2 v1 b2, ints (held T') !! o1 = Some v1 -> B !! o2 = Some b2 -> block_of st' o1 = block_of st' o2 -> False) as HM.
    { intros o1 o2 v1 b2 A1 A2 Eb. destruct (HL _ _ A2) as [N2 E2]. rewrite E2 in Eb. destruct (H3 _ _ A2) as (z & Hz & Hd & [->|(m & l & -> & Hm)]).
      - destruct (rep_holds _ _ _ HR _ _ A1) as (b' & (al & us & sg & ds & rest & Hx & _) & Hb'). unfold block_of in Eb. rewrite Hx in Eb. cbn in Eb. injection Eb as ->.
        destruct Hb' as [Hb'|[? Hb']]; [|done]. injection Hb' as <-. congruence.
      - by destruct (rep_bufs_apart _ _ _ HR _ _ _ _ Hm A1). }
    intros o1 o2 [[v1 A1]|A1] [[v2 A2]|A2] Eb.
    + by eapply (rep_apart _ _ _ HR).
    + apply H2 in A2 as [b2 A2]. exfalso. by eapply HM.
    + apply H2 in A1 as [b1 A1]. exfalso. eapply HM; [exact A2|exact A1|done].
    + apply H2 in A1 as [b1 A1]. apply H2 in A2 as [b2 A2]. rewrite (proj2 (HL _ _ A1)), (proj2 (HL _ _ A2)) in Eb. injection Eb as ->. by eapply H4.
  - intros o Ho. destruct (decide (o ∈ lost T')) as [|N]; [by right; left|]. destruct (ints (held T') !! o) eqn:Eo; [left; by eexists|right; right].
    rewrite (rep_others _ _ _ HR _ Eo) in Ho. destruct (raws (held T') !! o) as [x|] eqn:Er; [by exists x|]. apply (H8 o N) in Er. rewrite Er in Ho. by destruct Ho.
Qed.
Example C55_no_leak_ex : match run false (orc_first 0) (drive exR) 0 (declares exO) with Done _ st' _ => forallb (fun p => match p.1 with Sng _ => true | _ => false end) (map_to_list (mem st')) = true | _ => False end.
Proof. by vm_compute. Qed.
Print Assumptions C55_no_leak.
(** So a client that releases all it holds, live or lost, leaves nothing on the heap. *)
Lemma answers_text c T r T' b : answers c T r T' -> text (held T) !! b = None -> text (held T') !! b = None.
Proof.
  intros [(S' & He & ->)|Hf] Hb; cbn [held].
  - by eapply (history_text (Then c (fun _ => Stop))); [econstructor; [exact He|constructor]|].
  - destruct c; cbn [fails] in Hf; try done.
    all: repeat match goal with H : _ /\ _ |- _ => destruct H | H : _ \/ _ |- _ => destruct H | H : exists _, _ |- _ => destruct H end; subst; try done.
    all: repeat match goal with |- context [put_opt ?q _ _] => destruct q end; done.
Qed.
Theorem C55_all_released k st T :
  shows_low st T -> careful k T -> (forall n, text (held T) !! Hp n = None) ->
  withstands (drive k) st (fun h st' => exists T', story k T h T' /\ ((forall o, ~ has (held T') o /\ o ∉ lost T') -> forall n, mem st' !! Hp n = None)).
Proof.
  intros HS HW HT orc t. destruct (C55_no_leak k st T HS HW orc t) as (h & st' & t' & E & T' & Hh & H1 & _). exists h, st', t'. split; [done|]. exists T'. split; [done|].
  intros HN n. destruct (mem st' !! Hp n) as [l|] eqn:El; [|done]. exfalso. destruct (H1 _ _ El) as [(o & [Ho|Ho] & _)|Ht]; [by destruct (HN o)|by destruct (HN o)|].
  assert (forall b, text (held T) !! b = None -> text (held T') !! b = None) as HTT.
  { clear -Hh. intros b. induction Hh as [|c k T r T' h T'' He Hh IH]; [done|]. intros Hb. by eapply IH, answers_text. }
  rewrite (HTT _ (HT n)) in Ht. by destruct Ht.
Qed.
Example C55_all_released_ex : careful (Then (InitSize (H 1) 40) (fun _ => Then (Clear (H 1)) (fun _ => Stop))) exRT /\
  match run false (orc_first 0) (drive (Then (InitSize (H 1) 40) (fun _ => Then (Clear (H 1)) (fun _ => Stop)))) 0 (declares exO) with
  Done h st' _ => map snd h = [Num MP_MEMORY; Nothing] | _ => False end.
Proof.
  split; [|by vm_compute]. cbn [careful safe]. split; [split; [by vm_compute; eexists|done]|]. intros r T' [(S' & [-> ->] & ->)|[-> ->]]; cbn [careful safe]; (split; [|done]); left; [left|right]; by vm_compute; try eexists.
Qed.
Print Assumptions C55_all_released.
(** And no failure is reported for nothing: with no request refused, the client sees
    the store of [SpecHist]. *)
Theorem C55_no_false_alarm k st S orc t :
  shows st S -> well_behaved k S -> (forall n, run true orc (drive k) t st <> OOM n) ->
  exists h st' t' S', run false orc (drive k) t st = Done h st' t' /\ history k S h S' /\ shows st' S'.
Proof.
  intros HS HW HO. pose proof (C27_history k st S HS HW orc t) as HC. destruct (run true orc (drive k) t st) as [h st' t'|n| | |] eqn:E; try done; [|by destruct (HO n)].
  destruct HC as (S' & Hh & HS'). exists h, st', t', S'. split; [|done]. by apply run_nd_agrees.
Qed.
Example C55_no_false_alarm_ex : forall n, run true orc_yes (drive exK) 0 (declares exO) <> OOM n. Proof. intros n. pose proof exK_runs as E. by destruct (run _ _ _ _ _). Qed.
Print Assumptions C55_no_false_alarm.
