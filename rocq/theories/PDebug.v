(** The build with [make DEBUG=Y] (C68).  See [Debug] for what is different in it,
    [SpecDebug] for the statements, [SpecGHist] for programs and their meaning. *)
From Coq Require Import ZArith List Lia QArith.
From stdpp Require Import gmap list.
From Verif Require Import Mem Prog Kern Imath Imrat Gmp Exec Wp Debug Spec SpecBin SpecHist SpecRat SpecDec SpecGmp SpecGstr SpecQHist SpecGHist SpecDebug DebugLem Public Concrete Hist QHist GHist PQHist PGHist.
Local Open Scope Z_scope.
Local Open Scope prog_scope.
Local Open Scope list_scope.

(** An integer that grows twice, and is cleared. *)
Definition exD (clear : bool) : gclient :=
  GThen (ZInit (H 5)) (fun _ => GThen (ZSetSi (H 5) (-3)) (fun _ => GThen (ZMul2exp (H 5) (H 5) 200) (fun _ => GThen (ZMul2exp (H 5) (H 5) 900) (fun _ =>
  GThen (ZGetSi (H 5)) (fun _ => if clear then GThen (ZClear (H 5)) (fun _ => GStop) else GStop))))).
Lemma exD_ok clear : gwell_behaved (exD clear) (blank_mixed xO).
Proof.
  unfold exD. cbn [gwell_behaved]. split; [by vm_compute; eexists|]. intros r0 M0 [-> ->].
  cbn [gwell_behaved]. split; [split; [by vm_compute; eexists|done]|]. intros r1 M1 [-> ->].
  cbn [gwell_behaved]. split; [split_and!; [by vm_compute; eexists|by vm_compute; eexists|lia|lia]|]. intros r2 M2 [-> ->].
  cbn [gwell_behaved]. split; [split_and!; [by vm_compute; eexists|by vm_compute; eexists|lia|lia]|]. intros r3 M3 [-> ->].
  cbn [gwell_behaved]. split; [split; [by vm_compute; eexists|by vm_compute]|]. intros r4 M4 [-> ->]. destruct clear; [|done].
  cbn [gwell_behaved]. split; [split; [by vm_compute; eexists|apply not_member; by vm_compute]|]. done.
Qed.
(** The blocks from malloc that there are. *)
Definition heap_blocks (st : state) : list (base * list cell) := List.filter (fun p => match fst p with Hp _ => true | _ => false end) (map_to_list (mem st)).

(** ** C68 The build with DEBUG=1 *)
(** A program sees the answers, and leaves the store, that the default build would
    (C65), whatever the allocator does; the memory shows that store and, besides,
    blocks from malloc that were lost.  So it goes on when blocks have been lost
    before ([sd]). *)
Theorem C68_history k st sd M :
  qshows st M -> with_lost st sd -> gwell_behaved k M ->
  calls_debug (drive_g k) sd (fun h sd' => exists M' st', ghistory k M h M' /\ qshows st' M' /\ with_lost st' sd').
Proof.
  intros HS HL HW orc t. pose proof (wp_calls_debug (drive_g k) st sd _ (drive_g_ok k st M (proj1 (qshows_QH _ _) HS) HW) HL orc t) as HC.
  destruct (run_debug orc (drive_g k) t sd); try done. destruct HC as (st' & (M' & Hh & HQ) & HL'). exists M', st'. split; [done|]. split; [by apply qshows_QH|done].
Qed.
Example C68_history_ex : qshows (declares xO) (blank_mixed xO) /\ with_lost (declares xO) (declares xO) /\ gwell_behaved (exD false) (blank_mixed xO) /\
  match run_debug orc_yes (drive_g (exD false)) 0 (declares xO) with Done h st' _ => length h = 5%nat /\ value_of st' (H 5) = Some (-3 * 2 ^ 1100) /\ length (heap_blocks st') = 2%nat | _ => False end.
Proof. split; [apply blank_mixed_ok|]. split; [apply lost_refl|]. split; [apply exD_ok|]. by vm_compute. Qed.
Print Assumptions C68_history.

(** No undefined behaviour, no failing assertion but the one after a refused
    request, no endless loop. *)
Theorem C68_safe k st sd M orc t :
  qshows st M -> with_lost st sd -> gwell_behaved k M ->
  run_debug orc (drive_g k) t sd <> UB /\ run_debug orc (drive_g k) t sd <> AssertFail /\ run_debug orc (drive_g k) t sd <> OutOfFuel.
Proof. intros HS HL HW. pose proof (C68_history k st sd M HS HL HW orc t) as HC. destruct (run_debug orc (drive_g k) t sd); done. Qed.
Example C68_safe_ex : match run_debug (orc_first 1) (drive_g (exD true)) 0 (declares xO) with OOM _ => True | _ => False end. Proof. by vm_compute. Qed.
Print Assumptions C68_safe.

(** Every integer has the value of the store, in a structure in good order; the
    caller's memory has the contents of the store; no two integers share digits. *)
Theorem C68_values k st sd M :
  qshows st M -> with_lost st sd -> gwell_behaved k M ->
  calls_debug (drive_g k) sd (fun h sd' => exists M', ghistory k M h M' /\
    (forall o v, ints (whole M') !! o = Some v -> exists b, holds sd' o b v) /\
    (forall b l, text (whole M') !! b = Some l -> mem sd' !! b = Some l) /\
    (forall o1 o2, has (whole M') o1 -> has (whole M') o2 -> block_of sd' o1 = block_of sd' o2 -> o1 = o2) /\
    (forall o, is_Some (objs sd' !! o) -> has (whole M') o \/ blank_at (whole M') o)).
Proof.
  intros HS HL HW orc t. pose proof (C68_history k st sd M HS HL HW orc t) as HC. destruct (run_debug orc (drive_g k) t sd) as [h sd' t'|n| | |]; try done.
  destruct HC as (M' & st' & Hh & [HS' _] & (L1 & L2 & L3 & L4)). exists M'. split; [done|]. split_and!.
  - intros o v Ho. destruct (shows_holds _ _ _ _ HS' Ho) as (b & al & us & sg & ds & rest & K1 & K2 & K). exists b, al, us, sg, ds, rest. split; [by rewrite L1|]. split; [by apply L3|done].
  - intros b l Hb. apply L3. destruct HS' as (W & HR & EW & _). rewrite <- EW in Hb. by eapply rep_bufs.
  - intros o1 o2 [v1 H1] [v2 H2]. unfold block_of. rewrite L1. destruct HS' as (W & HR & _). by eapply rep_apart.
  - intros o Ho. rewrite L1 in Ho. by eapply shows_objs.
Qed.
Example C68_values_ex : match run_debug orc_yes (drive_g exG) 0 (declares xO) with Done h st' _ => map snd h = map snd (match exec (drive_g exG) (declares xO) with Done h _ _ => h | _ => [] end) /\ value_of st' (H 5) = Some 49 | _ => False end.
Proof. by vm_compute. Qed.
Print Assumptions C68_values.

Definition on_heap (z : mpz) : bool := match digits z with Some (Hp _, _) => true | _ => false end.
Lemma exD_lost : match run_debug orc_yes (drive_g (exD true)) 0 (declares xO) with
  | Done _ st' _ => is_Some (mem st' !! Hp 1) /\ forallb (fun p => negb (on_heap (snd p))) (map_to_list (objs st')) = true | _ => False end.
Proof. vm_compute. split; [by eexists|done]. Qed.
(** But C65_no_leak does not hold: [s_realloc] does not free the old digits, so an
    integer that has grown leaves a block behind that no structure points to, also
    after it has been cleared. *)
Theorem C68_no_leak_refuted : exists k st M h st' t' n,
  qshows st M /\ gwell_behaved k M /\ run_debug orc_yes (drive_g k) 0 st = Done h st' t' /\
  is_Some (mem st' !! Hp n) /\ text (whole M) = ∅ /\ mem st !! Hp n = None /\ (forall o, block_of st' o <> Some (Hp n)).
Proof.
  pose proof exD_lost as E. destruct (run_debug _ _ _ _) as [h st' t'|n| | |] eqn:Er; [|destruct E..]. destruct E as [E1 E2]. exists (exD true), (declares xO), (blank_mixed xO), h, st', t', 1%positive.
  split; [apply blank_mixed_ok|]. split; [apply exD_ok|]. split; [exact Er|].
  clear Er. split; [exact E1|]. split; [reflexivity|]. split; [by vm_compute|].
  intros o Ho. unfold block_of in Ho. destruct (objs st' !! o) as [z|] eqn:Eo; [|done]. rewrite forallb_forall in E2. specialize (E2 (o, z)). cbn [snd] in E2.
  assert (on_heap z = true) as EH by (unfold on_heap; destruct (digits z) as [[b i]|]; [injection Ho as ->; done|done]).
  rewrite EH in E2. discriminate E2. by apply elem_of_list_In, elem_of_map_to_list.
Qed.
(** In the default build nothing is left of the same program. *)
Example C68_no_leak_default : match exec (drive_g (exD true)) (declares xO) with Done _ st' _ => heap_blocks st' = [] | _ => False end. Proof. by vm_compute. Qed.
Print Assumptions C68_no_leak_refuted.
