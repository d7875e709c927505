(** Integers with storage enough: calls that cannot fail (C69).  See [SpecFits] for
    the sizes, [SpecHist] for programs and their meaning. *)
From Coq Require Import ZArith List Lia.
From stdpp Require Import gmap list.
From Verif Require Import Mem Prog Kern Imath Exec Wp Spec SpecBin SpecHist SpecFits Fits Public Concrete Hist PHist PEdge.
Local Open Scope Z_scope.
Local Open Scope prog_scope.
Local Open Scope list_scope.

(** A program: three integers of 10 digits, set, multiplied, added, shifted, swapped
    read, and filled from a string. *)
Definition exF : client :=
  Then (SetValue (H 1) (-3000000000)) (fun _ => Then (SetUvalue (H 2) (2 ^ 63)) (fun _ => Then (Mul (H 1) (H 2) (H 3)) (fun _ => Then (Sub (H 3) (H 1) (H 3)) (fun _ =>
  Then (MulPow2 (H 3) 40 (H 2)) (fun _ => Then (Swap (H 1) (H 2)) (fun _ => Then (DivPow2 (H 1) 104 (Some (H 3)) None) (fun _ => Then (ToInt (H 3)) (fun _ => Then (Clear (H 2)) (fun _ =>
  Then (ReadString (H 1) 16 [45; 102; 102]) (fun _ => Stop)))))))))).
Definition exFO : list oid := [H 1; H 2; H 3].
Definition exFS : store := prepared exFO (blank_store exFO).
Ltac hs := by vm_compute; eexists.
Lemma exF_ok : well_behaved exF exFS /\ thrifty_all 10 exF exFS.
Proof.
  unfold exF. cbn [well_behaved thrifty_all]. split.
  - split; [split; [hs|done]|]. intros r0 S0 [-> ->]. split; [split; [hs|done]|]. intros r1 S1 [-> ->]. split; [split_and!; hs|]. intros r2 S2 [-> ->]. split; [split_and!; hs|]. intros r3 S3 [-> ->].
    split; [split_and!; [hs|hs|lia|lia]|]. intros r4 S4 [-> ->]. split; [split_and!; hs|]. intros r5 S5 [-> ->].
    split; [split_and!; [hs|hs|done|done|lia|lia|done|done]|]. intros r6 S6 [-> ->]. split; [split; [hs|by vm_compute]|]. intros r7 S7 [-> _]. split; [left; hs|]. intros r8 S8 [-> ->].
    split; [split_and!; [hs|lia|lia|by vm_compute]|]. done.
  - split; [done|]. intros r0 S0 [-> ->]. split; [done|]. intros r1 S1 [-> ->]. split; [split_and!; [done|done|]; exists 2; split_and!; by vm_compute|]. intros r2 S2 [-> ->].
    split; [split_and!; by vm_compute|]. intros r3 S3 [-> ->]. split; [exists 4; split_and!; by vm_compute|]. intros r4 S4 [-> ->]. split; [done|]. intros r5 S5 [-> ->]. split; [split; by vm_compute|]. intros r6 S6 [-> ->].
    split; [done|]. intros r7 S7 [-> _]. split; [done|]. intros r8 S8 _. split; [by vm_compute|]. done.
Qed.

Lemma hist_then c k S h S2 : history (Then c k) S h S2 -> exists r S' h', effect c S r S' /\ history (k r) S' h' S2.
Proof. intros H. inversion H; subst. eauto. Qed.
Lemma hist_stop S h S' : history Stop S h S' -> S' = S. Proof. intros H. by inversion H. Qed.
Lemma exF_start : roomy 10 (declares exFO) (blank_store exFO) /\ NoDup exFO /\ (forall o, o ∈ exFO -> blank_at (blank_store exFO) o).
Proof.
  split; [intros o [v Hv]; cbn in Hv; by rewrite lookup_empty in Hv|]. split; [by apply (bool_decide_unpack (NoDup exFO)); vm_compute|].
  intros o Ho. unfold exFO in Ho. rewrite !elem_of_cons in Ho. destruct Ho as [->|[->|[->|Ho]]]; [hs..|by apply elem_of_nil in Ho].
Qed.

(** ** C69 With storage enough no call fails *)
(** Whatever the allocator refuses, in the default build and with NDEBUG: every call
    gives the answer of the store of integers, no call reports MP_MEMORY or stops the
    program, and the storage does not become smaller than the [N] digits. *)
Theorem C69_never_fails N k st S :
  shows st S -> roomy N st S -> well_behaved k S -> thrifty_all N k S ->
  sure (drive k) st (fun h st' => exists S', history k S h S' /\ shows st' S' /\ roomy N st' S').
Proof.
  intros HS HR HW HT dbg orc t. destruct (drive_sure N k st S (proj1 (shows_SH _ _) HS) HR HW HT dbg orc t) as (h & st' & t' & E & S' & HH & HS' & HR').
  exists h, st', t'. split; [exact E|]. exists S'. split; [done|]. split; [by apply shows_SH|done].
Qed.
(** Memory is only asked for when the integers are made: a program that first gives
    each of its integers storage with mp_int_init_size, and then makes such calls,
    stops for want of memory only if one of those first requests is refused, one for
    each integer. *)
Theorem C69_prepared N os k st S :
  shows st S -> roomy N st S -> 1 <= N < 2 ^ 32 - 1 -> NoDup os -> (forall o, o ∈ os -> blank_at S o) ->
  well_behaved k (prepared os S) -> thrifty_all N k (prepared os S) ->
  forall orc t, match run true orc (drive (prepare N os k)) t st with
    | Done h st' _ => exists S', history (prepare N os k) S h S' /\ shows st' S' /\ roomy N st' S'
    | OOM n => 0 <= n <= N + 1 /\ exists t', (t <= t' < t + length os)%nat /\ granted orc t' n = false
    | AssertFail | UB | OutOfFuel => False end.
Proof.
  intros HS HR HN HD HB HW HT orc t. pose proof (prepare_ok N os k st S (proj1 (shows_SH _ _) HS) HR HN HD HB HW HT orc t) as HC.
  destruct (run true orc (drive (prepare N os k)) t st); try done. destruct HC as (S' & HH & HS' & HR'). exists S'. split; [done|]. split; [by apply shows_SH|done].
Qed.
Example C69_prepared_ex : shows (declares exFO) (blank_store exFO) /\ roomy 10 (declares exFO) (blank_store exFO) /\ NoDup exFO /\ (forall o, o ∈ exFO -> blank_at (blank_store exFO) o) /\
  well_behaved exF exFS /\ thrifty_all 10 exF exFS /\
  (match run true (orc_first 3) (drive (prepare 10 exFO exF)) 0 (declares exFO) with Done h st' t' => length h = 13%nat /\ room st' (H 1) = 10 | _ => False end) /\
  (match run true (orc_first 2) (drive (prepare 10 exFO exF)) 0 (declares exFO) with OOM n => n = 10 | _ => False end).
Proof.
  split; [apply declares_shows|]. split; [apply exF_start|]. split; [apply exF_start|]. split; [apply exF_start|].
  split; [apply exF_ok|]. split; [apply exF_ok|]. split; by vm_compute.
Qed.
Print Assumptions C69_prepared.
(** In both builds: when these first requests are granted, everything succeeds,
    whatever is refused later. *)
Theorem C69_prepared_granted N os k st S orc t :
  shows st S -> roomy N st S -> 1 <= N < MAXD -> NoDup os -> (forall o, o ∈ os -> blank_at S o) ->
  well_behaved k (prepared os S) -> thrifty_all N k (prepared os S) ->
  (forall t' n, (t <= t' < t + length os)%nat -> 0 <= n <= N + 1 -> grants orc t' n = true) ->
  forall dbg, exists h st' t' S', run dbg orc (drive (prepare N os k)) t st = Done h st' t' /\ history (prepare N os k) S h S' /\ shows st' S' /\ roomy N st' S'.
Proof.
  intros HS HR HN HD HB HW HT HG dbg. assert (MAXD = 33554432) as HM by reflexivity. pose proof (C69_prepared N os k st S HS HR ltac:(lia) HD HB HW HT orc t) as HC.
  destruct (run true orc (drive (prepare N os k)) t st) as [h st' t'|n| | |] eqn:E; [| |destruct HC..].
  - destruct HC as (S' & HH & HS' & HR'). exists h, st', t', S'. split; [|split; [exact HH|split; [exact HS'|exact HR']]]. destruct dbg; [exact E|by apply run_nd_agrees].
  - destruct HC as (Hn & t' & Ht & Hg). exfalso. unfold granted in Hg. rewrite (HG t' n Ht Hn), (proj2 (Z.leb_le 0 n)), (proj2 (Z.leb_le n MAXD)) in Hg by lia. discriminate.
Qed.
Example C69_prepared_granted_ex : (forall t' n, (0 <= t' < 0 + length exFO)%nat -> 0 <= n <= 10 + 1 -> grants (orc_first 3) t' n = true) /\
  match run false (orc_first 3) (drive (prepare 10 exFO exF)) 0 (declares exFO) with Done h _ _ => length h = 13%nat | _ => False end.
Proof. split; [|vm_compute; reflexivity]. intros t' n Ht _. cbn [orc_first grants length exFO] in *. apply Nat.ltb_lt. lia. Qed.
Print Assumptions C69_prepared_granted.
Example C69_never_fails_ex : exists st, shows st exFS /\ roomy 10 st exFS /\ well_behaved exF exFS /\ thrifty_all 10 exF exFS /\
  (match run false (orc_first 0) (drive exF) 0 st with Done h st' _ => nth_error (map snd h) 7 = Some (Small MP_OK (Some (-1499999999))) | _ => False end).
Proof.
  destruct exF_start as (H1 & H2 & H3). pose proof (C69_prepared 10 exFO Stop (declares exFO) (blank_store exFO) (declares_shows _) H1 ltac:(lia) H2 H3 I I orc_yes 0%nat) as HC.
  destruct (done_inv (run true orc_yes (drive (prepare 10 exFO Stop)) 0 (declares exFO)) (fun _ st => match run false (orc_first 0) (drive exF) 0 st with Done h st' _ => nth_error (map snd h) 7 = Some (Small MP_OK (Some (-1499999999))) | _ => False end))
    as (h & st' & t' & E & HP); [vm_compute; reflexivity|]. rewrite E in HC. destruct HC as (S' & HH & HS & HR). exists st'. assert (S' = exFS) as ->.
  { clear -HH. unfold exFO in HH. cbn [prepare] in HH. apply hist_then in HH as (? & ? & ? & [_ ->] & HH1). apply hist_then in HH1 as (? & ? & ? & [_ ->] & HH2). apply hist_then in HH2 as (? & ? & ? & [_ ->] & HH3). apply hist_stop in HH3 as ->. reflexivity. }
  split; [exact HS|]. split; [exact HR|]. split; [apply exF_ok|]. split; [apply exF_ok|]. exact HP.
Qed.
Print Assumptions C69_never_fails.

(** The limits: a product put onto an operand asks for memory however much storage
    there is. *)
(** Three integers with storage for 12 digits each. *)
Definition exW : client := Then (SetValue (H 1) 7) (fun _ => Then (SetValue (H 2) (2 ^ 40 + 1)) (fun _ => Then (SetValue (H 3) (2 ^ 62)) (fun _ => Stop))).
Definition exWS : store := put_int (H 3) (2 ^ 62) (put_int (H 2) (2 ^ 40 + 1) (put_int (H 1) 7 exFS)).
Lemma exW_ok (P : state -> Prop) : match run true orc_yes (drive (prepare 12 exFO exW)) 0 (declares exFO) with Done _ st _ => P st | _ => False end ->
  exists st, shows st exWS /\ roomy 12 st exWS /\ P st.
Proof.
  destruct exF_start as (_ & H2 & H3). assert (roomy 12 (declares exFO) (blank_store exFO)) as H1 by (intros o [v Hv]; cbn in Hv; by rewrite lookup_empty in Hv).
  assert (well_behaved exW exFS) as W1. { unfold exW. cbn [well_behaved]. split; [split; [hs|done]|]. intros r0 S0 [-> ->]. split; [split; [hs|done]|]. intros r1 S1 [-> ->]. split; [split; [hs|done]|]. done. }
  assert (thrifty_all 12 exW exFS) as W2. { unfold exW. cbn [thrifty_all]. split; [done|]. intros r0 S0 [-> ->]. split; [done|]. intros r1 S1 [-> ->]. split; [done|]. done. }
  pose proof (C69_prepared 12 exFO exW (declares exFO) (blank_store exFO) (declares_shows _) H1 ltac:(lia) H2 H3 W1 W2 orc_yes 0%nat) as HC.
  intros HP. destruct (done_inv (run true orc_yes (drive (prepare 12 exFO exW)) 0 (declares exFO)) (fun _ st => P st) HP) as (h & st' & t' & E & HP'). rewrite E in HC. destruct HC as (S' & HH & HS & HR). exists st'. assert (S' = exWS) as ->.
  { clear -HH. unfold exFO, exW in HH. cbn [prepare] in HH. apply hist_then in HH as (? & ? & ? & [_ ->] & HH1). apply hist_then in HH1 as (? & ? & ? & [_ ->] & HH2). apply hist_then in HH2 as (? & ? & ? & [_ ->] & HH3).
    apply hist_then in HH3 as (? & ? & ? & [_ ->] & HH4). apply hist_then in HH4 as (? & ? & ? & [_ ->] & HH5). apply hist_then in HH5 as (? & ? & ? & [_ ->] & HH6). apply hist_stop in HH6 as ->. reflexivity. }
  split; [exact HS|]. split; [exact HR|exact HP'].
Qed.
Definition oom {A} (x : outcome A) : bool := match x with OOM _ => true | _ => false end.
Theorem C69_mul_alias_refuted : exists st S a b, shows st S /\ roomy 12 st S /\ has S a /\ has S b /\ fits (val S a) 1 /\ fits (val S b) 2 /\
  oom (run true (orc_first 0) (mp_int_mul a b a) 0 st) = true /\ (exists st' t', run false (orc_first 0) (mp_int_mul a b a) 0 st = Done MP_MEMORY st' t').
Proof.
  destruct (exW_ok (fun st => oom (run true (orc_first 0) (mp_int_mul (H 1) (H 2) (H 1)) 0 st) = true /\ match run false (orc_first 0) (mp_int_mul (H 1) (H 2) (H 1)) 0 st with Done r _ _ => r = MP_MEMORY | _ => False end)) as (st & HS & HR & HP & HQ); [vm_compute; split; reflexivity|].
  exists st, exWS, (H 1), (H 2). split; [exact HS|]. split; [exact HR|]. split; [vm_compute; eexists; reflexivity|]. split; [vm_compute; eexists; reflexivity|]. split; [split; vm_compute; congruence|]. split; [split; vm_compute; congruence|]. split; [exact HP|].
  destruct (done_inv (run false (orc_first 0) (mp_int_mul (H 1) (H 2) (H 1)) 0 st) (fun r _ => r = MP_MEMORY) HQ) as (r & st' & t' & E & ->); clear HQ. exists st', t'. exact E.
Qed.
Print Assumptions C69_mul_alias_refuted.
(** And so does a division with a remainder, for its temporaries. *)
Theorem C69_div_refuted : exists st S a b q, shows st S /\ roomy 12 st S /\ has S a /\ has S b /\ has S q /\ q <> a /\ q <> b /\ fits (val S a) 2 /\ fits (val S b) 2 /\
  oom (run true (orc_first 0) (mp_int_div a b (Some q) None) 0 st) = true.
Proof.
  destruct (exW_ok (fun st => oom (run true (orc_first 0) (mp_int_div (H 3) (H 2) (Some (H 1)) None) 0 st) = true)) as (st & HS & HR & HP); [vm_compute; reflexivity|].
  exists st, exWS, (H 3), (H 2), (H 1). split; [exact HS|]. split; [exact HR|]. split; [vm_compute; eexists; reflexivity|]. split; [vm_compute; eexists; reflexivity|]. split; [vm_compute; eexists; reflexivity|]. split; [discriminate|]. split; [discriminate|]. split; [split; vm_compute; congruence|]. split; [split; vm_compute; congruence|exact HP].
Qed.
Print Assumptions C69_div_refuted.
(** A sum of operands that fill the storage may carry out of it. *)
Definition exA : client := Then (SetUvalue (H 1) (2 ^ 64 - 1)) (fun _ => Stop).
Theorem C69_add_full_refuted : exists st S a, shows st S /\ roomy 2 st S /\ has S a /\ fits (val S a) 2 /\
  oom (run true (orc_first 0) (mp_int_add a a a) 0 st) = true.
Proof.
  destruct exF_start as (_ & H2 & H3). assert (roomy 2 (declares exFO) (blank_store exFO)) as H1 by (intros o [v Hv]; cbn in Hv; by rewrite lookup_empty in Hv).
  assert (well_behaved exA exFS) as W1. { unfold exA. cbn [well_behaved]. split; [split; [hs|done]|]. done. }
  assert (thrifty_all 2 exA exFS) as W2 by done.
  pose proof (C69_prepared 2 exFO exA (declares exFO) (blank_store exFO) (declares_shows _) H1 ltac:(lia) H2 H3 W1 W2 orc_yes 0%nat) as HC.
  destruct (done_inv (run true orc_yes (drive (prepare 2 exFO exA)) 0 (declares exFO)) (fun _ st => oom (run true (orc_first 0) (mp_int_add (H 1) (H 1) (H 1)) 0 st) = true)) as (h & st' & t' & E & HP'); [vm_compute; reflexivity|].
  rewrite E in HC. destruct HC as (S' & HH & HS & HR).
  unfold exFO, exA in HH. cbn [prepare] in HH. apply hist_then in HH as (? & ? & ? & [_ ->] & HH1). apply hist_then in HH1 as (? & ? & ? & [_ ->] & HH2). apply hist_then in HH2 as (? & ? & ? & [_ ->] & HH3).
  apply hist_then in HH3 as (? & ? & ? & [_ ->] & HH4). apply hist_stop in HH4 as ->. eexists _, _, (H 1). split; [exact HS|]. split; [exact HR|].
  split; [vm_compute; eexists; reflexivity|]. split; [split; vm_compute; congruence|exact HP'].
Qed.
Print Assumptions C69_add_full_refuted.
