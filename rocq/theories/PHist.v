(** Properties of whole programs that use the library (C23-C28), of the error
    messages (C49).  See [Spec] and, for stores and clients, [SpecHist]; [do_call]
    and [drive] ([Hist]) run the library's function for each call. *)
From Coq Require Import ZArith List Lia String.
From stdpp Require Import gmap list.
From Verif Require Import Mem Prog Kern Fp Imath Exec Wp Spec SpecBin SpecHist Public Concrete Hist.
Local Open Scope Z_scope.
Local Open Scope prog_scope.
Local Open Scope list_scope.

(** A client that branches on an answer. *)
Definition exK : client :=
  Then (InitValue (H 1) (-7)) (fun _ => Then (Init (H 2)) (fun _ => Then (Mul (H 1) (H 1) (H 2)) (fun _ =>
  Then (Compare (H 2) (H 1)) (fun r => match r with
    | Num n => if 0 <? n then Then (Div (H 2) (H 1) (Some (H 1)) (Some (H 2))) (fun _ => Then (MultiplyThreshold 8) (fun _ => Then (Clear (H 1)) (fun _ => Then (Clear (H 1)) (fun _ => Then (Clear (H 2)) (fun _ => Stop)))))
               else Stop
    | _ => Stop end)))).
Definition exO : list oid := [H 1; H 2].
Lemma exK_ok : well_behaved exK (blank_store exO).
Proof.
  unfold exK. cbn [well_behaved]. split; [split; [by vm_compute; eexists|done]|]. intros r0 S0 [-> ->].
  cbn [well_behaved]. split; [by vm_compute; eexists|]. intros r1 S1 [-> ->].
  cbn [well_behaved]. split; [split_and!; by vm_compute; eexists|]. intros r2 S2 [-> ->].
  cbn [well_behaved]. split; [split_and!; by vm_compute; eexists|]. intros r3 S3 (n & -> & Ho & ->). cbn [well_behaved].
  destruct (0 <? n); [|done]. cbn [well_behaved]. split; [split_and!; [by vm_compute; eexists..|done]|].
  intros r4 S4 He. vm_compute in He. destruct He as [-> ->].
  cbn [well_behaved]. split; [done|]. intros r5 S5 [-> ->].
  cbn [well_behaved]. split; [left; by vm_compute; eexists|]. intros r6 S6 [-> ->].
  cbn [well_behaved]. split; [right; by vm_compute|]. intros r7 S7 [-> ->].
  cbn [well_behaved]. split; [left; by vm_compute; eexists|]. done.
Qed.

Lemma exK_runs : match run true orc_yes (drive exK) 0 (declares exO) with Done _ _ _ => True | _ => False end.
Proof. by vm_compute. Qed.

(** ** C27 Any history behaves like a store of integers *)
Theorem C27_history k st S :
  shows st S -> well_behaved k S -> calls (drive k) st (fun h st' => exists S', history k S h S' /\ shows st' S').
Proof.
  intros HS HW. apply wp_calls. eapply wp_mono; [apply drive_ok; [by apply shows_SH|done]|]. intros h st' (S' & Hh & HS'). exists S'. split; [done|]. by apply shows_SH.
Qed.
Example C27_history_ex : shows (declares exO) (blank_store exO) /\ well_behaved exK (blank_store exO) /\
  (match exec (drive exK) (declares exO) with Done h st' _ => map snd h = [Num 0; Num 0; Num 0; Num 1; Num 0; Nothing; Nothing; Nothing; Nothing] /\ map_to_list (objs st') <> [] | _ => False end).
Proof. split; [apply declares_shows|]. split; [apply exK_ok|]. by vm_compute. Qed.
Print Assumptions C27_history.
(** A program can start: the state in which its structures are declared shows the
    store with nothing in it. *)
Theorem C27_start os : shows (declares os) (blank_store os) /\ forall o, ints (blank_store os) !! o = None.
Proof. split; [apply declares_shows|done]. Qed.
Print Assumptions C27_start.

(** ** C23 Values stay canonical *)
(** After any number of calls (a client may stop after any call), each live handle. *)
Theorem C23_canonical k st S :
  shows st S -> well_behaved k S -> calls (drive k) st (fun h st' => exists S', history k S h S' /\ forall o, has S' o -> canonical st' o).
Proof.
  intros HS HW. apply wp_calls. eapply wp_mono; [apply drive_ok; [by apply shows_SH|done]|]. intros h st' (S' & Hh & HS'). exists S'. split; [done|].
  intros o [v Ho]. apply shows_SH in HS'. destruct (shows_holds _ _ _ _ HS' Ho) as [b Hb]. by eapply holds_canonical.
Qed.
Definition exK1 : client := Then (InitValue (H 1) (-7)) (fun _ => Then (Add (H 1) (H 1) (H 1)) (fun _ => Stop)).
Example C23_canonical_ex : well_behaved exK1 (blank_store exO) /\
  (match exec (drive exK1) (declares exO) with Done _ st' _ => objs st' !! H 1 = Some (Mpz (Some (Sng (H 1), 0)) 1 1 1) /\ mem st' !! Sng (H 1) = Some [Some 14] | _ => False end).
Proof.
  split; [|by vm_compute]. split; [split; [by vm_compute; eexists|done]|]. intros r0 S0 [-> ->]. cbn [well_behaved]. split; [|done]. split_and!; by vm_compute; eexists.
Qed.
Print Assumptions C23_canonical.
(** The same after every other function of the library whose theorem ends in [Rep]. *)
Theorem C23_canonical_rep st V W o v : Rep st V W -> V !! o = Some v -> canonical st o.
Proof. intros HR Ho. destruct (rep_holds _ _ _ HR _ _ Ho) as (b & Hb & _). by eapply holds_canonical. Qed.
Example C23_canonical_rep_ex : Rep exS exV world0 /\ exV !! hB = Some (- (2 ^ 64 + 7)). Proof. split; [apply ex_rep|by vm_compute]. Qed.
Print Assumptions C23_canonical_rep.

(** ** C24 Memory safety *)
(** [UB] is the outcome of any access outside a block or through a dangling or NULL
    pointer, any use of an indeterminate digit, any wrong free, signed overflow. *)
Theorem C24_safe k st S orc t :
  shows st S -> well_behaved k S ->
  run true orc (drive k) t st <> UB /\ run true orc (drive k) t st <> AssertFail /\ run true orc (drive k) t st <> OutOfFuel.
Proof.
  intros HS HW. pose proof (C27_history k st S HS HW orc t) as HC. destruct (run true orc (drive k) t st); done.
Qed.
Example C24_safe_ex : exists h st' t', run true orc_yes (drive exK) 0 (declares exO) = Done h st' t'. Proof. pose proof exK_runs as E. destruct (run _ _ _ _ _); try done. by eexists _, _, _. Qed.
Print Assumptions C24_safe.
(** In the [NDEBUG] build, as long as no request for memory is refused. *)
Theorem C24_safe_ndebug k st S orc t :
  shows st S -> well_behaved k S -> (forall n, run true orc (drive k) t st <> OOM n) -> exists h st' t', run false orc (drive k) t st = Done h st' t'.
Proof.
  intros HS HW HO. pose proof (C27_history k st S HS HW orc t) as HC. destruct (run true orc (drive k) t st) as [h st' t'|n| | |] eqn:E; try done; [|by destruct (HO n)]. exists h, st', t'. by apply run_nd_agrees.
Qed.
Example C24_safe_ndebug_ex : forall n, run true orc_yes (drive exK) 0 (declares exO) <> OOM n. Proof. intros n. pose proof exK_runs as E. by destruct (run _ _ _ _ _). Qed.
Print Assumptions C24_safe_ndebug.

(** ** C25 No leaks *)
(** Every block from malloc that is there at the end belongs to one live integer
    (unless it is the caller's), and no structure is left behind. *)
Theorem C25_no_leak k st S :
  shows st S -> well_behaved k S ->
  calls (drive k) st (fun h st' => exists S', history k S h S' /\
    (forall n l, mem st' !! Hp n = Some l -> (exists o, has S' o /\ block_of st' o = Some (Hp n)) \/ is_Some (text S !! Hp n)) /\
    (forall o1 o2, has S' o1 -> has S' o2 -> block_of st' o1 = block_of st' o2 -> o1 = o2) /\
    (forall o, is_Some (objs st' !! o) -> has S' o \/ blank_at S' o)).
Proof.
  intros HS HW. apply wp_calls. eapply wp_mono; [apply drive_ok; [by apply shows_SH|done]|]. intros h st' (S' & Hh & HS'). exists S'. split; [done|]. apply shows_SH in HS'. split; [|split].
  - intros n l Hl. destruct (shows_heap _ _ _ _ HS' Hl) as [(o & v & Ho & Hb)|Ht]; [left; exists o; split; [by eexists|done]|right].
    destruct (text S !! Hp n) eqn:E; [by eexists|]. apply (history_text _ _ _ _ _ Hh) in E. rewrite E in Ht. by destruct Ht.
  - intros o1 o2 [v1 H1] [v2 H2]. destruct HS' as (W & HR & _). by eapply rep_apart.
  - intros o Ho. by eapply shows_objs.
Qed.
Example C25_no_leak_ex : match exec (drive exK) (declares exO) with Done _ st' _ => map fst (map_to_list (mem st')) = [Sng (H 1); Sng (H 2)] \/ map fst (map_to_list (mem st')) = [Sng (H 2); Sng (H 1)] | _ => False end.
Proof. vm_compute. by (left; reflexivity) || (right; reflexivity). Qed.
Print Assumptions C25_no_leak.
(** Once all handles are cleared, nothing is left on the heap. *)
Theorem C25_all_cleared k st S :
  shows st S -> well_behaved k S -> (forall n, text S !! Hp n = None) ->
  calls (drive k) st (fun h st' => exists S', history k S h S' /\ ((forall o, ~ has S' o) -> forall n, mem st' !! Hp n = None)).
Proof.
  intros HS HW HT. apply wp_calls. eapply wp_mono; [apply drive_ok; [by apply shows_SH|done]|]. intros h st' (S' & Hh & HS'). exists S'. split; [done|]. intros HN n. apply shows_SH in HS'.
  destruct (mem st' !! Hp n) as [l|] eqn:E; [|done]. destruct (shows_heap _ _ _ _ HS' E) as [(o & v & Ho & _)|Ht]; [by destruct (HN o); eexists|].
  specialize (HT n). apply (history_text _ _ _ _ _ Hh) in HT. rewrite HT in Ht. by destruct Ht.
Qed.
Example C25_all_cleared_ex : forall n, text (blank_store exO) !! Hp n = None. Proof. done. Qed.
Print Assumptions C25_all_cleared.

(** ** C26 Only outputs change *)
Theorem C26_outputs k st S :
  shows st S -> well_behaved k S ->
  calls (drive k) st (fun h st' => forall o v b, ints S !! o = Some v -> holds st o b v ->
    (forall c r, (c, r) ∈ h -> o ∉ outputs c) -> exists b', holds st' o b' v).
Proof.
  intros HS HW. apply wp_calls. eapply wp_mono; [apply drive_ok; [by apply shows_SH|done]|]. intros h st' (S' & Hh & HS') o v b Ho _ HN. apply shows_SH in HS'.
  eapply shows_holds; [done|]. by eapply history_frame.
Qed.
Example C26_outputs_ex : outputs (Div hA hB (Some hC) None) = [hC] /\ outputs (Compare hA hB) = [] /\ outputs (Egcd hA hB hC (Some hD) (Some hE)) = [hC; hD; hE].
Proof. done. Qed.
Print Assumptions C26_outputs.

(** ** C28 Assertions do not change results *)
Theorem C28_ndebug k st S orc t :
  shows st S -> well_behaved k S -> (forall n, run true orc (drive k) t st <> OOM n) ->
  exists h st' t', run true orc (drive k) t st = Done h st' t' /\ run false orc (drive k) t st = Done h st' t'.
Proof.
  intros HS HW HO. pose proof (C27_history k st S HS HW orc t) as HC. destruct (run true orc (drive k) t st) as [h st' t'|n| | |] eqn:E; try done; [|by destruct (HO n)].
  exists h, st', t'. split; [done|]. by apply run_nd_agrees.
Qed.
Example C28_ndebug_ex : forall n, run true orc_yes (drive exK) 0 (declares exO) <> OOM n. Proof. intros n. pose proof exK_runs as E. by destruct (run _ _ _ _ _). Qed.
Print Assumptions C28_ndebug.
(** For every function of the model, including those that are not in [call]. *)
Theorem C28_any {A} (p : prog A) orc t st a st' t' :
  run true orc p t st = Done a st' t' -> run false orc p t st = Done a st' t'.
Proof. apply run_nd_agrees. Qed.
Example C28_any_ex : exists st' t', run true orc_yes (mp_int_mul hA hB hC) 0 exS = Done MP_OK st' t'. Proof. eexists _, _. vm_compute. reflexivity. Qed.
Print Assumptions C28_any.

(** ** C49 Error messages *)
Theorem C49_error_string res : - 2 ^ 31 < res < 2 ^ 31 -> mp_error_string res = Some
  (if res =? MP_OK then "error code 0"%string else if res =? MP_TRUE then "boolean true"%string else if res =? MP_MEMORY then "out of memory"%string else if res =? MP_RANGE then "argument out of range"%string
   else if res =? MP_UNDEF then "result undefined"%string else if res =? MP_TRUNC then "output truncated"%string else if res =? MP_BADARG then "invalid argument"%string else "unknown result code"%string).
Proof.
  intros Hr. unfold mp_error_string. destruct (Z.gtb_spec res 0) as [G|G].
  - repeat (match goal with |- context [res =? ?x] => destruct (Z.eqb_spec res x) as [E|_]; [exfalso; unfold MP_OK, MP_TRUE, MP_MEMORY, MP_RANGE, MP_UNDEF, MP_TRUNC, MP_BADARG in E; lia|] end). done.
  - destruct (Z.eqb_spec res (- 2 ^ 31)); [lia|]. unfold s_error_msg, MP_OK, MP_TRUE, MP_MEMORY, MP_RANGE, MP_UNDEF, MP_TRUNC, MP_BADARG. cbn [error_scan].
    repeat (match goal with |- context [?x <=? 0] => destruct (Z.leb_spec x 0) end); repeat (match goal with |- context [res =? ?x] => destruct (Z.eqb_spec res x) end); try done; lia.
Qed.
Example C49_error_string_ex : mp_error_string (-4) = Some "result undefined"%string /\ mp_error_string 1 = Some "unknown result code"%string /\ mp_error_string (-7) = Some "unknown result code"%string.
Proof. done. Qed.
Print Assumptions C49_error_string.
(** INT_MIN is negated in an [int]: undefined. *)
Theorem C49_int_min_refuted : mp_error_string (- 2 ^ 31) = None.
Proof. done. Qed.
Print Assumptions C49_int_min_refuted.
