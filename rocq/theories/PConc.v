(** Threads that use the library side by side (C58).  See [SpecHist] for stores
    and clients, [SpecConc] for what threads may share, [Conc] for schedules. *)
From Coq Require Import ZArith List Lia.
From stdpp Require Import gmap list.
From Verif Require Import Mem Prog Kern Imath Exec Wp Spec SpecBin SpecHist SpecConc Conc Public Concrete Hist Const Threads ConcFns ConcApi ConcRun.
Local Open Scope Z_scope.
Local Open Scope list_scope.

(** The threads [ks] use the library, thread number i the part [Ts !! i] of the
    store [S] shown by [st]; [I] and [B] are shared. *)
Record together (I : gset oid) (B : gset base) (S : store) (Ts : list store) (ks : list client) (st : state) : Prop := {
  tg_shows : shows st S;
  tg_divided : divided I B S Ts;
  tg_length : length ks = length Ts;
  tg_fair : forall i k T, ks !! i = Some k -> Ts !! i = Some T -> fair I B k T
}.

Lemma together_start I B S Ts ks st : together I B S Ts ks st ->
  conf I (shared_blocks st I B) (view st <$> Ts) st /\
  proved I (shared_blocks st I B) (fun i h v => exists k T T', ks !! i = Some k /\ Ts !! i = Some T /\ history k T h T' /\ tinv I B (shared_blocks st I B) v T') (drive <$> ks) (view st <$> Ts).
Proof.
  intros [HS HD Hl HF]. split; [by eapply view_conf|]. split; [by rewrite !fmap_length|]. intros i p v Hp Hv. left.
  rewrite list_lookup_fmap in Hp. destruct (ks !! i) as [k|] eqn:Ek; [|done]. injection Hp as <-. rewrite list_lookup_fmap in Hv. destruct (Ts !! i) as [T|] eqn:ET; [|done]. injection Hv as <-.
  eapply wpw_mono; [apply (drive_shared I B _ k _ T)|].
  - eapply view_tinv; [done|done|by eapply elem_of_list_lookup_2].
  - by eapply HF.
  - intros h v' (T' & Hh & Hv'). by exists k, T, T'.
Qed.
Lemma together_run I B S Ts ks st ps st' : together I B S Ts ks st -> interleaves (drive <$> ks) st ps st' ->
  exists vs, conf I (shared_blocks st I B) vs st' /\
  proved I (shared_blocks st I B) (fun i h v => exists k T T', ks !! i = Some k /\ Ts !! i = Some T /\ history k T h T' /\ tinv I B (shared_blocks st I B) v T') ps vs.
Proof. intros HT HI. destruct (together_start _ _ _ _ _ _ HT) as [C P]. by eapply threads_run. Qed.

(** ** C58 Threads do not disturb each other *)
(** Whatever the schedule, whichever requests are refused: every thread has
    returned, stands at the failing assertion after a refused request, or can
    perform its next effect; nothing is undefined and no other assertion fails. *)
Theorem C58_threads_defined I B S Ts ks st ps st' i p :
  together I B S Ts ks st -> interleaves (drive <$> ks) st ps st' -> ps !! i = Some p ->
  finished p \/ aborts p \/ exists p' st'', step p st' p' st''.
Proof.
  intros HT HI Hp. destruct (together_run _ _ _ _ _ _ _ _ HT HI) as (vs & C & P). assert (N := threads_not_wrong _ _ _ _ _ _ _ _ C P Hp).
  destruct (fire orc_yes 0 p st') as [[p' st'']|] eqn:E; [right; right; exists p', st''; by eapply fire_step|]. apply fire_none in E as [?|[?|?]]; [by left|done|by right; left].
Qed.
(** No data race: two threads never stand before effects on the same structure,
    block or tunable of which one writes. *)
Theorem C58_threads_no_race I B S Ts ks st ps st' i j p q :
  together I B S Ts ks st -> interleaves (drive <$> ks) st ps st' -> ps !! i = Some p -> ps !! j = Some q -> i <> j -> ~ races p q.
Proof. intros HT HI Hp Hq N. destruct (together_run _ _ _ _ _ _ _ _ HT HI) as (vs & C & P). by eapply threads_no_race. Qed.
(** Every schedule ends. *)
Theorem C58_threads_end (ks : list client) (c : nat -> list (prog (list (call * answer))) * state) :
  (c 0%nat).1 = drive <$> ks -> ~ forall n, turn (c (Datatypes.S n)) (c n).
Proof.
  intros _ HI. assert (forall x, Acc turn x -> forall n, c n <> x) as HA.
  { induction 1 as [x _ IH]. intros n En. eapply (IH (c (Datatypes.S n))); [rewrite <- En; apply HI|done]. }
  by apply (HA (c 0%nat) (turn_acc _) 0%nat).
Qed.
(** A thread that has returned has seen the answers that its own part of the store
    allows, whatever the others did. *)
Theorem C58_threads_answers I B S Ts ks st ps st' i k T h :
  together I B S Ts ks st -> interleaves (drive <$> ks) st ps st' -> ks !! i = Some k -> Ts !! i = Some T -> ps !! i = Some (Ret h) ->
  exists T', history k T h T'.
Proof.
  intros HT HI Hk HTi Hp. destruct (together_run _ _ _ _ _ _ _ _ HT HI) as (vs & C & [Hl P]). destruct (lookup_lt_is_Some_2 vs i) as [v Hv]; [rewrite <- Hl; by eapply lookup_lt_Some|].
  destruct (P i _ v Hp Hv) as [(k' & T0 & T' & Ek & ET & Hh & _)|[]]. simplify_eq. eauto.
Qed.
(** When all have returned, the memory shows the parts they should have, put
    together, and nothing besides (no leak); what was shared is unchanged. *)
Theorem C58_threads_store I B S Ts ks st hs st' :
  together I B S Ts ks st -> interleaves (drive <$> ks) st (Ret <$> hs) st' ->
  exists Ts' S', length Ts' = length Ts /\
    (forall i k T h T', ks !! i = Some k -> Ts !! i = Some T -> hs !! i = Some h -> Ts' !! i = Some T' -> history k T h T') /\
    divided I B S' Ts' /\ shows st' S' /\
    (ks <> [] -> (forall o, o ∈ I -> ints S' !! o = ints S !! o) /\ (forall b, b ∈ B -> text S' !! b = text S !! b)).
Proof.
  intros HT HI. destruct (decide (ks = [])) as [->|Nk].
  { apply interleaves_none in HI as [E ->]. destruct HT as [HS HD Hl _]. destruct Ts; [|done]. exists [], S. split_and!; try done. }
  destruct (together_run _ _ _ _ _ _ _ _ HT HI) as (vs & C & [Hl P]). rewrite fmap_length in Hl.
  assert (Hlk : length hs = length ks).
  { assert (forall (ps qs : list (prog (list (call * answer)))) s s', interleaves ps s qs s' -> length qs = length ps) as HL by (induction 1; [done|]; by rewrite insert_length in *).
    apply HL in HI. by rewrite !fmap_length in HI. }
  destruct HT as [HS HD Hl2 HF].
  assert (exists Ts', length Ts' = length Ts /\ forall i k T h v T', ks !! i = Some k -> Ts !! i = Some T -> hs !! i = Some h -> vs !! i = Some v -> Ts' !! i = Some T' ->
     history k T h T' /\ tinv I B (shared_blocks st I B) v T') as (Ts' & Hl3 & HT').
  { clear HI HD HF Nk HS. assert (P' : forall i h v, hs !! i = Some h -> vs !! i = Some v -> exists k T T', ks !! i = Some k /\ Ts !! i = Some T /\ history k T h T' /\ tinv I B (shared_blocks st I B) v T').
    { intros i h v Hh Hv. destruct (P i (Ret h) v) as [HP|[]]; [by rewrite list_lookup_fmap, Hh|done|]. apply HP. }
    clear P C. generalize dependent vs. generalize dependent ks. generalize dependent hs. generalize (shared_blocks st I B) as B0. intros B0. induction Ts as [|T Ts IH]; intros hs ks Hl1 Hl2 vs Hl3 P.
    - exists []. split; [done|]. intros. done.
    - destruct ks as [|k ks]; [done|]. destruct hs as [|h hs]; [done|]. destruct vs as [|v vs]; [done|]. simpl in *.
      destruct (P 0%nat h v eq_refl eq_refl) as (k' & T0 & T' & Ek & ET & Hh & Hv). injection Ek as <-. injection ET as <-.
      destruct (IH hs ks) with (vs := vs) as (Ts' & Hl4 & HT'); [lia|lia|lia|intros i; apply (P (Datatypes.S i))|].
      exists (T' :: Ts'). simpl. split; [lia|]. intros [|i]; simpl; [intros k1 T1 h1 v1 T1' E1 E2 E3 E4 E5; injection E1 as <-; injection E2 as <-; injection E3 as <-; injection E4 as <-; injection E5 as <-; by split|apply HT']. }
  assert (Hidx : forall i T', Ts' !! i = Some T' -> exists k T h v, ks !! i = Some k /\ Ts !! i = Some T /\ hs !! i = Some h /\ vs !! i = Some v).
  { intros i T' Hi. apply lookup_lt_Some in Hi. destruct (lookup_lt_is_Some_2 ks i) as [k ?]; [lia|]. destruct (lookup_lt_is_Some_2 Ts i) as [T ?]; [lia|].
    destruct (lookup_lt_is_Some_2 hs i) as [h ?]; [lia|]. destruct (lookup_lt_is_Some_2 vs i) as [v ?]; [lia|]. by exists k, T, h, v. }
  destruct (join I B (shared_blocks st I B) vs Ts' st' C) as (S' & HD' & HS').
  - lia.
  - destruct Ts' as [|T0 Ts']; [destruct ks; [done|simpl in *; lia]|]. destruct (Hidx 0%nat T0 eq_refl) as (k & T & h & v & E1 & E2 & E3 & E4).
    destruct (HT' _ _ _ _ _ _ E1 E2 E3 E4 eq_refl) as [_ ((W & HR & _) & _)]. rewrite <- (cf_g _ _ _ _ C _ _ E4). assert (G1 := rep_glob _ _ _ HR). assert (G2 := rep_tun _ _ _ HR). by rewrite G1.
  - intros i v T' Hv Ht. destruct (Hidx i T' Ht) as (k & T & h & v' & E1 & E2 & E3 & E4). simplify_eq. by eapply HT'.
  - exists Ts', S'. split; [done|]. split.
    { intros i k T h T' E1 E2 E3 E4. destruct (Hidx i T' E4) as (k' & T0 & h' & v & F1 & F2 & F3 & F4). simplify_eq. by eapply HT'. }
    split; [done|]. split; [done|]. intros _.
    assert (exists T0', Ts' !! 0%nat = Some T0') as [T0' E0] by (destruct Ts' as [|T0' Ts0]; [destruct ks; [done|simpl in *; lia]|by exists T0']). destruct (Hidx 0%nat T0' E0) as (k & T & h & v & E1 & E2 & E3 & E4).
    destruct (HT' _ _ _ _ _ _ E1 E2 E3 E4 E0) as [Hh _]. assert (HFk := HF _ _ _ E1 E2). assert (MT : T ∈ Ts) by (by eapply elem_of_list_lookup_2).
    assert (MT' : T0' ∈ Ts') by (by eapply elem_of_list_lookup_2).
    assert (forall o x, o ∈ I -> ints T !! o = Some x -> ints T0' !! o = Some x) as K1.
    { clear -Hh HFk. induction Hh as [|c k T r T1 h T2 He Hh IH]; [done|]. destruct HFk as (_ & (P1 & _) & HFk). intros o x Ho Hx. apply IH; [by apply HFk|done|]. eapply effect_frame; [done|done|]. intros Hc. by apply (P1 o). }
    assert (forall o x, o ∈ B -> text T !! o = Some x -> text T0' !! o = Some x) as K2.
    { clear -Hh HFk. induction Hh as [|c k T r T1 h T2 He Hh IH]; [done|]. destruct HFk as (_ & (_ & P2 & _) & HFk). intros o x Ho Hx. apply IH; [by apply HFk|done|]. eapply effect_keeps_text; [done|done|]. intros Hc. by apply (P2 o). }
    split.
    + intros o Ho. destruct (dv_shared _ _ _ _ HD T o MT Ho) as [x Hx]. transitivity (Some x); [|symmetry]; [apply (dv_ints _ _ _ _ HD'); eauto|apply (dv_ints _ _ _ _ HD); eauto].
    + intros b Hb. destruct (dv_shared_text _ _ _ _ HD T b MT Hb) as [x Hx]. transitivity (Some x); [|symmetry]; [apply (dv_text _ _ _ _ HD'); eauto|apply (dv_text _ _ _ _ HD); eauto].
Qed.
(** A call that runs on its own is one of these schedules. *)
Theorem C58_alone k orc t st h st' t' : run true orc (drive k) t st = Done h st' t' -> interleaves [drive k] st [Ret h] st'.
Proof. apply run_interleaves. Qed.

(** Dividing between two threads. *)
Lemma divided_two I B (T1 T2 : store) :
  (forall o x, ints T1 !! o = Some x -> known T2 o -> o ∈ I /\ ints T2 !! o = Some x) -> (forall o x, raws T1 !! o = Some x -> ~ known T2 o) ->
  (forall b l, text T1 !! b = Some l -> is_Some (text T2 !! b) -> b ∈ B /\ text T2 !! b = Some l) ->
  (forall T o, T ∈ [T1; T2] -> o ∈ I -> is_Some (ints T !! o)) -> (forall T b, T ∈ [T1; T2] -> b ∈ B -> is_Some (text T !! b)) ->
  divided I B (Store (ints T1 ∪ ints T2) (raws T1 ∪ raws T2) (dyns T1 ∪ dyns T2) (text T1 ∪ text T2)) [T1; T2].
Proof.
  intros H1 H2 H3 H4 H5.
  assert (HU : forall (K V : Type) (EK : EqDecision K) (CK : Countable K) (m1 m2 : gmap K V) (f : store -> gmap K V) k x, f T1 = m1 -> f T2 = m2 ->
    (forall y, m1 !! k = Some y -> is_Some (m2 !! k) -> m2 !! k = Some y) -> (m1 ∪ m2) !! k = Some x <-> exists T, T ∈ [T1; T2] /\ f T !! k = Some x).
  { intros K V EK CK m1 m2 f k x <- <- HA. rewrite lookup_union_Some_raw. split.
    - intros [Hx|[_ Hx]]; [exists T1|exists T2]; (split; [set_solver|done]).
    - intros (T & M & Hx). apply elem_of_list_In in M as [<-|[<-|[]]]; [by left|]. destruct (f T1 !! k) as [y|] eqn:E; [|by right]. left. rewrite <- Hx. symmetry. apply HA; eauto. }
  constructor; simpl.
  - intros o v. apply (HU _ _ _ _ _ _ ints); [done..|]. intros y Hy Hk. apply H1; [done|by left].
  - intros o v. apply (HU _ _ _ _ _ _ raws); [done..|]. intros y Hy Hk. destruct (H2 o y Hy). by right.
  - intros o. set_solver.
  - intros o v. apply (HU _ _ _ _ _ _ text); [done..|]. intros y Hy Hk. by apply H3.
  - assert (forall o, known T1 o -> known T2 o -> o ∈ I) as HK. { intros o [[x Hx]|[x Hx]] Hk; [by eapply H1|by destruct (H2 _ _ Hx)]. }
    intros [|[|i]] [|[|j]] Ti Tj o Hi Hj N; simpl in *; simplify_eq; eauto.
  - assert (forall o, is_Some (text T1 !! o) -> is_Some (text T2 !! o) -> o ∈ B) as HK. { intros o [x Hx] Hk. by eapply H3. }
    intros [|[|i]] [|[|j]] Ti Tj o Hi Hj N; simpl in *; simplify_eq; eauto.
  - done.
  - done.
Qed.

(** Two threads that share the integer a: one squares it and compares, the other
    multiplies it by its own number, asks for a new integer, uses and frees it. *)
Definition cA : Z := -70000000000000.
Definition exT1 : store := Store {[H 1 := cA; H 2 := 1]} ∅ ∅ ∅.
Definition exT2 : store := Store {[H 1 := cA; H 3 := 5]} ∅ ∅ ∅.
Definition exTS : state := put (H 3) 5 (put (H 2) 1 (put (H 1) cA st0)).
Definition exk1 : client := Then (Mul (H 1) (H 1) (H 2)) (fun _ => Then (Compare (H 2) (H 1)) (fun _ => Stop)).
Definition exk2 : client := Then (Mul (H 1) (H 3) (H 3)) (fun _ => Then Alloc (fun r =>
  match r with Handle (Some o) => Then (Add (H 1) (H 1) o) (fun _ => Then (ToInt (H 3)) (fun _ => Then (FreeInt o) (fun _ => Stop))) | _ => Stop end)).
Definition exTSt : store := Store (<[H 3 := 5]> (<[H 2 := 1]> (<[H 1 := cA]> ∅))) ∅ ∅ ∅.
Lemma ex_together : together {[H 1]} ∅ exTSt [exT1; exT2] [exk1; exk2] exTS.
Proof.
  constructor.
  - exists world0. split_and!; [|done|done|done|done]. unfold exTS, exTSt. cbn [ints]. repeat (apply Rep_put; [|reflexivity|by vm_compute]). apply Rep_empty.
  - assert (exTSt = Store (ints exT1 ∪ ints exT2) (raws exT1 ∪ raws exT2) (dyns exT1 ∪ dyns exT2) (text exT1 ∪ text exT2)) as ->.
    { unfold exTSt. simpl. rewrite !(left_id_L ∅ (∪)). f_equal. apply (bool_decide_unpack _). by vm_compute. }
    apply (divided_two _ _ exT1 exT2).
    + intros o x. unfold exT1, exT2, known; simpl. rewrite lookup_empty. intros Hx [Hk|[? ?]]; [|done].
      destruct (decide (o = H 1)) as [->|N]; [split; [set_solver|by vm_compute in Hx |- *]|]. destruct (decide (o = H 2)) as [->|N2]; [by vm_compute in Hk; destruct Hk|].
      rewrite lookup_insert_ne, lookup_singleton_ne in Hx by done. done.
    + done.
    + done.
    + intros T o M Ho. apply elem_of_singleton in Ho as ->. apply elem_of_list_In in M as [<-|[<-|[]]]; by vm_compute; eexists.
    + done.
  - done.
  - intros [|[|i]] k T Hk HT; simpl in *; simplify_eq.
    + unfold exk1. cbn [fair]. split; [split_and!; by vm_compute; eexists|]. split; [split_and!; [|set_solver|done]; intros o Ho; set_solver|]. intros r S [-> ->].
      cbn [fair]. split; [split_and!; by vm_compute; eexists|]. split; [split_and!; [|set_solver|done]; set_solver|]. done.
    + unfold exk2. cbn [fair]. split; [split_and!; by vm_compute; eexists|]. split; [split_and!; [|set_solver|done]; intros o Ho; set_solver|]. intros r S [-> ->].
      cbn [fair]. split; [done|]. split; [split_and!; [|set_solver|done]; set_solver|]. intros r S [[-> ->]|(o & N1 & N2 & -> & ->)]; [done|].
      assert (No : o <> H 1 /\ o <> H 3) by (split; intros ->; by vm_compute in N1). destruct No as [No1 No3].
      cbn [fair]. split; [split_and!; unfold has; simpl; rewrite ?lookup_insert, ?(lookup_insert_ne _ o) by done; [by vm_compute; eexists..|eauto]|].
      split; [split_and!; [|set_solver|done]; intros o' Ho'; set_solver|]. intros r S [-> ->].
      cbn [fair]. split; [split; [unfold has|unfold val]; simpl; rewrite !(lookup_insert_ne _ o) by done; [by vm_compute; eexists|intros E; by vm_compute in E]|].
      split; [split_and!; [|set_solver|done]; set_solver|]. intros r S [-> _].
      cbn [fair]. split; [split; [unfold has; simpl; rewrite lookup_insert; eauto|set_solver]|]. split; [split_and!; [|set_solver|done]; intros o' Ho'; set_solver|]. done.
Qed.
(** Turn by turn they end, with the right answers. *)
Fixpoint in_turn (n : nat) : list nat := match n with O => [] | Datatypes.S n => 0%nat :: 1%nat :: in_turn n end.
Example C58_threads_ex : together {[H 1]} ∅ exTSt [exT1; exT2] [exk1; exk2] exTS /\
  match play orc_yes 0 (in_turn 400) (drive <$> [exk1; exk2]) exTS with
  | ([Ret h1; Ret h2], st') => map snd h1 = [Num 0; Num 1] /\ map snd h2 = [Num 0; Handle (Some (H 4)); Num 0; Small 0 (Some (5 * cA)); Nothing] /\ value_of st' (H 2) = Some (cA * cA)
  | _ => False end.
Proof. split; [apply ex_together|]. by vm_compute. Qed.

(** Two threads may not decode the same buffer with mp_int_read_binary at the same
    time, although neither changes it: each does its own thing with its own integer
    and only reads the bytes as far as its own calls tell, and yet there is a data
    race, and a schedule in which one of them decodes -1 as 1. *)
Definition rbK (o : oid) : client := Then (ReadBinary o (Ext 7) 0 1) (fun _ => Then (ToInt o) (fun _ => Stop)).
Definition rbT (o : oid) : store := Store {[o := 0]} ∅ ∅ {[Ext 7 := [Some 255]]}.
Definition rbS : state := put_buf (Ext 7) [Some 255] (put (H 2) 0 (put (H 1) 0 st0)).
Definition rbSt : store := Store (<[H 2 := 0]> (<[H 1 := 0]> ∅)) ∅ ∅ (<[Ext 7 := [Some 255]]> ∅).
Lemma rb_shows : shows rbS rbSt.
Proof.
  exists (with_buf world0 (Ext 7) [Some 255]). split_and!; [|done|done|done|done]. unfold rbS, rbSt. cbn [ints].
  apply Rep_put_buf; [|by vm_compute|done]. repeat (apply Rep_put; [|reflexivity|by vm_compute]). apply Rep_empty.
Qed.
Lemma rb_divided : divided ∅ {[Ext 7]} rbSt [rbT (H 1); rbT (H 2)].
Proof.
  assert (rbSt = Store (ints (rbT (H 1)) ∪ ints (rbT (H 2))) (raws (rbT (H 1)) ∪ raws (rbT (H 2))) (dyns (rbT (H 1)) ∪ dyns (rbT (H 2))) (text (rbT (H 1)) ∪ text (rbT (H 2)))) as ->.
  { unfold rbSt. simpl. rewrite !(left_id_L ∅ (∪)). f_equal; apply (bool_decide_unpack _); by vm_compute. }
  apply (divided_two _ _ (rbT (H 1)) (rbT (H 2))).
  - intros o x Hx [[y Hy]|[y Hy]]; [|done]. simpl in *. apply lookup_singleton_Some in Hx as [<- _]. by apply lookup_singleton_Some in Hy as [? _].
  - done.
  - intros b l Hl Hb. simpl in *. split; [|done]. apply lookup_singleton_Some in Hl as [<- _]. set_solver.
  - done.
  - intros T b M Hb. apply elem_of_singleton in Hb as ->. apply elem_of_list_In in M as [<-|[<-|[]]]; by vm_compute; eexists.
Qed.
Lemma rb_bytes o l bs : text (rbT o) !! Ext 7 = Some l -> has_bytes l 0 bs -> length bs = 1%nat -> bs = [255].
Proof.
  intros Hl Hb Hlen. simpl in Hl. rewrite lookup_singleton in Hl. injection Hl as <-. destruct bs as [|x [|? ?]]; try done. destruct Hb as [_ Hb]. specialize (Hb 0%nat x eq_refl). by injection Hb as <-.
Qed.
Lemma rb_behaved o : well_behaved (rbK o) (rbT o).
Proof.
  unfold rbK. cbn [well_behaved]. split.
  - split_and!; [simpl; unfold has; simpl; rewrite lookup_singleton; eauto|lia|lia|]. exists [Some 255], [255]. split; [by vm_compute|]. split; [|done].
    split; [repeat constructor; lia|]. intros [|i] x Hx; [by injection Hx as <-|done].
  - intros r S' (l & bs & Hl & Hb & Hlen & -> & ->). apply (rb_bytes o) in Hb as ->; [|done|done]. split; [|done]. cbn [legal]. unfold has, val. simpl. rewrite lookup_insert. split; [eauto|]. intros E. by vm_compute in E.
Qed.
Lemma rb_history o h T' : history (rbK o) (rbT o) h T' -> map snd h = [Num MP_OK; Small MP_OK (Some (-1))].
Proof.
  intros Hh. inversion Hh as [|? ? ? r S1 h1 ? He Hh1]; subst. destruct He as (l & bs & Hl & Hb & Hlen & -> & ->). apply (rb_bytes o) in Hb as ->; [|done|done].
  inversion Hh1 as [|? ? ? r S1 h2 ? He Hh2]; subst. destruct He as [-> He]. unfold val in He. simpl in He. rewrite lookup_insert in He. simpl in He. inversion Hh2; subst. done.
Qed.
Theorem C58_read_binary_shared_refuted : exists st S b o1 o2 k1 k2 T1 T2,
  k1 = Then (ReadBinary o1 b 0 1) (fun _ => Then (ToInt o1) (fun _ => Stop)) /\ k2 = Then (ReadBinary o2 b 0 1) (fun _ => Then (ToInt o2) (fun _ => Stop)) /\
  shows st S /\ divided ∅ {[b]} S [T1; T2] /\ well_behaved k1 T1 /\ well_behaved k2 T2 /\
  (exists p q st', interleaves [drive k1; drive k2] st [p; q] st' /\ races p q) /\
  (exists h1 h2 st', interleaves [drive k1; drive k2] st [Ret h1; Ret h2] st' /\ map snd h2 = [Num MP_OK; Small MP_OK (Some 1)] /\ forall T', ~ history k2 T2 h2 T').
Proof.
  exists rbS, rbSt, (Ext 7), (H 1), (H 2), (rbK (H 1)), (rbK (H 2)), (rbT (H 1)), (rbT (H 2)).
  do 2 (split; [done|]). split; [apply rb_shows|]. split; [apply rb_divided|]. do 2 (split; [apply rb_behaved|]). split.
  - assert (HI := play_interleaves orc_yes (in_turn 12) 0 [drive (rbK (H 1)); drive (rbK (H 2))] rbS).
    assert (HR : match (play orc_yes 0 (in_turn 12) [drive (rbK (H 1)); drive (rbK (H 2))] rbS).1 with [p; q] => touches p = Some (Block (Ext 7), true) /\ touches q = Some (Block (Ext 7), true) | _ => False end) by by vm_compute.
    destruct (play _ _ _ _ _) as [ps st']. cbn [fst snd] in *. destruct ps as [|p [|q [|? ?]]]; try done. exists p, q, st'. split; [done|]. destruct HR as [R1 R2]. by exists (Block (Ext 7)), true, true.
  - pose (is := replicate 13 0%nat ++ replicate 300 1%nat ++ replicate 300 0%nat).
    assert (HI := play_interleaves orc_yes is 0 [drive (rbK (H 1)); drive (rbK (H 2))] rbS).
    assert (HR : match (play orc_yes 0 is [drive (rbK (H 1)); drive (rbK (H 2))] rbS).1 with [Ret h1; Ret h2] => map snd h2 = [Num MP_OK; Small MP_OK (Some 1)] | _ => False end) by by vm_compute.
    destruct (play _ _ _ _ _) as [ps st']. cbn [fst snd] in *. destruct ps as [|[] [|[] [|? ?]]]; try done. eexists _, _, st'. split; [done|]. split; [done|]. intros T' Hh. apply rb_history in Hh. by rewrite Hh in HR.
Qed.

Print Assumptions C58_threads_defined.
Print Assumptions C58_threads_no_race.
Print Assumptions C58_threads_end.
Print Assumptions C58_threads_answers.
Print Assumptions C58_threads_store.
Print Assumptions C58_alone.
Print Assumptions C58_read_binary_shared_refuted.
