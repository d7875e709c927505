(** Threads that use the GMP interface (C67).  See [SpecGHist] for calls and clients,
    [SpecGConc] for what threads may share, [Conc] for schedules. *)
From Coq Require Import ZArith List Lia QArith.
From stdpp Require Import gmap list.
From Verif Require Import Mem Prog Kern Imath Imrat Gmp Exec Wp Spec SpecBin SpecHist SpecRat SpecDec SpecQHist SpecGmp SpecGstr SpecGHist SpecConc SpecQConc SpecGConc Conc Public Concrete Hist QHist GHist Const Threads ConcFns ConcApi ConcRun QConc QConcRun GConc PConc PQConc.
Local Open Scope Z_scope.
Local Open Scope list_scope.

(** The threads [ks] use the GMP interface, thread number i the part [Ms !! i] of the
    store [M] shown by [st]; [I], [B] and [R] are shared. *)
Record gtogether (I : gset oid) (B : gset base) (R : gset rid) (M : mixed) (Ms : list mixed) (ks : list gclient) (st : state) : Prop := {
  gt_shows : qshows st M;
  gt_divided : qdivided I B R M Ms;
  gt_length : length ks = length Ms;
  gt_fair : forall i k N, ks !! i = Some k -> Ms !! i = Some N -> gfair I B k N
}.

Lemma gtogether_start I B R M Ms ks st : gtogether I B R M Ms ks st ->
  conf I (shared_blocks st I B) (view st <$> (whole <$> Ms)) st /\
  proved I (shared_blocks st I B) (fun i h v => exists k N N', ks !! i = Some k /\ Ms !! i = Some N /\ ghistory k N h N' /\ qtinv I B R (shared_blocks st I B) v N') (drive_g <$> ks) (view st <$> (whole <$> Ms)).
Proof.
  intros [[HS _] HD Hl HF]. pose proof (qd_whole _ _ _ _ _ HD) as HW. split; [by eapply view_conf|]. split; [by rewrite !fmap_length|]. intros i p v Hp Hv. left.
  rewrite list_lookup_fmap in Hp. destruct (ks !! i) as [k|] eqn:Ek; [|done]. injection Hp as <-. rewrite !list_lookup_fmap in Hv. destruct (Ms !! i) as [N|] eqn:EN; [|done]. injection Hv as <-.
  assert (N ∈ Ms) as HN by (by eapply elem_of_list_lookup_2).
  eapply wpw_mono; [apply (gdrive_shared I B R _ k _ N)|].
  - split; [eapply view_tinv; [done|done|by apply elem_of_list_fmap_1]|]. split; [by eapply qd_tidy|]. split.
    + intros r Hr. split; [by eapply qd_shared|by eapply qd_members].
    + intros r Hr Hm. by eapply qd_own.
  - by eapply HF.
  - intros h v' (N' & Hh & Hv'). by exists k, N, N'.
Qed.
Lemma gtogether_run I B R M Ms ks st ps st' : gtogether I B R M Ms ks st -> interleaves (drive_g <$> ks) st ps st' ->
  exists vs, conf I (shared_blocks st I B) vs st' /\
  proved I (shared_blocks st I B) (fun i h v => exists k N N', ks !! i = Some k /\ Ms !! i = Some N /\ ghistory k N h N' /\ qtinv I B R (shared_blocks st I B) v N') ps vs.
Proof. intros HT HI. destruct (gtogether_start _ _ _ _ _ _ _ HT) as [C P]. by eapply threads_run. Qed.

(** ** C67 Threads that use the GMP interface do not disturb each other *)
(** Whatever the schedule, whichever requests are refused: every thread has
    returned, stands at the failing assertion after a refused request, or can
    perform its next effect; nothing is undefined and no other assertion fails. *)
Theorem C67_threads_defined I B R M Ms ks st ps st' i p :
  gtogether I B R M Ms ks st -> interleaves (drive_g <$> ks) st ps st' -> ps !! i = Some p ->
  finished p \/ aborts p \/ exists p' st'', step p st' p' st''.
Proof.
  intros HT HI Hp. destruct (gtogether_run _ _ _ _ _ _ _ _ _ HT HI) as (vs & C & P). assert (W := threads_not_wrong _ _ _ _ _ _ _ _ C P Hp).
  destruct (fire orc_yes 0 p st') as [[p' st'']|] eqn:E; [right; right; exists p', st''; by eapply fire_step|]. apply fire_none in E as [?|[?|?]]; [by left|done|by right; left].
Qed.
(** No data race: two threads never stand before effects on the same structure,
    block or tunable of which one writes. *)
Theorem C67_threads_no_race I B R M Ms ks st ps st' i j p q :
  gtogether I B R M Ms ks st -> interleaves (drive_g <$> ks) st ps st' -> ps !! i = Some p -> ps !! j = Some q -> i <> j -> ~ races p q.
Proof. intros HT HI Hp Hq N. destruct (gtogether_run _ _ _ _ _ _ _ _ _ HT HI) as (vs & C & P). by eapply threads_no_race. Qed.
(** Every schedule ends. *)
Theorem C67_threads_end (ks : list gclient) (c : nat -> list (prog (list (gcall * qanswer))) * state) :
  (c 0%nat).1 = drive_g <$> ks -> ~ forall n, turn (c (Datatypes.S n)) (c n).
Proof.
  intros _ HI. assert (forall x, Acc turn x -> forall n, c n <> x) as HA.
  { induction 1 as [x _ IH]. intros n En. eapply (IH (c (Datatypes.S n))); [rewrite <- En; apply HI|done]. }
  by apply (HA (c 0%nat) (turn_acc _) 0%nat).
Qed.
(** A thread that has returned has seen the answers that its own part of the store
    allows, whatever the others did. *)
Theorem C67_threads_answers I B R M Ms ks st ps st' i k N h :
  gtogether I B R M Ms ks st -> interleaves (drive_g <$> ks) st ps st' -> ks !! i = Some k -> Ms !! i = Some N -> ps !! i = Some (Ret h) ->
  exists N', ghistory k N h N'.
Proof.
  intros HT HI Hk HN Hp. destruct (gtogether_run _ _ _ _ _ _ _ _ _ HT HI) as (vs & C & [Hl P]). destruct (lookup_lt_is_Some_2 vs i) as [v Hv]; [rewrite <- Hl; by eapply lookup_lt_Some|].
  destruct (P i _ v Hp Hv) as [(k' & N0 & N' & Ek & EN & Hh & _)|[]]. simplify_eq. eauto.
Qed.

(** When all have returned, the memory shows the parts they should have, put
    together, and nothing besides (no leak), all rationals in lowest terms; what was
    shared is unchanged. *)
Theorem C67_threads_store I B R M Ms ks st hs st' :
  gtogether I B R M Ms ks st -> interleaves (drive_g <$> ks) st (Ret <$> hs) st' ->
  exists Ms' M', length Ms' = length Ms /\
    (forall i k N h N', ks !! i = Some k -> Ms !! i = Some N -> hs !! i = Some h -> Ms' !! i = Some N' -> ghistory k N h N') /\
    qdivided I B R M' Ms' /\ qshows st' M' /\
    (ks <> [] -> (forall o, o ∈ I -> ints (whole M') !! o = ints (whole M) !! o) /\ (forall b, b ∈ B -> text (whole M') !! b = text (whole M) !! b) /\
       (forall r, r ∈ R -> fracs M' !! r = fracs M !! r)).
Proof.
  intros HT HI. destruct (decide (ks = [])) as [->|Nk].
  { apply interleaves_none in HI as [E ->]. destruct HT as [HS HD Hl _]. destruct Ms; [|done]. exists [], M. split_and!; try done. }
  destruct (gtogether_run _ _ _ _ _ _ _ _ _ HT HI) as (vs & C & [Hl P]). rewrite fmap_length in Hl.
  assert (Hlk : length hs = length ks).
  { assert (forall (ps qs : list (prog (list (gcall * qanswer)))) s s', interleaves ps s qs s' -> length qs = length ps) as HL by (induction 1; [done|]; by rewrite insert_length in *).
    apply HL in HI. by rewrite !fmap_length in HI. }
  destruct HT as [[HS HY] HD Hl2 HF]. set (Bs := shared_blocks st I B) in *.
  destruct (choose_parts (fun k N h v N' => ghistory k N h N' /\ qtinv I B R Bs v N') Ms ks hs vs) as (Ms' & Hl3 & HT'); [done|lia|lia| |].
  { intros i h v Hh Hv. destruct (P i (Ret h) v) as [(k & N & N' & E1 & E2 & E3 & E4)|[]]; [by rewrite list_lookup_fmap, Hh|done|]. by exists k, N, N'. }
  assert (Hidx : forall i N', Ms' !! i = Some N' -> exists k N h v, ks !! i = Some k /\ Ms !! i = Some N /\ hs !! i = Some h /\ vs !! i = Some v /\ ghistory k N h N' /\ qtinv I B R Bs v N').
  { intros i N' Hi. pose proof Hi as Hi'. apply lookup_lt_Some in Hi. destruct (lookup_lt_is_Some_2 ks i) as [k Ek]; [lia|]. destruct (lookup_lt_is_Some_2 Ms i) as [N EN]; [lia|].
    destruct (lookup_lt_is_Some_2 hs i) as [h Eh]; [lia|]. destruct (lookup_lt_is_Some_2 vs i) as [v Ev]; [lia|]. exists k, N, h, v. split_and!; try done; by eapply HT'. }
  assert (Hin : forall N', N' ∈ Ms' -> exists k N h v, N ∈ Ms /\ ghistory k N h N' /\ gfair I B k N /\ qtinv I B R Bs v N').
  { intros N' HN. apply elem_of_list_lookup_1 in HN as [i Hi]. destruct (Hidx i N' Hi) as (k & N & h & v & E1 & E2 & E3 & E4 & E5 & E6). exists k, N, h, v. split_and!; [by eapply elem_of_list_lookup_2|done|by eapply HF|done]. }
  destruct (join I B Bs vs (whole <$> Ms') st' C) as (S' & HD' & HS').
  - rewrite fmap_length. lia.
  - destruct Ms' as [|N0 Ms']; [destruct ks; [done|simpl in *; lia]|]. destruct (Hidx 0%nat N0 eq_refl) as (k & N & h & v & E1 & E2 & E3 & E4 & _ & E6).
    destruct E6 as (((W & HR & _) & _) & _). rewrite <- (cf_g _ _ _ _ C _ _ E4). assert (G1 := rep_glob _ _ _ HR). assert (G2 := rep_tun _ _ _ HR). by rewrite G1.
  - intros i v T' Hv Ht. rewrite list_lookup_fmap in Ht. destruct (Ms' !! i) as [N'|] eqn:E; [|done]. injection Ht as <-. destruct (Hidx i N' E) as (k & N & h & v' & E1 & E2 & E3 & E4 & E5 & E6). simplify_eq. apply E6.
  - (* what is shared has not changed *)
    assert (KF : forall r N' y, r ∈ R -> N' ∈ Ms' -> fracs N' !! r = Some y -> fracs M !! r = Some y).
    { intros r N' y Hr HN' Hy. destruct (Hin N' HN') as (k & N & h & v & HN & Hh & Hf & _). destruct (qd_shared _ _ _ _ _ HD N r HN Hr) as [x Hx].
      destruct (gfair_keeps _ _ _ _ _ _ Hh Hf) as (_ & _ & K3). destruct (qd_members _ _ _ _ _ HD r Hr) as [M1 M2]. pose proof (K3 r x M1 M2 Hx) as E. rewrite E in Hy. injection Hy as <-. apply (qd_fracs _ _ _ _ _ HD). eauto. }
    destruct (tidy_together I B R S' Ms' HD') as (F & HFr & HY').
    + intros N' HN'. destruct (Hin N' HN') as (k & N & h & v & _ & _ & _ & E6). apply E6.
    + intros N' r HN' Hr. destruct (Hin N' HN') as (k & N & h & v & _ & _ & _ & (_ & _ & K & _)). by apply K.
    + intros N' r HN' Hr Hm. destruct (Hin N' HN') as (k & N & h & v & _ & _ & _ & (_ & _ & _ & K)). by apply K.
    + intros r N1 N2 y y' Hr HN1 HN2 Hy Hy'. pose proof (KF r N1 y Hr HN1 Hy) as X1. pose proof (KF r N2 y' Hr HN2 Hy') as X2. congruence.
    + exists Ms', (Mixed S' F). split; [done|]. split.
      { intros i k N h N' E1 E2 E3 E4. destruct (Hidx i N' E4) as (k' & N0 & h' & v & F1 & F2 & F3 & F4 & F5 & _). by simplify_eq. }
      split; [|split; [by split|]].
      * constructor; cbn [whole fracs]; try done.
        -- intros N' HN'. destruct (Hin N' HN') as (k & N & h & v & _ & _ & _ & E6). apply E6.
        -- by apply (qd_members _ _ _ _ _ HD).
        -- intros N' r HN' Hr. destruct (Hin N' HN') as (k & N & h & v & _ & _ & _ & (_ & _ & K & _)). by apply K.
        -- intros N' r HN' Hr Hm. destruct (Hin N' HN') as (k & N & h & v & _ & _ & _ & (_ & _ & _ & K)). by apply K.
      * intros _. assert (exists N0', Ms' !! 0%nat = Some N0') as [N0' E0] by (destruct Ms' as [|N0' Ts0]; [destruct ks; [done|simpl in *; lia]|by exists N0']). assert (MN' : N0' ∈ Ms') by (by eapply elem_of_list_lookup_2).
        destruct (Hin N0' MN') as (k & N & h & v & HN & Hh & Hf & _). destruct (gfair_keeps _ _ _ _ _ _ Hh Hf) as (K1 & K2 & K3). pose proof (qd_whole _ _ _ _ _ HD) as HW.
        cbn [whole fracs]. split; [|split].
        -- intros o Ho. destruct (dv_shared _ _ _ _ HW (whole N) o) as [x Hx]; [by apply elem_of_list_fmap_1|done|].
           transitivity (Some x); [|symmetry]; [apply (dv_ints _ _ _ _ HD')|apply (dv_ints _ _ _ _ HW)]; [exists (whole N0')|exists (whole N)]; (split; [by apply elem_of_list_fmap_1|auto]).
        -- intros o Ho. destruct (dv_shared_text _ _ _ _ HW (whole N) o) as [x Hx]; [by apply elem_of_list_fmap_1|done|].
           transitivity (Some x); [|symmetry]; [apply (dv_text _ _ _ _ HD')|apply (dv_text _ _ _ _ HW)]; [exists (whole N0')|exists (whole N)]; (split; [by apply elem_of_list_fmap_1|auto]).
        -- intros r Hr. destruct (qd_shared _ _ _ _ _ HD N r HN Hr) as [x Hx]. destruct (qd_members _ _ _ _ _ HD r Hr) as [M1 M2].
           transitivity (Some x); [|symmetry]; [apply HFr; exists N0'; split; [done|by apply K3]|apply (qd_fracs _ _ _ _ _ HD); eauto].
Qed.

(** Two threads that share the integers -3 and 7 and the rational -3/7 made of them
    (the store of [PQConc]): one squares the rational into its own and compares; the
    other asks for an integer, puts 7^3 + 5 into it and writes its digits to its
    buffer, and gives it back. *)
Definition gk1 : gclient := GThen (PMul qO qR qR) (fun _ => GThen (PCmp qO qR) (fun _ => GThen (ZCmpSi (H 1) 4) (fun _ => GStop))).
Definition gk2 : gclient := GThen (Lib (Int Alloc)) (fun r => match r with
  | Plain (Handle (Some o)) => GThen (ZPowUi o (H 2) 3) (fun _ => GThen (ZAddUi o o 5) (fun _ => GThen (ZGetStr (Ext 7) 2 10 o) (fun _ => GThen (Lib (Int (FreeInt o))) (fun _ => GStop))))
  | _ => GStop end).
Lemma g_together : gtogether {[H 1; H 2]} ∅ {[qR]} qM [qN1; qN2] [gk1; gk2] qst.
Proof.
  constructor.
  - apply q_together.
  - apply q_divided.
  - done.
  - intros [|[|i]] k N Hk HN; simpl in Hk, HN; simplify_eq.
    + unfold gk1. cbn [gfair]. split; [split_and!; by vm_compute; eexists|]. split; [split_and!; [|set_solver|done]; intros o Ho; cbn in Ho; set_solver|]. intros r M' [-> ->].
      cbn [gfair]. split; [split_and!; by vm_compute; eexists|]. split; [split_and!; [|set_solver|done]; cbn; set_solver|]. intros r M' (n & -> & -> & _).
      cbn [gfair]. split; [split; [by vm_compute; eexists|lia]|]. split; [split_and!; [|set_solver|done]; cbn; set_solver|]. done.
    + unfold gk2. cbn [gfair]. split; [split; [done|]; intros o Ho; by apply elem_of_nil in Ho|]. split; [split_and!; [|set_solver|done]; cbn; set_solver|].
      intros r M' (a & S' & -> & [[-> ->]|(o & N1 & N2 & -> & ->)] & ->); [done|].
      assert (o <> H 1 /\ o <> H 2) as [A1 A2] by (split; intros ->; by vm_compute in N1). assert (o ∉ ({[H 1; H 2]} : gset oid)) as A3 by set_solver.
      assert (HV : forall S c v, val (put_int c v S) c = v) by (intros; unfold val; cbn [ints put_int with_ints]; by rewrite lookup_insert).
      assert (HP : forall c, c ∈ [o] -> c ∉ ({[H 1; H 2]} : gset oid)) by (by intros c ->%elem_of_list_singleton).
      set (S1 := Store (<[o := 0]> (ints (whole qN2))) (raws (whole qN2)) ({[o]} ∪ dyns (whole qN2)) (text (whole qN2))). cbn [gfair]. split.
      { split_and!; [eexists; cbn; apply lookup_insert|exists 7; cbn; rewrite lookup_insert_ne by done; by vm_compute|unfold usmall; lia]. }
      split; [split_and!; [done|set_solver|done]|]. intros r M' [-> ->]. assert (val S1 (H 2) = 7) as E7 by (unfold val; cbn [ints S1]; rewrite lookup_insert_ne by done; by vm_compute).
      cbn [gfair]. cbn [whole on_whole]. rewrite E7. split; [split_and!; [eexists; apply lookup_insert|eexists; apply lookup_insert|unfold usmall; lia]|].
      split; [split_and!; [done|set_solver|done]|]. intros r M' [-> ->]. cbn [gfair put_z whole on_whole]. rewrite HV. split.
      { split_and!; [eexists; apply lookup_insert|lia|lia| |].
        - unfold put_z at 1; cbn [whole]; rewrite HV. apply (Z.lt_le_trans _ (2 ^ 10)); [by vm_compute|]. apply Z.pow_le_mono_r; lia.
        - exists (replicate 9 None), [51; 52; 56]. split; [by vm_compute|]. split; [|simpl; lia]. unfold put_z at 1; cbn [whole]; rewrite HV. exists [3; 4; 8]. split_and!; try done. repeat constructor; lia. }
      split; [split_and!; [cbn; set_solver|set_solver|done]|]. intros r M' (l & s & _ & _ & -> & ->). cbn [gfair]. split.
      { split; [split; [eexists; apply lookup_insert|]; cbn; set_solver|]. intros c ->%elem_of_list_singleton (q & [x Hq] & Hm). cbn [fracs on_whole put_z] in Hq. rewrite !lose_lookup in Hq.
        destruct (fracs qN2 !! q) as [y|] eqn:E; [|done]. cbn in E. apply lookup_insert_Some in E as [[<- _]|[_ E]]; [|done]. destruct Hm as [Hm|Hm]; cbn in Hm; congruence. }
      split; [split_and!; [done|set_solver|done]|]. done.
Qed.
(** Turn by turn they end, with the right answers. *)
Example C67_threads_ex : gtogether {[H 1; H 2]} ∅ {[qR]} qM [qN1; qN2] [gk1; gk2] qst /\
  match play orc_yes 0 (in_turn 900) (drive_g <$> [gk1; gk2]) qst with
  | ([Ret h1; Ret h2], st') => map snd h1 = [Plain Nothing; Plain (Num 1); Plain (Num (-1))] /\ length h2 = 5%nat /\ value_of st' (H 3) = Some 9 /\ value_of st' (H 4) = Some 49 /\ mem st' !! Ext 7 = Some [None; None; Some 51; Some 52; Some 56; Some 0; None; None; None]
  | _ => False end.
Proof. split; [apply g_together|]. by vm_compute. Qed.

Print Assumptions C67_threads_defined.
Print Assumptions C67_threads_no_race.
Print Assumptions C67_threads_end.
Print Assumptions C67_threads_answers.
Print Assumptions C67_threads_store.
