(** Threads that use integers and rationals side by side (C64).  See [SpecQHist]
    for stores and clients, [SpecQConc] for what threads may share, [Conc] for
    schedules. *)
From Coq Require Import ZArith List Lia QArith.
From stdpp Require Import gmap list.
From Verif Require Import Mem Prog Kern Imath Imrat Exec Wp Spec SpecBin SpecHist SpecRat SpecDec SpecQHist SpecConc SpecQConc Conc Public Concrete Hist QHist Const Threads ConcFns ConcApi ConcRun QConc QConcRun PConc.
Local Open Scope Z_scope.
Local Open Scope list_scope.

(** The threads [ks] use the library, thread number i the part [Ms !! i] of the
    store [M] shown by [st]; [I], [B] and [R] are shared. *)
Record qtogether (I : gset oid) (B : gset base) (R : gset rid) (M : mixed) (Ms : list mixed) (ks : list qclient) (st : state) : Prop := {
  qt_shows : qshows st M;
  qt_divided : qdivided I B R M Ms;
  qt_length : length ks = length Ms;
  qt_fair : forall i k N, ks !! i = Some k -> Ms !! i = Some N -> qfair I B k N
}.

Lemma qtogether_start I B R M Ms ks st : qtogether I B R M Ms ks st ->
  conf I (shared_blocks st I B) (view st <$> (whole <$> Ms)) st /\
  proved I (shared_blocks st I B) (fun i h v => exists k N N', ks !! i = Some k /\ Ms !! i = Some N /\ qhistory k N h N' /\ qtinv I B R (shared_blocks st I B) v N') (drive_q <$> ks) (view st <$> (whole <$> Ms)).
Proof.
  intros [[HS _] HD Hl HF]. pose proof (qd_whole _ _ _ _ _ HD) as HW. split; [by eapply view_conf|]. split; [by rewrite !fmap_length|]. intros i p v Hp Hv. left.
  rewrite list_lookup_fmap in Hp. destruct (ks !! i) as [k|] eqn:Ek; [|done]. injection Hp as <-. rewrite !list_lookup_fmap in Hv. destruct (Ms !! i) as [N|] eqn:EN; [|done]. injection Hv as <-.
  assert (N ∈ Ms) as HN by (by eapply elem_of_list_lookup_2).
  eapply wpw_mono; [apply (qdrive_shared I B R _ k _ N)|].
  - split; [eapply view_tinv; [done|done|by apply elem_of_list_fmap_1]|]. split; [by eapply qd_tidy|]. split.
    + intros r Hr. split; [by eapply qd_shared|by eapply qd_members].
    + intros r Hr Hm. by eapply qd_own.
  - by eapply HF.
  - intros h v' (N' & Hh & Hv'). by exists k, N, N'.
Qed.
Lemma qtogether_run I B R M Ms ks st ps st' : qtogether I B R M Ms ks st -> interleaves (drive_q <$> ks) st ps st' ->
  exists vs, conf I (shared_blocks st I B) vs st' /\
  proved I (shared_blocks st I B) (fun i h v => exists k N N', ks !! i = Some k /\ Ms !! i = Some N /\ qhistory k N h N' /\ qtinv I B R (shared_blocks st I B) v N') ps vs.
Proof. intros HT HI. destruct (qtogether_start _ _ _ _ _ _ _ HT) as [C P]. by eapply threads_run. Qed.

(** ** C64 Threads with rationals do not disturb each other *)
(** Whatever the schedule, whichever requests are refused: every thread has
    returned, stands at the failing assertion after a refused request, or can
    perform its next effect; nothing is undefined and no other assertion fails. *)
Theorem C64_threads_defined I B R M Ms ks st ps st' i p :
  qtogether I B R M Ms ks st -> interleaves (drive_q <$> ks) st ps st' -> ps !! i = Some p ->
  finished p \/ aborts p \/ exists p' st'', step p st' p' st''.
Proof.
  intros HT HI Hp. destruct (qtogether_run _ _ _ _ _ _ _ _ _ HT HI) as (vs & C & P). assert (W := threads_not_wrong _ _ _ _ _ _ _ _ C P Hp).
  destruct (fire orc_yes 0 p st') as [[p' st'']|] eqn:E; [right; right; exists p', st''; by eapply fire_step|]. apply fire_none in E as [?|[?|?]]; [by left|done|by right; left].
Qed.
(** No data race: two threads never stand before effects on the same structure,
    block or tunable of which one writes. *)
Theorem C64_threads_no_race I B R M Ms ks st ps st' i j p q :
  qtogether I B R M Ms ks st -> interleaves (drive_q <$> ks) st ps st' -> ps !! i = Some p -> ps !! j = Some q -> i <> j -> ~ races p q.
Proof. intros HT HI Hp Hq N. destruct (qtogether_run _ _ _ _ _ _ _ _ _ HT HI) as (vs & C & P). by eapply threads_no_race. Qed.
(** Every schedule ends. *)
Theorem C64_threads_end (ks : list qclient) (c : nat -> list (prog (list (qcall * qanswer))) * state) :
  (c 0%nat).1 = drive_q <$> ks -> ~ forall n, turn (c (Datatypes.S n)) (c n).
Proof.
  intros _ HI. assert (forall x, Acc turn x -> forall n, c n <> x) as HA.
  { induction 1 as [x _ IH]. intros n En. eapply (IH (c (Datatypes.S n))); [rewrite <- En; apply HI|done]. }
  by apply (HA (c 0%nat) (turn_acc _) 0%nat).
Qed.
(** A thread that has returned has seen the answers that its own part of the store
    allows, whatever the others did. *)
Theorem C64_threads_answers I B R M Ms ks st ps st' i k N h :
  qtogether I B R M Ms ks st -> interleaves (drive_q <$> ks) st ps st' -> ks !! i = Some k -> Ms !! i = Some N -> ps !! i = Some (Ret h) ->
  exists N', qhistory k N h N'.
Proof.
  intros HT HI Hk HN Hp. destruct (qtogether_run _ _ _ _ _ _ _ _ _ HT HI) as (vs & C & [Hl P]). destruct (lookup_lt_is_Some_2 vs i) as [v Hv]; [rewrite <- Hl; by eapply lookup_lt_Some|].
  destruct (P i _ v Hp Hv) as [(k' & N0 & N' & Ek & EN & Hh & _)|[]]. simplify_eq. eauto.
Qed.

(** One result for each thread. *)
Lemma choose_parts {K N H V : Type} (P : K -> N -> H -> V -> N -> Prop) (Ms : list N) : forall (ks : list K) (hs : list H) (vs : list V),
  length ks = length Ms -> length hs = length Ms -> length vs = length Ms ->
  (forall i h v, hs !! i = Some h -> vs !! i = Some v -> exists k n n', ks !! i = Some k /\ Ms !! i = Some n /\ P k n h v n') ->
  exists Ms', length Ms' = length Ms /\ forall i k n h v n', ks !! i = Some k -> Ms !! i = Some n -> hs !! i = Some h -> vs !! i = Some v -> Ms' !! i = Some n' -> P k n h v n'.
Proof.
  induction Ms as [|n Ms IH]; intros [|k ks] [|h hs] [|v vs] L1 L2 L3 HP; try discriminate.
  - exists []. split; [done|]. intros. done.
  - destruct (HP 0%nat h v eq_refl eq_refl) as (k' & n0 & n' & Ek & En & Hp). injection Ek as <-. injection En as <-.
    destruct (IH ks hs vs) as (Ms' & L4 & HP'); [by injection L1|by injection L2|by injection L3|intros i; apply (HP (Datatypes.S i))|].
    exists (n' :: Ms'). split; [cbn; lia|]. intros [|i]; cbn; [intros; by simplify_eq|apply HP'].
Qed.
(** When all have returned, the memory shows the parts they should have, put
    together, and nothing besides (no leak), all rationals in lowest terms; what was
    shared is unchanged. *)
Theorem C64_threads_store I B R M Ms ks st hs st' :
  qtogether I B R M Ms ks st -> interleaves (drive_q <$> ks) st (Ret <$> hs) st' ->
  exists Ms' M', length Ms' = length Ms /\
    (forall i k N h N', ks !! i = Some k -> Ms !! i = Some N -> hs !! i = Some h -> Ms' !! i = Some N' -> qhistory k N h N') /\
    qdivided I B R M' Ms' /\ qshows st' M' /\
    (ks <> [] -> (forall o, o ∈ I -> ints (whole M') !! o = ints (whole M) !! o) /\ (forall b, b ∈ B -> text (whole M') !! b = text (whole M) !! b) /\
       (forall r, r ∈ R -> fracs M' !! r = fracs M !! r)).
Proof.
  intros HT HI. destruct (decide (ks = [])) as [->|Nk].
  { apply interleaves_none in HI as [E ->]. destruct HT as [HS HD Hl _]. destruct Ms; [|done]. exists [], M. split_and!; try done. }
  destruct (qtogether_run _ _ _ _ _ _ _ _ _ HT HI) as (vs & C & [Hl P]). rewrite fmap_length in Hl.
  assert (Hlk : length hs = length ks).
  { assert (forall (ps qs : list (prog (list (qcall * qanswer)))) s s', interleaves ps s qs s' -> length qs = length ps) as HL by (induction 1; [done|]; by rewrite insert_length in *).
    apply HL in HI. by rewrite !fmap_length in HI. }
  destruct HT as [[HS HY] HD Hl2 HF]. set (Bs := shared_blocks st I B) in *.
  destruct (choose_parts (fun k N h v N' => qhistory k N h N' /\ qtinv I B R Bs v N') Ms ks hs vs) as (Ms' & Hl3 & HT'); [done|lia|lia| |].
  { intros i h v Hh Hv. destruct (P i (Ret h) v) as [(k & N & N' & E1 & E2 & E3 & E4)|[]]; [by rewrite list_lookup_fmap, Hh|done|]. by exists k, N, N'. }
  assert (Hidx : forall i N', Ms' !! i = Some N' -> exists k N h v, ks !! i = Some k /\ Ms !! i = Some N /\ hs !! i = Some h /\ vs !! i = Some v /\ qhistory k N h N' /\ qtinv I B R Bs v N').
  { intros i N' Hi. pose proof Hi as Hi'. apply lookup_lt_Some in Hi. destruct (lookup_lt_is_Some_2 ks i) as [k Ek]; [lia|]. destruct (lookup_lt_is_Some_2 Ms i) as [N EN]; [lia|].
    destruct (lookup_lt_is_Some_2 hs i) as [h Eh]; [lia|]. destruct (lookup_lt_is_Some_2 vs i) as [v Ev]; [lia|]. exists k, N, h, v. split_and!; try done; by eapply HT'. }
  assert (Hin : forall N', N' ∈ Ms' -> exists k N h v, N ∈ Ms /\ qhistory k N h N' /\ qfair I B k N /\ qtinv I B R Bs v N').
  { intros N' HN. apply elem_of_list_lookup_1 in HN as [i Hi]. destruct (Hidx i N' Hi) as (k & N & h & v & E1 & E2 & E3 & E4 & E5 & E6). exists k, N, h, v. split_and!; [by eapply elem_of_list_lookup_2|done|by eapply HF|done]. }
  destruct (join I B Bs vs (whole <$> Ms') st' C) as (S' & HD' & HS').
  - rewrite fmap_length. lia.
  - destruct Ms' as [|N0 Ms']; [destruct ks; [done|simpl in *; lia]|]. destruct (Hidx 0%nat N0 eq_refl) as (k & N & h & v & E1 & E2 & E3 & E4 & _ & E6).
    destruct E6 as (((W & HR & _) & _) & _). rewrite <- (cf_g _ _ _ _ C _ _ E4). assert (G1 := rep_glob _ _ _ HR). assert (G2 := rep_tun _ _ _ HR). by rewrite G1.
  - intros i v T' Hv Ht. rewrite list_lookup_fmap in Ht. destruct (Ms' !! i) as [N'|] eqn:E; [|done]. injection Ht as <-. destruct (Hidx i N' E) as (k & N & h & v' & E1 & E2 & E3 & E4 & E5 & E6). simplify_eq. apply E6.
  - (* what is shared has not changed *)
    assert (KF : forall r N' y, r ∈ R -> N' ∈ Ms' -> fracs N' !! r = Some y -> fracs M !! r = Some y).
    { intros r N' y Hr HN' Hy. destruct (Hin N' HN') as (k & N & h & v & HN & Hh & Hf & _). destruct (qd_shared _ _ _ _ _ HD N r HN Hr) as [x Hx].
      destruct (qfair_keeps _ _ _ _ _ _ Hh Hf) as (_ & _ & K3). destruct (qd_members _ _ _ _ _ HD r Hr) as [M1 M2]. pose proof (K3 r x M1 Hx) as E. rewrite E in Hy. injection Hy as <-. apply (qd_fracs _ _ _ _ _ HD). eauto. }
    destruct (tidy_together I B R S' Ms' HD') as (F & HFr & HY').
    + intros N' HN'. destruct (Hin N' HN') as (k & N & h & v & _ & _ & _ & E6). apply E6.
    + intros N' r HN' Hr. destruct (Hin N' HN') as (k & N & h & v & _ & _ & _ & (_ & _ & K & _)). by apply K.
    + intros N' r HN' Hr Hm. destruct (Hin N' HN') as (k & N & h & v & _ & _ & _ & (_ & _ & _ & K)). by apply K.
    + intros r N1 N2 y y' Hr HN1 HN2 Hy Hy'. pose proof (KF r N1 y Hr HN1 Hy) as X1. pose proof (KF r N2 y' Hr HN2 Hy') as X2. congruence.
    + exists Ms', (Mixed S' F). split; [done|]. split.
      { intros i k N h N' E1 E2 E3 E4. destruct (Hidx i N' E4) as (k' & N0 & h' & v & F1 & F2 & F3 & F4 & F5 & _). by simplify_eq. }
      split; [|split; [by split|]].
      * constructor; cbn [whole fracs]; try done.
        -- intros N' HN'. destruct (Hin N' HN') as (k & N & h & v & _ & _ & _ & E6). apply E6.
        -- by apply (qd_members _ _ _ _ _ HD).
        -- intros N' r HN' Hr. destruct (Hin N' HN') as (k & N & h & v & _ & _ & _ & (_ & _ & K & _)). by apply K.
        -- intros N' r HN' Hr Hm. destruct (Hin N' HN') as (k & N & h & v & _ & _ & _ & (_ & _ & _ & K)). by apply K.
      * intros _. assert (exists N0', Ms' !! 0%nat = Some N0') as [N0' E0] by (destruct Ms' as [|N0' Ts0]; [destruct ks; [done|simpl in *; lia]|by exists N0']). assert (MN' : N0' ∈ Ms') by (by eapply elem_of_list_lookup_2).
        destruct (Hin N0' MN') as (k & N & h & v & HN & Hh & Hf & _). destruct (qfair_keeps _ _ _ _ _ _ Hh Hf) as (K1 & K2 & K3). pose proof (qd_whole _ _ _ _ _ HD) as HW.
        cbn [whole fracs]. split; [|split].
        -- intros o Ho. destruct (dv_shared _ _ _ _ HW (whole N) o) as [x Hx]; [by apply elem_of_list_fmap_1|done|].
           transitivity (Some x); [|symmetry]; [apply (dv_ints _ _ _ _ HD')|apply (dv_ints _ _ _ _ HW)]; [exists (whole N0')|exists (whole N)]; (split; [by apply elem_of_list_fmap_1|auto]).
        -- intros o Ho. destruct (dv_shared_text _ _ _ _ HW (whole N) o) as [x Hx]; [by apply elem_of_list_fmap_1|done|].
           transitivity (Some x); [|symmetry]; [apply (dv_text _ _ _ _ HD')|apply (dv_text _ _ _ _ HW)]; [exists (whole N0')|exists (whole N)]; (split; [by apply elem_of_list_fmap_1|auto]).
        -- intros r Hr. destruct (qd_shared _ _ _ _ _ HD N r HN Hr) as [x Hx]. destruct (qd_members _ _ _ _ _ HD r Hr) as [M1 _].
           transitivity (Some x); [|symmetry]; [apply HFr; exists N0'; split; [done|by apply K3]|apply (qd_fracs _ _ _ _ _ HD); eauto].
Qed.

(** Two threads that share the rational -3/7: one squares it into its own rational
    and compares; the other asks for a new rational, doubles the shared one into
    it, prints it, and gives it back. *)
Definition qR : rid := (H 1, H 2).
Definition qO : rid := (H 3, H 4).
Definition qT1 : store := Store (<[H 4 := 1]> (<[H 3 := 0]> (<[H 2 := 7]> (<[H 1 := -3]> ∅)))) ∅ ∅ ∅.
Definition qT2 : store := Store (<[H 2 := 7]> (<[H 1 := -3]> ∅)) ∅ ∅ (<[Ext 7 := replicate 9 None]> ∅).
Definition qN1 : mixed := Mixed qT1 (<[qO := Some 0%Q]> (<[qR := Some (-3 # 7)%Q]> ∅)).
Definition qN2 : mixed := Mixed qT2 (<[qR := Some (-3 # 7)%Q]> ∅).
Definition qTS : store := Store (ints qT1) ∅ ∅ (text qT2).
Definition qM : mixed := Mixed qTS (fracs qN1).
Definition qst : state := put_buf (Ext 7) (replicate 9 None) (put (H 4) 1 (put (H 3) 0 (put (H 2) 7 (put (H 1) (-3) st0)))).
Definition qk1 : qclient := QThen (QMul qR qR qO) (fun _ => QThen (QCompare qO qR) (fun _ => QStop)).
Definition qk2 : qclient := QThen QAlloc (fun r => match r with
  | QHandle (Some o) => QThen (QAdd qR qR o) (fun _ => QThen (QCompareZero o) (fun _ => QThen (QDecimalLen qR 10 2) (fun _ => QThen (QFree o) (fun _ => QStop))))
  | _ => QStop end).
Lemma q_tidy1 : tidy qN1.
Proof.
  assert (forall r, there qN1 r -> r = qO \/ r = qR) as HT.
  { intros r [x Hx]. cbn in Hx. apply lookup_insert_Some in Hx as [[<- _]|[_ Hx]]; [by left|]. apply lookup_insert_Some in Hx as [[<- _]|[_ Hx]]; [by right|]. done. }
  split_and!.
  - intros r Hr. destruct (HT r Hr) as [-> | ->]; split; by vm_compute; eexists.
  - intros r s Hr Hs. destruct (HT r Hr) as [-> | ->], (HT s Hs) as [-> | ->]; (split; [done|]; split; intros E; first [done|discriminate E]).
  - intros r q Hq. cbn in Hq. apply lookup_insert_Some in Hq as [[<- E]|[_ Hq]]; [injection E as <-; split; by vm_compute|]. apply lookup_insert_Some in Hq as [[<- E]|[_ Hq]]; [injection E as <-; split; by vm_compute|done].
Qed.
Lemma q_tidy2 : tidy qN2.
Proof.
  assert (forall r, there qN2 r -> r = qR) as HT. { intros r [x Hx]. cbn in Hx. apply lookup_insert_Some in Hx as [[<- _]|[_ Hx]]; [done|]. done. }
  split_and!.
  - intros r Hr. rewrite (HT r Hr). split; by vm_compute; eexists.
  - intros r s Hr Hs. by rewrite (HT r Hr), (HT s Hs).
  - intros r q Hq. cbn in Hq. apply lookup_insert_Some in Hq as [[<- E]|[_ Hq]]; [injection E as <-; split; by vm_compute|done].
Qed.
Lemma q_divided : qdivided {[H 1; H 2]} ∅ {[qR]} qM [qN1; qN2].
Proof.
  constructor.
  - cbn [fmap list_fmap whole qM qN1 qN2]. assert (qTS = Store (ints qT1 ∪ ints qT2) (raws qT1 ∪ raws qT2) (dyns qT1 ∪ dyns qT2) (text qT1 ∪ text qT2)) as ->.
    { unfold qTS. f_equal; apply (bool_decide_unpack _); by vm_compute. }
    apply (divided_two _ _ qT1 qT2).
    + intros o x Hx [[y Hy]|[y Hy]]; [|done]. cbn in Hy. apply lookup_insert_Some in Hy as [[<- _]|[_ Hy]]; [by split; [set_solver|vm_compute in Hx |- *]|].
      apply lookup_insert_Some in Hy as [[<- _]|[_ Hy]]; [by split; [set_solver|vm_compute in Hx |- *]|done].
    + done.
    + done.
    + intros T o M Ho. apply elem_of_list_In in M as [<-|[<-|[]]]; apply elem_of_union in Ho as [->%elem_of_singleton| ->%elem_of_singleton]; by vm_compute; eexists.
    + done.
  - intros r x. cbn [fracs qM]. split; [intros Hx; exists qN1; split; [by left|done]|]. intros (N & M & Hx). apply elem_of_list_In in M as [<-|[<-|[]]]; [done|].
    cbn in Hx. apply lookup_insert_Some in Hx as [[<- <-]|[_ Hx]]; [by vm_compute|done].
  - intros N M. apply elem_of_list_In in M as [<-|[<-|[]]]; [apply q_tidy1|apply q_tidy2].
  - intros r ->%elem_of_singleton. set_solver.
  - intros N r M ->%elem_of_singleton. apply elem_of_list_In in M as [<-|[<-|[]]]; by vm_compute; eexists.
  - intros N r M [x Hx] Hm. apply elem_of_list_In in M as [<-|[<-|[]]]; cbn in Hx.
    + apply lookup_insert_Some in Hx as [[<- _]|[_ Hx]]; [|apply lookup_insert_Some in Hx as [[<- _]|[_ Hx]]; [set_solver|done]]. exfalso. cbn in Hm. set_solver.
    + apply lookup_insert_Some in Hx as [[<- _]|[_ Hx]]; [set_solver|done].
Qed.
Lemma q_together : qtogether {[H 1; H 2]} ∅ {[qR]} qM [qN1; qN2] [qk1; qk2] qst.
Proof.
  constructor.
  - split.
    + exists (with_buf world0 (Ext 7) (replicate 9 None)). split_and!; [|done|done|done|done]. unfold qst, qM, qTS. cbn [ints whole qT1].
      apply Rep_put_buf; [|by vm_compute|done]. repeat (apply Rep_put; [|reflexivity|by vm_compute]). apply Rep_empty.
    + apply q_tidy1.
  - apply q_divided.
  - done.
  - intros [|[|i]] k N Hk HN; simpl in Hk, HN; simplify_eq.
    + unfold qk1. cbn [qfair]. split; [split_and!; by vm_compute; eexists|]. split; [split_and!; [|set_solver|done]; intros o Ho; cbn in Ho; set_solver|]. intros r M' [-> ->].
      cbn [qfair]. split; [split_and!; by vm_compute; eexists|]. split; [split_and!; [|set_solver|done]; cbn; set_solver|]. done.
    + unfold qk2. cbn [qfair]. split; [done|]. split; [split_and!; [|set_solver|done]; cbn; set_solver|]. intros r M' [[-> ->]|(o & N1 & N2 & N3 & -> & ->)]; [done|].
      assert (o <> qR) as No by (intros ->; by vm_compute in N1).
      assert (fst o <> H 1 /\ fst o <> H 2 /\ snd o <> H 1 /\ snd o <> H 2) as (A1 & A2 & A3 & A4).
      { destruct (N3 (fst o)) as [E1 _]; [by left|]. destruct (N3 (snd o)) as [E2 _]; [by right|]. split_and!; intros E; rewrite ?E in *; first [by vm_compute in E1|by vm_compute in E2]. }
      cbn [qfair]. split.
      { split_and!; [exists (-3 # 7)%Q; cbn [fracs]; rewrite lookup_insert_ne by done; by vm_compute|exists (-3 # 7)%Q; cbn [fracs]; rewrite lookup_insert_ne by done; by vm_compute|]. exists (Some 0%Q). cbn [fracs]. by rewrite lookup_insert. }
      split; [split_and!; [|set_solver|done]; intros i Hi; cbn [qchanges qoutputs flat_map app] in Hi; set_solver|]. intros r M' [-> ->].
      cbn [qfair]. split; [eexists; cbn [fracs put_frac]; by rewrite lookup_insert|]. split; [split_and!; [|set_solver|done]; cbn; set_solver|]. intros r M' (n & -> & -> & _).
      cbn [qfair]. split.
      { assert (fracs (put_frac o (qval (Mixed (Store (set_rat o 0 (ints qT2)) (raws qT2) ({[o.1; o.2]} ∪ dyns qT2) (text qT2)) (<[o := Some 0%Q]> (fracs qN2))) qR + qval (Mixed (Store (set_rat o 0 (ints qT2)) (raws qT2) ({[o.1; o.2]} ∪ dyns qT2) (text qT2)) (<[o := Some 0%Q]> (fracs qN2))) qR)
            (Mixed (Store (set_rat o 0 (ints qT2)) (raws qT2) ({[o.1; o.2]} ∪ dyns qT2) (text qT2)) (<[o := Some 0%Q]> (fracs qN2)))) !! qR = Some (Some (-3 # 7)%Q)) as E.
        { cbn [fracs put_frac]. rewrite !lookup_insert_ne by done. by vm_compute. }
        split; [by exists (-3 # 7)%Q|]. split; [lia|]. split; [lia|]. unfold qval at 1. cbn [whole qN2] in *. rewrite E. exists 3. split; [lia|]. by vm_compute. }
      split; [split_and!; [|set_solver|done]; cbn; set_solver|]. intros r M' (n' & -> & -> & _).
      cbn [qfair]. split; [split; [eexists; cbn [fracs put_frac]; by rewrite lookup_insert|]; cbn [whole put_frac with_ints dyns]; set_solver|].
      split; [split_and!; [|set_solver|done]; intros i Hi; cbn [qchanges qoutputs flat_map app] in Hi; set_solver|]. done.
Qed.
(** Turn by turn they end, with the right answers. *)
Example C64_threads_ex : qtogether {[H 1; H 2]} ∅ {[qR]} qM [qN1; qN2] [qk1; qk2] qst /\
  match play orc_yes 0 (in_turn 700) (drive_q <$> [qk1; qk2]) qst with
  | ([Ret h1; Ret h2], st') => map snd h1 = [Plain (Num 0); Plain (Num 1)] /\ map snd h2 = [QHandle (Some (H 5, H 6)); Plain (Num 0); Plain (Num (-1)); Plain (Num 7); Plain Nothing] /\ value_of st' (H 3) = Some 9 /\ value_of st' (H 4) = Some 49
  | _ => False end.
Proof. split; [apply q_together|]. by vm_compute. Qed.

Print Assumptions C64_threads_defined.
Print Assumptions C64_threads_no_race.
Print Assumptions C64_threads_end.
Print Assumptions C64_threads_answers.
Print Assumptions C64_threads_store.
