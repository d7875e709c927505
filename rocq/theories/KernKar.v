(** Rules for the Karatsuba routines. *)
From Coq Require Import ZArith List Lia.
From stdpp Require Import gmap list.
From Verif Require Import Mem Prog Kern Wp MemLem Dig KernLem KernMul.
Local Open Scope Z_scope.

(** ** A scratch block holding a list of digits *)
Notation scr b L m := (insert (M:=memory) b (fmap (M:=list) Some L) m).

Lemma scr_darr b off (L l1 l l2 : list Z) m :
  L = l1 ++ l ++ l2 -> off = Z.of_nat (length l1) -> darr (scr b L m) (b, off) l.
Proof.
  intros -> ->. rewrite <- (fmap_length Some l1).
  eapply (carr_blk _ _ _ (Some <$> l1) (Some <$> l) (Some <$> l2)).
  - apply lookup_insert.
  - by rewrite !fmap_app.
Qed.
Lemma scr_valid b off n (L l1 l l2 : list Z) m :
  L = l1 ++ l ++ l2 -> off = Z.of_nat (length l1) -> n = length l -> valid (scr b L m) (b, off) n.
Proof. intros -> -> ->. eapply darr_valid, scr_darr; done. Qed.
Lemma scr_wr b off (L l1 l l' l2 : list Z) m :
  L = l1 ++ l ++ l2 -> off = Z.of_nat (length l1) -> length l = length l' ->
  wrd (scr b L m) (b, off) l' = scr b (l1 ++ l' ++ l2) m.
Proof.
  intros -> -> Hl. unfold wrd. rewrite <- (fmap_length Some l1).
  rewrite (wr_blk _ b (Some <$> l1) (Some <$> l) (Some <$> l') (Some <$> l2)).
  - by rewrite insert_insert, !fmap_app.
  - by rewrite !fmap_length.
  - rewrite lookup_insert. by rewrite !fmap_app.
Qed.
Lemma scr_store b p (L l1 : list Z) x v (l2 : list Z) m :
  p.1 = b -> L = l1 ++ x :: l2 -> p.2 = Z.of_nat (length l1) ->
  store (scr b L m) p (Some v) = scr b (l1 ++ v :: l2) m.
Proof.
  destruct p as [? off]. simpl. intros -> HL Ho. rewrite <- wr_1.
  apply (scr_wr b off L l1 [x] [v] l2); done.
Qed.
Lemma scr_load b p (L l1 : list Z) x (l2 : list Z) m :
  p.1 = b -> L = l1 ++ x :: l2 -> p.2 = Z.of_nat (length l1) ->
  load (scr b L m) p = Some (Some x).
Proof.
  destruct p as [? off]. simpl. intros -> HL Ho.
  assert (darr (scr b L m) (b, off) [x]) as H by (by apply (scr_darr _ _ _ l1 [x] l2)).
  by apply darr_cons in H as [H _].
Qed.
Lemma scr_blank b n (m : memory) :
  wrd (<[b := replicate n None]> m) (b, 0) (replicate n 0) = scr b (replicate n 0) m.
Proof.
  unfold wrd. pose proof (wr_blk (<[b := replicate n None]> m) b [] (replicate n None) (Some <$> replicate n 0) []) as H.
  simpl length in H. change (Z.of_nat 0) with 0 in H. rewrite H.
  - rewrite insert_insert. simpl. by rewrite app_nil_r.
  - by rewrite fmap_length, !replicate_length.
  - simpl. by rewrite app_nil_r, lookup_insert.
Qed.
Lemma blank_valid b n (m : memory) : valid (<[b := replicate n None]> m) (b, 0) n.
Proof.
  rewrite <- (replicate_length n (None : cell)) at 2. apply carr_valid.
  apply (carr_blk _ _ (replicate n None) [] _ []); [apply lookup_insert|].
  by rewrite app_nil_r.
Qed.
Lemma scr_darr_ne b (x : list cell) (m : memory) p l : p.1 <> b -> darr m p l -> darr (<[b := x]> m) p l.
Proof.
  intros Hne H i c Hi. rewrite <- (H i c Hi). unfold load. rewrite padd_fst.
  by rewrite lookup_insert_ne.
Qed.
Lemma scr_valid_ne b (x : list cell) (m : memory) p n : p.1 <> b -> valid m p n -> valid (<[b := x]> m) p n.
Proof.
  intros Hne H i Hi. destruct (H i Hi) as [c Hc]. exists c. rewrite <- Hc. unfold load. rewrite padd_fst.
  by rewrite lookup_insert_ne.
Qed.
Lemma scr_wr_ne b (x : list cell) (m : memory) p l : p.1 <> b -> wrd (<[b := x]> m) p l = <[b := x]> (wrd m p l).
Proof. intros. unfold wrd, wr. by rewrite alter_insert_ne. Qed.
Lemma darr_fresh m p l b : darr m p l -> m !! b = None -> (0 < length l)%nat -> p.1 <> b.
Proof.
  intros H Hb Hl He. destruct l as [|d l]; [simpl in Hl; lia|].
  apply darr_cons in H as [H _]. apply load_inv in H as (_ & blk & Hblk & _). congruence.
Qed.
Lemma wrd_None m p l b : m !! b = None -> wrd m p l !! b = None.
Proof.
  intros H. unfold wrd, wr. destruct (decide (p.1 = b)) as [->|]; [by rewrite lookup_alter, H|].
  by rewrite lookup_alter_ne.
Qed.

(** Changing the middle of an array *)
Lemma wrd_mid m p (D l1 l l' l2 : list Z) off :
  darr m p D -> D = l1 ++ l ++ l2 -> off = Z.of_nat (length l1) -> length l = length l' ->
  wrd m (p +p off) l' = wrd m p (l1 ++ l' ++ l2).
Proof.
  intros H -> -> Hl. destruct (decide (l1 ++ l ++ l2 = [])) as [He|Hne].
  { apply app_nil in He as [-> He]. apply app_nil in He as [-> ->]. destruct l'; [|done].
    simpl. by rewrite !wrd_nil. }
  assert (0 <= p.2) as H0.
  { apply darr_valid in H. eapply valid_0le; [exact H|]. destruct (l1 ++ l ++ l2); [done|simpl; lia]. }
  apply darr_app in H as [H1 H2]. apply darr_app in H2 as [H2 H3].
  rewrite <- wrd_app by done. rewrite (wrd_id _ _ l1) by done.
  rewrite <- wrd_app by (simpl; lia). symmetry. apply wrd_id.
  rewrite <- Hl. apply darr_wrd_disj; [simpl; lia| |done]. right; left. simpl. lia.
Qed.

(** ** Splitting a list of digits *)
Lemma split_at (l : list Z) n : (n <= length l)%nat ->
  exists l1 l2, l = l1 ++ l2 /\ length l1 = n /\ length l2 = (length l - n)%nat.
Proof.
  intros. exists (take n l), (drop n l). rewrite take_drop, take_length, drop_length.
  split; [done|]. split; lia.
Qed.
Lemma val_split_unique l1 l2 k1 k2 v1 :
  digs l1 -> digs l2 -> digs k2 -> length l2 = length k2 -> 0 <= v1 < Bn (length l1) ->
  val (l1 ++ l2) = v1 + Bn (length l1) * val k2 -> k1 = k2 -> val l1 = v1 /\ l2 = k2.
Proof.
  intros H1 H2 H3 Hl Hv He ->. rewrite val_app in He.
  pose proof (val_bounds _ H1). pose proof (Bn_pos (length l1)).
  assert (val l2 = val k2) as E.
  { set (M := Bn (length l1)) in *. assert (M * (val l2 - val k2) = v1 - val l1) as E by lia.
    assert (val l2 - val k2 = 0 \/ val l2 - val k2 <= -1 \/ 1 <= val l2 - val k2) as [?|[?|?]] by lia;
      [lia|nia|nia]. }
  split; [nia|]. by apply val_inj.
Qed.
Lemma val_top_zero l n : digs l -> length l = S n -> val l < Bn n ->
  exists l', l = l' ++ [0] /\ length l' = n /\ val l' = val l.
Proof.
  intros Hd Hl Hv. destruct l as [|x l _] using rev_ind; [done|].
  rewrite app_length in Hl. simpl in Hl. apply digs_app in Hd as [Hd Hx%digs_1].
  assert (length l = n) as El by lia. rewrite val_snoc in *. rewrite El in *.
  pose proof (val_bounds _ Hd). unfold dig in Hx. pose proof (Bn_pos n).
  assert (x = 0) as -> by nia. exists l. split; [done|]. split; lia.
Qed.

(** ** The common end of [s_kmul] and [s_ksqr] *)
Definition kar_end (t1 t2 t3 dc : ptr) (bot buf_size : Z) : prog bool :=
  (COPY t1 dc buf_size;;
   carry <- s_uadd t3 (dc +p bot) (dc +p bot) (buf_size + 1) buf_size;
   assert (carry =? 0);;
   carry <- s_uadd t2 (dc +p 2 * bot) (dc +p 2 * bot) buf_size buf_size;
   assert (carry =? 0);;
   s_free t1;;
   Ret true)%prog.

(** What happens to the digits [G] that follow the product in the output. *)
Definition Gok (N bot : nat) (G G' : list Z) : Prop :=
  G' = G \/ exists x G0, G = x :: G0 /\ G' = 0 :: G0 /\ N = (3 * bot)%nat.
Lemma Gok_length N bot G G' : Gok N bot G G' -> length G' = length G.
Proof. intros [->|(x & G0 & -> & -> & _)]; done. Qed.
Lemma Gok_digs N bot G G' : Gok N bot G G' -> digs G -> digs G'.
Proof.
  intros [->|(x & G0 & -> & -> & _)]; [done|]. intros H. apply Forall_cons in H as [_ H].
  constructor; [apply dig_0|done].
Qed.
Lemma Gok_zeros N bot n G' : Gok N bot (replicate n 0) G' -> G' = replicate n 0.
Proof. intros [->|(x & G0 & HG & -> & _)]; [done|]. destruct n; [done|]. simpl in *. congruence. Qed.
Lemma Gok_zeros_app N bot n G G' : (0 < n)%nat -> Gok N bot (replicate n 0 ++ G) G' -> G' = replicate n 0 ++ G.
Proof. intros Hn [->|(x & G0 & HG & -> & _)]; [done|]. destruct n; [lia|]. simpl in *. congruence. Qed.

Lemma load_fresh_free st n l : mem st !! Hp n = Some l -> live_heap st (Hp n, 0) = Some l.
Proof. done. Qed.

Lemma wp_kar_end hb (bot N : nat) p1 p2 p3 rest G P dc m0 (Q : bool -> state -> Prop) st :
  let b := Hp hb in
  mem st = scr b (p1 ++ p2 ++ p3 ++ rest) m0 -> m0 !! b = None ->
  length p1 = (2 * bot)%nat -> length p2 = (2 * bot)%nat -> length p3 = S (2 * bot) ->
  digs p1 -> digs p2 -> digs p3 -> digs G ->
  darr m0 dc (replicate N 0 ++ G) ->
  (3 * bot <= N <= 4 * bot)%nat -> (4 * bot <= N + length G)%nat -> (1 <= bot)%nat ->
  P = val p1 + Bn bot * val p3 + Bn (2 * bot) * val p2 -> 0 <= P < Bn N ->
  val p3 <= 2 * Bn (2 * bot) ->
  (forall lc G', length lc = N -> digs lc -> val lc = P -> Gok N bot G G' ->
     Q true (set_mem st (wrd m0 dc (lc ++ G')))) ->
  wp (kar_end (b, 0) (b, Z.of_nat (2 * bot)) (b, Z.of_nat (4 * bot)) dc (Z.of_nat bot) (Z.of_nat (2 * bot))) Q st.
Proof.
  intros b Hm Hb L1 L2 L3 D1 D2 D3 DG Hdc HN HG Hbot HP HPb Hp3 HQ. unfold kar_end.
  assert (dc.1 <> b) as Hne.
  { eapply darr_fresh; [done|done|]. rewrite app_length, replicate_length. lia. }
  (* the output array, split *)
  set (R1 := replicate (N - 3 * bot) 0 ++ G).
  assert (replicate N 0 ++ G = replicate (2 * bot) 0 ++ replicate bot 0 ++ R1) as HD0.
  { subst R1. rewrite !app_assoc. f_equal. rewrite <- !replicate_add. f_equal; lia. }
  assert (length R1 = N - 3 * bot + length G)%nat as LR1.
  { subst R1. by rewrite app_length, replicate_length. }
  assert (digs R1) as DR1. { subst R1. apply digs_app. split; [apply digs_zeros|done]. }
  destruct R1 as [|x R2] eqn:ER1; [simpl in LR1; lia|]. simpl in LR1.
  apply Forall_cons in DR1 as [Dx DR2].
  assert (exists G', Gok N bot G G' /\ 0 :: R2 = replicate (N - 3 * bot) 0 ++ G') as (G' & HGok & HR2).
  { destruct (N - 3 * bot)%nat as [|k] eqn:Ek.
    - exists (0 :: R2). split; [|done]. right. exists x, R2. split; [by rewrite <- ER1|]. split; [done|lia].
    - exists G. split; [by left|]. simpl in ER1. injection ER1 as <- <-. done. }
  clear ER1.
  destruct (split_at R2 (bot - 1)) as (R2a & R2b & -> & LR2a & LR2b); [lia|].
  apply digs_app in DR2 as [DR2a DR2b].
  destruct (split_at p1 bot) as (p1a & p1b & -> & Lp1a & Lp1b); [lia|].
  rewrite L1 in Lp1b. replace (2 * bot - bot)%nat with bot in Lp1b by lia.
  apply digs_app in D1 as [D1a D1b].
  rewrite HD0 in Hdc.
  assert (0 <= dc.2) as H0.
  { apply darr_valid in Hdc. eapply valid_0le; [exact Hdc|]. rewrite !app_length, !replicate_length. lia. }
  (* copy *)
  wb. apply (wp_COPY_d (p1a ++ p1b)).
  { lia. }
  { rewrite Hm. apply (scr_darr _ _ _ [] (p1a ++ p1b) (p2 ++ p3 ++ rest)); done. }
  { rewrite Hm. apply scr_valid_ne; [done|]. apply darr_app in Hdc as [Hdc _]. apply darr_valid in Hdc.
    by rewrite replicate_length, <- L1 in Hdc. }
  { left. simpl. auto. }
  rewrite Hm, scr_wr_ne by done.
  set (D1' := (p1a ++ p1b) ++ replicate bot 0 ++ x :: R2a ++ R2b).
  assert (wrd m0 dc (p1a ++ p1b) = wrd m0 dc D1') as E1.
  { rewrite <- (padd_0 dc) at 1.
    erewrite (wrd_mid _ _ _ [] (replicate (2 * bot) 0) (p1a ++ p1b)); [|exact Hdc|done|done|].
    - done.
    - rewrite replicate_length. lia. }
  rewrite E1. clear E1.
  assert (length D1' = length (replicate (2 * bot) 0 ++ replicate bot 0 ++ x :: R2a ++ R2b)) as LD1.
  { subst D1'. rewrite !app_length, !replicate_length. rewrite app_length in L1. simpl. lia. }
  assert (valid m0 dc (length D1')) as Hvdc by (rewrite LD1; by apply darr_valid).
  assert (darr (wrd m0 dc D1') dc D1') as Hdc1 by (by apply darr_wrd_same).
  set (m1 := wrd m0 dc D1') in *.
  (* first addition *)
  wb. rewrite app_length in L1.
  assert (D1' = p1a ++ (p1b ++ replicate bot 0 ++ [x]) ++ R2a ++ R2b) as ED1.
  { subst D1'. by rewrite <- !app_assoc. }
  apply (wp_s_uadd p3 (p1b ++ replicate bot 0)).
  { lia. }
  { rewrite app_length, replicate_length. lia. }
  { simpl. apply (scr_darr _ _ _ ((p1a ++ p1b) ++ p2) p3 rest); [by rewrite <- !app_assoc|].
    rewrite !app_length. lia. }
  { simpl. apply scr_darr_ne; [done|]. subst D1'. rewrite <- !app_assoc in Hdc1.
    apply darr_app in Hdc1 as [_ Hdc1]. rewrite app_assoc in Hdc1. apply darr_app in Hdc1 as [Hdc1 _].
    by rewrite Lp1a in Hdc1. }
  { simpl. rewrite app_length, replicate_length. rewrite Nat.max_l by lia.
    apply scr_valid_ne; [done|]. rewrite ED1 in Hdc1. apply darr_app in Hdc1 as [_ Hdc1].
    apply darr_app in Hdc1 as [Hdc1 _]. apply darr_valid in Hdc1.
    rewrite Lp1a in Hdc1. eapply valid_le; [exact Hdc1|]. rewrite !app_length, replicate_length. simpl. lia. }
  { done. }
  { apply digs_app. split; [done|apply digs_zeros]. }
  { left. done. }
  { apply ahead_refl. }
  rewrite app_length, replicate_length, Nat.max_l by lia. rewrite L3.
  intros w lc Llc Dlc Hw Hvlc. rewrite val_app, val_zeros in Hvlc.
  rewrite ?mem_set_mem. rewrite set_mem_set_mem.
  pose proof (Bn_pos bot) as HB. set (M := Bn bot) in *.
  assert (Bn (2 * bot) = M * M) as EM2. { subst M. rewrite <- Bn_add. f_equal; lia. }
  pose proof (val_bounds _ D1a) as Bp1a. pose proof (val_bounds _ D1b) as Bp1b.
  rewrite Lp1a in Bp1a. rewrite Lp1b in Bp1b. fold M in Bp1a, Bp1b.
  pose proof (val_bounds _ Dlc) as Blc. rewrite Llc in Blc.
  rewrite Bn_S, EM2 in *.
  assert (w = 0) as ->. { rewrite RADIX_val in *. nia. }
  wb. apply wp_assert; [done|].
  rewrite scr_wr_ne by done.
  rewrite (wrd_mid m1 dc D1' p1a (p1b ++ replicate bot 0 ++ [x]) lc (R2a ++ R2b)); [|done|done|lia|].
  2:{ rewrite !app_length, replicate_length. simpl. lia. }
  destruct (split_at lc bot) as (lca & lcb & -> & Llca & Llcb); [lia|]. rewrite Llc in Llcb.
  apply digs_app in Dlc as [Dlca Dlcb].
  set (D2' := p1a ++ (lca ++ lcb) ++ R2a ++ R2b).
  assert (length D2' = length D1') as LD2.
  { subst D2'. rewrite ED1, !app_length, replicate_length. simpl. lia. }
  assert (wrd m1 dc D2' = wrd m0 dc D2') as ->. { subst m1. by apply wrd_wrd_same. }
  assert (darr (wrd m0 dc D2') dc D2') as Hdc2. { apply darr_wrd_same; [done|by rewrite LD2]. }
  clear Hdc1. set (m2 := wrd m0 dc D2') in *.
  assert (D2' = (p1a ++ lca) ++ (lcb ++ R2a) ++ R2b) as ED2.
  { subst D2'. by rewrite <- !app_assoc. }
  (* second addition *)
  wb. apply (wp_s_uadd p2 (lcb ++ R2a)).
  { lia. }
  { rewrite app_length. lia. }
  { simpl. apply (scr_darr _ _ _ (p1a ++ p1b) p2 (p3 ++ rest)); [by rewrite <- !app_assoc|].
    rewrite !app_length. lia. }
  { simpl. apply scr_darr_ne; [done|]. rewrite ED2 in Hdc2.
    apply darr_app in Hdc2 as [_ Hdc2]. apply darr_app in Hdc2 as [Hdc2 _].
    rewrite app_length in Hdc2. replace (2 * Z.of_nat bot) with (Z.of_nat (length p1a + length lca)) by lia. done. }
  { simpl. rewrite app_length. rewrite Nat.max_l by lia.
    apply scr_valid_ne; [done|]. rewrite ED2 in Hdc2. apply darr_app in Hdc2 as [_ Hdc2].
    apply darr_app in Hdc2 as [Hdc2 _]. apply darr_valid in Hdc2. rewrite app_length in Hdc2.
    replace (2 * Z.of_nat bot) with (Z.of_nat (length p1a + length lca)) by lia.
    eapply valid_le; [exact Hdc2|]. rewrite !app_length. lia. }
  { done. }
  { by apply digs_app. }
  { left. done. }
  { apply ahead_refl. }
  rewrite app_length, Nat.max_l by lia. rewrite L2.
  intros w e Le De Hw2 Hve. rewrite val_app, Llcb in Hve. rewrite EM2 in Hve.
  rewrite ?mem_set_mem. rewrite set_mem_set_mem.
  (* the whole output as a number *)
  set (X := p1a ++ lca ++ e).
  assert (length X = (4 * bot)%nat) as LX. { subst X. rewrite !app_length. lia. }
  assert (digs X) as DX. { subst X. apply digs_app. split; [done|]. by apply digs_app. }
  rewrite val_app, Llca in Hvlc. fold M in Hvlc. replace (S (2 * bot) - bot)%nat with (S bot) in * by lia.
  assert (val X + w * (M * M * M * M) = P + M * M * M * RADIX * val R2a) as Htot.
  { subst X. rewrite !val_app, Lp1a, Llca. fold M.
    replace (val p1a + M * (val lca + M * val e) + w * (M * M * M * M))
      with (val p1a + M * val lca + M * M * (val e + w * (M * M))) by ring.
    rewrite Hve, Bn_S. fold M. rewrite HP, val_app, Lp1a. fold M.
    assert (val lca + M * val lcb = val p3 + val p1b) as E by nia.
    replace (val p1a + M * val lca + M * M * (val p2 + (val lcb + RADIX * M * val R2a)))
      with (val p1a + M * (val lca + M * val lcb) + M * M * val p2 + M * M * M * RADIX * val R2a) by ring.
    rewrite E. ring. }
  (* split the zeros off *)
  assert (exists Ga, 0 :: R2a = replicate (N - 3 * bot) 0 ++ Ga /\ G' = Ga ++ R2b) as (Ga & EGa & EG').
  { assert (length G' = length G) as LG' by (by eapply Gok_length).
    destruct (split_at G' (4 * bot - N)) as (Ga & Gb & -> & LGa & LGb); [lia|].
    rewrite app_comm_cons in HR2. rewrite app_assoc in HR2.
    assert (length (0 :: R2a) = length (replicate (N - 3 * bot) 0 ++ Ga)) as HL.
    { rewrite app_length, replicate_length. simpl. lia. }
    apply app_inj_1 in HR2 as [E ->]; [|done]. exists Ga. done. }
  assert (length Ga = (4 * bot - N)%nat) as LGa.
  { apply (f_equal length) in EGa. rewrite app_length, replicate_length in EGa. simpl in EGa. lia. }
  assert (digs Ga) as DGa.
  { assert (digs (0 :: R2a)) as H by (constructor; [apply dig_0|done]). rewrite EGa in H.
    by apply digs_app in H as [_ H]. }
  assert (RADIX * val R2a = Bn (N - 3 * bot) * val Ga) as EvG.
  { apply (f_equal val) in EGa. cbn [val] in EGa. rewrite val_app, val_zeros, replicate_length in EGa.
lia. }
  assert (Bn N = M * M * M * Bn (N - 3 * bot)) as EBN.
  { subst M. rewrite <- !Bn_add. f_equal; lia. }
  assert (M * M * M * M = Bn N * Bn (4 * bot - N)) as EB4.
  { rewrite <- Bn_add. subst M. rewrite <- !Bn_add. f_equal; lia. }
  assert (val X + w * (M * M * M * M) = P + Bn N * val Ga) as Htot2.
  { rewrite Htot, EBN. rewrite <- !Z.mul_assoc. rewrite EvG. ring. }
  pose proof (val_bounds _ DGa) as BGa. rewrite LGa in BGa.
  pose proof (val_bounds _ DX) as BX.
  assert (w = 0) as ->.
  { rewrite EB4 in Htot2. pose proof (Bn_pos N). pose proof (Bn_pos (4 * bot - N)).
    assert (P + Bn N * val Ga < Bn N * Bn (4 * bot - N)) by nia.
    destruct (decide (w = 0)); [done|]. assert (w = 1) as -> by lia. lia. }
  wb. apply wp_assert; [done|]. wb. unfold s_free.
  rewrite scr_wr_ne by done.
  eapply wp_Free; [apply load_fresh_free; simpl; apply lookup_insert|]. apply wp_ret. apply wp_ret.
  rewrite (wrd_mid m2 dc D2' (p1a ++ lca) (lcb ++ R2a) e R2b); [|done|done| |].
  2:{ rewrite app_length. lia. }
  2:{ rewrite app_length. lia. }
  assert (wrd m2 dc ((p1a ++ lca) ++ e ++ R2b) = wrd m0 dc (X ++ R2b)) as ->.
  { subst m2 X. rewrite wrd_wrd_same; [by rewrite <- !app_assoc|]. rewrite ED2, !app_length. lia. }
  unfold del_block. rewrite ?mem_set_mem.
  rewrite delete_insert by (by apply wrd_None).
  destruct (split_at X N) as (lc & X2 & EX & Llc' & LX2); [lia|].
  rewrite EX in *. apply digs_app in DX as [DXa DXb].
  destruct (val_split_unique lc X2 Ga Ga P) as [Hv1 Hv2]; try done.
  { lia. }
  { by rewrite Llc'. }
  { rewrite Llc'. lia. }
  rewrite set_mem_set_mem, Hv2. replace ((lc ++ Ga) ++ R2b) with (lc ++ G') by (by rewrite EG', app_assoc).
  by apply HQ.
Qed.

(** ** [s_kmul] *)
Definition kmul_core (f : nat) (da db dc : ptr) (na nb bot buf n4 : Z) (t1 t2 t3 : ptr) : prog bool :=
  (ZERO t1 n4;;
   carry <- s_uadd da (da +p bot) t1 bot (na - bot);
   Store (t1 +p bot) carry;;
   carry <- s_uadd db (db +p bot) t2 bot (nb - bot);
   Store (t2 +p bot) carry;;
   kmul f t1 t2 t3 (bot + 1) (bot + 1);;
   ZERO t1 buf;;
   ZERO t2 buf;;
   kmul f da db t1 bot bot;;
   kmul f (da +p bot) (db +p bot) t2 (na - bot) (nb - bot);;
   s_usub t3 t1 t3 (buf + 2) buf;;
   s_usub t3 t2 t3 (buf + 2) buf;;
   kar_end t1 t2 t3 dc bot buf)%prog.
Definition kmul_body (f : nat) (da db dc : ptr) (na nb : Z) : prog bool :=
  (g <- getG;
   let bot := u32 (na + 1) / 2 in
   if (negb (multiply_threshold g =? 0) && (na >=? multiply_threshold g)
       && (nb >? bot))%bool then
     let buf := u32 (2 * bot) in
     t <- s_alloc (u32 (4 * buf));
     match t with
     | None => Ret false
     | Some t1 => kmul_core f da db dc na nb bot buf (u32 (4 * buf)) t1 (t1 +p buf) (t1 +p buf +p buf)
     end
   else s_umul da db dc na nb;; Ret true)%prog.
Lemma kmul_S f da db dc na nb :
  kmul (S f) da db dc na nb =
  if nb >? na then kmul_body f db da dc nb na else kmul_body f da db dc na nb.
Proof. reflexivity. Qed.
Global Arguments kmul : simpl never.

Lemma wp_s_alloc n (Q : option ptr -> state -> Prop) st :
  (0 <= n <= MAXD -> forall i, mem st !! Hp i = None -> Q (Some (Hp i, 0)) (add_block st (Hp i) (blank n))) ->
  wp (s_alloc n) Q st.
Proof.
  intros H. unfold s_alloc. apply wp_Malloc.
  - left. apply at_null_none.
  - intros Hn i Hi. apply wp_AssertN; [done|]. apply wp_ret. auto.
Qed.

Definition kfoot (n : nat) : nat := (4 * ((n + 1) / 2))%nat.
Definition kmul_ok (f : nat) : Prop :=
  forall la lb G da db dc na nb (Q : bool -> state -> Prop) st,
  na = Z.of_nat (length la) -> nb = Z.of_nat (length lb) ->
  (Nat.max (length la) (length lb) < f)%nat ->
  darr (mem st) da la -> darr (mem st) db lb -> digs la -> digs lb -> digs G ->
  darr (mem st) dc (replicate (length la + length lb) 0 ++ G) ->
  (kfoot (Nat.max (length la) (length lb)) <= length la + length lb + length G)%nat ->
  disj dc (length la + length lb + length G) da (length la) ->
  disj dc (length la + length lb + length G) db (length lb) ->
  8 <= multiply_threshold (glob st) -> Z.of_nat (Nat.max (length la) (length lb)) <= 2 ^ 26 ->
  (forall lc G', length lc = (length la + length lb)%nat -> digs lc -> val lc = val la * val lb ->
     Gok (length la + length lb) ((Nat.max (length la) (length lb) + 1) / 2) G G' ->
     (G' <> G -> 8 <= Nat.max (length la) (length lb))%nat ->
     Q true (set_mem st (wrd (mem st) dc (lc ++ G')))) ->
  wp (kmul f da db dc na nb) Q st.

(** The sum of the two halves, with its carry stored on top. *)
Lemma add_halves (a0 a1 s : list Z) w n :
  digs a0 -> digs a1 -> digs s -> length a0 = n -> length s = n -> (length a1 <= n)%nat ->
  0 <= w <= 1 -> val s + w * Bn n = val a0 + val a1 ->
  digs (s ++ [w]) /\ length (s ++ [w]) = S n /\ val (s ++ [w]) = val a0 + val a1.
Proof.
  intros. split; [|split].
  - apply digs_app. split; [done|]. constructor; [|constructor]. unfold dig. pose proof RADIX_val. lia.
  - rewrite app_length. simpl. lia.
  - rewrite val_snoc. replace (length s) with n. lia.
Qed.

Lemma kmul_body_ok f : kmul_ok f ->
  forall la lb G da db dc na nb (Q : bool -> state -> Prop) st,
  na = Z.of_nat (length la) -> nb = Z.of_nat (length lb) -> (length lb <= length la)%nat ->
  (length la < S f)%nat ->
  darr (mem st) da la -> darr (mem st) db lb -> digs la -> digs lb -> digs G ->
  darr (mem st) dc (replicate (length la + length lb) 0 ++ G) ->
  (kfoot (length la) <= length la + length lb + length G)%nat ->
  disj dc (length la + length lb + length G) da (length la) ->
  disj dc (length la + length lb + length G) db (length lb) ->
  8 <= multiply_threshold (glob st) -> Z.of_nat (length la) <= 2 ^ 26 ->
  (forall lc G', length lc = (length la + length lb)%nat -> digs lc -> val lc = val la * val lb ->
     Gok (length la + length lb) ((length la + 1) / 2) G G' -> (G' <> G -> 8 <= length la)%nat ->
     Q true (set_mem st (wrd (mem st) dc (lc ++ G')))) ->
  wp (kmul_body f da db dc na nb) Q st.
Proof.
  intros IH la lb G da db dc na nb Q st -> -> Hle Hf Ha Hb Dla Dlb DG Hdc HF Hja Hjb Hthr Hmax HQ.
  unfold kmul_body. wb. apply wp_getG.
  set (bot := ((length la + 1) / 2)%nat) in *. unfold kfoot in HF. fold bot in HF.
  assert (2 * bot = length la \/ 2 * bot = length la + 1)%nat as Hbot.
  { subst bot. pose proof (Nat.div_mod (length la + 1) 2). pose proof (Nat.mod_upper_bound (length la + 1) 2). lia. }
  assert (u32 (Z.of_nat (length la) + 1) / 2 = Z.of_nat bot) as ->.
  { rewrite u32_id by (rewrite RADIX_val; lia). subst bot. rewrite Nat2Z.inj_div. f_equal; lia. }
  destruct (negb (multiply_threshold (glob st) =? 0) &&
            (Z.of_nat (length la) >=? multiply_threshold (glob st)) &&
            (Z.of_nat (length lb) >? Z.of_nat bot))%bool eqn:E.
  2:{ wb. apply darr_app in Hdc as [Hdc1 Hdc2]. rewrite replicate_length in Hdc2.
      apply (wp_s_umul la lb); try done; [dj|dj|].
      intros lc Hlc Dlc Hv. apply wp_ret.
      assert (wrd (mem st) dc lc = wrd (mem st) dc (lc ++ G)) as ->.
      { destruct lc as [|x lc'] eqn:El.
        - simpl. simpl in Hlc. rewrite <- Hlc, padd_0 in Hdc2. rewrite wrd_nil. by rewrite wrd_id.
        - rewrite <- El in *. assert (0 <= dc.2).
          { eapply valid_0le; [apply (darr_valid _ _ _ Hdc1)|]. rewrite replicate_length, <- Hlc, El. simpl; lia. }
          rewrite <- wrd_app by done. symmetry. apply wrd_id. rewrite Hlc.
          apply darr_wrd_disj; [done| |done]. right; left. simpl. lia. }
      apply HQ; try done. by left. }
  apply andb_true_iff in E as [E1 E2]. apply andb_true_iff in E1 as [_ E1].
  rewrite Z.geb_leb in E1. apply Z.leb_le in E1. rewrite Z.gtb_ltb in E2. apply Z.ltb_lt in E2.
  assert (u32 (2 * Z.of_nat bot) = Z.of_nat (2 * bot)) as -> by (rewrite u32_id; rewrite ?RADIX_val; lia).
  assert (u32 (4 * Z.of_nat (2 * bot)) = Z.of_nat (8 * bot)) as -> by (rewrite u32_id; rewrite ?RADIX_val; lia).
  cbv zeta. wb. apply wp_s_alloc. intros _ ib Hfr.
  set (m0 := mem st) in *. set (b := Hp ib) in *.
  assert (da.1 <> b) as Hda by (eapply darr_fresh; [done|done|lia]).
  assert (db.1 <> b) as Hdb by (eapply darr_fresh; [done|done|lia]).
  unfold kmul_core.
  assert ((b, 0) +p Z.of_nat (2 * bot) = (b, Z.of_nat (2 * bot))) as -> by done.
  assert ((b, Z.of_nat (2 * bot)) +p Z.of_nat (2 * bot) = (b, Z.of_nat (4 * bot))) as ->.
  { unfold padd. simpl fst. simpl snd. f_equal; lia. }
  change (add_block st b (blank (Z.of_nat (8 * bot)))) with (set_mem st (<[b := blank (Z.of_nat (8 * bot))]> m0)).
  unfold blank. rewrite Nat2Z.id.
  destruct (split_at la bot) as (a0 & a1 & -> & La0 & La1); [lia|].
  destruct (split_at lb bot) as (b0 & b1 & -> & Lb0 & Lb1); [lia|].
  rewrite app_length in La1, Lb1. rewrite !app_length in *.
  apply digs_app in Dla as [Da0 Da1]. apply digs_app in Dlb as [Db0 Db1].
  pose proof Ha as Ha'. apply darr_app in Ha' as [Ha0 Ha1]. rewrite La0 in Ha1.
  pose proof Hb as Hb'. apply darr_app in Hb' as [Hb0 Hb1]. rewrite Lb0 in Hb1.
  set (at_ := length a1) in *. set (bt := length b1) in *.
  (* ZERO *)
  wb. apply (wp_ZERO _ (8 * bot)); [done|apply blank_valid|].
  rewrite ?mem_set_mem. rewrite set_mem_set_mem, scr_blank.
  set (z := fun n : nat => replicate n 0).
  assert (forall i j, z (i + j)%nat = z i ++ z j) as Hz by (intros; apply replicate_add).
  assert (forall i, length (z i) = i) as Lz by (intros; apply replicate_length).
  assert (forall i, digs (z i)) as Dz by (intros; apply digs_zeros).
  assert (forall i, val (z i) = 0) as Vz by (intros; apply val_zeros).
  change (replicate (8 * bot) 0) with (z (8 * bot)%nat).
  assert (at_ <= bot /\ bt <= bot /\ bot <= at_ + 1 /\ 1 <= bt /\ 4 <= bot)%nat as Hsz by lia.
  (* first sum *)
  wb. apply (wp_s_uadd a0 a1).
  { lia. }
  { lia. }
  { by apply scr_darr_ne. }
  { by apply scr_darr_ne. }
  { simpl. rewrite La0, Nat.max_l by lia. apply (scr_valid _ _ _ _ [] (z bot) (z (7 * bot)%nat)); [|done|done].
    simpl. rewrite <- Hz. f_equal; lia. }
  { done. }
  { done. }
  { left. done. }
  { left. done. }
  rewrite La0, Nat.max_l by lia. intros w s Ls Ds Hw Hs. rewrite ?mem_set_mem. rewrite set_mem_set_mem.
  destruct (add_halves a0 a1 s w bot) as (Dsa & Lsa & Vsa); try done; [lia|].
  rewrite (scr_wr _ _ _ [] (z bot) s (z (7 * bot)%nat)); [| |done|by rewrite Lz].
  2:{ simpl. rewrite <- Hz. f_equal; lia. }
  assert (z (7 * bot)%nat = 0 :: z (7 * bot - 1)%nat) as ->.
  { change (0 :: z (7 * bot - 1)%nat) with (z (S (7 * bot - 1))). f_equal; lia. }
  wb. eapply wp_store.
  { rewrite ?mem_set_mem. apply (scr_load _ _ _ s 0 (z (7 * bot - 1)%nat)); [done|done|simpl; lia]. }
  rewrite ?mem_set_mem. rewrite set_mem_set_mem.
  rewrite (scr_store _ _ _ s 0 w (z (7 * bot - 1)%nat)); [|done|done|simpl; lia].
  assert (s ++ w :: z (7 * bot - 1)%nat = ((s ++ [w]) ++ z (bot - 1)%nat) ++ z bot ++ z (5 * bot)%nat) as ->.
  { rewrite <- !app_assoc. simpl. f_equal. f_equal. rewrite <- !Hz. f_equal; lia. }
  set (sa := s ++ [w]) in *. clearbody sa.
  (* second sum *)
  wb. apply (wp_s_uadd b0 b1).
  { lia. }
  { lia. }
  { by apply scr_darr_ne. }
  { by apply scr_darr_ne. }
  { simpl. rewrite Lb0, Nat.max_l by lia. eapply scr_valid; [reflexivity| |by rewrite Lz].
    rewrite app_length, Lz. lia. }
  { done. }
  { done. }
  { left. done. }
  { left. done. }
  rewrite Lb0, Nat.max_l by lia. intros w' s' Ls' Ds' Hw' Hs'. rewrite ?mem_set_mem. rewrite set_mem_set_mem.
  destruct (add_halves b0 b1 s' w' bot) as (Dsb & Lsb & Vsb); try done; [lia|].
  rewrite (scr_wr _ _ _ (sa ++ z (bot - 1)%nat) (z bot) s' (z (5 * bot)%nat)); [|done| |by rewrite Lz].
  2:{ rewrite app_length, Lz. lia. }
  assert (z (5 * bot)%nat = 0 :: z (5 * bot - 1)%nat) as ->.
  { change (0 :: z (5 * bot - 1)%nat) with (z (S (5 * bot - 1))). f_equal; lia. }
  rewrite (app_assoc _ s').
  wb. eapply wp_store.
  { rewrite ?mem_set_mem. eapply scr_load; [done|reflexivity|]. simpl. rewrite !app_length, Lz. lia. }
  rewrite ?mem_set_mem. rewrite set_mem_set_mem.
  erewrite scr_store; [|done|reflexivity|]. 2:{ simpl. rewrite !app_length, Lz. lia. }
  assert (((sa ++ z (bot - 1)%nat) ++ s') ++ w' :: z (5 * bot - 1)%nat =
    (sa ++ z (bot - 1)%nat) ++ (s' ++ [w']) ++ z (bot - 1)%nat ++ (z (2 * bot + 2)%nat ++ z (2 * bot - 2)%nat)) as ->.
  { rewrite <- !app_assoc. simpl. f_equal. f_equal. f_equal. f_equal. rewrite <- !Hz. f_equal; lia. }
  set (sb := s' ++ [w']) in *. clearbody sb.
  (* t3 = t1 * t2 *)
  wb. apply (IH sa sb (z (2 * bot - 2)%nat)).
  { lia. }
  { lia. }
  { lia. }
  { simpl. apply (scr_darr _ _ _ [] sa (z (bot - 1)%nat ++ sb ++ z (bot - 1)%nat ++ z (2 * bot + 2)%nat ++ z (2 * bot - 2)%nat)); [|done].
    by rewrite <- !app_assoc. }
  { simpl. eapply scr_darr; [reflexivity|]. rewrite app_length, Lz. lia. }
  { done. }
  { done. }
  { done. }
  { simpl. rewrite Lsa, Lsb. replace (S bot + S bot)%nat with (2 * bot + 2)%nat by lia.
    eapply (scr_darr _ _ _ ((sa ++ z (bot - 1)%nat) ++ sb ++ z (bot - 1)%nat) _ []).
    - by rewrite app_nil_r, <- !app_assoc.
    - rewrite !app_length, !Lz. lia. }
  { rewrite Lsa, Lsb, Lz, Nat.max_id. unfold kfoot.
    pose proof (Nat.div_mod (S bot + 1) 2). pose proof (Nat.mod_upper_bound (S bot + 1) 2). lia. }
  { right; right. simpl. lia. }
  { right; right. simpl. lia. }
  { done. }
  { lia. }
  rewrite Lsa, Lsb. intros p3 G3 L3 D3 V3 HG3 _. apply Gok_zeros in HG3 as ->.
  rewrite ?mem_set_mem. rewrite set_mem_set_mem.
  replace (S bot + S bot)%nat with (2 * bot + 2)%nat in L3 by lia.
  erewrite (scr_wr _ _ _ ((sa ++ z (bot - 1)%nat) ++ sb ++ z (bot - 1)%nat) (z (2 * bot + 2)%nat ++ z (2 * bot - 2)%nat) (p3 ++ z (2 * bot - 2)%nat) []).
  2:{ by rewrite app_nil_r, <- !app_assoc. }
  2:{ rewrite !app_length, !Lz. lia. }
  2:{ rewrite !app_length, !Lz. lia. }
  rewrite app_nil_r.
  (* clear t1 and t2 *)
  set (r := p3 ++ z (2 * bot - 2)%nat).
  wb. apply (wp_ZERO _ (2 * bot)); [done| |].
  { simpl. apply (scr_valid _ _ _ _ [] (sa ++ z (bot - 1)%nat) ((sb ++ z (bot - 1)%nat) ++ r)); [|done|].
    - by rewrite <- !app_assoc.
    - rewrite !app_length, !Lz. lia. }
  rewrite ?mem_set_mem. rewrite set_mem_set_mem.
  erewrite (scr_wr _ _ _ [] (sa ++ z (bot - 1)%nat) _ ((sb ++ z (bot - 1)%nat) ++ r)); [|by rewrite <- !app_assoc|done|].
  2:{ rewrite app_length, !Lz, replicate_length. lia. }
  change (replicate (2 * bot) 0) with (z (2 * bot)%nat).
  wb. apply (wp_ZERO _ (2 * bot)); [done| |].
  { simpl. eapply (scr_valid _ _ _ _ (z (2 * bot)%nat) (sb ++ z (bot - 1)%nat)); [done|by rewrite Lz|].
    rewrite !app_length, !Lz. lia. }
  rewrite ?mem_set_mem. rewrite set_mem_set_mem.
  erewrite (scr_wr _ _ _ (z (2 * bot)%nat) (sb ++ z (bot - 1)%nat) _ r); [|done|by rewrite Lz|].
  2:{ rewrite app_length, !Lz, replicate_length. lia. }
  change (replicate (2 * bot) 0) with (z (2 * bot)%nat).
  (* t1 = low halves *)
  wb. apply (IH a0 b0 (z 2%nat)).
  { lia. }
  { lia. }
  { lia. }
  { simpl. by apply scr_darr_ne. }
  { simpl. by apply scr_darr_ne. }
  { done. }
  { done. }
  { done. }
  { simpl. rewrite La0, Lb0. apply (scr_darr _ _ _ [] _ (z (2 * bot - 2)%nat ++ r)); [|done].
    simpl. rewrite <- app_assoc. replace (bot + bot)%nat with (2 * bot)%nat by lia. f_equal.
    rewrite app_assoc, <- Hz. f_equal. f_equal; lia. }
  { rewrite La0, Lb0, Lz, Nat.max_id. unfold kfoot.
    pose proof (Nat.div_mod (bot + 1) 2). pose proof (Nat.mod_upper_bound (bot + 1) 2). lia. }
  { left. simpl. auto. }
  { left. simpl. auto. }
  { done. }
  { lia. }
  rewrite La0, Lb0. intros p1 G1 L1 D1 V1 HG1 _. apply Gok_zeros in HG1 as ->.
  rewrite ?mem_set_mem. rewrite set_mem_set_mem.
  replace (bot + bot)%nat with (2 * bot)%nat in L1 by lia.
  erewrite (scr_wr _ _ _ [] (z (2 * bot)%nat ++ z 2%nat) (p1 ++ z 2%nat) (z (2 * bot - 2)%nat ++ r)); [| |done|].
  2:{ simpl. rewrite <- app_assoc. f_equal.
    rewrite app_assoc, <- Hz. f_equal. f_equal; lia. }
  2:{ rewrite !app_length, !Lz. lia. }
  (* t2 = high halves *)
  destruct (split_at p3 2) as (p3a & p3b & E3 & L3a & L3b); [lia|].
  assert ([] ++ (p1 ++ z 2%nat) ++ z (2 * bot - 2)%nat ++ r =
    p1 ++ (z (at_ + bt)%nat ++ (z (2 * bot - at_ - bt)%nat ++ p3a)) ++ p3b ++ z (2 * bot - 2)%nat) as ->.
  { subst r. rewrite E3. simpl. rewrite <- !app_assoc. f_equal. rewrite (app_assoc (z 2%nat)), (app_assoc (z (at_ + bt)%nat)), <- !Hz. f_equal. f_equal; lia. }
  assert (digs p3a) as D3a. { rewrite E3 in D3. by apply digs_app in D3 as [? _]. }
  wb. apply (IH a1 b1 (z (2 * bot - at_ - bt)%nat ++ p3a)).
  { lia. }
  { lia. }
  { lia. }
  { simpl. by apply scr_darr_ne. }
  { simpl. by apply scr_darr_ne. }
  { done. }
  { done. }
  { apply digs_app. done. }
  { simpl. eapply scr_darr; [reflexivity|]. lia. }
  { rewrite app_length, Lz, Nat.max_l by lia. unfold kfoot. fold at_ bt.
    pose proof (Nat.div_mod (at_ + 1) 2). pose proof (Nat.mod_upper_bound (at_ + 1) 2). lia. }
  { left. simpl. auto. }
  { left. simpl. auto. }
  { done. }
  { lia. }
  rewrite Nat.max_l by lia. fold at_ bt. intros p2 G2 L2 D2 V2 HG2 HG2'.
  assert (G2 = z (2 * bot - at_ - bt)%nat ++ p3a) as ->.
  { destruct (decide (G2 = z (2 * bot - at_ - bt)%nat ++ p3a)) as [|Hne]; [done|].
    specialize (HG2' Hne). destruct (decide (2 * bot - at_ - bt = 0)%nat).
    2:{ apply Gok_zeros_app in HG2; [done|lia]. }
    destruct HG2 as [|(x & G0 & _ & _ & HN)]; [done|].
    exfalso. pose proof (Nat.div_mod (at_ + 1) 2). pose proof (Nat.mod_upper_bound (at_ + 1) 2). lia. }
  rewrite ?mem_set_mem. rewrite set_mem_set_mem.
  erewrite scr_wr; [|reflexivity|lia|]. 2:{ rewrite !app_length, !Lz. lia. }
  set (p2' := p2 ++ z (2 * bot - at_ - bt)%nat).
  assert (p1 ++ (p2 ++ z (2 * bot - at_ - bt)%nat ++ p3a) ++ p3b ++ z (2 * bot - 2)%nat =
     p1 ++ p2' ++ p3 ++ z (2 * bot - 2)%nat) as ->.
  { subst p2'. rewrite E3, <- !app_assoc. done. }
  assert (length p2' = (2 * bot)%nat) as L2'. { subst p2'. rewrite app_length, Lz. lia. }
  assert (val p2' = val p2) as V2'. { subst p2'. rewrite val_app, Vz. lia. }
  assert (digs p2') as D2'. { by apply digs_app. }
  clearbody p2'. clear HG2 HG2' E3 L3a L3b D3a p3a p3b r.
  (* bounds *)
  pose proof (val_bounds _ Da0) as Ba0. pose proof (val_bounds _ Da1) as Ba1.
  pose proof (val_bounds _ Db0) as Bb0. pose proof (val_bounds _ Db1) as Bb1.
  fold at_ in Ba1. fold bt in Bb1. rewrite La0 in Ba0. rewrite Lb0 in Bb0.
  pose proof (Bn_le at_ bot ltac:(lia)) as Bat. pose proof (Bn_le bt bot ltac:(lia)) as Bbt.
  assert (Bn (2 * bot) = Bn bot * Bn bot) as EM2. { rewrite <- Bn_add. f_equal; lia. }
  rewrite Vsa, Vsb in V3.
  (* subtractions *)
  wb. apply (wp_s_usub p3 p1).
  { lia. }
  { lia. }
  { lia. }
  { simpl. apply (scr_darr _ _ _ (p1 ++ p2') p3 (z (2 * bot - 2)%nat)); [by rewrite <- !app_assoc|]. rewrite app_length. lia. }
  { simpl. by apply (scr_darr _ _ _ [] p1 (p2' ++ p3 ++ z (2 * bot - 2)%nat)). }
  { simpl. apply (scr_valid _ _ _ _ (p1 ++ p2') p3 (z (2 * bot - 2)%nat)); [by rewrite <- !app_assoc| |done]. rewrite app_length. lia. }
  { done. }
  { done. }
  { apply ahead_refl. }
  { right; right. simpl. lia. }
  { nia. }
  intros q3 Lq3 Dq3 Vq3. rewrite ?mem_set_mem. rewrite set_mem_set_mem.
  erewrite (scr_wr _ _ _ (p1 ++ p2') p3 q3 (z (2 * bot - 2)%nat)); [|by rewrite <- !app_assoc| |done].
  2:{ rewrite app_length. lia. }
  wb. apply (wp_s_usub q3 p2').
  { lia. }
  { lia. }
  { lia. }
  { simpl. eapply scr_darr; [reflexivity|]. rewrite app_length. lia. }
  { simpl. apply (scr_darr _ _ _ p1 p2' (q3 ++ z (2 * bot - 2)%nat)); [by rewrite <- !app_assoc|lia]. }
  { simpl. eapply scr_valid; [reflexivity| |done]. rewrite app_length. lia. }
  { done. }
  { done. }
  { apply ahead_refl. }
  { right; right. simpl. lia. }
  { nia. }
  intros r3 Lr3 Dr3 Vr3. rewrite ?mem_set_mem. rewrite set_mem_set_mem.
  erewrite (scr_wr _ _ _ (p1 ++ p2') q3 r3 (z (2 * bot - 2)%nat)); [|done| |done].
  2:{ rewrite app_length. lia. }
  assert (val r3 = val a0 * val b1 + val a1 * val b0) as Vr. { rewrite Vr3, Vq3, V3, V1, V2', V2. ring. }
  assert (val r3 <= 2 * Bn (2 * bot)) as Br. { rewrite Vr, EM2. nia. }
  destruct (val_top_zero r3 (2 * bot + 1)) as (r4 & -> & Lr4 & Vr4); [done|lia| |].
  { replace (2 * bot + 1)%nat with (S (2 * bot)) by lia. rewrite Bn_S, RADIX_val. pose proof (Bn_pos (2 * bot)). lia. }
  rewrite <- Vr4 in Vr, Br. apply digs_app in Dr3 as [Dr4 _].
  eapply (wp_kar_end ib bot (bot + at_ + (bot + bt)) p1 p2' r4 (0 :: z (2 * bot - 2)%nat) G (val (a0 ++ a1) * val (b0 ++ b1)) dc m0).
  { simpl. fold b. f_equal. f_equal. by rewrite <- !app_assoc. }
  { done. }
  { done. }
  { done. }
  { lia. }
  { done. }
  { done. }
  { done. }
  { done. }
  { by rewrite La0, Lb0 in Hdc. }
  { lia. }
  { lia. }
  { lia. }
  { rewrite !val_app, La0, Lb0, V1, V2', V2, Vr, EM2. ring. }
  { assert (digs (a0 ++ a1)) as HA by (by apply digs_app). assert (digs (b0 ++ b1)) as HB by (by apply digs_app).
    apply val_bounds in HA, HB. rewrite app_length, La0 in HA. rewrite app_length, Lb0 in HB.
    fold at_ in HA; fold bt in HB. rewrite (Bn_add (bot + at_)). split; [apply Z.mul_nonneg_nonneg; lia|apply Z.mul_lt_mono_nonneg; lia]. }
  { done. }
  intros lc G' Llc Dlc Vlc HGok. rewrite set_mem_set_mem. rewrite La0, Lb0 in HQ. apply HQ; try done. lia.
Qed.

Lemma kmul_all_ok f : kmul_ok f.
Proof.
  induction f as [|f IH]; intros la lb G da db dc na nb Q st Ena Enb Hf Ha Hb Da Db DG Hdc HF Hja Hjb Hthr Hmax HQ; [lia|].
  rewrite kmul_S. rewrite Z.gtb_ltb. destruct (Z.ltb_spec na nb).
  - rewrite Nat.max_r in * by lia.
    rewrite (Nat.add_comm (length la)) in *. rewrite Z.mul_comm in HQ.
    eapply (kmul_body_ok f IH lb la G); try done. lia.
  - rewrite Nat.max_l in * by lia. eapply (kmul_body_ok f IH la lb G); try done. lia.
Qed.

Lemma wp_s_kmul la lb G da db dc na nb (Q : bool -> state -> Prop) st :
  na = Z.of_nat (length la) -> nb = Z.of_nat (length lb) ->
  darr (mem st) da la -> darr (mem st) db lb -> digs la -> digs lb -> digs G ->
  darr (mem st) dc (replicate (length la + length lb) 0 ++ G) ->
  (kfoot (Nat.max (length la) (length lb)) <= length la + length lb + length G)%nat ->
  disj dc (length la + length lb + length G) da (length la) ->
  disj dc (length la + length lb + length G) db (length lb) ->
  8 <= multiply_threshold (glob st) -> Z.of_nat (Nat.max (length la) (length lb)) <= 2 ^ 26 ->
  (forall lc G', length lc = (length la + length lb)%nat -> digs lc -> val lc = val la * val lb ->
     length G' = length G -> digs G' -> (forall n, G = replicate n 0 -> G' = G) ->
     Q true (set_mem st (wrd (mem st) dc (lc ++ G')))) ->
  wp (s_kmul da db dc na nb) Q st.
Proof.
  intros -> -> Ha Hb Da Db DG Hdc HF Hja Hjb Hthr Hmax HQ. unfold s_kmul.
  apply (kmul_all_ok _ la lb G); try done; [lia|].
  intros lc G' Llc Dlc Vlc HG _. apply HQ; try done.
  - by eapply Gok_length.
  - by eapply Gok_digs.
  - intros n ->. by eapply Gok_zeros.
Qed.

(** ** [s_ksqr] *)
Lemma wp_dbl_loop l x p save (Q : unit -> state -> Prop) st :
  darr (mem st) p (l ++ [x]) -> digs l -> 0 <= save <= 1 ->
  (forall lc, length lc = S (length l) -> digs lc -> val lc = 2 * val l + save ->
     Q tt (set_mem st (wrd (mem st) p lc))) ->
  wp (dbl_loop (length l) p save) Q st.
Proof.
  revert p save st. induction l as [|d l IH]; intros p save st Ha Hd Hs HQ.
  - simpl in Ha. apply darr_cons in Ha as [Ha _]. cbn [length dbl_loop].
    eapply wp_store; [exact Ha|]. rewrite <- wr_1.
    assert (LOWER_HALF save = save) as ->.
    { unfold LOWER_HALF. rewrite pow32. apply Z.mod_small. rewrite RADIX_val. lia. }
    apply (HQ [save]); [done| |simpl; lia]. constructor; [|done]. unfold dig. rewrite RADIX_val. lia.
  - apply Forall_cons in Hd as [Dd Hd]. simpl in Ha. apply darr_cons in Ha as [Ha1 Ha2].
    cbn [length dbl_loop]. wb. eapply wp_load; [exact Ha1|]. unfold dig in Dd. pose proof RADIX_val as HR.
    assert (w64 (Z.shiftl d 1) = Z.shiftl d 1) as ->.
    { apply w64_id. rewrite Z.shiftl_mul_pow2 by lia. lia. }
    rewrite lor_shl by lia. change (2 ^ 1) with 2. set (w := d * 2 + save).
    wb. eapply wp_store; [exact Ha1|].
    pose proof (halves w) as Hw. pose proof (lower_dig w) as Hlo.
    assert (0 <= UPPER_HALF w <= 1) as Hup. { unfold dig in Hlo. subst w. lia. }
    apply IH; [|done|done|].
    + simpl. apply store_disj; [by eapply load_0le| |done]. right; left. simpl. lia.
    + intros lc Llc Dlc Vlc. simpl mem. rewrite set_mem_set_mem.
      rewrite wrd_cons by (by eapply load_0le). apply HQ.
      * simpl. lia.
      * by constructor.
      * simpl. subst w. lia.
Qed.

Definition ksqr_core (f : nat) (da dc : ptr) (na bot buf n4 : Z) (t1 t2 t3 : ptr) : prog bool :=
  (ZERO t1 n4;;
   ksqr f da t1 bot;;
   ksqr f (da +p bot) t2 (na - bot);;
   s_kmul da (da +p bot) t3 bot (na - bot);;
   dbl_loop (Z.to_nat (bot + (na - bot))) t3 0;;
   COPY t1 dc (2 * bot);;
   carry <- s_uadd t3 (dc +p bot) (dc +p bot) (buf + 1) buf;
   assert (carry =? 0);;
   carry <- s_uadd t2 (dc +p 2 * bot) (dc +p 2 * bot) buf buf;
   assert (carry =? 0);;
   s_free t1;;
   Ret true)%prog.
Lemma ksqr_S f da dc na :
  ksqr (S f) da dc na =
  (g <- getG;
   if (negb (multiply_threshold g =? 0) && (na >? multiply_threshold g))%bool then
     let bot := u32 (na + 1) / 2 in
     let buf := u32 (2 * bot) in
     t <- s_alloc (u32 (4 * buf));
     match t with
     | None => Ret false
     | Some t1 => ksqr_core f da dc na bot buf (u32 (4 * buf)) t1 (t1 +p buf) (t1 +p buf +p buf)
     end
   else s_usqr da dc na;; Ret true)%prog.
Proof. reflexivity. Qed.
Global Arguments ksqr : simpl never.

Lemma wp_ksqr f : forall la G da dc na (Q : bool -> state -> Prop) st,
  na = Z.of_nat (length la) -> (length la < f)%nat ->
  darr (mem st) da la -> digs la -> digs G ->
  darr (mem st) dc (replicate (2 * length la) 0 ++ G) ->
  (kfoot (length la) <= 2 * length la + length G)%nat ->
  disj dc (2 * length la + length G) da (length la) ->
  8 <= multiply_threshold (glob st) -> Z.of_nat (length la) <= 2 ^ 26 ->
  (forall lc, length lc = (2 * length la)%nat -> digs lc -> val lc = val la * val la ->
     Q true (set_mem st (wrd (mem st) dc (lc ++ G)))) ->
  wp (ksqr f da dc na) Q st.
Proof.
  induction f as [|f IH]; intros la G da dc na Q st -> Hf Ha Dla DG Hdc HF Hja Hthr Hmax HQ; [lia|].
  rewrite ksqr_S. wb. apply wp_getG.
  destruct (negb (multiply_threshold (glob st) =? 0) &&
            (Z.of_nat (length la) >? multiply_threshold (glob st)))%bool eqn:E.
  2:{ wb. apply darr_app in Hdc as [Hdc1 Hdc2]. rewrite replicate_length in Hdc2.
      apply (wp_s_usqr la); try done; [dj|].
      intros lc Hlc Dlc Hv. apply wp_ret.
      assert (wrd (mem st) dc lc = wrd (mem st) dc (lc ++ G)) as ->.
      { destruct lc as [|x lc'] eqn:El.
        - cbn [length app] in *. rewrite <- Hlc, padd_0 in Hdc2. rewrite wrd_nil. by rewrite wrd_id.
        - rewrite <- El in *. assert (0 <= dc.2).
          { eapply valid_0le; [apply (darr_valid _ _ _ Hdc1)|]. rewrite replicate_length, <- Hlc, El. simpl; lia. }
          rewrite <- wrd_app by done. symmetry. apply wrd_id. rewrite Hlc.
          apply darr_wrd_disj; [done| |done]. right; left. simpl. lia. }
      by apply HQ. }
  apply andb_true_iff in E as [_ E1].
  rewrite Z.gtb_ltb in E1. apply Z.ltb_lt in E1.
  cbv zeta. set (bot := ((length la + 1) / 2)%nat) in *. unfold kfoot in HF. fold bot in HF.
  assert (2 * bot = length la \/ 2 * bot = length la + 1)%nat as Hbot.
  { subst bot. pose proof (Nat.div_mod (length la + 1) 2). pose proof (Nat.mod_upper_bound (length la + 1) 2). lia. }
  assert (u32 (Z.of_nat (length la) + 1) / 2 = Z.of_nat bot) as ->.
  { rewrite u32_id by (rewrite RADIX_val; lia). subst bot. rewrite Nat2Z.inj_div. f_equal. lia. }
  assert (u32 (2 * Z.of_nat bot) = Z.of_nat (2 * bot)) as -> by (rewrite u32_id; rewrite ?RADIX_val; lia).
  assert (u32 (4 * Z.of_nat (2 * bot)) = Z.of_nat (8 * bot)) as -> by (rewrite u32_id; rewrite ?RADIX_val; lia).
  cbv zeta. wb. apply wp_s_alloc. intros _ ib Hfr.
  set (m0 := mem st) in *. set (b := Hp ib) in *.
  assert (da.1 <> b) as Hda by (eapply darr_fresh; [done|done|lia]).
  unfold ksqr_core.
  assert ((b, 0) +p Z.of_nat (2 * bot) = (b, Z.of_nat (2 * bot))) as -> by done.
  assert ((b, Z.of_nat (2 * bot)) +p Z.of_nat (2 * bot) = (b, Z.of_nat (4 * bot))) as ->.
  { unfold padd. simpl fst. simpl snd. f_equal. lia. }
  change (add_block st b (blank (Z.of_nat (8 * bot)))) with (set_mem st (<[b := blank (Z.of_nat (8 * bot))]> m0)).
  unfold blank. rewrite Nat2Z.id.
  destruct (split_at la bot) as (a0 & a1 & -> & La0 & La1); [lia|].
  rewrite app_length in La1. rewrite !app_length in *.
  apply digs_app in Dla as [Da0 Da1].
  pose proof Ha as Ha'. apply darr_app in Ha' as [Ha0 Ha1]. rewrite La0 in Ha1.
  set (at_ := length a1) in *.
  assert (2 * Z.of_nat bot = Z.of_nat (2 * bot)) as -> by lia.
  (* ZERO *)
  wb. apply (wp_ZERO _ (8 * bot)); [done|apply blank_valid|].
  rewrite ?mem_set_mem. rewrite set_mem_set_mem, scr_blank.
  set (z := fun n : nat => replicate n 0).
  assert (forall i j, z (i + j)%nat = z i ++ z j) as Hz by (intros; apply replicate_add).
  assert (forall i, length (z i) = i) as Lz by (intros; apply replicate_length).
  assert (forall i, digs (z i)) as Dz by (intros; apply digs_zeros).
  assert (forall i, val (z i) = 0) as Vz by (intros; apply val_zeros).
  change (replicate (8 * bot) 0) with (z (8 * bot)%nat).
  assert (at_ <= bot /\ bot <= at_ + 1 /\ 4 <= bot)%nat as Hsz by lia.
  (* t1 *)
  assert (z (8 * bot)%nat = [] ++ (z (2 * bot)%nat ++ z 2%nat) ++ z (6 * bot - 2)%nat) as ->.
  { simpl app. rewrite <- !Hz. f_equal; lia. }
  wb. apply (IH a0 (z 2%nat)).
  { lia. }
  { lia. }
  { by apply scr_darr_ne. }
  { done. }
  { done. }
  { rewrite La0. eapply scr_darr; [reflexivity|done]. }
  { rewrite La0, Lz. unfold kfoot.
    pose proof (Nat.div_mod (bot + 1) 2). pose proof (Nat.mod_upper_bound (bot + 1) 2). lia. }
  { left. simpl. auto. }
  { done. }
  { lia. }
  rewrite La0. intros p1 L1 D1 V1.
  rewrite ?mem_set_mem, set_mem_set_mem. erewrite scr_wr; [|reflexivity|done|].
  2:{ rewrite !app_length, !Lz. lia. }
  assert ([] ++ (p1 ++ z 2%nat) ++ z (6 * bot - 2)%nat =
    p1 ++ (z (2 * at_)%nat ++ z (2 * bot + 2 - 2 * at_)%nat) ++ z (4 * bot - 2)%nat) as ->.
  { simpl app. rewrite <- !app_assoc, <- !Hz. f_equal. f_equal; lia. }
  (* t2 *)
  wb. apply (IH a1 (z (2 * bot + 2 - 2 * at_)%nat)).
  { lia. }
  { lia. }
  { by apply scr_darr_ne. }
  { done. }
  { done. }
  { fold at_. eapply scr_darr; [reflexivity|]. lia. }
  { fold at_. rewrite Lz. unfold kfoot.
    pose proof (Nat.div_mod (at_ + 1) 2). pose proof (Nat.mod_upper_bound (at_ + 1) 2). lia. }
  { left. simpl. auto. }
  { done. }
  { lia. }
  fold at_. intros p2 L2 D2 V2.
  rewrite ?mem_set_mem, set_mem_set_mem. erewrite scr_wr; [|reflexivity|lia|].
  2:{ rewrite !app_length, !Lz. lia. }
  set (p2' := p2 ++ z (2 * bot - 2 * at_)%nat).
  assert (p1 ++ (p2 ++ z (2 * bot + 2 - 2 * at_)%nat) ++ z (4 * bot - 2)%nat =
    (p1 ++ p2') ++ (z (bot + at_)%nat ++ z (3 * bot - at_)%nat) ++ []) as ->.
  { subst p2'. rewrite app_nil_r, <- !app_assoc, <- !Hz. do 3 f_equal; lia. }
  assert (length p2' = (2 * bot)%nat) as L2'. { subst p2'. rewrite app_length, Lz. lia. }
  assert (val p2' = val p2) as V2'. { subst p2'. rewrite val_app, Vz. lia. }
  assert (digs p2') as D2'. { by apply digs_app. }
  clearbody p2'.
  (* t3 *)
  wb. apply (wp_s_kmul a0 a1 (z (3 * bot - at_)%nat)).
  { lia. }
  { lia. }
  { by apply scr_darr_ne. }
  { by apply scr_darr_ne. }
  { done. }
  { done. }
  { done. }
  { rewrite La0. fold at_. eapply scr_darr; [reflexivity|]. rewrite app_length; lia. }
  { rewrite La0, Lz. fold at_. rewrite Nat.max_l by lia. unfold kfoot.
    pose proof (Nat.div_mod (bot + 1) 2). pose proof (Nat.mod_upper_bound (bot + 1) 2). lia. }
  { left. simpl. auto. }
  { left. simpl. auto. }
  { done. }
  { lia. }
  rewrite La0. fold at_. intros p3 G3 L3 D3 V3 _ _ HG3.
  rewrite (HG3 _ eq_refl). clear G3 HG3.
  rewrite ?mem_set_mem, set_mem_set_mem. erewrite scr_wr; [|reflexivity|rewrite app_length; lia|].
  2:{ rewrite !app_length, !Lz. lia. }
  replace (Z.to_nat (Z.of_nat bot + (Z.of_nat (bot + at_) - Z.of_nat bot))) with (length p3) by lia.
  assert ((p1 ++ p2') ++ (p3 ++ z (3 * bot - at_)%nat) ++ [] =
     (p1 ++ p2') ++ (p3 ++ [0]) ++ z (3 * bot - at_ - 1)%nat) as ->.
  { rewrite app_nil_r. f_equal. rewrite <- app_assoc. f_equal. change [0] with (z 1%nat).
    rewrite <- Hz. f_equal; lia. }
  wb. apply (wp_dbl_loop p3 0).
  { eapply scr_darr; [reflexivity|]. rewrite app_length; lia. }
  { done. }
  { lia. }
  intros q3 Lq3 Dq3 Vq3.
  rewrite ?mem_set_mem, set_mem_set_mem. erewrite scr_wr; [|reflexivity|rewrite app_length; lia|].
  2:{ rewrite app_length. simpl. lia. }
  assert ((p1 ++ p2') ++ q3 ++ z (3 * bot - at_ - 1)%nat =
     p1 ++ p2' ++ (q3 ++ z (bot - at_)%nat) ++ z (2 * bot - 1)%nat) as ->.
  { rewrite <- !app_assoc. do 3 f_equal. rewrite <- Hz. f_equal; lia. }
  pose proof (val_bounds _ Da0) as Ba0. pose proof (val_bounds _ Da1) as Ba1.
  fold at_ in Ba1. rewrite La0 in Ba0.
  pose proof (Bn_le at_ bot ltac:(lia)) as Bat.
  assert (Bn (2 * bot) = Bn bot * Bn bot) as EM2. { rewrite <- Bn_add. f_equal. lia. }
  assert (val (q3 ++ z (bot - at_)%nat) = 2 * (val a0 * val a1)) as Vr. { rewrite val_app, Vz, Vq3, V3. lia. }
  replace (dc +p Z.of_nat (2 * bot)) with (dc +p 2 * Z.of_nat bot) by (f_equal; lia).
  eapply (wp_kar_end ib bot (2 * (bot + at_)) p1 p2' (q3 ++ z (bot - at_)%nat) (z (2 * bot - 1)%nat) G (val (a0 ++ a1) * val (a0 ++ a1)) dc m0).
  { done. }
  { done. }
  { done. }
  { done. }
  { rewrite app_length, Lz. lia. }
  { done. }
  { done. }
  { by apply digs_app. }
  { done. }
  { by rewrite La0 in Hdc. }
  { lia. }
  { lia. }
  { lia. }
  { rewrite !val_app, La0, V1, V2', V2. rewrite val_app in Vr. rewrite Vr, EM2. ring. }
  { assert (digs (a0 ++ a1)) as HA by (by apply digs_app).
    apply val_bounds in HA. rewrite app_length, La0 in HA. fold at_ in HA.
    replace (2 * (bot + at_))%nat with ((bot + at_) + (bot + at_))%nat by lia. rewrite (Bn_add (bot + at_)).
    split; [apply Z.mul_nonneg_nonneg; lia|apply Z.mul_lt_mono_nonneg; lia]. }
  { rewrite Vr, EM2. nia. }
  intros lc G' Llc Dlc Vlc HGok. rewrite set_mem_set_mem. rewrite La0 in HQ.
  destruct HGok as [->|(x & G0 & _ & _ & HN)]; [|lia]. by apply HQ.
Qed.

Lemma wp_s_ksqr la G da dc na (Q : bool -> state -> Prop) st :
  na = Z.of_nat (length la) ->
  darr (mem st) da la -> digs la -> digs G ->
  darr (mem st) dc (replicate (2 * length la) 0 ++ G) ->
  (kfoot (length la) <= 2 * length la + length G)%nat ->
  disj dc (2 * length la + length G) da (length la) ->
  8 <= multiply_threshold (glob st) -> Z.of_nat (length la) <= 2 ^ 26 ->
  (forall lc, length lc = (2 * length la)%nat -> digs lc -> val lc = val la * val la ->
     Q true (set_mem st (wrd (mem st) dc (lc ++ G)))) ->
  wp (s_ksqr da dc na) Q st.
Proof. intros -> ?????????. unfold s_ksqr. apply (wp_ksqr _ la G); try done. lia. Qed.
