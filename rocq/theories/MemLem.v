(** Lemmas about memory: loads after stores, arrays at pointers. *)
From Coq Require Import ZArith List Lia.
From stdpp Require Import gmap list.
From Verif Require Import Mem Prog.
Local Open Scope Z_scope.

Lemma padd_fst p n : (p +p n).1 = p.1. Proof. done. Qed.
Lemma padd_snd p n : (p +p n).2 = p.2 + n. Proof. done. Qed.
Lemma padd_0 p : p +p 0 = p.
Proof. destruct p. unfold padd; simpl. f_equal. lia. Qed.
Lemma padd_padd p a b : p +p a +p b = p +p (a + b).
Proof. unfold padd; simpl. f_equal. lia. Qed.
Lemma padd_eq p a b : a = b -> p +p a = p +p b. Proof. by intros ->. Qed.

Lemma load_inv m p c : load m p = Some c ->
  0 <= p.2 /\ exists blk, m !! p.1 = Some blk /\ blk !! Z.to_nat p.2 = Some c.
Proof.
  unfold load. destruct (Z.ltb_spec p.2 0); [done|]. case_match; [|done]. eauto.
Qed.
Lemma load_blk m p blk : m !! p.1 = Some blk -> 0 <= p.2 -> load m p = blk !! Z.to_nat p.2.
Proof. intros H ?. unfold load. rewrite H. by destruct (Z.ltb_spec p.2 0); [lia|]. Qed.

Lemma load_store_eq m p c c0 : load m p = Some c0 -> load (store m p c) p = Some c.
Proof.
  intros (H0 & blk & Hb & Hl)%load_inv. unfold store.
  rewrite (load_blk _ p (<[Z.to_nat p.2:=c]> blk)); [|by rewrite lookup_alter, Hb|done].
  apply list_lookup_insert. by eapply lookup_lt_Some.
Qed.
Lemma load_store_ne m p q c : p <> q -> 0 <= p.2 -> load (store m p c) q = load m q.
Proof.
  intros Hne Hp. unfold load, store. destruct (Z.ltb_spec q.2 0); [done|].
  destruct (decide (p.1 = q.1)) as [He|].
  - rewrite <- He, lookup_alter. destruct (m !! p.1) as [blk|]; [|done]. simpl.
    apply list_lookup_insert_ne. destruct p, q; simpl in *; subst. intros ?. apply Hne. f_equal. lia.
  - by rewrite lookup_alter_ne.
Qed.

(** A run of cells at a pointer. *)
Definition carr (m : memory) (p : ptr) (l : list cell) : Prop :=
  forall i c, l !! i = Some c -> load m (p +p Z.of_nat i) = Some c.
Definition darr (m : memory) (p : ptr) (l : list Z) : Prop := carr m p (Some <$> l).
Definition valid (m : memory) (p : ptr) (n : nat) : Prop :=
  forall i, (i < n)%nat -> is_Some (load m (p +p Z.of_nat i)).

Lemma carr_nil m p : carr m p []. Proof. intros i c. by rewrite lookup_nil. Qed.
Lemma carr_cons m p c l : carr m p (c :: l) <-> load m p = Some c /\ carr m (p +p 1) l.
Proof.
  split.
  - intros H. split.
    + specialize (H 0%nat c eq_refl). by rewrite padd_0 in H.
    + intros i x Hi. specialize (H (S i) x Hi). rewrite padd_padd.
      rewrite <- H. f_equal. apply padd_eq. lia.
  - intros [H1 H2] [|i] x Hi; simpl in *.
    + injection Hi as <-. by rewrite padd_0.
    + specialize (H2 i x Hi). rewrite padd_padd in H2. rewrite <- H2. f_equal. apply padd_eq. lia.
Qed.
Lemma carr_app m p l1 l2 :
  carr m p (l1 ++ l2) <-> carr m p l1 /\ carr m (p +p Z.of_nat (length l1)) l2.
Proof.
  revert p. induction l1 as [|c l1 IH]; intros p; simpl.
  - rewrite padd_0. pose proof (carr_nil m p). naive_solver.
  - rewrite !carr_cons, IH, padd_padd.
    assert (p +p (1 + Z.of_nat (length l1)) = p +p Z.of_nat (S (length l1))) as ->
      by (apply padd_eq; lia). naive_solver.
Qed.
Lemma darr_nil m p : darr m p []. Proof. apply carr_nil. Qed.
Lemma darr_cons m p d l : darr m p (d :: l) <-> load m p = Some (Some d) /\ darr m (p +p 1) l.
Proof. apply carr_cons. Qed.
Lemma darr_app m p l1 l2 :
  darr m p (l1 ++ l2) <-> darr m p l1 /\ darr m (p +p Z.of_nat (length l1)) l2.
Proof. unfold darr. rewrite fmap_app, carr_app, fmap_length. done. Qed.
Lemma carr_lookup m p l i c : carr m p l -> l !! i = Some c -> load m (p +p Z.of_nat i) = Some c.
Proof. intros H. apply H. Qed.
Lemma darr_lookup m p l i d :
  darr m p l -> l !! i = Some d -> load m (p +p Z.of_nat i) = Some (Some d).
Proof. intros H Hi. apply H. by rewrite list_lookup_fmap, Hi. Qed.
Lemma darr_lookupZ m p l i d :
  darr m p l -> 0 <= i -> l !! Z.to_nat i = Some d -> load m (p +p i) = Some (Some d).
Proof. intros H ? Hi. rewrite <- (Z2Nat.id i) by done. by eapply darr_lookup. Qed.
Lemma carr_valid m p l : carr m p l -> valid m p (length l).
Proof. intros H i Hi. destruct (lookup_lt_is_Some_2 l i Hi) as [c Hc]. rewrite (H i c Hc). eauto. Qed.
Lemma darr_valid m p l : darr m p l -> valid m p (length l).
Proof. intros H%carr_valid. by rewrite fmap_length in H. Qed.
Lemma valid_le m p n n' : valid m p n -> (n' <= n)%nat -> valid m p n'.
Proof. intros H ? i ?. apply H. lia. Qed.
Lemma valid_sub m p n k n' : valid m p n -> (k + n' <= n)%nat -> valid m (p +p Z.of_nat k) n'.
Proof.
  intros H ? i ?. rewrite padd_padd, <- Nat2Z.inj_add. apply H. lia.
Qed.
Lemma valid_carr m p n : valid m p n <-> exists l, length l = n /\ carr m p l.
Proof.
  split.
  - revert p. induction n as [|n IH]; intros p H.
    + exists []. split; [done|apply carr_nil].
    + destruct (H 0%nat) as [c Hc]; [lia|]. rewrite padd_0 in Hc.
      destruct (IH (p +p 1)) as (l & Hl & Ha).
      { intros i Hi. rewrite padd_padd. assert (1 + Z.of_nat i = Z.of_nat (S i)) as -> by lia.
        apply H. lia. }
      exists (c :: l). split; [simpl; lia|]. by apply carr_cons.
  - intros (l & <- & H). by apply carr_valid.
Qed.
Lemma valid_S m p n : valid m p (S n) <-> is_Some (load m p) /\ valid m (p +p 1) n.
Proof.
  rewrite !valid_carr. split.
  - intros ([|c l] & Hl & Ha); [done|]. apply carr_cons in Ha as [H1 H2].
    split; [eauto|]. exists l. simpl in *. split; [lia|done].
  - intros [[c Hc] (l & Hl & Ha)]. exists (c :: l). split; [simpl; lia|]. by apply carr_cons.
Qed.

(** Writing a run of cells. *)
Definition wr (m : memory) (p : ptr) (l : list cell) : memory :=
  alter (list_inserts (Z.to_nat p.2) l) p.1 m.
Definition wrd (m : memory) (p : ptr) (l : list Z) : memory := wr m p (Some <$> l).

Lemma wr_nil m p : wr m p [] = m.
Proof. unfold wr. simpl. apply alter_id. done. Qed.
Lemma wr_1 m p c : wr m p [c] = store m p c.
Proof. done. Qed.
Lemma wr_cons m p c l : 0 <= p.2 -> wr (store m p c) (p +p 1) l = wr m p (c :: l).
Proof.
  intros Hp. unfold wr, store. rewrite padd_fst, padd_snd, <- alter_compose.
  apply alter_ext. intros blk _. simpl. rewrite list_insert_inserts_lt by lia.
  f_equal. lia.
Qed.
Lemma wr_app m p l1 l2 : 0 <= p.2 ->
  wr (wr m p l1) (p +p Z.of_nat (length l1)) l2 = wr m p (l1 ++ l2).
Proof.
  revert m p. induction l1 as [|c l1 IH]; intros m p Hp; simpl.
  - by rewrite wr_nil, padd_0.
  - rewrite <- wr_cons by done.
    assert (p +p Z.of_nat (S (length l1)) = p +p 1 +p Z.of_nat (length l1)) as ->
      by (rewrite padd_padd; apply padd_eq; lia).
    rewrite IH by (rewrite padd_snd; lia). by rewrite wr_cons.
Qed.
Lemma wrd_app m p l1 l2 : 0 <= p.2 ->
  wrd (wrd m p l1) (p +p Z.of_nat (length l1)) l2 = wrd m p (l1 ++ l2).
Proof. intros. unfold wrd. rewrite fmap_app, <- wr_app by done. by rewrite fmap_length. Qed.
Lemma wrd_cons m p d l : 0 <= p.2 -> wrd (store m p (Some d)) (p +p 1) l = wrd m p (d :: l).
Proof. intros. unfold wrd. by rewrite wr_cons. Qed.
Lemma wrd_nil m p : wrd m p [] = m. Proof. apply wr_nil. Qed.

Lemma load_wr_in m p l i c :
  0 <= p.2 -> valid m p (length l) -> l !! i = Some c ->
  load (wr m p l) (p +p Z.of_nat i) = Some c.
Proof.
  intros Hp Hv Hi.
  assert (i < length l)%nat as Hlt by (by eapply lookup_lt_Some).
  destruct (Hv (length l - 1)%nat) as [c' Hc']; [lia|].
  apply load_inv in Hc' as (_ & blk & Hb & Hlen).
  apply lookup_lt_Some in Hlen. simpl in *.
  unfold wr. rewrite (load_blk _ _ (list_inserts (Z.to_nat p.2) l blk)).
  - simpl. rewrite list_lookup_inserts; [|lia|lia].
    rewrite <- Hi. f_equal. lia.
  - simpl. by rewrite lookup_alter, Hb.
  - simpl. lia.
Qed.
Lemma load_wr_out m p l q :
  0 <= p.2 -> (p.1 <> q.1 \/ q.2 < p.2 \/ p.2 + Z.of_nat (length l) <= q.2) ->
  load (wr m p l) q = load m q.
Proof.
  intros Hp Hd. unfold load, wr. destruct (Z.ltb_spec q.2 0); [done|].
  destruct (decide (p.1 = q.1)) as [He|].
  - rewrite <- He, lookup_alter. destruct (m !! p.1) as [blk|]; [|done]. simpl.
    destruct Hd as [?|[?|?]]; [done| |].
    + apply list_lookup_inserts_lt. lia.
    + apply list_lookup_inserts_ge. lia.
  - by rewrite lookup_alter_ne.
Qed.
Lemma load_wr_some m p l q :
  0 <= p.2 -> valid m p (length l) -> is_Some (load m q) -> is_Some (load (wr m p l) q).
Proof.
  intros Hp Hv Hq.
  destruct (decide (p.1 = q.1 /\ p.2 <= q.2 < p.2 + Z.of_nat (length l))) as [[He Hr]|Hn].
  - destruct (lookup_lt_is_Some_2 l (Z.to_nat (q.2 - p.2))) as [c Hc]; [lia|].
    assert (q = p +p Z.of_nat (Z.to_nat (q.2 - p.2))) as ->.
    { destruct p, q; simpl in *; subst; unfold padd; simpl. f_equal. lia. }
    rewrite (load_wr_in m p l _ c); eauto.
  - rewrite load_wr_out; [done|done|].
    destruct (decide (p.1 = q.1)); [|by left]. right.
    destruct (decide (q.2 < p.2)); [by left|]. right.
    destruct (decide (p.2 + Z.of_nat (length l) <= q.2)); [done|]. exfalso. apply Hn. split; [done|lia].
Qed.
Lemma valid_wr m p l q n :
  0 <= p.2 -> valid m p (length l) -> valid m q n -> valid (wr m p l) q n.
Proof. intros ?? H i Hi. apply load_wr_some; auto. Qed.
Lemma valid_wrd m p l q n :
  0 <= p.2 -> valid m p (length l) -> valid m q n -> valid (wrd m p l) q n.
Proof. intros. apply valid_wr; [done| |done]. by rewrite fmap_length. Qed.
Lemma carr_wr_same m p l : 0 <= p.2 -> valid m p (length l) -> carr (wr m p l) p l.
Proof. intros ?? i c Hi. by apply load_wr_in. Qed.
Lemma darr_wrd_same m p l : 0 <= p.2 -> valid m p (length l) -> darr (wrd m p l) p l.
Proof. intros. apply carr_wr_same; [done|]. by rewrite fmap_length. Qed.

(** [n] cells at [p] and [k] cells at [q] do not meet. *)
Definition disj (p : ptr) (n : nat) (q : ptr) (k : nat) : Prop :=
  p.1 <> q.1 \/ p.2 + Z.of_nat n <= q.2 \/ q.2 + Z.of_nat k <= p.2.
Lemma disj_sym p n q k : disj p n q k -> disj q k p n.
Proof. unfold disj. intuition. Qed.

Lemma carr_wr_disj m p l q k :
  0 <= p.2 -> disj p (length l) q (length k) -> carr m q k -> carr (wr m p l) q k.
Proof.
  intros Hp Hd H i c Hi. assert (i < length k)%nat by (by eapply lookup_lt_Some).
  rewrite load_wr_out; [by apply H|done|]. rewrite padd_fst, padd_snd. unfold disj in Hd.
  destruct Hd as [?|[?|?]]; [by left|right; right; lia|right; left; lia].
Qed.
Lemma darr_wrd_disj m p l q k :
  0 <= p.2 -> disj p (length l) q (length k) -> darr m q k -> darr (wrd m p l) q k.
Proof. intros. apply carr_wr_disj; [done|by rewrite !fmap_length|done]. Qed.
Lemma darr_wr_disj m p l q k :
  0 <= p.2 -> disj p (length l) q (length k) -> darr m q k -> darr (wr m p l) q k.
Proof. intros. apply carr_wr_disj; [done|by rewrite !fmap_length|done]. Qed.

Lemma store_disj m p c q k :
  0 <= p.2 -> (p.1 <> q.1 \/ p.2 < q.2 \/ q.2 + Z.of_nat (length k) <= p.2) ->
  carr m q k -> carr (store m p c) q k.
Proof.
  intros Hp Hd H. rewrite <- wr_1. apply carr_wr_disj; [done| |done].
  unfold disj. simpl. destruct Hd as [?|[?|?]]; [by left|right; left; lia|right; right; lia].
Qed.
Lemma store_valid m p c q n : is_Some (load m p) -> valid m q n -> valid (store m p c) q n.
Proof.
  intros Hp H. destruct Hp as [c0 Hc0]. pose proof (load_inv _ _ _ Hc0) as [H0 _].
  rewrite <- wr_1. apply valid_wr; [done| |done]. intros i Hi. simpl in Hi.
  assert (i = 0%nat) as -> by lia. rewrite padd_0. eauto.
Qed.

Lemma load_0le m p c : load m p = Some c -> 0 <= p.2.
Proof. intros H. by apply load_inv in H as [? _]. Qed.
Lemma valid_0le m p n : valid m p n -> (0 < n)%nat -> 0 <= p.2.
Proof. intros H Hn. destruct (H 0%nat Hn) as [c Hc]. rewrite padd_0 in Hc. by eapply load_0le. Qed.

(** Rewriting writes *)
Lemma inserts_lookup {A} i (l k : list A) j :
  list_inserts i l k !! j =
  if decide (i <= j < i + length l /\ j < length k)%nat then l !! (j - i)%nat else k !! j.
Proof.
  destruct (decide _) as [[H1 H2]|Hn].
  - by rewrite list_lookup_inserts by lia.
  - destruct (decide (j < i)%nat); [by rewrite list_lookup_inserts_lt by lia|].
    destruct (decide (i + length l <= j)%nat); [by rewrite list_lookup_inserts_ge by lia|].
    rewrite !lookup_ge_None_2; [done| |]; rewrite ?inserts_length; lia.
Qed.
Lemma list_inserts_le {A} i (k1 k2 l : list A) : (length k1 <= length k2)%nat ->
  list_inserts i k2 (list_inserts i k1 l) = list_inserts i k2 l.
Proof.
  intros Hlen. apply list_eq. intros j. rewrite !inserts_lookup, inserts_length.
  destruct (decide _); [done|]. destruct (decide _); [lia|done].
Qed.
Lemma wr_wr_le m p l1 l2 : (length l1 <= length l2)%nat -> wr (wr m p l1) p l2 = wr m p l2.
Proof.
  intros H. unfold wr. rewrite <- alter_compose. apply alter_ext. intros blk _. simpl.
  by apply list_inserts_le.
Qed.
Lemma wr_wr_same m p l1 l2 : length l1 = length l2 -> wr (wr m p l1) p l2 = wr m p l2.
Proof. intros. apply wr_wr_le. lia. Qed.
Lemma wrd_wrd_le m p l1 l2 : (length l1 <= length l2)%nat -> wrd (wrd m p l1) p l2 = wrd m p l2.
Proof. intros. apply wr_wr_le. by rewrite !fmap_length. Qed.
Lemma wrd_wrd_same m p l1 l2 : length l1 = length l2 -> wrd (wrd m p l1) p l2 = wrd m p l2.
Proof. intros. apply wr_wr_same. by rewrite !fmap_length. Qed.
Lemma wr_id m p l : carr m p l -> wr m p l = m.
Proof.
  intros H. unfold wr. apply alter_id. intros blk Hb.
  destruct l as [|c l]; [done|].
  assert (0 <= p.2) as H0.
  { apply carr_cons in H as [H _]. by eapply load_0le. }
  apply list_eq. intros j.
  destruct (decide (j < Z.to_nat p.2)%nat). { by rewrite list_lookup_inserts_lt by lia. }
  destruct (decide (Z.to_nat p.2 + length (c :: l) <= j)%nat). { by rewrite list_lookup_inserts_ge by lia. }
  destruct (lookup_lt_is_Some_2 (c :: l) (j - Z.to_nat p.2)) as [x Hx]; [lia|].
  pose proof (H _ _ Hx) as Hl. rewrite (load_blk _ _ blk) in Hl; [|done|simpl; lia]. simpl in Hl.
  assert (Z.to_nat (p.2 + Z.of_nat (j - Z.to_nat p.2)) = j) as Ej by lia. rewrite Ej in Hl.
  rewrite Hl, list_lookup_inserts; [done|lia|]. by eapply lookup_lt_Some.
Qed.
Lemma wrd_id m p l : darr m p l -> wrd m p l = m.
Proof. apply wr_id. Qed.
Lemma wr_comm m p l q k : 0 <= p.2 -> 0 <= q.2 -> disj p (length l) q (length k) ->
  wr (wr m p l) q k = wr (wr m q k) p l.
Proof.
  intros Hp Hq Hd. unfold wr. destruct (decide (p.1 = q.1)) as [He|].
  - rewrite <- He, <- !alter_compose. apply alter_ext. intros blk _. simpl.
    apply list_eq. intros j. rewrite !inserts_lookup, !inserts_length.
    destruct Hd as [?|Hd]; [done|].
    destruct (decide (Z.to_nat p.2 <= j < Z.to_nat p.2 + length l /\ j < length blk)%nat);
    destruct (decide (Z.to_nat q.2 <= j < Z.to_nat q.2 + length k /\ j < length blk)%nat);
      done || lia.
  - by apply alter_commute.
Qed.
(** writing the element after a run, first *)
Lemma wr_snoc m p l c : 0 <= p.2 ->
  wr (store m (p +p Z.of_nat (length l)) c) p l = wr m p (l ++ [c]).
Proof.
  intros Hp. rewrite <- wr_app by done. rewrite <- wr_1. apply wr_comm; simpl; [lia|done|].
  right; right. simpl. lia.
Qed.
Lemma wrd_snoc m p l d : 0 <= p.2 ->
  wrd (store m (p +p Z.of_nat (length l)) (Some d)) p l = wrd m p (l ++ [d]).
Proof. intros. unfold wrd. rewrite fmap_app, <- (fmap_length Some l). by apply wr_snoc. Qed.

(** Arrays inside one block *)
Lemma carr_blk m b blk l1 l l2 : m !! b = Some blk -> blk = l1 ++ l ++ l2 ->
  carr m (b, Z.of_nat (length l1)) l.
Proof.
  intros Hm -> i c Hi. rewrite (load_blk _ _ (l1 ++ l ++ l2)); [|done|simpl; lia]. simpl.
  rewrite lookup_app_r by lia. rewrite lookup_app_l.
  - rewrite <- Hi. f_equal. lia.
  - apply lookup_lt_Some in Hi. lia.
Qed.
Lemma wr_blk m b l1 l l' l2 : length l = length l' ->
  m !! b = Some (l1 ++ l ++ l2) ->
  wr m (b, Z.of_nat (length l1)) l' = <[b := l1 ++ l' ++ l2]> m.
Proof.
  intros Hlen Hm. unfold wr. simpl. apply map_eq. intros b'.
  destruct (decide (b = b')) as [<-|].
  - rewrite lookup_alter, lookup_insert, Hm. simpl. f_equal. apply list_eq. intros j.
    rewrite Nat2Z.id.
    destruct (decide (j < length l1)%nat).
    { rewrite list_lookup_inserts_lt by lia. by rewrite !lookup_app_l by lia. }
    destruct (decide (length l1 + length l' <= j)%nat).
    { rewrite list_lookup_inserts_ge by lia. rewrite !(lookup_app_r l1) by lia.
      rewrite !lookup_app_r by lia. f_equal. lia. }
    rewrite list_lookup_inserts; [|lia|rewrite !app_length; lia].
    rewrite lookup_app_r by lia. rewrite lookup_app_l by lia. done.
  - by rewrite lookup_alter_ne, lookup_insert_ne by done.
Qed.
Lemma list_inserts_0 {A} (l k : list A) : (length l <= length k)%nat ->
  list_inserts 0 l k = l ++ drop (length l) k.
Proof.
  intros H. apply list_eq. intros j.
  destruct (decide (j < length l)%nat).
  - rewrite list_lookup_inserts by lia. rewrite lookup_app_l by lia. f_equal. lia.
  - rewrite list_lookup_inserts_ge by lia. rewrite lookup_app_r by lia. rewrite lookup_drop. f_equal. lia.
Qed.
Lemma wr_lookup_ne m p l b : p.1 <> b -> wr m p l !! b = m !! b.
Proof. intros. unfold wr. by rewrite lookup_alter_ne. Qed.
Lemma wr_lookup_eq m p l blk : m !! p.1 = Some blk ->
  wr m p l !! p.1 = Some (list_inserts (Z.to_nat p.2) l blk).
Proof. intros H. unfold wr. by rewrite lookup_alter, H. Qed.

(** Fresh names *)
Lemma fresh_pos_notin l : fresh_pos l ∉ l.
Proof.
  unfold fresh_pos. intros H.
  assert (forall l x, x ∈ l -> (x <= foldr Pos.max 1%positive l)%positive) as Hle.
  { clear. induction l as [|y l IH]; intros x Hx; simpl; [by apply elem_of_nil in Hx|].
    apply elem_of_cons in Hx as [->|Hx]; [lia|]. specialize (IH _ Hx). lia. }
  apply Hle in H. lia.
Qed.
Lemma new_hp_fresh m : m !! Hp (new_hp m) = None.
Proof.
  destruct (m !! Hp (new_hp m)) as [l|] eqn:E; [|done]. exfalso.
  apply (fresh_pos_notin (hp_ids m)). fold (new_hp m). unfold hp_ids.
  apply elem_of_list_omap. exists (Hp (new_hp m), l). split; [by apply elem_of_map_to_list|done].
Qed.
Lemma new_ext_fresh m : m !! Ext (new_ext m) = None.
Proof.
  destruct (m !! Ext (new_ext m)) as [l|] eqn:E; [|done]. exfalso.
  apply (fresh_pos_notin (ext_ids m)). fold (new_ext m). unfold ext_ids.
  apply elem_of_list_omap. exists (Ext (new_ext m), l). split; [by apply elem_of_map_to_list|done].
Qed.
Lemma new_obj_fresh st b : objs st !! (b, new_obj st) = None /\ mem st !! Sng (b, new_obj st) = None.
Proof.
  split.
  - destruct (objs st !! (b, new_obj st)) as [z|] eqn:E; [|done]. exfalso.
    apply (fresh_pos_notin (obj_ids st)). fold (new_obj st). unfold obj_ids.
    apply elem_of_app. left. apply elem_of_list_fmap. exists ((b, new_obj st), z).
    split; [done|by apply elem_of_map_to_list].
  - destruct (mem st !! Sng (b, new_obj st)) as [l|] eqn:E; [|done]. exfalso.
    apply (fresh_pos_notin (obj_ids st)). fold (new_obj st). unfold obj_ids.
    apply elem_of_app. right. apply elem_of_list_omap. exists (Sng (b, new_obj st), l).
    split; [by apply elem_of_map_to_list|done].
Qed.
Definition fresh_obj (st : state) (o : oid) : Prop := objs st !! o = None /\ mem st !! Sng o = None.
Lemma pick_hp_fresh orc t st : mem st !! Hp (pick_hp orc t st) = None.
Proof. unfold pick_hp. destruct (mem st !! Hp (place orc t st)) eqn:E; [apply new_hp_fresh|done]. Qed.
Lemma pick_ext_fresh orc t st : mem st !! Ext (pick_ext orc t st) = None.
Proof. unfold pick_ext. destruct (mem st !! Ext (place orc t st)) eqn:E; [apply new_ext_fresh|done]. Qed.
Lemma pick_obj_fresh orc t b st : fresh_obj st (b, pick_obj orc t b st).
Proof.
  unfold pick_obj. destruct (objs st !! (b, place orc t st)) eqn:E; [apply new_obj_fresh|].
  destruct (mem st !! Sng (b, place orc t st)) eqn:E'; [apply new_obj_fresh|done].
Qed.
