(** Rules for the digit loops of imath.c: zeroing, copying, clamping, comparing,
    adding, subtracting. *)
From Coq Require Import ZArith List Lia.
From stdpp Require Import gmap list.
From Verif Require Import Mem Prog Kern Wp MemLem Dig.
Local Open Scope Z_scope.

Lemma set_mem_set_mem st m1 m2 : set_mem (set_mem st m1) m2 = set_mem st m2.
Proof. done. Qed.
Lemma mem_set_mem st m : mem (set_mem st m) = m.
Proof. done. Qed.
Lemma set_mem_id st : set_mem st (mem st) = st.
Proof. by destruct st. Qed.

Ltac wb := apply wp_bind.
(** Disjointness of array segments. *)
Ltac dj1 := solve [assumption | left; (assumption || congruence) | lia
                  | right; lia | right; left; lia | right; right; lia].
Ltac dj := unfold disj in *; simpl in *; rewrite ?fmap_length, ?app_length, ?replicate_length in *;
  repeat match goal with H : _ <> _ \/ _ |- _ => destruct H as [H|H] end; dj1.

(** A forward loop that writes [dc] element by element may still read the later
    elements of [da]. *)
Definition ahead (dc da : ptr) (n : nat) : Prop :=
  dc.1 <> da.1 \/ dc.2 <= da.2 \/ da.2 + Z.of_nat n <= dc.2.
Lemma ahead_step dc da n : ahead dc da (S n) -> ahead (dc +p 1) (da +p 1) n.
Proof. unfold ahead. simpl. intros [?|[?|?]]; [by left|right; left; lia|right; right; lia]. Qed.
Lemma ahead_refl p n : ahead p p n.
Proof. right; left. lia. Qed.
Lemma ahead_disj dc da n k : disj dc k da n -> (1 <= k)%nat -> ahead dc da n.
Proof. unfold disj, ahead. intros [?|[?|?]]; [by left|right; left; lia|right; right; lia]. Qed.
Lemma ahead_base p q n : p.2 = 0 -> 0 <= q.2 -> ahead p q n.
Proof. intros. right; left. lia. Qed.
Lemma ahead_le dc da n k : ahead dc da n -> (k <= n)%nat -> ahead dc da k.
Proof. unfold ahead. intros [?|[?|?]] ?; [by left|right; left; lia|right; right; lia]. Qed.
Lemma store_ahead m dc da c l :
  0 <= dc.2 -> ahead dc da (S (length l)) -> darr m (da +p 1) l -> darr (store m dc c) (da +p 1) l.
Proof.
  intros H0 Ha H. apply store_disj; [done| |done]. rewrite padd_fst, padd_snd, fmap_length.
  destruct Ha as [?|[?|?]]; [by left|right; left; lia|right; right; lia].
Qed.

(** ** ZERO *)
Lemma wp_zero_loop n p (Q : unit -> state -> Prop) st :
  valid (mem st) p n -> Q tt (set_mem st (wrd (mem st) p (replicate n 0))) ->
  wp (zero_loop n p) Q st.
Proof.
  revert p st. induction n as [|n IH]; intros p st Hv HQ; simpl.
  - apply wp_ret. by rewrite wrd_nil, set_mem_id in HQ.
  - apply valid_S in Hv as [[c Hc] Hv]. wb. eapply wp_store; [done|]. apply IH; simpl.
    + apply store_valid; [by rewrite Hc|done].
    + rewrite set_mem_set_mem, wrd_cons by (by eapply load_0le). done.
Qed.
Lemma wp_ZERO n k p (Q : unit -> state -> Prop) st :
  n = Z.of_nat k ->
  valid (mem st) p k -> Q tt (set_mem st (wrd (mem st) p (replicate k 0))) ->
  wp (ZERO p n) Q st.
Proof. intros ->. unfold ZERO. rewrite Nat2Z.id. apply wp_zero_loop. Qed.

(** ** COPY *)
Lemma wp_copy_loop l p q (Q : unit -> state -> Prop) st :
  carr (mem st) p l -> valid (mem st) q (length l) -> disj p (length l) q (length l) ->
  Q tt (set_mem st (wr (mem st) q l)) ->
  wp (copy_loop (length l) p q) Q st.
Proof.
  revert p q st. induction l as [|c l IH]; intros p q st Hp Hq Hd HQ; simpl.
  - apply wp_ret. by rewrite wr_nil, set_mem_id in HQ.
  - apply carr_cons in Hp as [H1 H2]. apply valid_S in Hq as [[c' Hc'] Hq].
    assert (0 <= q.2) as H0 by (by eapply load_0le).
    eapply wp_Peek; [done|]. eapply wp_Poke; [done|]. apply IH; simpl.
    + apply store_disj; [done| |done]. dj.
    + apply store_valid; [by rewrite Hc'|done].
    + dj.
    + rewrite set_mem_set_mem, wr_cons by done. done.
Qed.
Lemma wp_COPY l n p q (Q : unit -> state -> Prop) st :
  n = Z.of_nat (length l) ->
  carr (mem st) p l -> valid (mem st) q (length l) -> disj p (length l) q (length l) ->
  Q tt (set_mem st (wr (mem st) q l)) ->
  wp (COPY p q n) Q st.
Proof.
  intros -> Hp Hq Hd HQ. unfold COPY.
  assert (overlap p q (Z.of_nat (length l)) = false) as ->.
  { unfold overlap. destruct (bool_decide_reflect (p.1 = q.1)); [|done]. simpl.
    apply Z.ltb_ge. destruct Hd as [?|?]; [done|]. lia. }
  rewrite Nat2Z.id. by apply wp_copy_loop.
Qed.
Lemma wp_COPY_d l n p q (Q : unit -> state -> Prop) st :
  n = Z.of_nat (length l) ->
  darr (mem st) p l -> valid (mem st) q (length l) -> disj p (length l) q (length l) ->
  Q tt (set_mem st (wrd (mem st) q l)) ->
  wp (COPY p q n) Q st.
Proof. intros. apply (wp_COPY (Some <$> l)); rewrite ?fmap_length; done. Qed.

(** ** CLAMP *)
(** Number of digits left after dropping leading zeros, at least one. *)
Lemma clamp_exists l : digs l -> (1 <= length l)%nat ->
  exists u, (1 <= u <= length l)%nat /\ canon (take u l) /\ val (take u l) = val l.
Proof.
  intros Hd Hl. induction l as [|d l IH] using rev_ind; [simpl in *; lia|].
  apply digs_app in Hd as [Hd1 Hd2%digs_1].
  destruct (decide (l = [])) as [->|Hne].
  - exists 1%nat. simpl. split; [lia|]. split; [apply canon_sing|done].
  - destruct (decide (d = 0)) as [->|Hnz].
    + destruct IH as (u & Hu & Hc & Hv); [done|destruct l; [done|simpl; lia]|].
      exists u. rewrite app_length, take_app_le by lia. simpl. split; [lia|].
      split; [done|]. rewrite Hv, val_snoc. lia.
    + exists (length (l ++ [d])). rewrite take_ge by (apply le_n). split; [lia|].
      split; [by apply canon_snoc|done].
Qed.
Lemma wp_clamp_loop l d (Q : Z -> state -> Prop) st :
  darr (mem st) d l -> digs l -> (1 <= length l)%nat ->
  (forall u, (1 <= u <= length l)%nat -> canon (take u l) -> val (take u l) = val l ->
     Forall (eq 0) (drop u l) -> Q (Z.of_nat u) st) ->
  wp (clamp_loop (length l) (d +p (Z.of_nat (length l) - 1))) Q st.
Proof.
  intros Ha Hd Hl HQ. induction l as [|x l IH] using rev_ind; [simpl in *; lia|].
  apply digs_app in Hd as [Hd1 Hd2%digs_1].
  rewrite app_length in *. simpl in *. replace (length l + 1)%nat with (S (length l)) in * by lia.
  destruct (decide (l = [])) as [->|Hne].
  - simpl. apply wp_ret. apply (HQ 1%nat); simpl; [lia|apply canon_sing|done|done].
  - destruct (length l) as [|n] eqn:Hn; [by destruct l|].
    change (clamp_loop (S (S n)) ?p) with
      (bind (Load p) (fun x => if x =? 0 then clamp_loop (S n) (p +p (-1)) else Ret (Z.of_nat (S (S n))))).
    apply darr_app in Ha as [Ha Hx]. apply darr_cons in Hx as [Hx _]. rewrite Hn in *.
    wb. apply (wp_load _ x).
    { rewrite <- Hx. f_equal. apply padd_eq. lia. }
    destruct (Z.eqb_spec x 0) as [->|Hnz].
    + rewrite padd_padd. replace (Z.of_nat (S (S n)) - 1 + -1) with (Z.of_nat (S n) - 1) by lia.
      apply IH; [done|done|lia|]. intros u Hu Hc Hv Hz. apply HQ.
      * lia.
      * by rewrite take_app_le by lia.
      * rewrite take_app_le by lia. rewrite Hv, val_snoc. lia.
      * rewrite drop_app_le by lia. apply Forall_app. split; [done|]. by apply Forall_singleton.
    + apply wp_ret. apply HQ.
      * lia.
      * rewrite take_ge by (rewrite app_length; simpl; lia). by apply canon_snoc.
      * by rewrite take_ge by (rewrite app_length; simpl; lia).
      * by rewrite drop_ge by (rewrite app_length; simpl; lia).
Qed.

(** ** Comparing *)
Lemma wp_cdig_loop la lb da db (Q : Z -> state -> Prop) st :
  darr (mem st) da la -> darr (mem st) db lb -> length la = length lb -> digs la -> digs lb ->
  Q (Z.sgn (val la - val lb)) st ->
  wp (cdig_loop (length la) (da +p (Z.of_nat (length la) - 1)) (db +p (Z.of_nat (length la) - 1))) Q st.
Proof.
  intros Ha Hb Hlen Hda Hdb HQ. revert lb Hb Hlen Hdb HQ.
  induction la as [|x la IH] using rev_ind; intros lb Hb Hlen Hdb HQ.
  - destruct lb; [|done]. simpl. by apply wp_ret.
  - destruct lb as [|y lb _] using rev_ind; [rewrite app_length in Hlen; simpl in Hlen; lia|].
    rewrite !app_length in *. simpl in *.
    replace (length la + 1)%nat with (S (length la)) by lia. simpl.
    apply digs_app in Hda as [Hda Hx%digs_1]. apply digs_app in Hdb as [Hdb Hy%digs_1].
    apply darr_app in Ha as [Ha Hxa]. apply darr_cons in Hxa as [Hxa _].
    apply darr_app in Hb as [Hb Hyb]. apply darr_cons in Hyb as [Hyb _].
    assert (length lb = length la) as Hl by lia. rewrite Hl in *.
    replace (Z.of_nat (S (length la)) - 1) with (Z.of_nat (length la)) by lia.
    wb. eapply wp_load; [done|]. wb. eapply wp_load; [done|].
    rewrite !val_snoc in HQ. rewrite Hl in HQ.
    pose proof (val_bounds _ Hda). pose proof (val_bounds _ Hdb). rewrite Hl in *.
    pose proof (Bn_pos (length la)).
    destruct (Z.gtb_spec x y).
    { apply wp_ret. rewrite Z.sgn_pos in HQ; [done|nia]. }
    destruct (Z.ltb_spec x y).
    { apply wp_ret. rewrite Z.sgn_neg in HQ; [done|nia]. }
    assert (x = y) as -> by lia.
    rewrite !padd_padd. replace (Z.of_nat (length la) + -1) with (Z.of_nat (length la) - 1) by lia.
    apply (IH Ha Hda lb); [done|done|done|].
    replace (val la - val lb) with (val la + Bn (length la) * y - (val lb + Bn (length la) * y)) by lia. done.
Qed.
Lemma wp_s_cdig la lb da db n (Q : Z -> state -> Prop) st :
  n = Z.of_nat (length la) ->
  darr (mem st) da la -> darr (mem st) db lb -> length la = length lb -> digs la -> digs lb ->
  Q (Z.sgn (val la - val lb)) st ->
  wp (s_cdig da db n) Q st.
Proof. intros -> Ha Hb Hl H1 H2 HQ. unfold s_cdig. rewrite Nat2Z.id. by eapply wp_cdig_loop. Qed.

(** ** Adding *)
Lemma wp_uadd_loop1 la lb da db dc w (Q : Z -> state -> Prop) st :
  darr (mem st) da la -> darr (mem st) db lb -> length la = length lb ->
  valid (mem st) dc (length la) -> digs la -> digs lb -> 0 <= w <= 1 ->
  ahead dc da (length la) -> ahead dc db (length la) ->
  (forall w' lc, length lc = length la -> digs lc -> 0 <= w' <= 1 ->
     val lc + w' * Bn (length la) = val la + val lb + w ->
     Q w' (set_mem st (wrd (mem st) dc lc))) ->
  wp (uadd_loop1 (length la) da db dc w) Q st.
Proof.
  revert lb da db dc w st. induction la as [|a la IH];
    intros lb da db dc w st Ha Hb Hlen Hc Hda Hdb Hw Hsa Hsb HQ.
  - destruct lb; [|done]. simpl. apply wp_ret.
    specialize (HQ w [] eq_refl ltac:(constructor) Hw ltac:(simpl; rewrite Bn_0; lia)).
    by rewrite wrd_nil, set_mem_id in HQ.
  - destruct lb as [|b lb]; [done|]. simpl.
    apply darr_cons in Ha as [Ha1 Ha2]. apply darr_cons in Hb as [Hb1 Hb2].
    apply Forall_cons in Hda as [Hda1 Hda2]. apply Forall_cons in Hdb as [Hdb1 Hdb2].
    apply valid_S in Hc as [[c0 Hc0] Hc]. assert (0 <= dc.2) as H0 by (by eapply load_0le).
    simpl in Hlen. injection Hlen as Hlen.
    wb. eapply wp_load; [done|]. wb. eapply wp_load; [done|]. wb. eapply wp_store; [done|].
    unfold dig in Hda1, Hdb1.
    rewrite w64_id by (rewrite RADIX_val in *; lia).
    assert (0 <= UPPER_HALF (w + a + b) <= 1) by (apply upper_le; rewrite RADIX_val in *; lia).
    apply (IH lb); simpl.
    + by apply store_ahead.
    + apply store_ahead; [done|by rewrite <- Hlen|done].
    + done.
    + apply store_valid; [by rewrite Hc0|done].
    + done.
    + done.
    + done.
    + by apply ahead_step.
    + by apply ahead_step.
    + intros w' lc Hl Hdc Hw' Hv. rewrite set_mem_set_mem, wrd_cons by done.
      apply HQ; simpl.
      * lia.
      * constructor; [apply lower_dig|done].
      * done.
      * rewrite Bn_S. pose proof (halves (w + a + b)) as Hh.
        replace (LOWER_HALF (w + a + b) + RADIX * val lc + w' * (RADIX * Bn (length la)))
          with (LOWER_HALF (w + a + b) + RADIX * (val lc + w' * Bn (length la))) by ring.
        rewrite Hv. lia.
Qed.
Lemma wp_uadd_loop2 la da dc w (Q : Z -> state -> Prop) st :
  darr (mem st) da la -> valid (mem st) dc (length la) -> digs la -> 0 <= w <= 1 ->
  ahead dc da (length la) ->
  (forall w' lc, length lc = length la -> digs lc -> 0 <= w' <= 1 ->
     val lc + w' * Bn (length la) = val la + w ->
     Q w' (set_mem st (wrd (mem st) dc lc))) ->
  wp (uadd_loop2 (length la) da dc w) Q st.
Proof.
  revert da dc w st. induction la as [|a la IH]; intros da dc w st Ha Hc Hda Hw Hsa HQ.
  - simpl. apply wp_ret.
    specialize (HQ w [] eq_refl ltac:(constructor) Hw ltac:(simpl; rewrite Bn_0; lia)).
    by rewrite wrd_nil, set_mem_id in HQ.
  - simpl. apply darr_cons in Ha as [Ha1 Ha2]. apply Forall_cons in Hda as [Hda1 Hda2].
    apply valid_S in Hc as [[c0 Hc0] Hc]. assert (0 <= dc.2) as H0 by (by eapply load_0le).
    wb. eapply wp_load; [done|]. wb. eapply wp_store; [done|].
    unfold dig in Hda1.
    rewrite w64_id by (rewrite RADIX_val in *; lia).
    assert (0 <= UPPER_HALF (w + a) <= 1) by (apply upper_le; rewrite RADIX_val in *; lia).
    apply IH; simpl.
    + by apply store_ahead.
    + apply store_valid; [by rewrite Hc0|done].
    + done.
    + done.
    + by apply ahead_step.
    + intros w' lc Hl Hdc Hw' Hv. rewrite set_mem_set_mem, wrd_cons by done.
      apply HQ; simpl.
      * lia.
      * constructor; [apply lower_dig|done].
      * done.
      * rewrite Bn_S. pose proof (halves (w + a)) as Hh.
        replace (LOWER_HALF (w + a) + RADIX * val lc + w' * (RADIX * Bn (length la)))
          with (LOWER_HALF (w + a) + RADIX * (val lc + w' * Bn (length la))) by ring.
        rewrite Hv. lia.
Qed.

Lemma ahead_drop dc da n k : ahead dc da (n + k) -> ahead (dc +p Z.of_nat n) (da +p Z.of_nat n) k.
Proof. unfold ahead. simpl. intros [?|[?|?]]; [by left|right; left; lia|right; right; lia]. Qed.
Lemma darr_wrd_ahead m dc da l k :
  0 <= dc.2 -> ahead dc da (length l + length k) ->
  darr m (da +p Z.of_nat (length l)) k -> darr (wrd m dc l) (da +p Z.of_nat (length l)) k.
Proof.
  intros H0 Ha H. apply darr_wrd_disj; [done| |done]. unfold disj. simpl.
  destruct Ha as [?|[?|?]]; [by left|right; left; lia|right; right; lia].
Qed.

Lemma valid_app_inv m p n k : valid m p (n + k) -> valid m p n /\ valid m (p +p Z.of_nat n) k.
Proof. intros H. split; [eapply valid_le; [done|lia]|]. eapply valid_sub; [done|lia]. Qed.

Lemma wp_s_uadd_ord la lb da db dc na nb (Q : Z -> state -> Prop) st :
  na = Z.of_nat (length la) -> nb = Z.of_nat (length lb) -> (length lb <= length la)%nat ->
  darr (mem st) da la -> darr (mem st) db lb ->
  valid (mem st) dc (length la) -> digs la -> digs lb ->
  ahead dc da (length la) -> ahead dc db (length lb) ->
  (forall w' lc, length lc = length la -> digs lc -> 0 <= w' <= 1 ->
     val lc + w' * Bn (length la) = val la + val lb ->
     Q w' (set_mem st (wrd (mem st) dc lc))) ->
  wp (s_uadd_ord da db dc na nb) Q st.
Proof.
  intros -> -> Hle Ha Hb Hc Hda Hdb Hsa Hsb HQ. unfold s_uadd_ord.
  assert (exists l1 l2, la = l1 ++ l2 /\ length l1 = length lb) as (l1 & l2 & -> & Hl1).
  { exists (take (length lb) la), (drop (length lb) la). rewrite take_drop, take_length. split; [done|lia]. }
  rewrite Nat2Z.id. apply darr_app in Ha as [Ha1 Ha2]. apply digs_app in Hda as [Hd1 Hd2].
  rewrite app_length in *. apply valid_app_inv in Hc as Hc'. destruct Hc' as [Hc1 Hc2].
  wb. rewrite <- Hl1. rewrite Nat2Z.inj_add.
  replace (Z.to_nat (Z.of_nat (length l1) + Z.of_nat (length l2) - Z.of_nat (length l1)))
    with (length l2) by lia.
  apply (wp_uadd_loop1 l1 lb); try done.
  { eapply ahead_le; [done|lia]. }
  { rewrite Hl1. done. }
  intros w1 lc1 Hlc1 Hdc1 Hw1 Hv1. wb.
  destruct (decide (length l1 + length l2 = 0)%nat) as [Hz|Hnz].
  { destruct l1, l2; simpl in Hz; try lia. destruct lc1; [|done]. simpl. apply wp_ret. apply wp_ret.
    simpl in Hv1. rewrite Bn_0 in Hv1. rewrite u32_id by (rewrite RADIX_val; lia).
    apply (HQ w1 []); simpl; [done|constructor|done|]. rewrite Bn_0. lia. }
  assert (0 <= dc.2) as H0 by (eapply valid_0le; [exact Hc|lia]).
  assert (valid (mem st) dc (length lc1)) as Hvc1 by (by rewrite Hlc1).
  apply (wp_uadd_loop2 l2); simpl; try done.
  { rewrite <- Hlc1. apply darr_wrd_ahead; [done| |]; by rewrite Hlc1. }
  { apply valid_wrd; try done. }
  { apply ahead_drop. done. }
  intros w2 lc2 Hlc2 Hdc2 Hw2 Hv2. apply wp_ret.
  rewrite u32_id by (rewrite RADIX_val; lia).
  rewrite <- Hlc1, set_mem_set_mem, wrd_app by done. apply HQ.
  - rewrite app_length. lia.
  - by apply digs_app.
  - done.
  - rewrite !val_app, Bn_add, Hlc1.
    replace (val lc1 + Bn (length l1) * val lc2 + w2 * (Bn (length l1) * Bn (length l2)))
      with (val lc1 + Bn (length l1) * (val lc2 + w2 * Bn (length l2))) by ring.
    rewrite Hv2. nia.
Qed.
Lemma wp_s_uadd la lb da db dc na nb (Q : Z -> state -> Prop) st :
  na = Z.of_nat (length la) -> nb = Z.of_nat (length lb) ->
  darr (mem st) da la -> darr (mem st) db lb ->
  valid (mem st) dc (Nat.max (length la) (length lb)) -> digs la -> digs lb ->
  ahead dc da (length la) -> ahead dc db (length lb) ->
  (forall w' lc, length lc = Nat.max (length la) (length lb) -> digs lc -> 0 <= w' <= 1 ->
     val lc + w' * Bn (Nat.max (length la) (length lb)) = val la + val lb ->
     Q w' (set_mem st (wrd (mem st) dc lc))) ->
  wp (s_uadd da db dc na nb) Q st.
Proof.
  intros Hna Hnb Ha Hb Hc Hda Hdb Hsa Hsb HQ. unfold s_uadd.
  destruct (Z.gtb_spec nb na).
  - rewrite Nat.max_r in * by lia. apply (wp_s_uadd_ord lb la); try done; [lia|].
    intros. apply HQ; auto with lia.
  - rewrite Nat.max_l in * by lia. apply (wp_s_uadd_ord la lb); try done. lia.
Qed.

(** ** Subtracting *)
Lemma wp_usub_loop1 la lb da db dc w (Q : Z -> state -> Prop) st :
  darr (mem st) da la -> darr (mem st) db lb -> length la = length lb ->
  valid (mem st) dc (length la) -> digs la -> digs lb -> 0 <= w <= 1 ->
  ahead dc da (length la) -> ahead dc db (length la) ->
  (forall w' lc, length lc = length la -> digs lc -> 0 <= w' <= 1 ->
     val lc - w' * Bn (length la) = val la - val lb - w ->
     Q w' (set_mem st (wrd (mem st) dc lc))) ->
  wp (usub_loop1 (length la) da db dc w) Q st.
Proof.
  revert lb da db dc w st. induction la as [|a la IH];
    intros lb da db dc w st Ha Hb Hlen Hc Hda Hdb Hw Hsa Hsb HQ.
  - destruct lb; [|done]. simpl. apply wp_ret.
    specialize (HQ w [] eq_refl ltac:(constructor) Hw ltac:(simpl; rewrite Bn_0; lia)).
    by rewrite wrd_nil, set_mem_id in HQ.
  - destruct lb as [|b lb]; [done|]. simpl.
    apply darr_cons in Ha as [Ha1 Ha2]. apply darr_cons in Hb as [Hb1 Hb2].
    apply Forall_cons in Hda as [Hda1 Hda2]. apply Forall_cons in Hdb as [Hdb1 Hdb2].
    apply valid_S in Hc as [[c0 Hc0] Hc]. assert (0 <= dc.2) as H0 by (by eapply load_0le).
    simpl in Hlen. injection Hlen as Hlen.
    wb. eapply wp_load; [done|]. wb. eapply wp_load; [done|]. wb. eapply wp_store; [done|].
    unfold dig in Hda1, Hdb1.
    rewrite w64_id by (rewrite RADIX_val in *; lia).
    set (x := RADIX + a - w - b).
    assert (0 <= UPPER_HALF x <= 1) by (apply upper_le; subst x; rewrite RADIX_val in *; lia).
    pose proof (halves x) as Hh.
    set (w1 := if UPPER_HALF x =? 0 then 1 else 0).
    assert (w1 = 1 - UPPER_HALF x) as Hw1 by (subst w1; destruct (Z.eqb_spec (UPPER_HALF x) 0); lia).
    apply (IH lb); simpl.
    + by apply store_ahead.
    + apply store_ahead; [done|by rewrite <- Hlen|done].
    + done.
    + apply store_valid; [by rewrite Hc0|done].
    + done.
    + done.
    + lia.
    + by apply ahead_step.
    + by apply ahead_step.
    + intros w' lc Hl Hdc Hw' Hv. rewrite set_mem_set_mem, wrd_cons by done.
      apply HQ; simpl.
      * lia.
      * constructor; [apply lower_dig|done].
      * done.
      * rewrite Bn_S.
        replace (LOWER_HALF x + RADIX * val lc - w' * (RADIX * Bn (length la)))
          with (LOWER_HALF x + RADIX * (val lc - w' * Bn (length la))) by ring.
        rewrite Hv, Hw1. lia.
Qed.
Lemma wp_usub_loop2 la da dc w (Q : Z -> state -> Prop) st :
  darr (mem st) da la -> valid (mem st) dc (length la) -> digs la -> 0 <= w <= 1 ->
  ahead dc da (length la) ->
  (forall w' lc, length lc = length la -> digs lc -> 0 <= w' <= 1 ->
     val lc - w' * Bn (length la) = val la - w ->
     Q w' (set_mem st (wrd (mem st) dc lc))) ->
  wp (usub_loop2 (length la) da dc w) Q st.
Proof.
  revert da dc w st. induction la as [|a la IH]; intros da dc w st Ha Hc Hda Hw Hsa HQ.
  - simpl. apply wp_ret.
    specialize (HQ w [] eq_refl ltac:(constructor) Hw ltac:(simpl; rewrite Bn_0; lia)).
    by rewrite wrd_nil, set_mem_id in HQ.
  - simpl. apply darr_cons in Ha as [Ha1 Ha2]. apply Forall_cons in Hda as [Hda1 Hda2].
    apply valid_S in Hc as [[c0 Hc0] Hc]. assert (0 <= dc.2) as H0 by (by eapply load_0le).
    wb. eapply wp_load; [done|]. wb. eapply wp_store; [done|].
    unfold dig in Hda1.
    rewrite w64_id by (rewrite RADIX_val in *; lia).
    set (x := RADIX + a - w).
    assert (0 <= UPPER_HALF x <= 1) by (apply upper_le; subst x; rewrite RADIX_val in *; lia).
    pose proof (halves x) as Hh.
    set (w1 := if UPPER_HALF x =? 0 then 1 else 0).
    assert (w1 = 1 - UPPER_HALF x) as Hw1 by (subst w1; destruct (Z.eqb_spec (UPPER_HALF x) 0); lia).
    apply IH; simpl.
    + by apply store_ahead.
    + apply store_valid; [by rewrite Hc0|done].
    + done.
    + lia.
    + by apply ahead_step.
    + intros w' lc Hl Hdc Hw' Hv. rewrite set_mem_set_mem, wrd_cons by done.
      apply HQ; simpl.
      * lia.
      * constructor; [apply lower_dig|done].
      * done.
      * rewrite Bn_S.
        replace (LOWER_HALF x + RADIX * val lc - w' * (RADIX * Bn (length la)))
          with (LOWER_HALF x + RADIX * (val lc - w' * Bn (length la))) by ring.
        rewrite Hv, Hw1. lia.
Qed.
Lemma wp_s_usub la lb da db dc na nb (Q : unit -> state -> Prop) st :
  na = Z.of_nat (length la) -> nb = Z.of_nat (length lb) -> (length lb <= length la)%nat ->
  darr (mem st) da la -> darr (mem st) db lb ->
  valid (mem st) dc (length la) -> digs la -> digs lb ->
  ahead dc da (length la) -> ahead dc db (length lb) -> val lb <= val la ->
  (forall lc, length lc = length la -> digs lc -> val lc = val la - val lb ->
     Q tt (set_mem st (wrd (mem st) dc lc))) ->
  wp (s_usub da db dc na nb) Q st.
Proof.
  intros -> -> Hle Ha Hb Hc Hda Hdb Hsa Hsb Hval HQ. unfold s_usub.
  assert (exists l1 l2, la = l1 ++ l2 /\ length l1 = length lb) as (l1 & l2 & -> & Hl1).
  { exists (take (length lb) la), (drop (length lb) la). rewrite take_drop, take_length. split; [done|lia]. }
  wb. apply wp_assert; [apply Z.leb_le; lia|].
  rewrite Nat2Z.id. apply darr_app in Ha as [Ha1 Ha2]. apply digs_app in Hda as [Hd1 Hd2].
  rewrite app_length in *. apply valid_app_inv in Hc as Hc'. destruct Hc' as [Hc1 Hc2].
  wb. rewrite <- Hl1. rewrite Nat2Z.inj_add.
  replace (Z.to_nat (Z.of_nat (length l1) + Z.of_nat (length l2) - Z.of_nat (length l1)))
    with (length l2) by lia.
  apply (wp_usub_loop1 l1 lb); try done.
  { eapply ahead_le; [done|lia]. }
  { rewrite Hl1. done. }
  intros w1 lc1 Hlc1 Hdc1 Hw1 Hv1. wb.
  destruct (decide (length l1 + length l2 = 0)%nat) as [Hz|Hnz].
  { destruct l1, l2; simpl in Hz; try lia. destruct lc1; [|done]. simpl. apply wp_ret.
    destruct lb; [|done]. simpl in Hv1. rewrite Bn_0 in Hv1.
    apply wp_assert; [apply Z.eqb_eq; lia|].
    apply (HQ []); simpl; [done|constructor|lia]. }
  assert (0 <= dc.2) as H0 by (eapply valid_0le; [exact Hc|lia]).
  assert (valid (mem st) dc (length lc1)) as Hvc1 by (by rewrite Hlc1).
  apply (wp_usub_loop2 l2); simpl; try done.
  { rewrite <- Hlc1. apply darr_wrd_ahead; [done| |]; by rewrite Hlc1. }
  { apply valid_wrd; try done. }
  { apply ahead_drop. done. }
  intros w2 lc2 Hlc2 Hdc2 Hw2 Hv2.
  assert (val (lc1 ++ lc2) - w2 * Bn (length l1 + length l2) = val (l1 ++ l2) - val lb) as Hvt.
  { rewrite !val_app, Bn_add, Hlc1.
    replace (val lc1 + Bn (length l1) * val lc2 - w2 * (Bn (length l1) * Bn (length l2)))
      with (val lc1 + Bn (length l1) * (val lc2 - w2 * Bn (length l2))) by ring.
    rewrite Hv2. nia. }
  assert (digs (lc1 ++ lc2)) as Hdt by (by apply digs_app).
  pose proof (val_bounds _ Hdt) as Hbt. rewrite app_length, Hlc1, Hlc2 in Hbt.
  assert (w2 = 0) as -> by nia.
  apply wp_assert; [done|].
  rewrite <- Hlc1, set_mem_set_mem, wrd_app by done. apply HQ.
  - rewrite app_length. lia.
  - done.
  - lia.
Qed.
