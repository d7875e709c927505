(** Rules for mpz_export and mpz_import. *)
From Coq Require Import ZArith List Lia.
From stdpp Require Import gmap list.
From Verif Require Import Mem Prog Kern Fp Imath Imrat Gmp Wp MemLem Dig KernLem Rel RelWp RelZ Life Basic Basic2 Mult Shift Knuth Divi Powr Spec SpecBin SpecGmp Public Gcd Root Buf Read Bin Rat Rsa Gmpr.
Local Open Scope Z_scope.

Definition byte (v : Z) (k : nat) : Z := v / 256 ^ Z.of_nat k mod 256.
(** Where byte [k] of the number goes. *)
Definition place (order endian : Z) (size count k : nat) : nat :=
  ((if (order =? 1)%Z then count - 1 - k / size else k / size) * size +
   (if (endian =? 1)%Z then size - 1 - k mod size else k mod size))%nat.
Lemma byte_range v k : is_byte (byte v k).
Proof. apply Z.mod_pos_bound. lia. Qed.
Lemma be_lookup n x i : (i < n)%nat -> be_bytes n x !! i = Some (byte x (n - 1 - i)).
Proof.
  intros Hi. unfold be_bytes. change (map ?f ?l) with (f <$> l). rewrite list_lookup_fmap, (lookup_seq_lt 0 n i) by done. done.
Qed.
Lemma p256 a b : 256 ^ Z.of_nat (a + b) = 256 ^ Z.of_nat a * 256 ^ Z.of_nat b.
Proof. rewrite Nat2Z.inj_add, Z.pow_add_r by lia. done. Qed.
Lemma p256_pos a : 0 < 256 ^ Z.of_nat a.
Proof. apply Z.pow_pos_nonneg; lia. Qed.
Lemma byte_word size v i j : (j < size)%nat -> byte (word size v i) j = byte v (i * size + j).
Proof.
  intros Hj. unfold byte, word. rewrite (Nat.mul_comm size i), p256. set (x := v / 256 ^ Z.of_nat (i * size)).
  pose proof (p256_pos (i * size)). pose proof (p256_pos j). rewrite <- Z.div_div by lia. fold x.
  replace size with (j + S (size - 1 - j))%nat at 1 by lia. rewrite p256. rewrite Z.rem_mul_r by (try apply Z.neq_sym, Z.lt_neq; apply p256_pos).
  rewrite (Z.mul_comm (256 ^ Z.of_nat j)), Z.div_add by lia. rewrite (Z.div_small (x mod _)) by (by apply Z.mod_pos_bound). rewrite Z.add_0_l.
  change (S (size - 1 - j)) with (1 + (size - 1 - j))%nat. rewrite p256. change (256 ^ Z.of_nat 1) with 256. rewrite Z.rem_mul_r by (try apply Z.neq_sym, Z.lt_neq; try apply p256_pos; lia).
  rewrite (Z.mul_comm 256), Z.mod_add by lia. by rewrite Z.mod_mod by lia.
Qed.
Lemma concat_lookup (ls : list (list Z)) n a b : Forall (fun l => length l = n) ls -> (b < n)%nat -> concat ls !! (a * n + b)%nat = ls !! a ≫= (.!! b).
Proof.
  revert a. induction ls as [|l ls IH]; intros a F Hb; [done|]. apply Forall_cons in F as [Hl F]. cbn [concat]. destruct a as [|a].
  - rewrite lookup_app_l by lia. done.
  - rewrite lookup_app_r by lia. replace (S a * n + b - length l)%nat with (a * n + b)%nat by lia. by apply IH.
Qed.
Lemma word_bytes_length endian size w : length (word_bytes endian size w) = size.
Proof. unfold word_bytes. destruct (_ =? _); rewrite ?rev_length; apply be_bytes_length. Qed.
Lemma words_length order endian size count v : length (words order endian size count v) = (size * count)%nat.
Proof.
  unfold words. assert (forall l, length (concat (map (fun i => word_bytes endian size (word size v i)) l)) = (size * length l)%nat) as E.
  { intros l. induction l as [|x l IH]; [simpl; lia|]. cbn [map concat length]. rewrite app_length, word_bytes_length, IH. lia. }
  rewrite E. destruct (_ =? _); rewrite ?rev_length, seq_length; done.
Qed.
Lemma rev_lookup_Z (l : list Z) i : (i < length l)%nat -> rev l !! i = l !! (length l - 1 - i)%nat.
Proof. intros Hi. rewrite <- reverse_rev || idtac. rewrite rev_alt || idtac. change (rev_append l []) with (reverse l). rewrite reverse_lookup by done. f_equal. lia. Qed.
Lemma rev_lookup_nat (l : list nat) i : (i < length l)%nat -> rev l !! i = l !! (length l - 1 - i)%nat.
Proof. intros Hi. rewrite rev_alt. change (rev_append l []) with (reverse l). rewrite reverse_lookup by done. f_equal. lia. Qed.
Lemma words_lookup order endian size count v k : (0 < size)%nat -> (k < size * count)%nat ->
  words order endian size count v !! k = Some (byte v (place order endian size count k)).
Proof.
  intros Hs Hk. unfold words, place. pose proof (Nat.div_mod k size ltac:(lia)) as E. pose proof (Nat.mod_upper_bound k size ltac:(lia)) as Hb.
  assert (k / size < count)%nat as Ha by (apply Nat.div_lt_upper_bound; lia).
  set (a := (k / size)%nat) in *. set (b := (k mod size)%nat) in *. replace k with (a * size + b)%nat by lia.
  rewrite (concat_lookup _ size); [|apply Forall_forall; intros l Hl; apply elem_of_list_In, in_map_iff in Hl as (i & <- & _); apply word_bytes_length|done].
  change (map ?f ?l) with (f <$> l). rewrite list_lookup_fmap.
  assert ((if order =? 1 then rev (seq 0 count) else seq 0 count) !! a = Some (if (order =? 1)%Z then count - 1 - a else a)%nat) as ->.
  { destruct (order =? 1); [rewrite rev_lookup_nat by (rewrite seq_length; lia); rewrite seq_length|]; rewrite lookup_seq_lt by lia; done. }
  cbn [fmap option_fmap option_map mbind option_bind]. set (i := (if (order =? 1)%Z then _ else _)). unfold word_bytes. set (j := (if (endian =? 1)%Z then (size - 1 - b)%nat else b)). assert (j < size)%nat as Hj by (unfold j; destruct (endian =? 1); lia). rewrite <- byte_word by done. unfold j.
  destruct (endian =? 1).
  - by apply be_lookup.
  - rewrite rev_lookup_Z by (rewrite be_bytes_length; lia). rewrite be_bytes_length, be_lookup by lia. do 2 f_equal. lia.
Qed.
Lemma place_lt order endian size count k : (0 < size)%nat -> (k < size * count)%nat -> (place order endian size count k < size * count)%nat.
Proof.
  intros Hs Hk. unfold place. pose proof (Nat.div_mod k size ltac:(lia)) as E. pose proof (Nat.mod_upper_bound k size ltac:(lia)) as Hb.
  assert (k / size < count)%nat as Ha by (apply Nat.div_lt_upper_bound; lia). destruct (order =? 1), (endian =? 1); nia.
Qed.
Lemma place_inv order endian size count k : (0 < size)%nat -> (k < size * count)%nat -> place order endian size count (place order endian size count k) = k.
Proof.
  intros Hs Hk. pose proof (Nat.div_mod k size ltac:(lia)) as E. pose proof (Nat.mod_upper_bound k size ltac:(lia)) as Hb.
  assert (k / size < count)%nat as Ha by (apply Nat.div_lt_upper_bound; lia).
  assert (forall a b, (b < size)%nat -> (a * size + b) / size = a /\ (a * size + b) mod size = b)%nat as DM.
  { intros a b Hlt. split; [symmetry; apply (Nat.div_unique _ _ _ b); lia|symmetry; apply (Nat.mod_unique _ _ a); lia]. }
  unfold place at 1. unfold place. set (a := (k / size)%nat) in *. set (b := (k mod size)%nat) in *.
  set (a' := (if (order =? 1)%Z then (count - 1 - a)%nat else a)). set (b' := if (endian =? 1)%Z then (size - 1 - b)%nat else b).
  destruct (DM a' b') as [-> ->]; [unfold b'; clearbody b; destruct (endian =? 1); lia|]. clearbody b. unfold a' in *. clearbody a. clear DM. unfold b'. destruct (order =? 1), (endian =? 1); nia.
Qed.

(** ** Export *)
Definition wrs (g : nat -> nat) (v : Z) (ks : list nat) (l : list cell) : list cell :=
  foldl (fun l k => <[g k := Some (byte v k)]> l) l ks.
Lemma wrs_length g v ks : forall l, length (wrs g v ks l) = length l.
Proof. induction ks as [|k ks IH]; intros l; [done|]. unfold wrs in *. cbn [foldl]. rewrite IH. apply insert_length. Qed.
Lemma wrs_app g v ks ks' l : wrs g v (ks ++ ks') l = wrs g v ks' (wrs g v ks l).
Proof. unfold wrs. by rewrite foldl_app. Qed.
Lemma overwrite_lk off (s : list Z) (l : list cell) i : (off + length s <= length l)%nat ->
  overwrite off s l !! i = if decide (off <= i < off + length s)%nat then Some <$> s !! (i - off)%nat else l !! i.
Proof.
  intros Hl. unfold overwrite. destruct (decide (i < off)%nat) as [H1|H1].
  - rewrite lookup_app_l by (rewrite take_length; lia). rewrite lookup_take by done. case_decide; [lia|done].
  - rewrite lookup_app_r by (rewrite take_length; lia). rewrite take_length, Nat.min_l by lia. destruct (decide (i < off + length s)%nat) as [H2|H2].
    + rewrite lookup_app_l by (rewrite fmap_length; lia). rewrite list_lookup_fmap. case_decide; [done|lia].
    + rewrite lookup_app_r by (rewrite fmap_length; lia). rewrite fmap_length, lookup_drop. case_decide; [lia|]. f_equal. lia.
Qed.
Lemma wrs_words order endian size count v off l : (0 < size)%nat -> (off + size * count <= length l)%nat ->
  wrs (fun k => off + place order endian size count k)%nat v (seq 0 (size * count)) l = overwrite off (words order endian size count v) l.
Proof.
  intros Hs Hl. set (N := (size * count)%nat) in *. set (P := place order endian size count).
  assert (forall n, (n <= N)%nat -> forall i, wrs (fun k => off + P k)%nat v (seq 0 n) l !! i =
     if decide (off <= i < off + N)%nat then (if decide (P (i - off)%nat < n)%nat then Some (Some (byte v (P (i - off)%nat))) else l !! i) else l !! i) as HI.
  { induction n as [|n IH]; intros Hn i.
    - cbn. case_decide; [case_decide; [lia|done]|done].
    - rewrite seq_S, wrs_app. cbn [Nat.add]. unfold wrs at 1. cbn [foldl]. pose proof (place_lt order endian size count n Hs ltac:(fold N; lia)) as HP. change (P n < N)%nat in HP.
      pose proof (place_inv order endian size count n Hs ltac:(fold N; lia)) as HP2. change (P (P n) = n) in HP2.
      destruct (decide (i = off + P n)%nat) as [->|Hne].
      + rewrite list_lookup_insert by (rewrite wrs_length; lia). replace (off + P n - off)%nat with (P n) by lia. rewrite HP2.
        case_decide; [|lia]. case_decide; [done|lia].
      + rewrite list_lookup_insert_ne by done. rewrite IH by lia. case_decide as H1; [|done]. 
        assert (P (i - off)%nat <> n) as Hn2. { intros E. apply Hne. rewrite <- E. pose proof (place_inv order endian size count (i - off) Hs ltac:(fold N; lia)) as HP3. change (P (P (i - off)%nat) = (i - off)%nat) in HP3. rewrite HP3. lia. }
        case_decide as H2; case_decide as H3; [done|lia|lia|done]. }
  apply list_eq. intros i. rewrite HI by done. rewrite overwrite_lk by (rewrite words_length; fold N; lia). rewrite words_length. fold N.
  case_decide as H1; [|done]. rewrite words_lookup by (try done; fold N; lia). fold P. case_decide as H2; [done|]. exfalso. apply H2. pose proof (place_lt order endian size count (i - off) Hs ltac:(fold N; lia)) as HP. exact HP.
Qed.

Lemma digit_at ds s d : digs ds -> ds !! s = Some d -> d = val ds / Bn s mod RADIX.
Proof.
  intros D Hs. pose proof (lookup_lt_Some _ _ _ Hs) as Hl. rewrite <- val_drop by (done || lia). rewrite (drop_S _ _ _ Hs). cbn [val].
  rewrite (Z.mul_comm RADIX), Z.mod_add by (pose proof RADIX_pos; lia). rewrite Z.mod_small; [done|]. exact (Forall_lookup_1 _ _ _ _ D Hs).
Qed.
Lemma Bn_256 s : Bn s = 256 ^ Z.of_nat (4 * s).
Proof. rewrite Bn_pow2, pow256. f_equal. lia. Qed.
Lemma digit_byte ds s d m : digs ds -> ds !! s = Some d -> (m < 4)%nat -> Z.land (Z.shiftr d (8 * Z.of_nat m)) 255 = byte (val ds) (4 * s + m).
Proof.
  intros D Hs Hm. rewrite (digit_at ds s d D Hs). change 255 with (Z.ones 8). rewrite Z.land_ones, Z.shiftr_div_pow2 by lia. rewrite Bn_256. rewrite <- pow256.
  change RADIX with (256 ^ Z.of_nat 4). change (2 ^ 8) with 256.
  pose proof (byte_word 4 (val ds) s m Hm) as E. unfold byte, word in E. rewrite E. unfold byte. do 4 f_equal. lia.
Qed.
Ltac sgns := change (1 >=? 0) with true; change (-1 >=? 0) with false; change (1 =? 1) with true; change (-1 =? 1) with false; change (1 <? 0) with false; change (-1 <? 0) with true; cbv iota.
Section export.
Context (σ : gmap oid fobj) (f : fobj) (o : oid) (ds : list Z) (b : base) (off size nw : nat) (order endian : Z) (used : Z).
Hypothesis (Ho : σ !! o = Some f) (Dd : digs ds) (Hsz : (0 < size)%nat) (Hor : valid_order order) (Hen : endian = 1 \/ endian = -1).
Hypothesis (Hvw : exists r, fc f = (Some <$> ds) ++ r).
Hypothesis (Hused : used <= 4 * Z.of_nat (length ds)) (Hval : val ds < 256 ^ used) (Hused0 : 0 <= used).
Definition src_at (k : Z) (src : ptr) (bits : Z) : Prop := k <= used -> exists s m : nat, src = (fl f, Z.of_nat s) /\ bits = 32 - 8 * Z.of_nat m /\ k = 4 * Z.of_nat s + Z.of_nat m /\ (m <= 4)%nat.
Definition colZ (j : Z) : Z := if endian >=? 0 then Z.of_nat size - 1 - j else j.
Definition rowZ (i : Z) : Z := if order >=? 0 then (Z.of_nat nw - 1 - i) * Z.of_nat size else i * Z.of_nat size.
Notation P := (place order endian size nw).
Lemma place_Z i j : (i < nw)%nat -> (j < size)%nat -> rowZ (Z.of_nat i) + colZ (Z.of_nat j) = Z.of_nat (P (i * size + j)%nat).
Proof using Hor Hen Hsz.
  clear Hused0 Hused Hval. intros Hi Hj. unfold place, rowZ, colZ.
  assert ((i * size + j) / size = i)%nat as -> by (symmetry; apply (Nat.div_unique _ _ _ j); lia).
  assert ((i * size + j) mod size = j)%nat as -> by (symmetry; apply (Nat.mod_unique _ _ i); lia).
  rewrite Nat2Z.inj_add, Nat2Z.inj_mul. destruct Hor as [-> | ->], Hen as [-> | ->]; sgns; repeat rewrite Nat2Z.inj_sub by lia; lia.
Qed.
Lemma byte_high k : used <= Z.of_nat k -> byte (val ds) k = 0.
Proof using Dd Hval Hsz size Hused0.
  intros Hk. unfold byte. pose proof (val_bounds _ Dd). rewrite Z.div_small; [done|]. split; [lia|]. eapply Z.lt_le_trans; [exact Hval|]. apply Z.pow_le_mono_r; lia.
Qed.
Lemma wpR_export_word n : forall st X lb i j src bits (Q : ptr * ptr * Z -> state -> Prop), R st σ X -> cmem X !! b = Some lb -> (off + size * nw <= length lb)%nat ->
  (i < nw)%nat -> (j + n = size)%nat -> src_at (Z.of_nat (i * size + j)) src bits ->
  (forall st' src' bits', R st' σ (setb X b (wrs (fun k => off + P k)%nat (val ds) (seq (i * size + j) n) lb)) -> src_at (Z.of_nat (i * size + size)) src' bits' ->
     Q ((b, Z.of_nat off + rowZ (Z.of_nat i) + colZ (Z.of_nat size)), src', bits') st') ->
  wp (export_word n (Z.of_nat (i * size + j)) used endian (b, Z.of_nat off + rowZ (Z.of_nat i) + colZ (Z.of_nat j)) src bits) Q st.
Proof using Ho Dd Hsz Hor Hen Hvw Hused Hval Hused0.
  induction n as [|n IH]; intros st X lb i j src bits Q HR Hb Hl Hi Hj Hsrc HQ.
  - cbn [export_word]. apply wp_ret. replace j with size in * by lia. apply HQ; [|done]. cbn. by rewrite setb_id.
  - cbn [export_word]. pose proof (place_Z i j Hi ltac:(lia)) as HP. pose proof (place_lt order endian size nw (i * size + j) Hsz ltac:(nia)) as HPl.
    assert (forall st' src' bits' , R st' σ (setb X b (<[Z.to_nat (Z.of_nat off + rowZ (Z.of_nat i) + colZ (Z.of_nat j)) := Some (byte (val ds) (i * size + j))]> lb)) ->
       src_at (Z.of_nat (i * size + j) + 1) src' bits' ->
       wp (export_word n (Z.of_nat (i * size + j) + 1) used endian ((b, Z.of_nat off + rowZ (Z.of_nat i) + colZ (Z.of_nat j)) +p (- endian)) src' bits') Q st') as Next.
    { intros st' src' bits' HR' Hs'. replace (Z.to_nat _) with (off + P (i * size + j))%nat in HR' by lia.
      replace (Z.of_nat (i * size + j) + 1) with (Z.of_nat (i * size + S j)) in * by lia.
      replace ((b, Z.of_nat off + rowZ (Z.of_nat i) + colZ (Z.of_nat j)) +p - endian) with (b, Z.of_nat off + rowZ (Z.of_nat i) + colZ (Z.of_nat (S j))).
      2: { unfold padd. cbn [fst snd]. f_equal. unfold colZ. destruct Hen as [-> | ->]; sgns; lia. }
      eapply IH; [exact HR'|apply setb_lookup|rewrite insert_length; done|done|lia|done|]. intros st2 src2 bits2 HR2 Hs2. apply HQ; [|done]. rewrite setb_setb in HR2.
      cbn [seq]. unfold wrs. cbn [foldl]. replace (S (i * size + j)) with (i * size + S j)%nat by lia. exact HR2. }
    destruct (Z.ltb_spec (Z.of_nat (i * size + j)) used) as [Hk|Hk].
    + destruct (Hsrc ltac:(lia)) as (s & m & -> & -> & Hkk & Hm). destruct Hvw as [r Hr].
      assert (exists s' m' : nat, (if 32 - 8 * Z.of_nat m =? 0 then (fl f, Z.of_nat s) +p 1 else (fl f, Z.of_nat s)) = (fl f, Z.of_nat s') /\
        (if 32 - 8 * Z.of_nat m =? 0 then 32 else 32 - 8 * Z.of_nat m) = 32 - 8 * Z.of_nat m' /\ (i * size + j = 4 * s' + m')%nat /\ (m' < 4)%nat) as (s' & m' & -> & -> & Ek & Hm').
      { destruct (Z.eqb_spec (32 - 8 * Z.of_nat m) 0) as [E|E]; [exists (S s), 0%nat|exists s, m]; (split; [unfold padd; cbn [fst snd]; f_equal; lia|]); (split; [lia|]); lia. }
      destruct (lookup_lt_is_Some_2 ds s') as [d Hd]; [lia|].
      wb. eapply wp_load.
      { pose proof (R_load st σ X o f s' (Some d) HR Ho) as HL. unfold padd in HL. cbn [fst snd] in HL. rewrite Z.add_0_l in HL. apply HL. rewrite Hr. rewrite lookup_app_l by (rewrite fmap_length; by eapply lookup_lt_Some). rewrite list_lookup_fmap, Hd. done. }
      wb. eapply wpR_storeb; [exact HR|exact Hb|lia|]. intros st' HR'. replace (32 - (32 - 8 * Z.of_nat m')) with (8 * Z.of_nat m') in HR' by lia. rewrite (digit_byte ds s' d m' Dd Hd Hm'), <- Ek in HR'.
      apply Next; [exact HR'|]. intros _. exists s', (S m'). split; [done|]. split; [lia|]. split; [lia|lia].
    + wb. eapply wpR_storeb; [exact HR|exact Hb|lia|]. intros st' HR'. rewrite <- (byte_high (i * size + j) Hk) in HR'. apply Next; [exact HR'|]. intros Hlt. lia.
Qed.
Lemma wpR_export_words n : forall st X lb i src bits (Q : unit -> state -> Prop), R st σ X -> cmem X !! b = Some lb -> (off + size * nw <= length lb)%nat ->
  (i + n = nw)%nat -> src_at (Z.of_nat (i * size)) src bits ->
  (forall st', R st' σ (setb X b (wrs (fun k => off + P k)%nat (val ds) (seq (i * size) (n * size)) lb)) -> Q tt st') ->
  wp (export_words n (Z.of_nat i) (Z.of_nat size) used endian ((if endian >=? 0 then Z.of_nat size else - Z.of_nat size) + (if order <? 0 then Z.of_nat size else - Z.of_nat size))
        (b, Z.of_nat off + rowZ (Z.of_nat i) + colZ 0) src bits) Q st.
Proof using Ho Dd Hsz Hor Hen Hvw Hused Hval Hused0.
  induction n as [|n IH]; intros st X lb i src bits Q HR Hb Hl Hi Hsrc HQ.
  - cbn [export_words]. apply wp_ret. apply HQ. cbn. by rewrite setb_id.
  - cbn [export_words]. wb. rewrite Nat2Z.id. replace (Z.of_nat i * Z.of_nat size) with (Z.of_nat (i * size + 0)) by lia. change 0 with (Z.of_nat 0) at 2.
    rewrite <- (Nat.add_0_r (i * size)) in Hsrc.
    eapply (wpR_export_word size _ _ _ i 0); [exact HR|exact Hb|done|lia|done|exact Hsrc|]. intros st' src' bits' HR' Hs'. cbn [fst snd].
    replace (Z.of_nat i + 1) with (Z.of_nat (S i)) by lia.
    replace (((b, Z.of_nat off + rowZ (Z.of_nat i) + colZ (Z.of_nat size)) +p ((if endian >=? 0 then Z.of_nat size else - Z.of_nat size) + (if order <? 0 then Z.of_nat size else - Z.of_nat size))))
      with (b, Z.of_nat off + rowZ (Z.of_nat (S i)) + colZ 0).
    2: { unfold padd, rowZ, colZ. cbn [fst snd]. f_equal. destruct Hor as [-> | ->], Hen as [-> | ->]; sgns; lia. }
    eapply IH; [exact HR'|apply setb_lookup|by rewrite wrs_length|lia| |].
    { replace (S i * size)%nat with (i * size + size)%nat by lia. done. }
    intros st2 HR2. apply HQ. rewrite setb_setb in HR2. rewrite Nat.add_0_r in HR2. cbn [Nat.mul] in *. rewrite seq_app, wrs_app. by rewrite (Nat.add_comm size (i * size)) in HR2.
Qed.
End export.
Lemma word_count_0 size v count : word_count size v count -> v = 0 -> count = 0%nat.
Proof. intros [_ Hm] ->. destruct count; [done|]. specialize (Hm 0%nat ltac:(lia)). rewrite Nat.mul_0_r in Hm. cbn in Hm. lia. Qed.
Lemma word_count_ceil size v count n : word_count size v count -> v <> 0 -> unsigned_size v n -> (0 < size)%nat -> (0 < count)%nat /\ (size * (count - 1) < n <= size * count)%nat.
Proof.
  intros [Hc Hm] Hv (N1 & N2 & N3) Hs.
  assert (0 < count)%nat as C0. { destruct count; [|lia]. rewrite Nat.mul_0_r in Hc. cbn in Hc. lia. }
  split; [done|]. split.
  - specialize (Hm (count - 1)%nat ltac:(lia)). assert (256 ^ Z.of_nat (size * (count - 1)) < 256 ^ Z.of_nat n) as L by lia. apply Z.pow_lt_mono_r_iff in L; lia.
  - destruct (decide (n <= size * count)%nat) as [|E]; [done|]. specialize (N3 (size * count)%nat ltac:(nia)). lia.
Qed.
Lemma wpV_export (st : state) (V : gmap oid Z) (X : ctx) o v b l off size count order endian (Q : Z -> state -> Prop) :
  RV st V X -> V !! o = Some v -> cmem X !! b = Some l -> (0 < size)%nat -> valid_order order -> valid_endian endian ->
  word_count size v count -> (off + size * count <= length l)%nat -> Z.of_nat (size * count) < 2 ^ 63 ->
  (forall st', RV st' V (setb X b (overwrite off (words order endian size count (Z.abs v)) l)) -> Q (Z.of_nat count) st') ->
  wp (mpz_export (b, Z.of_nat off) order (Z.of_nat size) endian 0 o) Q st.
Proof.
  intros HV Ho Hb Hs Hor Hen Hc Hl Hfit HQ. unfold mpz_export. wb. apply wp_assert; [done|]. wb. apply wp_assert; [destruct Hen as [-> | [-> | ->]]; done|].
  wb. apply wp_assert; [destruct Hor as [-> | ->]; done|]. wb. eapply wpV_compare_zero; [done..|]. destruct (Z.eqb_spec (Z.sgn v) 0) as [E|E].
  { apply (proj1 (Z.sgn_null_iff _)) in E. pose proof (word_count_0 _ _ _ Hc E) as ->. apply wp_ret, HQ.
    assert (words order endian size 0 (Z.abs v) = []) as -> by (apply nil_length_inv; rewrite words_length; lia). by rewrite overwrite_nil, setb_id. }
  assert (v <> 0) as Hv by (intros ->; done). wb. pose proof (unsigned_bitlen v) as HU. set (n := Z.to_nat ((bitlen v + 7) / 8)) in *. clearbody n.
  eapply wpV_unsigned_len; [done..|]. destruct (Z.eqb_spec (Z.of_nat size) 0) as [|_]; [lia|].
  destruct (word_count_ceil _ _ _ _ Hc Hv HU Hs) as (C0 & Hlo & Hhi). pose proof (proj1 HU) as N1.
  assert (size <= size * count)%nat as Hsc by nia.
  replace (w64 (Z.of_nat size - 1)) with (Z.of_nat size - 1) by (symmetry; apply Z.mod_small; lia).
  replace (w64 (Z.of_nat n + (Z.of_nat size - 1))) with (Z.of_nat n + (Z.of_nat size - 1)) by (symmetry; apply Z.mod_small; lia).
  assert ((Z.of_nat n + (Z.of_nat size - 1)) / Z.of_nat size = Z.of_nat count) as ->.
  { symmetry. apply (Z.div_unique_pos _ _ _ (Z.of_nat n + (Z.of_nat size - 1) - Z.of_nat size * Z.of_nat count)); [|lia]. rewrite Nat.mul_sub_distr_l in Hlo. nia. }
  wb. apply wp_assert; [apply Z.gtb_lt; lia|].
  replace (Z.of_nat size * Z.of_nat count) with (Z.of_nat (size * count)) by lia. rewrite (w64_id (Z.of_nat (size * count))) by mx.
  replace (w64 (Z.of_nat (size * count) - Z.of_nat n)) with (Z.of_nat (size * count) - Z.of_nat n) by (symmetry; apply Z.mod_small; lia).
  wb. apply wp_assert; [apply Z.ltb_lt; rewrite Nat.mul_sub_distr_l in Hlo; lia|].
  destruct HV as (ζ & (σ & HR & Hz) & Hv'). destruct (relv_some _ _ _ _ Hv' Ho) as (z & Hzz & Ez & Nz & _). destruct (relz_get _ _ _ _ Hz Hzz) as (f & ds & Hf & G).
  assert (0 <= zm z) as Z0 by (apply (good_m0 f); by eexists). assert (val ds = Z.abs v) as Evd by (rewrite (g_val _ _ _ G), <- Ez, abs_zval; done).
  wb. eapply wpR_digits; [done..|]. wb. pose proof (goodw_dig _ _ _ G) as D. pose proof (val_bounds _ D) as B. rewrite Bn_256 in B. pose proof (proj1 (g_canon _ _ _ G)) as L1.
  set (en := if endian =? 0 then HOST_ENDIAN else endian).
  assert (en = 1 \/ en = -1) as Hen' by (unfold en; destruct Hen as [-> | [-> | ->]]; auto).
  assert (words order endian size count (Z.abs v) = words order en size count (Z.abs v)) as Ew.
  { unfold words, word_bytes, en. destruct Hen as [-> | [-> | ->]]; done. } rewrite Ew in HQ.
  assert (n <= 4 * length ds)%nat as Hn4. { destruct (decide (n <= 4 * length ds)%nat) as [|E4]; [done|]. destruct HU as (_ & _ & HU). specialize (HU (4 * length ds)%nat ltac:(lia)). lia. }
  rewrite Nat2Z.id.
  assert ((b, Z.of_nat off) +p ((if order >=? 0 then (Z.of_nat count - 1) * Z.of_nat size else 0) + (if en >=? 0 then Z.of_nat size - 1 else 0)) = (b, Z.of_nat off + rowZ size count order (Z.of_nat 0) + colZ size en 0)) as ->.
  { unfold padd, rowZ, colZ. cbn [fst snd]. f_equal. destruct (_ >=? _), (_ >=? _); lia. }
  change 0 with (Z.of_nat 0) at 1.
  eapply (wpR_export_words σ f o ds b off size count order en (Z.of_nat n)); [done|done|done|done|done|apply G|lia|rewrite Evd; apply HU|lia|exact HR|exact Hb|done|lia| |].
  { intros _. exists 0%nat, 0%nat. split; [done|]. split; [done|]. split; [lia|lia]. }
  intros st' HR'. apply wp_ret, HQ. exists ζ. split; [|done]. exists σ. split; [|done].
  cbn [Nat.mul] in HR'. rewrite (Nat.mul_comm count size), wrs_words, Evd in HR' by done. exact HR'.
Qed.

(** ** Import *)
Lemma wpR_store_dig st σ X o f b i v (Q : unit -> state -> Prop) : R st σ X -> σ !! o = Some f -> fl f = b -> (i < length (fc f))%nat ->
  (forall st', R st' (<[o := Fo (fs f) (fu f) (<[i := Some v]> (fc f)) (fl f)]> σ) X -> Q tt st') -> wp (Store (b, Z.of_nat i) v) Q st.
Proof.
  intros HR Ho <- Hi HQ. destruct (lookup_lt_is_Some_2 _ _ Hi) as [c Hc]. eapply wp_store.
  { pose proof (R_load st σ X o f i c HR Ho Hc) as HL. unfold padd in HL. cbn [fst snd] in HL. rewrite Z.add_0_l in HL. exact HL. }
  rewrite <- wr_1. pose proof (R_write _ _ _ o f (Z.of_nat i) [Some v] HR Ho) as H. rewrite Nat2Z.id in H. apply HQ. exact H.
Qed.
Lemma wpR_zero_loop o n : forall st σ X s u b (i : nat) rest (Q : unit -> state -> Prop), R st σ X -> σ !! o = Some (Fo s u ((Some <$> replicate i 0) ++ rest) b) -> (n <= length rest)%nat ->
  (forall st', R st' (<[o := Fo s u ((Some <$> replicate (i + n) 0) ++ drop n rest) b]> σ) X -> Q tt st') ->
  wp (zero_loop n (b, Z.of_nat i)) Q st.
Proof.
  induction n as [|n IH]; intros st σ X s u b i rest Q HR Ho Hn HQ.
  - cbn [zero_loop]. apply wp_ret. apply HQ. rewrite Nat.add_0_r, drop_0. by rewrite insert_id.
  - cbn [zero_loop]. destruct rest as [|c rest]; [simpl in Hn; lia|]. wb.
    eapply (wpR_store_dig _ _ _ o _ _ i); [exact HR|exact Ho|done|cbn [fc]; rewrite app_length, fmap_length, replicate_length; simpl; lia|]. intros st' HR'. cbn [fs fu fc fl] in HR'.
    replace ((b, Z.of_nat i) +p 1) with (b, Z.of_nat (S i)) by (unfold padd; cbn [fst snd]; f_equal; lia).
    rewrite insert_app_r_alt in HR' by (rewrite fmap_length, replicate_length; lia). rewrite fmap_length, replicate_length, Nat.sub_diag in HR'. cbn [list_insert insert] in HR'.
    assert ((Some <$> replicate i 0) ++ Some 0 :: rest = (Some <$> replicate (S i) 0) ++ rest) as E.
    { rewrite (replicate_S_end i 0), fmap_app, <- app_assoc. done. }
    change (<[0%nat := Some 0]> (c :: rest)) with (Some 0 :: rest) in HR'. rewrite E in HR'.
    eapply IH; [exact HR'|apply lookup_insert|simpl in Hn; lia|]. intros st2 HR2. apply HQ. rewrite insert_insert in HR2.
    replace (i + S n)%nat with (S i + n)%nat by lia. exact HR2.
Qed.
Lemma val_insert ds i d d' : ds !! i = Some d -> val (<[i := d']> ds) = val ds + Bn i * (d' - d).
Proof.
  intros Hi. pose proof (lookup_lt_Some _ _ _ Hi) as Hl. rewrite <- (take_drop_middle _ _ _ Hi) at 2. rewrite (insert_take_drop _ _ _ Hl). rewrite !val_app. cbn [val].
  rewrite take_length, Nat.min_l by lia. ring.
Qed.
Lemma mod_byte v k : 0 <= v -> v mod 256 ^ Z.of_nat (S k) = v mod 256 ^ Z.of_nat k + 256 ^ Z.of_nat k * byte v k.
Proof.
  intros Hv. replace (S k) with (k + 1)%nat by lia. rewrite p256. change (256 ^ Z.of_nat 1) with 256. rewrite Z.rem_mul_r by (pose proof (p256_pos k); lia). done.
Qed.
Lemma or_byte v s m ds d : 0 <= v -> digs ds -> val ds = v mod 256 ^ Z.of_nat (4 * s + m) -> ds !! s = Some d -> (m < 4)%nat ->
  let d' := Z.lor d (u32 (Z.shiftl (byte v (4 * s + m)) (8 * Z.of_nat m))) in
  dig d' /\ val (<[s := d']> ds) = v mod 256 ^ Z.of_nat (S (4 * s + m)).
Proof.
  intros Hv D Hval Hd Hm d'. pose proof (byte_range v (4 * s + m)) as Hb. set (c := byte v (4 * s + m)) in *.
  assert (0 <= d < 256 ^ Z.of_nat m) as Hdm.
  { rewrite (digit_at _ _ _ D Hd), Hval, Bn_256. rewrite p256. pose proof (p256_pos (4 * s)). pose proof (p256_pos m). 
    rewrite Z.rem_mul_r by lia. rewrite (Z.mul_comm (256 ^ Z.of_nat (4 * s))), Z.div_add by lia. rewrite Z.div_small by (apply Z.mod_pos_bound; lia). rewrite Z.add_0_l.
    pose proof (Z.mod_pos_bound (v / 256 ^ Z.of_nat (4 * s)) (256 ^ Z.of_nat m) ltac:(lia)) as B. split; [apply Z.mod_pos_bound, RADIX_pos|]. eapply Z.le_lt_trans; [apply Z.mod_le; [lia|apply RADIX_pos]|lia]. }
  assert (256 ^ Z.of_nat (S m) <= RADIX) as HR.
  { change RADIX with (256 ^ Z.of_nat 4). apply Z.pow_le_mono_r; lia. }
  replace (S m) with (m + 1)%nat in HR by lia. rewrite p256 in HR. change (256 ^ Z.of_nat 1) with 256 in HR. unfold is_byte in Hb.
  assert (d' = d + 256 ^ Z.of_nat m * c) as Ed.
  { unfold d'. rewrite Z.shiftl_mul_pow2 by lia. rewrite <- pow256. rewrite u32_id by nia.
    rewrite pow256, <- Z.shiftl_mul_pow2, Z.lor_comm, lor_shl by (try rewrite <- pow256; lia). rewrite <- pow256. ring. }
  split.
  - unfold dig. nia.
  - rewrite (val_insert _ _ d) by done. rewrite Hval, mod_byte by done. fold c. rewrite Ed. rewrite Bn_256, (p256 (4 * s) m). ring.
Qed.
Section import.
Context (σ : gmap oid fobj) (X : ctx) (o : oid) (bl : base) (u : Z) (rest : list cell) (b : base) (l : list cell) (off size nw nd : nat) (order endian v : Z).
Hypothesis (Hsz : (0 < size)%nat) (Hor : valid_order order) (Hen : endian = 1 \/ endian = -1) (Hv0 : 0 <= v).
Hypothesis (Hb : cmem X !! b = Some l) (Hnd : (size * nw <= 4 * nd)%nat).
Notation P := (place order endian size nw).
Hypothesis (Hby : forall k, (k < size * nw)%nat -> l !! (off + P k)%nat = Some (Some (byte v k))).
Definition impst (k : nat) (st : state) (dst : ptr) (bits : Z) : Prop :=
  exists ds s m, R st (<[o := Fo 0 u ((Some <$> ds) ++ rest) bl]> σ) X /\ digs ds /\ length ds = nd /\ val ds = v mod 256 ^ Z.of_nat k /\
    dst = (bl, Z.of_nat s) /\ bits = 8 * Z.of_nat m /\ k = (4 * s + m)%nat /\ (m <= 4)%nat.
Lemma wpR_import_word n : forall st i j dst bits (Q : ptr * ptr * Z -> state -> Prop),
  (i < nw)%nat -> (j + n = size)%nat -> impst (i * size + j) st dst bits ->
  (forall st' dst' bits', impst (i * size + size) st' dst' bits' ->
     Q ((b, Z.of_nat off + rowZ size nw order (Z.of_nat i) + colZ size endian (Z.of_nat size)), dst', bits') st') ->
  wp (import_word n endian (b, Z.of_nat off + rowZ size nw order (Z.of_nat i) + colZ size endian (Z.of_nat j)) dst bits) Q st.
Proof using Hsz Hor Hen Hv0 Hb Hnd Hby.
  induction n as [|n IH]; intros st i j dst bits Q Hi Hj Hst HQ.
  - cbn [import_word]. apply wp_ret. replace j with size in * by lia. by apply HQ.
  - cbn [import_word]. assert (i * size + j < size * nw)%nat as HkN by nia.
    pose proof (place_Z size nw order endian Hsz Hor Hen i j Hi ltac:(lia)) as HP. pose proof (place_lt order endian size nw (i * size + j) Hsz HkN) as HPl.
    destruct Hst as (ds & s & m & HR & D & Ld & Hval & -> & -> & Hk & Hm).
    assert (exists s' m' : nat, (if 8 * Z.of_nat m =? 32 then (bl, Z.of_nat s) +p 1 else (bl, Z.of_nat s)) = (bl, Z.of_nat s') /\
        (if 8 * Z.of_nat m =? 32 then 0 else 8 * Z.of_nat m) = 8 * Z.of_nat m' /\ (i * size + j = 4 * s' + m')%nat /\ (m' < 4)%nat) as (s' & m' & -> & -> & Ek & Hm').
    { destruct (Z.eqb_spec (8 * Z.of_nat m) 32) as [E|E]; [exists (S s), 0%nat|exists s, m]; (split; [unfold padd; cbn [fst snd]; f_equal; lia|]); (split; [lia|]); lia. }
    destruct (lookup_lt_is_Some_2 ds s') as [d Hd]; [lia|].
    assert (((Some <$> ds) ++ rest) !! s' = Some (Some d)) as Hds by (rewrite lookup_app_l by (rewrite fmap_length; lia); rewrite list_lookup_fmap, Hd; done).
    wb. eapply wp_load.
    { pose proof (R_load st _ X o _ s' (Some d) HR (lookup_insert _ _ _) Hds) as HL. unfold padd in HL. cbn [fst snd fl] in HL. rewrite Z.add_0_l in HL. exact HL. }
    wb. eapply wpR_loadb; [exact HR|exact Hb|lia| |].
    { replace (Z.to_nat _) with (off + P (i * size + j))%nat by lia. by apply Hby. }
    rewrite Ek in Hval. destruct (or_byte v s' m' ds d Hv0 D Hval Hd Hm') as [Dd' Hval']. rewrite Ek.
    set (d' := Z.lor _ _) in *. clearbody d'. wb.
    eapply (wpR_store_dig _ _ _ o _ _ s'); [exact HR|apply lookup_insert|done|cbn [fc]; rewrite app_length, fmap_length; lia|]. intros st' HR'. cbn [fs fu fc fl] in HR'. rewrite insert_insert in HR'.
    replace ((b, Z.of_nat off + rowZ size nw order (Z.of_nat i) + colZ size endian (Z.of_nat j)) +p - endian) with (b, Z.of_nat off + rowZ size nw order (Z.of_nat i) + colZ size endian (Z.of_nat (S j))).
    2: { unfold padd. cbn [fst snd]. f_equal. unfold colZ. destruct Hen as [-> | ->]; sgns; lia. }
    eapply IH; [done|lia| |exact HQ]. exists (<[s' := d']> ds), s', (S m').
    rewrite insert_app_l in HR' by (rewrite fmap_length; lia). rewrite <- list_fmap_insert in HR'.
    split; [exact HR'|]. split; [by apply Forall_insert|]. split; [by rewrite insert_length|]. split; [rewrite Hval'; do 3 f_equal; lia|]. split; [done|]. split; [lia|]. lia.
Qed.
Lemma wpR_import_words n : forall st i dst bits (Q : unit -> state -> Prop),
  (i + n = nw)%nat -> impst (i * size) st dst bits ->
  (forall st' dst' bits', impst (nw * size) st' dst' bits' -> Q tt st') ->
  wp (import_words n (Z.of_nat size) endian ((if endian >=? 0 then Z.of_nat size else - Z.of_nat size) + (if order <? 0 then Z.of_nat size else - Z.of_nat size))
        (b, Z.of_nat off + rowZ size nw order (Z.of_nat i) + colZ size endian 0) dst bits) Q st.
Proof using Hsz Hor Hen Hv0 Hb Hnd Hby.
  induction n as [|n IH]; intros st i dst bits Q Hi Hst HQ.
  - cbn [import_words]. apply wp_ret. replace i with nw in * by lia. by eapply HQ.
  - cbn [import_words]. wb. rewrite Nat2Z.id. change 0 with (Z.of_nat 0) at 2. rewrite <- (Nat.add_0_r (i * size)) in Hst.
    eapply (wpR_import_word size _ i 0); [lia|done|exact Hst|]. intros st' dst' bits' Hs'. cbn [fst snd].
    replace (((b, Z.of_nat off + rowZ size nw order (Z.of_nat i) + colZ size endian (Z.of_nat size)) +p ((if endian >=? 0 then Z.of_nat size else - Z.of_nat size) + (if order <? 0 then Z.of_nat size else - Z.of_nat size))))
      with (b, Z.of_nat off + rowZ size nw order (Z.of_nat (S i)) + colZ size endian 0).
    2: { unfold padd, rowZ, colZ. cbn [fst snd]. f_equal. destruct Hor as [-> | ->], Hen as [-> | ->]; sgns; lia. }
    eapply IH; [lia| |exact HQ]. replace (S i * size)%nat with (i * size + size)%nat by lia. done.
Qed.
End import.
Lemma words_onto order endian size count bs : (0 < size)%nat -> Forall is_byte bs -> length bs = (size * count)%nat ->
  exists v, 0 <= v < 256 ^ Z.of_nat (size * count) /\ words order endian size count v = bs.
Proof.
  intros Hs F Hl. set (N := (size * count)%nat) in *. set (P := place order endian size count).
  set (cs := map (fun i => bs !!! P (N - 1 - i)%nat) (seq 0 N)).
  assert (length cs = N) as Lc by (unfold cs; by rewrite map_length, seq_length).
  assert (forall k, (k < N)%nat -> P k < N)%nat as HP by (intros k Hk; by apply place_lt).
  assert (Forall is_byte cs) as Fc.
  { apply Forall_forall. intros c Hc. apply elem_of_list_In, in_map_iff in Hc as (i & <- & Hi). apply in_seq in Hi.
    apply (Forall_lookup_1 is_byte bs (P (N - 1 - i)%nat)); [done|]. apply list_lookup_lookup_total_lt. rewrite Hl. apply HP. lia. }
  exists (horner 256 cs). pose proof (horner_bounds cs Fc) as B. rewrite Lc in B. split; [done|].
  assert (cs = be_bytes N (horner 256 cs)) as Ec by (apply be_unique; [done|done|]; rewrite Z.mod_small; done).
  apply list_eq. intros p. destruct (decide (p < N)%nat) as [Hp|Hp].
  - rewrite words_lookup by done. fold P. symmetry.
    assert (cs !! (N - 1 - P p)%nat = Some (byte (horner 256 cs) (P p))) as E.
    { rewrite Ec at 1. pose proof (HP p Hp). rewrite be_lookup by lia. do 2 f_equal. lia. }
    unfold cs in E at 1. change (map ?f ?l) with (f <$> l) in E. rewrite list_lookup_fmap in E. pose proof (HP p Hp). rewrite lookup_seq_lt in E by lia. cbn [fmap option_fmap option_map] in E.
    injection E as E. cbn [Nat.add] in E. replace (N - 1 - (N - 1 - P p))%nat with (P p) in E by lia.
    assert (P (P p) = p) as Epp by (by apply place_inv). rewrite Epp in E. rewrite <- E. apply list_lookup_lookup_total_lt. lia.
  - rewrite !lookup_ge_None_2; [done|lia|rewrite words_length; fold N; lia].
Qed.
Lemma wpV_import (st : state) (V : gmap oid Z) (X : ctx) o v0 v b l off size count order endian (Q : unit -> state -> Prop) :
  RV st V X -> V !! o = Some v0 -> cmem X !! b = Some l -> (0 < size)%nat -> (0 < count)%nat -> valid_order order -> valid_endian endian ->
  0 <= v < 256 ^ Z.of_nat (size * count) -> has_bytes l off (words order endian size count v) -> Z.of_nat (size * count) <= 2 ^ 34 - 8 ->
  (forall st', RV st' (<[o := v]> V) X -> Q tt st') ->
  wp (mpz_import o (Z.of_nat count) order (Z.of_nat size) endian 0 (Some (b, Z.of_nat off))) Q st.
Proof.
  intros HV Ho Hb Hs Hc Hor Hen Hv [_ Hby] Hfit HQ. unfold mpz_import. destruct (Z.eqb_spec (Z.of_nat count) 0) as [|_]; [lia|].
  wb. apply wp_assert; [done|]. wb. apply wp_assert; [destruct Hen as [-> | [-> | ->]]; done|]. wb. apply wp_assert; [destruct Hor as [-> | ->]; done|].
  set (en := if endian =? 0 then HOST_ENDIAN else endian).
  assert (en = 1 \/ en = -1) as Hen' by (unfold en; destruct Hen as [-> | [-> | ->]]; auto).
  assert (words order endian size count v = words order en size count v) as Ew.
  { unfold words, word_bytes, en. destruct Hen as [-> | [-> | ->]]; done. } rewrite Ew in Hby.
  replace (Z.of_nat count * Z.of_nat size) with (Z.of_nat (size * count)) by lia. rewrite (w64_id (Z.of_nat (size * count))) by mx.
  set (N := (size * count)%nat) in *. assert (0 < N)%nat as N0 by (unfold N; nia). 
  replace (w64 (Z.of_nat N + 4 - 1)) with (Z.of_nat N + 3) by (symmetry; unfold w64; rewrite Z.mod_small; lia).
  set (nd := Z.to_nat ((Z.of_nat N + 3) / 4)). pose proof (Z.div_mod (Z.of_nat N + 3) 4 ltac:(lia)) as E4. pose proof (Z.mod_pos_bound (Z.of_nat N + 3) 4 ltac:(lia)) as B4.
  assert ((Z.of_nat N + 3) / 4 = Z.of_nat nd) as End by (unfold nd; rewrite Z2Nat.id; lia). rewrite End in *. clearbody nd.
  assert (u32 (Z.of_nat nd) = Z.of_nat nd) as -> by (apply u32_id; mx).
  unfold local_int. apply wp_NewO. intros z iz Fz. destruct (RV_newO st V X false z _ HV Fz) as (H1 & H2 & H3). set (t := (false, iz)) in *.
  destruct H3 as (ζ & (σ & HR & Hz) & Hrv). wb. wb. eapply wpR_init_size; [exact HR|cbn [craw with_craw]; apply lookup_insert|mx|].
  intros st1 k bl HR1 Hob Hk Hk2. cbn [craw with_craw cmem cglob] in HR1. assert (with_craw (with_craw X (<[t := z]> (craw X))) (delete t (<[t := z]> (craw X))) = X) as EX.
  { unfold with_craw. cbn [craw cmem cglob]. rewrite delete_insert by done. by destruct X. } rewrite EX in HR1. apply wp_ret.
  wb. wb. eapply wpR_digits; [exact HR1|apply lookup_insert|]. cbn [fl]. rewrite ?Nat2Z.id. wb.
  eapply (wpR_zero_loop t nd _ _ _ 0 1 bl 0 (Some 0 :: replicate k None)); [exact HR1|apply lookup_insert|simpl; rewrite replicate_length; lia|]. intros st2 HR2. rewrite insert_insert in HR2. cbn [Nat.add] in HR2.
  set (rest := drop nd _) in HR2. assert (0 < nd)%nat as Nd0 by lia. wb. rewrite ?Nat2Z.id.
  assert ((b, Z.of_nat off) +p ((if order >=? 0 then (Z.of_nat count - 1) * Z.of_nat size else 0) + (if en >=? 0 then Z.of_nat size - 1 else 0)) = (b, Z.of_nat off + rowZ size count order (Z.of_nat 0) + colZ size en 0)) as ->.
  { unfold padd, rowZ, colZ. cbn [fst snd]. f_equal. destruct (_ >=? _), (_ >=? _); lia. }
  eapply (wpR_import_words σ X t bl 1 rest b l off size count nd order en v Hs Hor Hen' ltac:(lia) Hb); [fold N; lia| |lia| |].
  { intros i Hi. pose proof (place_lt order en size count i Hs Hi) as HPl. rewrite Hby with (c := byte v i); [done|]. rewrite words_lookup by done. by rewrite place_inv. }
  { exists (replicate nd 0), 0%nat, 0%nat. split; [exact HR2|]. split; [apply digs_zeros|]. split; [apply replicate_length|]. split; [rewrite val_zeros; cbn [Nat.mul]; symmetry; apply Z.mod_1_r|]. split; [done|]. split; [done|]. lia. }
  intros st3 dst' bits' (ds & s & m & HR3 & D & Ld & Hval & _). rewrite (Nat.mul_comm count size) in Hval. fold N in Hval. rewrite Z.mod_small in Hval by done.
  wb. eapply wpR_set_used; [exact HR3|apply lookup_insert|]. cbn [fs fc fl]. intros st4 HR4. rewrite insert_insert in HR4.
  wb. eapply (wpR_CLAMP _ _ _ t _ ds); [exact HR4|apply lookup_insert| |lia|].
  { constructor; cbn [fu fc]; [by rewrite Ld|by eexists|done]. }
  cbn [fs fc fl]. intros st5 ds' n' C' D' Hval' Eds HR5 Hvw'. rewrite insert_insert in HR5.
  assert (RV st5 (<[t := v]> V) X) as HV5.
  { exists (<[t := Zv 0 v 1 0 None]> ζ). split.
    - exists (<[t := Fo 0 (Z.of_nat (length ds')) ((Some <$> ds) ++ rest) bl]> σ). split; [exact HR5|]. apply relz_ins; [done|]. exists ds'. constructor; cbn [zs zm zc zi zo]; try done.
      + by rewrite Hval', Hval.
      + by left.
      + cbn [fc]. rewrite app_length, fmap_length. lia.
      + intros i Hi. lia.
    - by apply relv_ins. }
  wb. eapply (wpV_copy _ _ _ t o); [exact HV5|apply lookup_insert|rewrite lookup_insert_ne by congruence; exact Ho|]. intros st6 HV6. apply wp_ret.
  assert (o <> t) as Not by congruence. rewrite insert_commute in HV6 by done.
  wb. eapply wpV_clear; [exact HV6|apply lookup_insert|]. intros st7 z7 _ HV7.
  eapply wp_DelO; [eapply RV_rawobj; [exact HV7|cbn [craw with_craw]; apply lookup_insert]|done|].
  apply wp_ret. apply HQ. eapply RV_delO in HV7; [|cbn [craw with_craw]; apply lookup_insert].
  unfold with_craw in HV7. cbn [craw cmem cglob] in HV7. rewrite !delete_insert in HV7 by (try done; by rewrite lookup_insert_ne). destruct X; exact HV7.
Qed.
Lemma words_byte order endian size count v : Forall is_byte (words order endian size count v).
Proof.
  unfold words. apply Forall_concat. apply Forall_forall. intros l Hl. apply elem_of_list_In, in_map_iff in Hl as (i & <- & _).
  unfold word_bytes. destruct (_ =? _); [apply be_bytes_byte|]. apply Forall_rev, be_bytes_byte.
Qed.
Lemma be_inj_byte n v v' : 0 <= v < 256 ^ Z.of_nat n -> 0 <= v' < 256 ^ Z.of_nat n -> (forall k, (k < n)%nat -> byte v k = byte v' k) -> v = v'.
Proof.
  intros Hv Hv' Hb. rewrite <- (Z.mod_small _ _ Hv), <- (Z.mod_small _ _ Hv'). clear -Hb Hv Hv'. 
  assert (forall m, (m <= n)%nat -> v mod 256 ^ Z.of_nat m = v' mod 256 ^ Z.of_nat m) as HI; [|by apply HI].
  induction m as [|m IH]; intros Hm; [by rewrite !Z.mod_1_r|]. rewrite !mod_byte by lia. rewrite IH by lia. by rewrite Hb by lia.
Qed.
Lemma words_inj order endian size count v v' : (0 < size)%nat ->
  0 <= v < 256 ^ Z.of_nat (size * count) -> 0 <= v' < 256 ^ Z.of_nat (size * count) -> words order endian size count v = words order endian size count v' -> v = v'.
Proof.
  intros Hs Hv Hv' E. apply (be_inj_byte (size * count)); [done|done|]. intros k Hk.
  pose proof (place_lt order endian size count k Hs Hk) as HP. pose proof (f_equal (.!! place order endian size count k) E) as E2. cbn beta in E2.
  rewrite !words_lookup in E2 by done. rewrite place_inv in E2 by done. by injection E2.
Qed.
