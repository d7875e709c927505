(** Rules for the binary formats. *)
From Coq Require Import ZArith List Lia.
From stdpp Require Import gmap list.
From Verif Require Import Mem Prog Kern Fp Imath Wp MemLem Dig KernLem KernMul KernKar KernDig Rel RelWp RelZ Life Basic Basic2 Mult Shift Knuth Divi Powr Spec SpecBin Public Barrett Embar Buf Text Inlen Outlen Read.
Local Open Scope Z_scope.

(** ** Byte strings *)
Lemma be_bytes_length n x : length (be_bytes n x) = n.
Proof. unfold be_bytes. by rewrite map_length, seq_length. Qed.
Lemma be_bytes_S n x : be_bytes (S n) x = be_bytes n (x / 256) ++ [x mod 256].
Proof.
  unfold be_bytes. rewrite seq_S, map_app. cbn [map Nat.add]. f_equal.
  - apply map_ext_in. intros i Hi. apply in_seq in Hi. f_equal. rewrite Z.div_div by (try apply Z.pow_pos_nonneg; lia). f_equal.
    rewrite <- Z.pow_succ_r, <- Nat2Z.inj_succ by lia. do 2 f_equal. lia.
  - f_equal. replace (S n - 1 - n)%nat with 0%nat by lia. by rewrite Z.pow_0_r, Z.div_1_r.
Qed.
Lemma be_bytes_byte n x : Forall is_byte (be_bytes n x).
Proof. unfold be_bytes. apply Forall_map, Forall_forall. intros i _. apply Z.mod_pos_bound. lia. Qed.
Lemma horner_be n x : horner 256 (be_bytes n x) = x mod 256 ^ Z.of_nat n.
Proof.
  revert x. induction n as [|n IH]; intros x; [by rewrite Z.pow_0_r, Z.mod_1_r|]. rewrite be_bytes_S, horner_snoc, IH.
  rewrite Nat2Z.inj_succ, Z.pow_succ_r, Z.rem_mul_r by (try apply Z.pow_pos_nonneg; lia). lia.
Qed.
Lemma horner_inj bs bs' : Forall is_byte bs -> Forall is_byte bs' -> length bs = length bs' -> horner 256 bs = horner 256 bs' -> bs = bs'.
Proof.
  intros H1 H2 HL HE. rewrite <- (rev_involutive bs), <- (rev_involutive bs'). f_equal. apply (lval_inj 256); [lia|by apply Forall_rev|by apply Forall_rev|by rewrite !rev_length|].
  by rewrite !lval_rev.
Qed.
Lemma horner_bounds bs : Forall is_byte bs -> 0 <= horner 256 bs < 256 ^ Z.of_nat (length bs).
Proof. intros H. rewrite <- lval_rev, <- rev_length. apply lval_bounds; [lia|]. by apply Forall_rev. Qed.
Lemma be_unique n bs x : Forall is_byte bs -> length bs = n -> horner 256 bs = x mod 256 ^ Z.of_nat n -> bs = be_bytes n x.
Proof. intros H1 H2 H3. apply horner_inj; [done|apply be_bytes_byte|by rewrite be_bytes_length|by rewrite horner_be]. Qed.
Lemma has_bytes_overwrite l off bs : has_bytes l off bs -> (off + length bs <= length l)%nat -> overwrite off bs l = l.
Proof.
  intros [_ H] Hl. apply list_eq. intros i. unfold overwrite. destruct (decide (i < off)%nat).
  - rewrite lookup_app_l by (rewrite take_length; lia). by rewrite lookup_take.
  - rewrite lookup_app_r by (rewrite take_length; lia). rewrite take_length, Nat.min_l by lia. destruct (decide (i - off < length bs)%nat) as [L|L].
    + rewrite lookup_app_l by (by rewrite fmap_length). rewrite list_lookup_fmap. destruct (lookup_lt_is_Some_2 bs (i - off)%nat L) as [c Hc]. rewrite Hc. cbn.
      rewrite <- (H _ _ Hc). f_equal. lia.
    + rewrite lookup_app_r by (rewrite fmap_length; lia). rewrite fmap_length, lookup_drop. f_equal. lia.
Qed.
Lemma has_overwrite l off bs : Forall is_byte bs -> (off <= length l)%nat -> has_bytes (overwrite off bs l) off bs.
Proof. intros H Hl. split; [done|]. intros i c Hc. by apply overwrite_lookup. Qed.

(** ** Two's complement in place *)
Lemma overwrite_mid l off (pre : list Z) x y (post : list Z) : (off + length pre + 1 + length post <= length l)%nat ->
  <[(off + length pre)%nat := Some y]> (overwrite off (pre ++ x :: post) l) = overwrite off (pre ++ y :: post) l.
Proof.
  intros H. unfold overwrite. rewrite !app_length. cbn [length]. rewrite !fmap_app, !fmap_cons, <- !app_assoc. cbn [app].
  rewrite insert_app_r_alt by (rewrite take_length; lia). rewrite take_length, Nat.min_l by lia. f_equal.
  rewrite insert_app_r_alt by (rewrite fmap_length; lia). rewrite fmap_length. f_equal. by replace (off + length pre - off - length pre)%nat with 0%nat by lia.
Qed.
Lemma wpR_comp2 (bs : list Z) : forall st σ X b l off post s (Q : unit -> state -> Prop),
  R st σ X -> cmem X !! b = Some (overwrite off (bs ++ post) l) -> (off + length bs + length post <= length l)%nat -> Forall is_byte bs -> 0 <= s <= 1 ->
  (forall st' bs', R st' σ (setb X b (overwrite off (bs' ++ post) l)) -> Forall is_byte bs' -> length bs' = length bs ->
     horner 256 bs' = (256 ^ Z.of_nat (length bs) - 1 - horner 256 bs + s) mod 256 ^ Z.of_nat (length bs) -> Q tt st') ->
  wp (comp2_loop (length bs) (b, Z.of_nat off + Z.of_nat (length bs) - 1) s) Q st.
Proof.
  induction bs as [|c bs IH] using rev_ind; intros st σ X b l off post s Q HR Hb Hl HB Hs HQ.
  - cbn [comp2_loop length]. apply wp_ret. apply (HQ st []); [by rewrite setb_id|constructor|done|]. cbn. by rewrite Z.mod_1_r.
  - apply Forall_app in HB as [HB Hc]. apply Forall_inv in Hc. rewrite app_length in *. cbn [length] in *. rewrite Nat.add_1_r in *. cbn [comp2_loop].
    rewrite <- app_assoc in Hb. cbn [app] in Hb.
    wb. eapply wpR_loadb; [exact HR|exact Hb|lia| |].
    { replace (Z.to_nat (Z.of_nat off + Z.of_nat (S (length bs)) - 1)) with (off + length bs)%nat by lia. apply overwrite_lookup; [|lia]. rewrite lookup_app_r by done. by rewrite Nat.sub_diag. }
    wb. eapply wpR_storeb; [exact HR|exact Hb|rewrite overwrite_length by (rewrite app_length; cbn [length]; lia); lia|]. intros st1 HR1.
    replace (Z.to_nat (Z.of_nat off + Z.of_nat (S (length bs)) - 1)) with (off + length bs)%nat in HR1 by lia. rewrite overwrite_mid in HR1 by lia.
    remember (255 - c + s) as t eqn:Et. unfold is_byte in Hc.
    replace (padd (b, Z.of_nat off + Z.of_nat (S (length bs)) - 1) (-1)) with (b, Z.of_nat off + Z.of_nat (length bs) - 1) by (unfold padd; simpl; f_equal; lia).
    assert (0 <= t / 256 <= 1) as Ht. { split; [apply Z.div_pos; lia|]. assert (t / 256 < 2); [apply Z.div_lt_upper_bound; lia|lia]. }
    eapply IH; [exact HR1|apply setb_lookup|cbn [length]; lia|done|done|]. intros st2 bs' HR2 HB' HL' HE'. rewrite setb_setb in HR2.
    apply (HQ st2 (bs' ++ [t mod 256])).
    + rewrite <- app_assoc. done.
    + apply Forall_app. split; [done|]. apply Forall_singleton. apply Z.mod_pos_bound. lia.
    + rewrite app_length. cbn [length]. lia.
    + rewrite !horner_snoc, HE'. rewrite Nat2Z.inj_succ, Z.pow_succ_r by lia. set (P := 256 ^ Z.of_nat (length bs)). assert (0 < P) as HP by (apply Z.pow_pos_nonneg; lia).
      set (h := horner 256 bs). rewrite (Z.mul_comm 256 P). rewrite (Z.mul_comm P 256), Z.rem_mul_r by lia.
      replace (256 * P - 1 - (h * 256 + c) + s) with (t + (P - 1 - h) * 256) by lia. rewrite Z.mod_add, Z.div_add by lia.
      replace (t / 256 + (P - 1 - h)) with (P - 1 - h + t / 256) by lia. lia.
Qed.
Lemma wpR_2comp st σ X b l off bs (Q : unit -> state -> Prop) :
  R st σ X -> cmem X !! b = Some (overwrite off bs l) -> (off + length bs <= length l)%nat -> Forall is_byte bs ->
  (forall st', R st' σ (setb X b (overwrite off (be_bytes (length bs) (- horner 256 bs)) l)) -> Q tt st') ->
  wp (s_2comp (b, Z.of_nat off) (Z.of_nat (length bs))) Q st.
Proof.
  intros HR Hb Hl HB HQ. unfold s_2comp. rewrite Nat2Z.id. unfold padd. cbn [fst snd].
  replace (Z.of_nat off + (Z.of_nat (length bs) - 1)) with (Z.of_nat off + Z.of_nat (length bs) - 1) by lia.
  eapply (wpR_comp2 bs _ _ _ _ _ _ []); [done|by rewrite app_nil_r|simpl; lia|done|lia|]. intros st' bs' HR' HB' HL' HE'. rewrite app_nil_r in HR'. apply HQ.
  rewrite <- (be_unique _ bs' (- horner 256 bs)); [done|done|done|]. rewrite HE'.
  replace (256 ^ Z.of_nat (length bs) - 1 - horner 256 bs + 1) with (- horner 256 bs + 1 * 256 ^ Z.of_nat (length bs)) by lia. apply Z.mod_add. pose proof (Z.pow_pos_nonneg 256 (Z.of_nat (length bs))). lia.
Qed.

(** ** The bytes of a number, least significant first *)
Fixpoint dbytes (top : bool) (i : nat) (d : Z) : list Z :=
  match i with
  | O => []
  | S i' => d mod 256 :: (if ((d / 256 =? 0) && top)%bool then [] else dbytes top i' (d / 256))
  end.
Fixpoint lebytes (ds : list Z) : list Z :=
  match ds with [] => [] | d :: r => dbytes (match r with [] => true | _ => false end) 4 d ++ lebytes r end.
Lemma lval_app r a b : 0 < r -> lval r (a ++ b) = lval r a + r ^ Z.of_nat (length a) * lval r b.
Proof.
  intros Hr. induction a as [|x a IH]; cbn [lval app length]; [rewrite Z.pow_0_r; lia|]. rewrite IH, Nat2Z.inj_succ, Z.pow_succ_r by lia. lia.
Qed.
Lemma dbytes_byte t i : forall d, Forall is_byte (dbytes t i d).
Proof. induction i as [|i IH]; intros d; cbn [dbytes]; constructor; [apply Z.mod_pos_bound; lia|]. destruct (_ && _)%bool; [constructor|apply IH]. Qed.
Lemma dbytes_val t i : forall d, 0 <= d < 256 ^ Z.of_nat i -> lval 256 (dbytes t i d) = d.
Proof.
  induction i as [|i IH]; intros d Hd; cbn [dbytes lval]. { change (256 ^ Z.of_nat 0) with 1 in Hd. lia. }
  rewrite Nat2Z.inj_succ, Z.pow_succ_r in Hd by lia. pose proof (Z.div_mod d 256 ltac:(lia)).
  destruct (Z.eqb_spec (d / 256) 0) as [E|E]; cbn [andb]; [destruct t; cbn [lval]; [lia|]|]; (rewrite IH; [lia|]); (split; [apply Z.div_pos; lia|apply Z.div_lt_upper_bound; lia]).
Qed.
Lemma dbytes_len i : forall d, length (dbytes false i d) = i.
Proof. induction i as [|i IH]; intros d; cbn [dbytes length]; [done|]. rewrite andb_false_r. by rewrite IH. Qed.
Lemma dbytes_min i : forall d, 0 <= d < 256 ^ Z.of_nat i -> (0 < i)%nat -> (1 <= length (dbytes true i d))%nat /\ (d = 0 \/ 256 ^ Z.of_nat (length (dbytes true i d) - 1) <= d) /\ (d = 0 -> length (dbytes true i d) = 1%nat).
Proof.
  induction i as [|i IH]; intros d Hd Hi; [lia|]. cbn [dbytes length]. rewrite andb_true_r. rewrite Nat2Z.inj_succ, Z.pow_succ_r in Hd by lia.
  destruct (Z.eqb_spec (d / 256) 0) as [E|E]; cbn [length]. { split; [lia|]. split; [|done]. change (256 ^ Z.of_nat (1 - 1)) with 1. lia. }
  destruct i as [|i]. { change (256 ^ Z.of_nat 0) with 1 in Hd. rewrite Z.div_small in E; lia. }
  assert (0 <= d / 256 < 256 ^ Z.of_nat (S i)) as Hq by (split; [apply Z.div_pos; lia|apply Z.div_lt_upper_bound; lia]).
  destruct (IH (d / 256) Hq ltac:(lia)) as (H1 & [H2|H2] & _); [done|]. split; [lia|]. split; [|intros ->; by rewrite Z.div_0_l in E]. right.
  set (L := length _) in *. replace (S L - 1)%nat with (S (L - 1)) by lia. rewrite Nat2Z.inj_succ, Z.pow_succ_r by lia.
  pose proof (Z.div_mod d 256 ltac:(lia)). pose proof (Z.mod_pos_bound d 256 ltac:(lia)). lia.
Qed.
Lemma lebytes_byte ds : Forall is_byte (lebytes ds).
Proof. induction ds as [|d ds IH]; cbn [lebytes]; [constructor|]. apply Forall_app. split; [apply dbytes_byte|done]. Qed.
Lemma lebytes_val ds : digs ds -> lval 256 (lebytes ds) = val ds.
Proof.
  induction ds as [|d ds IH]; intros H; [done|]. apply Forall_cons in H as [Hd H]. cbn [lebytes val]. rewrite lval_app, IH by (done || lia).
  red in Hd. rewrite dbytes_val by (change (256 ^ Z.of_nat 4) with RADIX; done). destruct ds as [|d' ds]; [cbn [val]; lia|]. rewrite dbytes_len. change (256 ^ Z.of_nat 4) with RADIX. lia.
Qed.
Lemma lebytes_min ds : canon ds -> digs ds -> (1 <= length (lebytes ds))%nat /\ (val ds = 0 -> length (lebytes ds) = 1%nat) /\ (0 < val ds -> 256 ^ Z.of_nat (length (lebytes ds) - 1) <= val ds).
Proof.
  intros [C1 C2] H. destruct (exists_last (l := ds)) as (l & d & ->). { intros ->. simpl in *. lia. }
  assert (lebytes (l ++ [d]) = flat_map (dbytes false 4) l ++ dbytes true 4 d) as E.
  { clear. induction l as [|x l IH]; [cbn [app lebytes flat_map]; by rewrite app_nil_r|]. cbn [app lebytes flat_map]. rewrite IH, app_assoc. destruct l; done. }
  assert (length (flat_map (dbytes false 4) l) = 4 * length l)%nat as EL.
  { clear. induction l as [|x l IH]; [done|]. cbn [flat_map length]. rewrite app_length, dbytes_len, IH. lia. }
  rewrite E, app_length, EL. apply digs_app in H as [Hl Hd]. apply Forall_cons in Hd as [Hd _]. red in Hd.
  destruct (dbytes_min 4 d Hd ltac:(lia)) as (M1 & M2 & M3). set (k := length (dbytes true 4 d)) in *. clearbody k.
  pose proof (val_bounds _ Hl) as Bl. rewrite val_app in *. cbn [val] in *. rewrite app_length in *. cbn [length] in *.
  assert (Bn (length l) = 256 ^ Z.of_nat (4 * length l)) as EB. { rewrite Bn_pow2. change 256 with (2 ^ 8). rewrite <- Z.pow_mul_r by lia. f_equal. lia. }
  split; [lia|]. split.
  - intros E0. destruct (decide (length l = 0%nat)) as [L0|L0].
    + destruct l; [|done]. cbn [length val] in *. change (Bn 0) with 1 in *. rewrite M3; lia.
    + specialize (C2 ltac:(lia)). replace (length l + 1 - 1)%nat with (length l) in C2 by lia. lia.
  - intros P. destruct (decide (d = 0)) as [->|D].
    + destruct (decide (length l = 0%nat)) as [L0|L0]; [destruct l; [cbn [val] in *; lia|done]|].
      specialize (C2 ltac:(lia)). replace (length l + 1 - 1)%nat with (length l) in C2 by lia. lia.
    + destruct M2 as [M2|M2]; [done|]. replace (4 * length l + k - 1)%nat with (4 * length l + (k - 1))%nat by lia. rewrite Nat2Z.inj_add, Z.pow_add_r by lia. rewrite <- EB.
      pose proof (Bn_pos (length l)). nia.
Qed.
Lemma pow256 n : 256 ^ Z.of_nat n = 2 ^ (8 * Z.of_nat n).
Proof. change 256 with (2 ^ 8). by rewrite <- Z.pow_mul_r by lia. Qed.
Lemma size_unique (B : nat -> Z) v n n' : (forall i j, (i <= j)%nat -> B i <= B j) ->
  ((1 <= n)%nat /\ v < B n /\ forall m, (1 <= m < n)%nat -> B m <= v) -> ((1 <= n')%nat /\ v < B n' /\ forall m, (1 <= m < n')%nat -> B m <= v) -> n = n'.
Proof.
  intros HB (A1 & A2 & A3) (B1 & B2 & B3). destruct (lt_eq_lt_dec n n') as [[L|L]|L]; [|done|].
  - specialize (B3 n ltac:(lia)). lia.
  - specialize (A3 n' ltac:(lia)). lia.
Qed.
Lemma unsigned_unique v n n' : unsigned_size v n -> unsigned_size v n' -> n = n'.
Proof. apply (size_unique (fun n => 256 ^ Z.of_nat n)). intros. apply Z.pow_le_mono_r; lia. Qed.
Lemma signed_unique v n n' : signed_size v n -> signed_size v n' -> n = n'.
Proof. apply (size_unique (fun n => 2 ^ (8 * Z.of_nat n - 1))). intros. apply Z.pow_le_mono_r; lia. Qed.
Lemma bitlen_lo v n : 1 <= n < bitlen v -> 2 ^ n <= Z.abs v.
Proof.
  unfold bitlen. destruct (Z.eqb_spec v 0) as [->|E]; [lia|]. intros H. transitivity (2 ^ Z.log2 (Z.abs v)); [apply Z.pow_le_mono_r; lia|]. apply Z.log2_spec. lia.
Qed.
Lemma unsigned_bitlen v : unsigned_size v (Z.to_nat ((bitlen v + 7) / 8)).
Proof.
  pose proof (bitlen_pos v) as P. pose proof (bitlen_pow v). pose proof (Z.div_mod (bitlen v + 7) 8 ltac:(lia)). pose proof (Z.mod_pos_bound (bitlen v + 7) 8 ltac:(lia)).
  split; [lia|]. split.
  - eapply Z.lt_le_trans; [done|]. rewrite pow256. apply Z.pow_le_mono_r; lia.
  - intros m Hm. rewrite pow256. apply bitlen_lo. lia.
Qed.
Lemma signed_bitlen v : signed_size v (Z.to_nat (bitlen v / 8 + 1)).
Proof.
  pose proof (bitlen_pos v) as P. pose proof (bitlen_pow v). pose proof (Z.div_mod (bitlen v) 8 ltac:(lia)). pose proof (Z.mod_pos_bound (bitlen v) 8 ltac:(lia)).
  split; [lia|]. split.
  - eapply Z.lt_le_trans; [done|]. apply Z.pow_le_mono_r; lia.
  - intros m Hm. apply bitlen_lo. lia.
Qed.
Lemma lebytes_size ds v : canon ds -> digs ds -> Z.abs v = val ds -> unsigned_size v (length (lebytes ds)).
Proof.
  intros C D E. destruct (lebytes_min _ C D) as (M1 & M2 & M3). pose proof (lval_bounds 256 (lebytes ds) ltac:(lia) (lebytes_byte ds)) as B. rewrite lebytes_val in B by done. unfold unsigned_size. rewrite E.
  split; [done|]. split; [lia|]. intros m Hm. pose proof (val_bounds _ D). destruct (decide (val ds = 0)) as [E0|E0]; [specialize (M2 E0); lia|].
  transitivity (256 ^ Z.of_nat (length (lebytes ds) - 1)); [apply Z.pow_le_mono_r; lia|apply M3; lia].
Qed.
Lemma le_take k : forall bs x, Forall is_byte bs -> lval 256 bs = x -> rev (take k bs) = be_bytes (k `min` length bs) x.
Proof.
  induction k as [|k IH]; intros bs x HB E; [done|]. destruct bs as [|c bs]; [done|]. apply Forall_cons in HB as [Hc HB]. cbn [take rev length lval] in *.
  rewrite <- Nat.succ_min_distr, be_bytes_S. subst x. red in Hc. rewrite (Z.add_comm c), (Z.mul_comm 256), Z.div_add_l, Z.div_small, Z.add_0_r by lia. rewrite (IH bs (lval 256 bs)) by done.
  rewrite Z.add_comm, Z.mod_add, Z.mod_small by lia. done.
Qed.
Lemma be_mod n x : be_bytes n (x mod 256 ^ Z.of_nat n) = be_bytes n x.
Proof.
  apply be_unique; [apply be_bytes_byte|apply be_bytes_length|]. rewrite horner_be. apply Z.mod_mod. pose proof (Z.pow_pos_nonneg 256 (Z.of_nat n)). lia.
Qed.

(** ** s_tobin *)
Lemma wpR_tobin_digit i : forall st σ X b l off (s : list Z) limit d uz (Q : Z * bool -> state -> Prop),
  R st σ X -> cmem X !! b = Some (overwrite off s l) -> (length s <= limit)%nat -> (off + limit <= length l)%nat ->
  (forall st', R st' σ (setb X b (overwrite off (s ++ take (limit - length s) (dbytes (uz =? 1) i d)) l)) ->
     Q (Z.of_nat (length s + ((limit - length s) `min` length (dbytes (uz =? 1) i d))), (limit - length s <? length (dbytes (uz =? 1)%Z i d))%nat) st') ->
  wp (tobin_digit i (b, Z.of_nat off) (Z.of_nat (length s)) (Z.of_nat limit) d uz) Q st.
Proof.
  induction i as [|i IH]; intros st σ X b l off s limit d uz Q HR Hb Hs Hl HQ; cbn [tobin_digit dbytes length] in *.
  { apply wp_ret. rewrite take_nil, app_nil_r, setb_id, Nat.min_0_r, Nat.add_0_r in HQ by done. by apply HQ. }
  rewrite Z.shiftr_div_pow2 by lia. change (2 ^ 8) with 256.
  destruct (Z.ltb_spec (Z.of_nat (length s)) (Z.of_nat limit)) as [L|L].
  2: { apply wp_ret. replace (limit - length s)%nat with 0%nat in HQ by lia. cbn [take] in HQ. rewrite app_nil_r, setb_id in HQ by done. rewrite Nat.min_0_l, Nat.add_0_r in HQ. by apply HQ. }
  wb. unfold padd at 1. cbn [fst snd]. eapply wpR_storeb; [done|done|rewrite overwrite_length by lia; lia|]. intros st1 HR1.
  replace (Z.to_nat (Z.of_nat off + Z.of_nat (length s))) with (off + length s)%nat in HR1 by lia. rewrite insert_overwrite in HR1 by lia.
  replace (limit - length s)%nat with (S (limit - S (length s))) in HQ by lia. cbn [take] in HQ.
  destruct ((d / 256 =? 0) && (uz =? 1))%bool.
  - apply wp_ret. cbn [length] in HQ. rewrite take_nil in HQ. replace (Z.of_nat (length s + S (limit - S (length s)) `min` 1)) with (Z.of_nat (length s) + 1) in HQ by lia. apply HQ. done.
  - replace (Z.of_nat (length s) + 1) with (Z.of_nat (length (s ++ [d mod 256]))) by (rewrite app_length; cbn [length]; lia).
    eapply IH; [exact HR1|apply setb_lookup|rewrite app_length; cbn [length]; lia|done|]. intros st2 HR2. rewrite setb_setb, <- app_assoc in HR2. cbn [app] in HR2.
    rewrite app_length in *. cbn [length] in *. replace (limit - (length s + 1))%nat with (limit - S (length s))%nat in * by lia.
    rewrite <- Nat.succ_min_distr in HQ. rewrite <- Nat.add_assoc. by apply HQ.
Qed.
Lemma wpR_tobin_loop o f b l off limit ds : forall st σ X dz (s : list Z) (i : nat) (Q : Z * Z -> state -> Prop),
  R st σ X -> σ !! o = Some f -> dz = (fl f, Z.of_nat i) -> (forall j d, ds !! j = Some d -> fc f !! (i + j)%nat = Some (Some d)) ->
  cmem X !! b = Some (overwrite off s l) -> (length s <= limit)%nat -> (off + limit <= length l)%nat ->
  (forall st' u, R st' σ (setb X b (overwrite off (s ++ take (limit - length s) (lebytes ds)) l)) -> (u = 0 <-> (length s + length (lebytes ds) <= limit)%nat) ->
     Q (Z.of_nat (length s + ((limit - length s) `min` length (lebytes ds))), u) st') ->
  wp (tobin_loop (length ds) dz (b, Z.of_nat off) (Z.of_nat (length s)) (Z.of_nat limit)) Q st.
Proof.
  induction ds as [|d ds IH]; intros st σ X dz s i Q HR Ho -> Hd Hb Hs Hl HQ.
  { cbn [tobin_loop length lebytes] in *. apply wp_ret. rewrite take_nil, app_nil_r, setb_id, Nat.min_0_r, Nat.add_0_r in HQ by done. apply HQ; [done|]. split; [lia|done]. }
  cbn [tobin_loop length].
  assert (1 <= length (lebytes (d :: ds)))%nat as N1. { cbn [lebytes]. cbn [dbytes]. rewrite app_length. cbn [length]. lia. }
  destruct (Z.ltb_spec (Z.of_nat (length s)) (Z.of_nat limit)) as [L|L].
  2: { apply wp_ret. replace (limit - length s)%nat with 0%nat in HQ by lia. cbn [take] in HQ. rewrite app_nil_r, setb_id in HQ by done. rewrite Nat.min_0_l, Nat.add_0_r in HQ.
       apply HQ; [done|]. split; lia. }
  wb. eapply wp_load. { pose proof (R_load _ _ _ _ _ i _ HR Ho ltac:(rewrite <- (Nat.add_0_r i); by apply (Hd 0%nat))) as HLd. unfold padd in HLd. cbn [fst snd] in HLd. rewrite Z.add_0_l in HLd. exact HLd. }
  wb. eapply wpR_tobin_digit; [done..|]. intros st1 HR1. cbn [fst snd].
  cbn [lebytes] in *. set (t := match ds with [] => true | _ => false end) in *.
  assert ((Z.of_nat (S (length ds)) =? 1) = t) as Et. { unfold t. destruct ds; [done|]. apply Z.eqb_neq. cbn [length]. lia. }
  rewrite Et in *. set (B := dbytes t 4 d) in *. set (k := (limit - length s)%nat) in *. rewrite app_length in *.
  destruct (Nat.ltb_spec k (length B)) as [LB|LB].
  - apply wp_ret. rewrite Nat.min_l in * by lia. rewrite take_app_le in HQ by lia. apply HQ; [done|]. unfold k in *. split; lia.
  - rewrite (Nat.min_r k) by lia. rewrite take_ge in HR1 by lia.
    rewrite <- app_length. eapply (IH _ _ _ _ (s ++ B) (S i)); [exact HR1|exact Ho|unfold padd; cbn [fst snd]; f_equal; lia| |apply setb_lookup|rewrite app_length; unfold k in *; lia|done|].
    { intros j d' Hj. replace (S i + j)%nat with (i + S j)%nat by lia. by apply Hd. }
    intros st2 u HR2 Hu. rewrite setb_setb in HR2. rewrite app_length in *. 
    replace (limit - (length s + length B))%nat with (k - length B)%nat in * by (unfold k in *; lia).
    rewrite take_app_ge, app_assoc in HQ by lia.
    replace (length s + length B + (k - length B) `min` length (lebytes ds))%nat with (length s + k `min` (length B + length (lebytes ds)))%nat by lia.
    apply HQ; [done|]. rewrite Hu. lia.
Qed.
Lemma wpR_rev_over n st σ X b l off (m : list Z) h t (Q : unit -> state -> Prop) :
  R st σ X -> cmem X !! b = Some (overwrite off m l) -> (off + length m <= length l)%nat -> (length m <= n)%nat ->
  h = (b, Z.of_nat off) -> t = (b, Z.of_nat off + Z.of_nat (length m) - 1) ->
  (forall st', R st' σ (setb X b (overwrite off (rev m) l)) -> Q tt st') -> wp (rev_loop n h t) Q st.
Proof.
  intros HR Hb Ho Hn -> -> HQ. unfold overwrite in *.
  assert (length (take off l) = off) as Lt by (rewrite take_length; lia). rewrite <- Lt at 1 2.
  eapply wpR_rev; [done..|]. intros st' HR'. apply HQ. rewrite rev_length. done.
Qed.
Lemma signed_of_unsigned v n : unsigned_size v n ->
  (Z.abs v < 2 ^ (8 * Z.of_nat n - 1) -> signed_size v n) /\ (2 ^ (8 * Z.of_nat n - 1) <= Z.abs v -> signed_size v (n + 1)).
Proof.
  intros (H1 & H2 & H3). assert (forall m, (1 <= m < n)%nat -> 2 ^ (8 * Z.of_nat m - 1) <= Z.abs v) as H3'.
  { intros m Hm. etransitivity; [|apply (H3 m Hm)]. rewrite pow256. apply Z.pow_le_mono_r; lia. }
  rewrite pow256 in H2. split; intros H; (split; [lia|split]).
  - done.
  - done.
  - eapply Z.lt_le_trans; [done|]. apply Z.pow_le_mono_r; lia.
  - intros m Hm. destruct (decide (m = n)) as [->|]; [done|]. apply H3'. lia.
Qed.
Lemma shr7 c : is_byte c -> (Z.shiftr c 7 =? 0) = (c <? 128).
Proof.
  intros H. red in H. rewrite Z.shiftr_div_pow2 by lia. change (2 ^ 7) with 128. destruct (Z.ltb_spec c 128).
  - apply Z.eqb_eq. apply Z.div_small. lia.
  - apply Z.eqb_neq. pose proof (Z.div_le_lower_bound c 128 1). lia.
Qed.
Lemma wpR_tobin st σ X o f z ds v b l off limit (pad : bool) n (Q : Z * Z -> state -> Prop) :
  R st σ X -> σ !! o = Some f -> goodw f z ds -> Z.abs v = zm z -> cmem X !! b = Some l -> (off + limit <= length l)%nat ->
  (if pad then (1 <= limit)%nat /\ signed_size v n else unsigned_size v n) ->
  (forall st', R st' σ (setb X b (overwrite off (be_bytes (limit `min` n) (Z.abs v)) l)) ->
     Q (if (n <=? limit)%nat then MP_OK else MP_TRUNC, Z.of_nat (limit `min` n)) st') ->
  wp (s_tobin o (b, Z.of_nat off) (Z.of_nat limit) pad) Q st.
Proof.
  intros HR Ho G Hv Hb Hl Hn HQ. unfold s_tobin. wb. eapply wpR_used; [done..|]. rewrite (goodw_u _ _ _ G), Nat2Z.id. wb. eapply wpR_digits; [done..|].
  pose proof (g_canon _ _ _ G) as C. pose proof (goodw_dig _ _ _ G) as D. rewrite <- (g_val _ _ _ G) in Hv. pose proof (lebytes_size ds v C D Hv) as U.
  pose proof (lebytes_byte ds) as BB. pose proof (lebytes_val ds D) as BV. 
  assert (forall i d, ds !! i = Some d -> fc f !! (0 + i)%nat = Some (Some d)) as Hds.
  { intros i d Hi. destruct (g_view _ _ _ G) as [_ [rr Vc] _]. rewrite Vc. apply lookup_app_l_Some. rewrite list_lookup_fmap. cbn [Nat.add]. by rewrite Hi. }
  wb. change 0 with (Z.of_nat (length (@nil Z))) at 2. eapply (wpR_tobin_loop o f b l off limit ds _ _ _ _ [] 0); [exact HR|exact Ho|done|exact Hds|by rewrite overwrite_nil|simpl; lia|done|].
  cbn [length app]. rewrite Nat.sub_0_r. intros st1 u HR1 Hu. cbn [Nat.add] in *. set (B := lebytes ds) in *. cbn [fst snd].
  wb. set (pu := (Z.of_nat (limit `min` length B), u)).
  assert (forall st2 B', R st2 σ (setb X b (overwrite off B' l)) -> (length B' = limit `min` n)%nat -> rev B' = be_bytes (limit `min` n) (Z.abs v) ->
    forall u', (u' = 0 <-> (n <= limit)%nat) -> 
    wp (rev_loop (Z.to_nat (fst (Z.of_nat (length B'), u'))) (b, Z.of_nat off) (padd (b, Z.of_nat off) (fst (Z.of_nat (length B'), u') - 1));;
        Ret (if snd (Z.of_nat (length B'), u') =? 0 then MP_OK else MP_TRUNC, fst (Z.of_nat (length B'), u')))%prog Q st2) as Fin.
  { intros st2 B' HR2 L' E' u' Hu'. cbn [fst snd]. wb. eapply wpR_rev_over; [exact HR2|apply setb_lookup|lia|lia|done|unfold padd; cbn [fst snd]; f_equal; lia|].
    intros st3 HR3. rewrite setb_setb, E' in HR3. apply wp_ret. rewrite L'.
    replace (u' =? 0) with (n <=? limit)%nat; [by apply HQ|]. destruct (Nat.leb_spec n limit), (Z.eqb_spec u' 0); tauto || (exfalso; lia) || idtac. }
  destruct pad; cycle 1.
  { apply wp_ret. assert (n = length B) as -> by (by eapply unsigned_unique). unfold pu. rewrite <- (take_length B limit). apply Fin.
    - done.
    - apply take_length.
    - rewrite Hv. by apply le_take.
    - done. }
  destruct Hn as [H1 Hn]. destruct (signed_of_unsigned _ _ U) as [S1 S2]. assert (1 <= length B)%nat as B1 by apply U.
  destruct (exists_last (l := take limit B)) as (T & c & ET). { intros E. apply (f_equal length) in E. rewrite take_length in E. cbn [length] in E. lia. }
  assert (length T + 1 = limit `min` length B)%nat as LT. { rewrite <- (take_length B limit), ET, app_length. cbn [length]. lia. }
  assert (Forall is_byte (take limit B)) as BT by (by apply Forall_take). rewrite ET in BT. apply Forall_app in BT as [BT Hc]. apply Forall_inv in Hc.
  rewrite ET in HR1. unfold pu. cbn [fst snd]. wb. unfold padd at 1. cbn [fst snd]. eapply wpR_loadb; [exact HR1|apply setb_lookup|lia| |].
  { replace (Z.to_nat (Z.of_nat off + (Z.of_nat (limit `min` length B) - 1))) with (off + length T)%nat by lia. apply overwrite_lookup; [|lia]. by rewrite list_lookup_middle. }
  rewrite shr7 by done.
  assert ((length B <= limit)%nat -> Z.abs v = lval 256 T + 256 ^ Z.of_nat (length T) * c /\ length B = (length T + 1)%nat) as Vc.
  { intros L. rewrite Hv, <- BV. rewrite take_ge in ET by lia. rewrite ET, lval_snoc. split; [done|]. rewrite app_length. done. }
  pose proof (lval_bounds 256 T ltac:(lia) BT) as LB.
  assert (forall k, 2 ^ (8 * Z.of_nat (k + 1) - 1) = 256 ^ Z.of_nat k * 128) as PW. { intros k. rewrite pow256. change 128 with (2 ^ 7). rewrite <- Z.pow_add_r by lia. f_equal. lia. }
  red in Hc. destruct (Z.ltb_spec c 128) as [C7|C7].
  - apply wp_ret. destruct (decide (length B <= limit)%nat) as [L|L].
    + destruct (Vc L) as [V1 V2]. assert (n = length B) as ->. { eapply signed_unique; [done|]. apply S1. rewrite V2, PW. nia. }
      rewrite <- (take_length B limit). rewrite ET. apply Fin; [done|rewrite <- ET; apply take_length|rewrite <- ET, Hv; by apply le_take|done].
    + assert (length B <= n)%nat as LN. { destruct (decide (Z.abs v < 2 ^ (8 * Z.of_nat (length B) - 1))); [rewrite (signed_unique v n (length B)); auto|rewrite (signed_unique v n (length B + 1)); auto; [lia|apply S2; lia]]. }
      rewrite <- (take_length B limit), ET. apply Fin; [done|rewrite <- ET, take_length; lia| |rewrite Hu; lia].
      rewrite <- ET, Hv. rewrite (le_take _ _ (val ds)) by done. f_equal. lia.
  - destruct (decide (length B <= limit)%nat) as [L|L].
    + destruct (Vc L) as [V1 V2]. assert (n = length B + 1)%nat as ->. { eapply signed_unique; [done|]. apply S2. rewrite V2, PW. nia. }
      destruct (Z.ltb_spec (Z.of_nat (limit `min` length B)) (Z.of_nat limit)) as [L2|L2].
      * wb. unfold padd at 1. cbn [fst snd]. eapply wpR_storeb; [exact HR1|apply setb_lookup|rewrite overwrite_length by (rewrite app_length; cbn [length]; lia); lia|]. intros st2 HR2. rewrite setb_setb in HR2. apply wp_ret.
        replace (Z.to_nat (Z.of_nat off + Z.of_nat (limit `min` length B))) with (off + length (T ++ [c]))%nat in HR2 by (rewrite app_length; cbn [length]; lia).
        rewrite insert_overwrite in HR2 by (rewrite app_length; cbn [length]; lia). rewrite take_ge in ET by lia. rewrite <- ET in HR2.
        replace (Z.of_nat (limit `min` length B) + 1) with (Z.of_nat (length (B ++ [0]))) by (rewrite app_length; cbn [length]; lia).
        apply Fin; [done|rewrite app_length; cbn [length]; lia| |rewrite Hu; lia].
        rewrite <- (take_ge (B ++ [0]) (length B + 1)) by (rewrite app_length; cbn [length]; lia).
        rewrite (le_take _ _ (Z.abs v)); [|apply Forall_app; split; [done|repeat constructor; lia]|rewrite lval_snoc, Hv, BV; lia]. f_equal. rewrite app_length. cbn [length]. lia.
      * apply wp_ret. rewrite <- (take_length B limit), ET. apply Fin; [done|rewrite <- ET, take_length; lia| |lia].
        rewrite <- ET, Hv. rewrite (le_take _ _ (val ds)) by done. f_equal. lia.
    + assert (length B <= n)%nat as LN. { destruct (decide (Z.abs v < 2 ^ (8 * Z.of_nat (length B) - 1))); [rewrite (signed_unique v n (length B)); auto|rewrite (signed_unique v n (length B + 1)); auto; [lia|apply S2; lia]]. }
      destruct (Z.ltb_spec (Z.of_nat (limit `min` length B)) (Z.of_nat limit)) as [L2|L2]; [lia|].
      apply wp_ret. rewrite <- (take_length B limit), ET. apply Fin; [done|rewrite <- ET, take_length; lia| |lia].
      rewrite <- ET, Hv. rewrite (le_take _ _ (val ds)) by done. f_equal. lia.
Qed.
Lemma wpV_to_unsigned (st : state) (V : gmap oid Z) (X : ctx) o v b l off limit n (Q : Z -> state -> Prop) :
  RV st V X -> V !! o = Some v -> cmem X !! b = Some l -> (off + limit <= length l)%nat -> unsigned_size v n ->
  (forall st', RV st' V (setb X b (overwrite off (be_bytes (limit `min` n) (Z.abs v)) l)) -> Q (if (n <=? limit)%nat then MP_OK else MP_TRUNC) st') ->
  wp (mp_int_to_unsigned o (b, Z.of_nat off) (Z.of_nat limit)) Q st.
Proof.
  intros (ζ & (σ & HR & Hz) & Hv) Ho Hb Hl Hn HQ. destruct (relv_some _ _ _ _ Hv Ho) as (z & Hzz & <- & _). destruct (relz_get _ _ _ _ Hz Hzz) as (f & ds & Hf & G).
  assert (0 <= zm z) as Z0 by (apply (good_m0 f); by eexists).
  unfold mp_int_to_unsigned. wb. eapply (wpR_tobin _ _ _ _ _ _ _ (zval z)); [done|done|done|by apply abs_zval|done|done|done|]. intros st' HR'. cbn [fst]. apply wp_ret, HQ.
  exists ζ. split; [|done]. by exists σ.
Qed.
Lemma wpV_to_binary (st : state) (V : gmap oid Z) (X : ctx) o v b l off limit n (Q : Z -> state -> Prop) :
  RV st V X -> V !! o = Some v -> cmem X !! b = Some l -> (off + limit <= length l)%nat -> (1 <= limit)%nat -> signed_size v n ->
  (forall st', RV st' V (setb X b (overwrite off (be_bytes (limit `min` n) v) l)) -> Q (if (n <=? limit)%nat then MP_OK else MP_TRUNC) st') ->
  wp (mp_int_to_binary o (b, Z.of_nat off) (Z.of_nat limit)) Q st.
Proof.
  intros (ζ & (σ & HR & Hz) & Hv) Ho Hb Hl H1 Hn HQ. destruct (relv_some _ _ _ _ Hv Ho) as (z & Hzz & <- & Nz & _). destruct (relz_get _ _ _ _ Hz Hzz) as (f & ds & Hf & G).
  assert (0 <= zm z) as Z0 by (apply (good_m0 f); by eexists). pose proof (g_bit _ _ _ G) as Hbit.
  unfold mp_int_to_binary. wb. eapply (wpR_tobin _ _ _ _ _ _ _ (zval z)); [done|done|done|by apply abs_zval|done|done|done|]. intros st' HR'. cbn [fst snd].
  wb. eapply wpR_sign; [exact HR'|done|]. rewrite (g_sign _ _ _ G). unfold MP_NEG. set (k := (limit `min` n)%nat) in *.
  destruct (Z.eqb_spec (zs z) 1) as [E|E].
  - wb. rewrite <- (be_bytes_length k (Z.abs (zval z))) at 1.
    eapply wpR_2comp; [exact HR'|apply setb_lookup|rewrite be_bytes_length; unfold k; lia|apply be_bytes_byte|]. intros st2 HR2. rewrite setb_setb, be_bytes_length, horner_be in HR2.
    apply wp_ret, HQ. exists ζ. split; [|done]. exists σ. split; [|done].
    assert (be_bytes k (- (Z.abs (zval z) mod 256 ^ Z.of_nat k)) = be_bytes k (zval z)) as <-; [|done].
    rewrite <- (be_mod k (zval z)), <- (be_mod k (- _)). f_equal. rewrite abs_zval by done. unfold zval. rewrite E. change (1 =? 0) with false. cbv iota.
    pose proof (Z.pow_pos_nonneg 256 (Z.of_nat k)). set (P := 256 ^ _) in *. rewrite <- (Z.sub_0_l (_ mod _)), <- (Z.sub_0_l (zm z)). apply Zminus_mod_idemp_r.
  - wb. apply wp_ret. apply wp_ret, HQ. exists ζ. split; [|done]. exists σ. split; [|done].
    replace (Z.abs (zval z)) with (zval z) in HR'; [done|]. rewrite abs_zval by done. unfold zval. destruct Hbit as [-> | ?]; done.
Qed.
Lemma wpV_unsigned_len (st : state) (V : gmap oid Z) (X : ctx) o v n (Q : Z -> state -> Prop) :
  RV st V X -> V !! o = Some v -> unsigned_size v n -> Q (Z.of_nat n) st -> wp (mp_int_unsigned_len o) Q st.
Proof.
  intros HV Ho Hn HQ. unfold mp_int_unsigned_len. wb. eapply wpV_count_bits; [done..|]. pose proof (bitlen_pos v). destruct (Z.leb_spec (bitlen v) 0); [lia|]. apply wp_ret.
  rewrite (unsigned_unique _ _ _ Hn (unsigned_bitlen v)) in HQ. rewrite Z2Nat.id in HQ by (apply Z.div_pos; lia). done.
Qed.
Lemma wpV_binary_len (st : state) (V : gmap oid Z) (X : ctx) o v n (Q : Z -> state -> Prop) :
  RV st V X -> V !! o = Some v -> signed_size v n -> Q (Z.of_nat n) st -> wp (mp_int_binary_len o) Q st.
Proof.
  intros HV Ho Hn HQ. unfold mp_int_binary_len. wb. eapply wpV_count_bits; [done..|]. pose proof (bitlen_pos v). destruct (Z.leb_spec (bitlen v) 0); [lia|].
  wb. eapply wpV_unsigned_len; [done..|apply unsigned_bitlen|]. apply wp_ret.
  rewrite (signed_unique _ _ _ Hn (signed_bitlen v)) in HQ. rewrite Z2Nat.id in HQ by (pose proof (Z.div_pos (bitlen v) 8); lia). rewrite Z2Nat.id by (apply Z.div_pos; lia).
  pose proof (Z.div_mod (bitlen v) 8). pose proof (Z.mod_pos_bound (bitlen v) 8). pose proof (Z.div_mod (bitlen v + 7) 8). pose proof (Z.mod_pos_bound (bitlen v + 7) 8).
  replace (bitlen v / 8 + 1) with (if (bitlen v + 7) / 8 * 8 =? bitlen v then (bitlen v + 7) / 8 + 1 else (bitlen v + 7) / 8) in HQ; [done|].
  destruct (Z.eqb_spec ((bitlen v + 7) / 8 * 8) (bitlen v)); lia.
Qed.

(** ** Reading bytes *)
Lemma horner_cons r c bs : 0 < r -> horner r (c :: bs) = c * r ^ Z.of_nat (length bs) + horner r bs.
Proof. intros Hr. rewrite <- (lval_rev r (c :: bs)). cbn [rev]. rewrite lval_snoc, lval_rev, rev_length. lia. Qed.
Lemma wpR_byte {A} st σ X o f z l b off lb c (pd : prog ptr) (k : prog A) (Q : A -> state -> Prop) :
  (forall st' F (Q' : ptr -> state -> Prop), R st' (<[o := F]> σ) X -> fl F = fl f -> Q' (fl f, 0) st' -> wp pd Q' st') ->
  R st σ X -> σ !! o = Some f -> goodw f z l -> zo z = None -> cmem X !! b = Some lb -> lb !! off = Some (Some c) -> is_byte c ->
  zm z * 256 + c < Bn (length (fc f)) ->
  (forall st' F, R st' (<[o := F]> σ) X -> good F (zput z (zs z) (zm z * 256 + c)) -> fl F = fl f -> (length (fc f) <= length (fc F))%nat -> wp k Q st') ->
  wp (s_qmul o 8;; dz <- pd; v <- Load dz; x <- Load (b, Z.of_nat off); Store dz (Z.lor v x);; k)%prog Q st.
Proof.
  intros Hpd HR Ho G Hown Hb Hc Bc Hlt HQ. pose proof (goodw_len _ _ _ _ _ _ _ HR Ho G) as [L1 L2]. red in Bc.
  assert (0 <= zm z) as Z0 by (apply (good_m0 f); by eexists).
  wb. eapply (wpR_qmul _ _ _ _ _ z l 8); [done|done|done|done|mx|]. intros st1 F ds HR1 Cds Vds VF K Hs Hfl. rewrite (g_val _ _ _ G) in Vds. change (2 ^ 8) with 256 in Vds.
  assert (fl F = fl f) as EL. { apply Hfl; [lia|]. apply ndig_le; [lia|lia]. }
  wb. eapply Hpd; [exact HR1|done|]. rewrite <- EL. wb. destruct ds as [|d ds]; [destruct Cds as [Cds _]; simpl in Cds; lia|]. destruct VF as [Vu [rr Vc] Vd].
  eapply wp_load. { eapply R_load0; [exact HR1|apply lookup_insert|]. by rewrite Vc. }
  wb. eapply wpR_loadb; [exact HR1|done|lia|by rewrite Nat2Z.id|].
  apply Forall_cons in Vd as [Dd Vd]. red in Dd.
  assert (d mod 256 = 0) as M0. { cbn [val] in Vds. replace d with (zm z * 256 - RADIX * val ds) by lia. change RADIX with (2 ^ 24 * 256). replace (_ - _) with ((zm z - 2 ^ 24 * val ds) * 256) by lia. apply Z.mod_mul. lia. }
  assert (Z.lor d c = d + c) as EO. { replace d with (Z.shiftl (d / 256) 8) at 1; [rewrite lor_shl by (change (2^8) with 256; lia)|rewrite Z.shiftl_mul_pow2 by lia]; change (2 ^ 8) with 256; pose proof (Z.div_mod d 256); lia. }
  rewrite EO. assert (dig (d + c)) as Ddc. { red. pose proof (Z.div_mod d 256 ltac:(lia)). change RADIX with (2 ^ 24 * 256) in *. lia. }
  wb. eapply wp_store; [eapply R_load0; [exact HR1|apply lookup_insert|by rewrite Vc]|]. rewrite <- wr_1. pose proof (R_wr0 _ _ _ o F [d + c] HR1 (lookup_insert _ _ _) ltac:(rewrite Vc; simpl; lia)) as HR2.
  rewrite insert_insert in HR2. eapply HQ; [exact HR2| |done|].
  - assert (keeps f (Fo (fs F) (fu F) ((Some <$> [d + c]) ++ drop (length [d + c]) (fc F)) (fl F))) as K2.
    { assert (keeps F (Fo (fs F) (fu F) ((Some <$> [d + c]) ++ drop (length [d + c]) (fc F)) (fl F))) as K3 by (apply keeps_wr0; [by apply Forall_singleton|rewrite Vc; simpl; lia]).
      eapply keeps_trans; done. }
    eapply (good_intro f z _ (d + c :: ds)); [by eexists|exact K2| | | | |apply G].
    + constructor; cbn [fu fc]; [done| |by constructor]. rewrite Vc. cbn. by exists rr.
    + destruct Cds as [C1 C2]. split; [done|]. cbn [length val] in *. intros HL. specialize (C2 HL). lia.
    + cbn [val] in *. lia.
    + cbn [fs]. rewrite Hs. apply G.
  - cbn [fc]. rewrite app_length, drop_length, fmap_length. cbn [length]. pose proof (k_len _ _ K). rewrite Vc in *. simpl in *. lia.
Qed.
Lemma wpR_read_bytes bs : forall st σ X o f z b off lb (Q : unit -> state -> Prop),
  R st σ X -> σ !! o = Some f -> good f z -> zo z = None -> cmem X !! b = Some lb -> has_bytes lb off bs ->
  zm z * 256 ^ Z.of_nat (length bs) + horner 256 bs < Bn (length (fc f)) ->
  (forall st' F, R st' (<[o := F]> σ) X -> good F (zput z (zs z) (zm z * 256 ^ Z.of_nat (length bs) + horner 256 bs)) -> Q tt st') ->
  wp (read_bytes (length bs) o (fl f, 0) (b, Z.of_nat off)) Q st /\ wp (read_ubytes (length bs) o (b, Z.of_nat off)) Q st.
Proof.
  induction bs as [|c bs IH]; intros st σ X o f z b off lb Q HR Ho G Hown Hb [HB Hl] Hlt HQ.
  { cbn [read_bytes read_ubytes length horner] in *. change (256 ^ Z.of_nat 0) with 1 in HQ. change (horner 256 []) with 0 in HQ. rewrite Z.mul_1_r, Z.add_0_r in HQ.
    assert (Q tt st); [|split; by apply wp_ret]. apply (HQ st f); [by rewrite insert_id|]. by rewrite zput_id. }
  cbn [length] in *. rewrite Nat2Z.inj_succ, Z.pow_succ_r in * by lia. rewrite horner_cons in * by lia. set (P := 256 ^ _) in *. assert (0 < P) by (apply Z.pow_pos_nonneg; lia).
  pose proof HB as HB'. apply Forall_cons in HB' as [Bc HB']. pose proof (horner_bounds _ HB') as Hh. pose proof (good_m0 _ _ G) as Z0. red in Bc.
  destruct G as [l G]. pose proof (Hl 0%nat c eq_refl) as Hc. rewrite Nat.add_0_r in Hc. fold P in Hh.
  assert (zm z * 256 + c < Bn (length (fc f))) as HL1 by nia.
  assert (forall st' F, R st' (<[o := F]> σ) X -> good F (zput z (zs z) (zm z * 256 + c)) -> fl F = fl f -> (length (fc f) <= length (fc F))%nat ->
    wp (read_bytes (length bs) o (fl f, 0) (padd (b, Z.of_nat off) 1)) Q st' /\ wp (read_ubytes (length bs) o (padd (b, Z.of_nat off) 1)) Q st') as Step.
  { intros st' F HR' G' EF LF. rewrite <- EF. replace (padd (b, Z.of_nat off) 1) with (b, Z.of_nat (S off)) by (unfold padd; cbn [fst snd]; f_equal; lia).
    eapply IH; [exact HR'|apply lookup_insert|exact G'|done|exact Hb| | |].
    - split; [done|]. intros i e Hi. replace (S off + i)%nat with (off + S i)%nat by lia. by apply Hl.
    - cbn [zm zput]. fold P. pose proof (Bn_le _ _ LF). lia.
    - cbn [zm zs zput]. fold P. intros st2 F2 HR2 G2. rewrite insert_insert in HR2. eapply HQ; [exact HR2|].
      replace (zput (zput z (zs z) (zm z * 256 + c)) (zs z) ((zm z * 256 + c) * P + horner 256 bs)) with (zput z (zs z) (zm z * (256 * P) + (c * P + horner 256 bs))) in G2; [done|]. unfold zput. cbn. f_equal. lia. }
  split; cbn [read_bytes read_ubytes].
  - apply (wpR_byte st σ X o f z l b off lb c (Ret (fl f, 0)) (read_bytes (length bs) o (fl f, 0) (padd (b, Z.of_nat off) 1))); [|done|done|exact G|done|done|exact Hc|exact Bc|exact HL1|].
    + intros st' F Q' _ _ H'. by apply wp_ret.
    + intros st' F HR' G' EF LF. by apply (Step st' F).
  - eapply (wpR_byte st σ X o f z l b off lb c (get_digits o) (read_ubytes (length bs) o (padd (b, Z.of_nat off) 1))); [|done|done|exact G|done|done|exact Hc|exact Bc|exact HL1|].
    + intros st' F Q' HR' EF H'. eapply wpR_digits; [exact HR'|apply lookup_insert|]. by rewrite EF.
    + intros st' F HR' G' EF LF. by apply (Step st' F).
Qed.
Lemma wpR_read_b st σ X o f z b off lb bs (Q : unit -> state -> Prop) :
  R st σ X -> σ !! o = Some f -> good f z -> zo z = None -> cmem X !! b = Some lb -> has_bytes lb off bs ->
  zm z * 256 ^ Z.of_nat (length bs) + horner 256 bs < Bn (length (fc f)) ->
  (forall st' F, R st' (<[o := F]> σ) X -> good F (zput z (zs z) (zm z * 256 ^ Z.of_nat (length bs) + horner 256 bs)) -> Q tt st') ->
  wp (read_bytes (length bs) o (fl f, 0) (b, Z.of_nat off)) Q st.
Proof. intros. by eapply wpR_read_bytes. Qed.
Lemma wpR_read_u st σ X o f z b off lb bs (Q : unit -> state -> Prop) :
  R st σ X -> σ !! o = Some f -> good f z -> zo z = None -> cmem X !! b = Some lb -> has_bytes lb off bs ->
  zm z * 256 ^ Z.of_nat (length bs) + horner 256 bs < Bn (length (fc f)) ->
  (forall st' F, R st' (<[o := F]> σ) X -> good F (zput z (zs z) (zm z * 256 ^ Z.of_nat (length bs) + horner 256 bs)) -> Q tt st') ->
  wp (read_ubytes (length bs) o (b, Z.of_nat off)) Q st.
Proof. intros. by eapply wpR_read_bytes. Qed.
Lemma has_bytes_len l off bs : has_bytes l off bs -> bs <> [] -> (off + length bs <= length l)%nat.
Proof.
  intros [_ H] N. destruct (exists_last N) as (T & c & ->). assert ((T ++ [c]) !! length T = Some c) as HT by (by rewrite list_lookup_middle).
  apply H, lookup_lt_Some in HT. rewrite app_length. cbn [length]. lia.
Qed.
Lemma need_room n : 0 <= n -> n * 8 <= 2 ^ 31 - 1 -> 0 <= u32 ((n * 8 + 31) / 32) < RADIX - 1 /\ 256 ^ n <= Bn (Z.to_nat (u32 ((n * 8 + 31) / 32))).
Proof.
  intros H0 Hn. assert (0 <= (n * 8 + 31) / 32) by (apply Z.div_pos; lia). assert ((n * 8 + 31) / 32 < 134217728) by (apply Z.div_lt_upper_bound; lia).
  rewrite u32_id by mx. split; [mx|]. rewrite Bn_pow2, Z2Nat.id by lia. rewrite <- (Z2Nat.id n) at 1 by lia. rewrite pow256, Z2Nat.id by lia. apply Z.pow_le_mono_r; [lia|].
  pose proof (Z.div_mod (n * 8 + 31) 32). pose proof (Z.mod_pos_bound (n * 8 + 31) 32). lia.
Qed.
Lemma wpV_read_unsigned (st : state) (V : gmap oid Z) (X : ctx) o b l off bs (Q : Z -> state -> Prop) :
  RV st V X -> is_Some (V !! o) -> cmem X !! b = Some l -> has_bytes l off bs -> bs <> [] -> Z.of_nat (length bs) * 8 < 2 ^ 31 ->
  (forall st', RV st' (<[o := horner 256 bs]> V) X -> Q MP_OK st') ->
  wp (mp_int_read_unsigned o (b, Z.of_nat off) (Z.of_nat (length bs))) Q st.
Proof.
  intros (ζ & (σ & HR & Hz) & Hv) [v Ho] Hb HB N Hn HQ. destruct (relv_some _ _ _ _ Hv Ho) as (z & Hzz & <- & Nz & Oz). destruct (relz_get _ _ _ _ Hz Hzz) as (f & ds & Hf & G).
  assert (0 < length bs)%nat by (destruct bs; [done|simpl; lia]).
  unfold mp_int_read_unsigned. wb. apply wp_assert; [lia|]. wb. unfold bytes_need.
  destruct (Z.gtb_spec (Z.of_nat (length bs) * 8) (2 ^ 31 - 1)); [lia|]. apply wp_ret.
  destruct (need_room (Z.of_nat (length bs)) ltac:(lia) ltac:(lia)) as [NR1 NR2]. set (need := u32 _) in *.
  wb. eapply wpR_padg; [done|done|done|done|done|]. intros st1 F HR1 GF K LF _. cbn [negb].
  wb. eapply wpR_zero; [exact HR1|apply lookup_insert|]. intros st2 HR2. rewrite insert_insert in HR2.
  assert (good F z) as GF' by (by eexists). pose proof (good_digit _ _ _ _ _ _ 0 0 HR1 (lookup_insert _ _ _) GF' dig_0 ltac:(lia)) as G0.
  pose proof (horner_bounds bs (proj1 HB)) as Hh. pose proof (R_len _ _ _ HR1 o F (lookup_insert _ _ _)) as LF'.
  rewrite Nat2Z.id. wb. eapply wpR_read_u; [exact HR2|apply lookup_insert|exact G0|exact Oz|exact Hb|exact HB| |].
  { cbn [zm zput fc]. rewrite Z.mul_0_l, Z.add_0_l. eapply Z.lt_le_trans; [apply Hh|]. etransitivity; [apply NR2|]. apply Bn_le. rewrite app_length, drop_length, fmap_length. cbn [length]. lia. }
  cbn [zm zs zput]. intros st3 F3 HR3 G3. rewrite insert_insert in HR3. apply wp_ret, HQ.
  rewrite Z.mul_0_l, Z.add_0_l in G3. exists (<[o := zput z 0 (horner 256 bs)]> ζ). split; [eapply RZ_upd; done|]. by apply relv_ins.
Qed.
Lemma wpV_read_binary (st : state) (V : gmap oid Z) (X : ctx) o b l off bs (Q : Z -> state -> Prop) :
  RV st V X -> is_Some (V !! o) -> cmem X !! b = Some l -> has_bytes l off bs -> bs <> [] -> Z.of_nat (length bs) * 8 < 2 ^ 31 ->
  (forall st', RV st' (<[o := signed_value bs]> V) X -> Q MP_OK st') ->
  wp (mp_int_read_binary o (b, Z.of_nat off) (Z.of_nat (length bs))) Q st.
Proof.
  intros (ζ & (σ & HR & Hz) & Hv) [v Ho] Hb HB N Hn HQ. destruct (relv_some _ _ _ _ Hv Ho) as (z & Hzz & <- & Nz & Oz). destruct (relz_get _ _ _ _ Hz Hzz) as (f & ds & Hf & G).
  assert (0 < length bs)%nat as N0 by (destruct bs; [done|simpl; lia]). pose proof (has_bytes_len _ _ _ HB N) as Hlen.
  unfold mp_int_read_binary. wb. apply wp_assert; [lia|]. wb. unfold bytes_need.
  destruct (Z.gtb_spec (Z.of_nat (length bs) * 8) (2 ^ 31 - 1)); [lia|]. apply wp_ret.
  destruct (need_room (Z.of_nat (length bs)) ltac:(lia) ltac:(lia)) as [NR1 NR2]. set (need := u32 _) in *.
  wb. eapply wpR_padg; [done|done|done|done|done|]. intros st1 F HR1 GF K LF _. cbn [negb].
  wb. eapply wpR_zero; [exact HR1|apply lookup_insert|]. intros st2 HR2. rewrite insert_insert in HR2.
  assert (good F z) as GF' by (by eexists).
  pose proof (good_digit _ _ _ _ _ _ 0 0 HR1 (lookup_insert _ _ _) GF' dig_0 ltac:(lia)) as G0.
  pose proof (good_digit _ _ _ _ _ _ 0 1 HR1 (lookup_insert _ _ _) GF' dig_0 ltac:(lia)) as G1.
  pose proof (horner_bounds bs (proj1 HB)) as Hh. pose proof (R_len _ _ _ HR1 o F (lookup_insert _ _ _)) as LF'.
  set (cells := (Some <$> [0]) ++ drop 1 (fc F)) in *.
  assert (256 ^ Z.of_nat (length bs) <= Bn (length cells)) as Room.
  { etransitivity; [apply NR2|]. apply Bn_le. unfold cells. rewrite app_length, drop_length, fmap_length. cbn [length]. lia. }
  assert (exists c bt, bs = c :: bt /\ is_byte c) as (c & bt & Ebs & Bc). { destruct bs as [|c bt]; [done|]. exists c, bt. split; [done|]. destruct HB as [HB _]. by apply Forall_inv in HB. }
  wb. eapply wpR_loadb; [exact HR2|exact Hb|lia| |]. { rewrite Nat2Z.id, <- (Nat.add_0_r off). apply HB. by rewrite Ebs. }
  assert (signed_value bs = horner 256 bs - if 128 <=? c then 256 ^ Z.of_nat (length bs) else 0) as ES by (by rewrite Ebs).
  rewrite shr7 by done. destruct (Z.ltb_spec c 128) as [C7|C7].
  - wb. apply wp_ret. wb. eapply wpR_digits; [exact HR2|apply lookup_insert|]. cbn [fl].
    rewrite Nat2Z.id. wb. eapply (wpR_read_b _ _ _ o (Fo 0 1 cells (fl F))); [exact HR2|apply lookup_insert|exact G0|exact Oz|exact Hb|exact HB| |].
    { cbn [zm zput fc]. lia. }
    cbn [zm zs zput]. intros st3 F3 HR3 G3. rewrite insert_insert in HR3. rewrite Z.mul_0_l, Z.add_0_l in G3.
    wb. eapply wpR_sign; [exact HR3|apply lookup_insert|]. destruct G3 as [d3 G3]. rewrite (g_sign _ _ _ G3). cbn [zs zput]. change (0 =? MP_NEG) with false. cbv iota.
    wb. apply wp_ret. apply wp_ret, HQ. rewrite ES. destruct (Z.leb_spec 128 c); [lia|]. rewrite Z.sub_0_r.
    exists (<[o := zput z 0 (horner 256 bs)]> ζ). split; [eapply RZ_upd; [exact HR3|done|by eexists]|]. by apply relv_ins.
  - wb. wb. eapply wpR_set_sign; [exact HR2|apply lookup_insert|]. intros st3 HR3. rewrite insert_insert in HR3. cbn [fu fc fl] in HR3.
    rewrite <- (has_bytes_overwrite l off bs HB Hlen) in Hb.
    eapply wpR_2comp; [exact HR3|exact Hb|done|apply HB|]. intros st4 HR4. set (n := length bs) in *. set (bs' := be_bytes n (- horner 256 bs)) in *.
    assert (length bs' = n) as Ln by apply be_bytes_length. assert (Forall is_byte bs') as HB' by apply be_bytes_byte.
    assert (128 * 256 ^ Z.of_nat (length bt) <= horner 256 bs) as Hbig.
    { rewrite Ebs, horner_cons by lia. destruct HB as [HB _]. rewrite Ebs in HB. apply Forall_cons in HB as [_ HB]. pose proof (horner_bounds _ HB). pose proof (Z.pow_pos_nonneg 256 (Z.of_nat (length bt))). nia. }
    pose proof (Z.pow_pos_nonneg 256 (Z.of_nat (length bt)) ltac:(lia) ltac:(lia)) as P0.
    assert (horner 256 bs' = 256 ^ Z.of_nat n - horner 256 bs) as Hh'.
    { unfold bs'. rewrite horner_be. symmetry. apply (Z.mod_unique _ _ (-1)); lia. }
    wb. eapply wpR_digits; [exact HR4|apply lookup_insert|]. cbn [fl]. rewrite Nat2Z.id, <- Ln.
    pose proof (has_overwrite l off bs' HB' ltac:(lia)) as HAS.
    wb. eapply (wpR_read_b _ _ _ o (Fo 1 1 cells (fl F))); [exact HR4|apply lookup_insert|exact G1|exact Oz|apply setb_lookup|exact HAS| |].
    { cbn [zm zput fc]. lia. }
    cbn [zm zs zput]. intros st5 F5 HR5 G5. rewrite insert_insert in HR5. rewrite Z.mul_0_l, Z.add_0_l in G5.
    wb. eapply wpR_sign; [exact HR5|apply lookup_insert|]. destruct G5 as [d5 G5]. rewrite (g_sign _ _ _ G5). cbn [zs zput]. change (1 =? MP_NEG) with true. cbv iota.
    wb. eapply wpR_2comp; [exact HR5|apply setb_lookup|lia|done|]. intros st6 HR6. rewrite setb_setb in HR6.
    replace (be_bytes (length bs') (- horner 256 bs')) with bs in HR6.
    2: { apply be_unique; [apply HB|by rewrite Ln|]. rewrite Ln, Hh'. apply (Z.mod_unique _ _ (-1)); lia. }
    rewrite setb_id in HR6 by done. apply wp_ret, HQ. rewrite ES. destruct (Z.leb_spec 128 c); [|lia].
    rewrite Hh' in G5. exists (<[o := zput z 1 (256 ^ Z.of_nat n - horner 256 bs)]> ζ). split; [eapply RZ_upd; [exact HR6|done|by eexists]|].
    apply relv_ins; [done| |unfold norm; cbn [zs zm zput]; lia|done]. unfold zval. cbn [zs zm zput]. change (1 =? 0) with false. cbv iota. lia.
Qed.

(** ** Round trips *)
Lemma be_head n v : be_bytes (S n) v = (v / 256 ^ Z.of_nat n) mod 256 :: be_bytes n v.
Proof.
  unfold be_bytes. cbn [seq map]. f_equal; [do 4 f_equal; lia|]. rewrite <- seq_shift, map_map. apply map_ext. intros i. do 4 f_equal. lia.
Qed.
Lemma signed_be v n : signed_size v n -> signed_value (be_bytes n v) = v.
Proof.
  intros (H1 & H2 & _). destruct n as [|n]; [lia|]. unfold signed_value. rewrite horner_be, be_bytes_length, be_head.
  rewrite Nat2Z.inj_succ, Z.pow_succ_r in * by lia. set (P := 256 ^ Z.of_nat n) in *. assert (0 < P) by (apply Z.pow_pos_nonneg; lia).
  assert (2 ^ (8 * Z.succ (Z.of_nat n) - 1) = 128 * P) as E. { unfold P. rewrite pow256. change 128 with (2 ^ 7). rewrite <- Z.pow_add_r by lia. f_equal. lia. }
  rewrite E in H2. clear E. pose proof (Z.div_mod v P ltac:(lia)). pose proof (Z.mod_pos_bound v P ltac:(lia)).
  destruct (Z.lt_ge_cases v 0) as [L|L].
  - assert (-128 <= v / P < 0) as Hq by nia. replace ((v / P) mod 256) with (v / P + 256) by (apply (Z.mod_unique _ _ (-1)); lia).
    destruct (Z.leb_spec 128 (v / P + 256)); [|lia]. replace (v mod (256 * P)) with (v + 256 * P); [lia|]. apply (Z.mod_unique _ _ (-1)); lia.
  - assert (0 <= v / P < 128) as Hq by nia. rewrite (Z.mod_small (v / P)) by lia. destruct (Z.leb_spec 128 (v / P)); [lia|]. rewrite Z.mod_small by lia. lia.
Qed.
Lemma unsigned_be v n : unsigned_size v n -> horner 256 (be_bytes n (Z.abs v)) = Z.abs v.
Proof. intros (_ & H & _). rewrite horner_be. apply Z.mod_small. lia. Qed.
Lemma size_small (st : state) (V : gmap oid Z) (X : ctx) o v n : RV st V X -> V !! o = Some v -> (signed_size v n \/ unsigned_size v n) -> (1 <= n)%nat /\ Z.of_nat n * 8 < 2 ^ 31.
Proof.
  intros HV Ho Hn. destruct (bitlen_max _ _ _ _ _ HV Ho) as [B1 B2]. destruct Hn as [Hn|Hn].
  - split; [apply Hn|]. rewrite (signed_unique _ _ _ Hn (signed_bitlen v)). pose proof (Z.div_mod (bitlen v) 8). pose proof (Z.mod_pos_bound (bitlen v) 8). lia.
  - split; [apply Hn|]. rewrite (unsigned_unique _ _ _ Hn (unsigned_bitlen v)). pose proof (Z.div_mod (bitlen v + 7) 8). pose proof (Z.mod_pos_bound (bitlen v + 7) 8). lia.
Qed.
