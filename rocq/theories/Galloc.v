(** The functions of the GMP interface that allocate: rules. *)
From Coq Require Import ZArith List Lia QArith.
From stdpp Require Import gmap list.
From Verif Require Import SpecHist.
From Verif Require Import Mem Prog Kern Fp Imath Imrat Gmp Wp MemLem Dig KernLem Rel RelWp RelZ Life Basic Basic2 Mult Shift Knuth Divi Powr Spec SpecBin SpecGmp Public Gcd SpecRat Rat Buf Text Read Outlen SpecDec.
From Verif Require Import Inlen Bin Gmpr Impexp Rsa RatText RatDec RatOut SpecGstr Outup Gmpstr GmpAlloc SpecGalloc Chk.
Local Open Scope Z_scope.
Local Open Scope prog_scope.

(** ** Blocks *)
Lemma RV_newB st V X i l : let b := Hp i in mem st !! b = None ->
  RV st V X -> cmem X !! b = None /\ RV (add_block st b l) V (setb X b l).
Proof.
  intros b Hb (ζ & (σ & HR & HZ) & Hv). destruct (R_newB st σ X b l HR) as [H1 H2]; [done|done|].
  split; [done|]. exists ζ. split; [|done]. exists σ. by split.
Qed.
Lemma RV_delB st V X b l : RV st V X -> cmem X !! b = Some l -> RV (del_block st b) V (with_cmem X (delete b (cmem X))).
Proof. intros (ζ & (σ & HR & HZ) & Hv) Hb. exists ζ. split; [|done]. exists σ. split; [|done]. by eapply R_delB. Qed.
Lemma RV_mem st V X b l : RV st V X -> cmem X !! b = Some l -> mem st !! b = Some l.
Proof. intros (ζ & (σ & HR & HZ) & Hv) Hb. by apply (R_ctx _ _ _ HR). Qed.
Lemma setb_del X b l : cmem X !! b = None -> with_cmem (setb X b l) (delete b (cmem (setb X b l))) = X.
Proof. intros H. unfold setb, with_cmem. cbn. rewrite delete_insert by done. by destruct X. Qed.
Lemma wpV_malloc_text {A} st V X n (k : ptr -> prog A) (Q : A -> state -> Prop) : RV st V X ->
  (0 <= n <= MAXD -> forall m st', cmem X !! Hp m = None -> RV st' V (setb X (Hp m) (blank n)) -> wp (k (Hp m, 0)) Q st') ->
  wp (malloc_text n k) Q st.
Proof.
  intros HV HQ. unfold malloc_text. apply wp_Malloc; [left; apply at_null_none|]. intros Hn i Hi. apply wp_AssertN; [done|].
  destruct (RV_newB st V X i (blank n) Hi HV) as [H1 H2]. by eapply HQ.
Qed.
Lemma blank_app (s : list Z) n : (length s <= Z.to_nat n)%nat -> overwrite 0 s (blank n) = (Some <$> s) ++ replicate (Z.to_nat n - length s) None.
Proof. intros H. unfold overwrite, blank. cbn [take app Nat.add]. by rewrite drop_replicate. Qed.

(** ** Programs that do not check *)
Lemma chk_wp {A} (p p' : prog A) st Q : chk p p' -> wp p' Q st -> if_granted p st Q.
Proof.
  intros HC HW orc t. specialize (HC orc t st). pose proof (wp_sound _ _ _ HW orc t) as HS. unfold ends_in in HS. unfold chk_o in HC.
  destruct (run true orc p' t st) eqn:E; try done; [by rewrite HC|]. destruct HS as (t' & Ht & Hg). destruct HC as [-> | ->]; eauto.
Qed.

(** ** Text *)
Lemma wpV_get_str_new st V X radix z v s (Q : ptr -> state -> Prop) :
  RV st V X -> V !! z = Some v -> let r := Z.abs radix in 2 <= r <= 36 -> Z.abs v < 2 ^ Z.min (enough_bits r) (2 ^ 29) ->
  gmp_numeral (radix <? 0) r v s ->
  (forall p l st', fresh_block (cmem X) p (s ++ [0]) 1 l -> RV st' V (setb X (fst p) l) -> Q p st') -> wp (mpz_get_str_any None radix z) Q st.
Proof.
  intros HV Hz r Hr Hv Hs HQ. unfold mpz_get_str_any. replace (if radix <? 0 then - radix else radix) with r by (unfold r; destruct (Z.ltb_spec radix 0); lia).
  destruct (gmp_numeral_of _ _ _ _ Hr Hs) as (t & Ht & Es & Hc). assert (length s = length t) as Ls by (rewrite Es; apply map_length).
  pose proof (string_len_bounds r v t Hr Hv Ht) as HB. rewrite <- Ls in HB.
  wb. eapply wpV_string_len; [exact HV|exact Hz|done|]. remember (outlen (bitlen v) r + 1 + (if v <? 0 then 1 else 0)) as len eqn:El.
  eapply wpV_malloc_text; [exact HV|]. intros Hn m st1 Hm HV1.
  wb. refine (wpV_get_str_tail st1 V _ radix z v (Hp m) 0 (blank len) s len _ HV1 Hz _ Hr Hv Hs El _ _).
  - apply setb_lookup.
  - unfold blank. rewrite replicate_length. lia.
  - intros st' H'. apply wp_ret. rewrite setb_setb in H'. eapply (HQ (Hp m, 0)); [|exact H'].
    assert (length (s ++ [0]) = (length s + 1)%nat) as La by (rewrite app_length; done).
    eexists _, _. split; [done|]. split; [exact Hm|]. split; [apply blank_app; lia|]. rewrite replicate_length. lia.
Qed.

(** ** Export *)
Definition export_chk (order size endian nails : Z) (op : oid) : prog (option ptr * Z) :=
  assert (nails =? 0);;
  assert ((endian =? 1) || (endian =? 0) || (endian =? -1))%bool;;
  assert ((order =? 1) || (order =? -1))%bool;;
  c <- mp_int_compare_zero op;
  if c =? 0 then Ret (None, 0) else
  num_used_bytes <- mp_int_unsigned_len op;
  if size =? 0 then Undef else
  let num_words := w64 (num_used_bytes + w64 (size - 1)) / size in
  assert (num_used_bytes >? 0);;
  let num_missing_bytes := w64 (w64 (size * num_words) - num_used_bytes) in
  assert (num_missing_bytes <? size);;
  malloc_text (w64 (num_words * size)) (fun rop =>
    let endian := if endian =? 0 then HOST_ENDIAN else endian in
    let dst := rop +p ((if order >=? 0 then (num_words - 1) * size else 0) + (if endian >=? 0 then size - 1 else 0)) in
    src <- get_digits op;
    let word_offset := (if endian >=? 0 then size else - size) + (if order <? 0 then size else - size) in
    export_words (Z.to_nat num_words) 0 size num_used_bytes endian word_offset dst src 32;;
    Ret (Some rop, num_words)).
Lemma export_chk_ok order size endian nails op : chk (mpz_export_any None order size endian nails op) (export_chk order size endian nails op).
Proof.
  unfold mpz_export_any, export_chk. do 4 (apply chk_bind; intros ?). apply chk_if; [apply chk_refl|]. apply chk_bind; intros ?.
  apply chk_if; [apply chk_refl|]. do 2 (apply chk_bind; intros ?). apply chk_malloc.
Qed.
Lemma wpV_export_new (st : state) (V : gmap oid Z) (X : ctx) o v size count order endian (Q : option ptr * Z -> state -> Prop) :
  RV st V X -> V !! o = Some v -> (0 < size)%nat -> valid_order order -> valid_endian endian ->
  word_count size v count -> Z.of_nat (size * count) < 2 ^ 63 ->
  (v = 0 -> count = 0%nat -> Q (None, 0) st) ->
  (forall p l st', v <> 0 -> fresh_block (cmem X) p (words order endian size count (Z.abs v)) 0 l -> RV st' V (setb X (fst p) l) -> Q (Some p, Z.of_nat count) st') ->
  wp (export_chk order (Z.of_nat size) endian 0 o) Q st.
Proof.
  intros HV Ho Hs Hor Hen Hc Hfit HQ0 HQ. unfold export_chk. wb. apply wp_assert; [done|]. wb. apply wp_assert; [destruct Hen as [-> | [-> | ->]]; done|].
  wb. apply wp_assert; [destruct Hor as [-> | ->]; done|]. wb. eapply wpV_compare_zero; [done..|]. destruct (Z.eqb_spec (Z.sgn v) 0) as [E|E].
  { apply (proj1 (Z.sgn_null_iff _)) in E. pose proof (word_count_0 _ _ _ Hc E) as ->. apply wp_ret. by apply HQ0. }
  assert (v <> 0) as Hv by (intros ->; done). wb. pose proof (unsigned_bitlen v) as HU. set (n := Z.to_nat ((bitlen v + 7) / 8)) in *. clearbody n.
  eapply wpV_unsigned_len; [done..|]. destruct (Z.eqb_spec (Z.of_nat size) 0) as [|_]; [lia|].
  destruct (word_count_ceil _ _ _ _ Hc Hv HU Hs) as (C0 & Hlo & Hhi). pose proof (proj1 HU) as N1.
  assert (size <= size * count)%nat as Hsc by nia.
  replace (w64 (Z.of_nat size - 1)) with (Z.of_nat size - 1) by (symmetry; apply Z.mod_small; lia).
  replace (w64 (Z.of_nat n + (Z.of_nat size - 1))) with (Z.of_nat n + (Z.of_nat size - 1)) by (symmetry; apply Z.mod_small; lia).
  assert ((Z.of_nat n + (Z.of_nat size - 1)) / Z.of_nat size = Z.of_nat count) as ->.
  { symmetry. apply (Z.div_unique_pos _ _ _ (Z.of_nat n + (Z.of_nat size - 1) - Z.of_nat size * Z.of_nat count)); [|lia]. rewrite Nat.mul_sub_distr_l in Hlo. nia. }
  wb. apply wp_assert; [apply Z.gtb_lt; lia|].
  replace (Z.of_nat count * Z.of_nat size) with (Z.of_nat (size * count)) by lia.
  replace (Z.of_nat size * Z.of_nat count) with (Z.of_nat (size * count)) by lia. rewrite (w64_id (Z.of_nat (size * count))) by mx.
  replace (w64 (Z.of_nat (size * count) - Z.of_nat n)) with (Z.of_nat (size * count) - Z.of_nat n) by (symmetry; apply Z.mod_small; lia).
  wb. apply wp_assert; [apply Z.ltb_lt; rewrite Nat.mul_sub_distr_l in Hlo; lia|].
  eapply wpV_malloc_text; [exact HV|]. intros Hbl m st1 Hm HV1. clear HV HQ0 st. set (l := blank (Z.of_nat (size * count))) in *.
  assert (length l = size * count)%nat as Ll by (unfold l, blank; rewrite replicate_length; lia).
  destruct HV1 as (ζ & (σ & HR & Hz) & Hv'). destruct (relv_some _ _ _ _ Hv' Ho) as (z & Hzz & Ez & Nz & _). destruct (relz_get _ _ _ _ Hz Hzz) as (f & ds & Hf & G).
  assert (0 <= zm z) as Z0 by (apply (good_m0 f); by eexists). assert (val ds = Z.abs v) as Evd by (rewrite (g_val _ _ _ G), <- Ez, abs_zval; done).
  wb. eapply wpR_digits; [done..|]. wb. pose proof (goodw_dig _ _ _ G) as D. pose proof (val_bounds _ D) as B. rewrite Bn_256 in B. pose proof (proj1 (g_canon _ _ _ G)) as L1.
  set (en := if endian =? 0 then HOST_ENDIAN else endian).
  assert (en = 1 \/ en = -1) as Hen' by (unfold en; destruct Hen as [-> | [-> | ->]]; auto).
  assert (words order endian size count (Z.abs v) = words order en size count (Z.abs v)) as Ew.
  { unfold words, word_bytes, en. destruct Hen as [-> | [-> | ->]]; done. }
  assert (n <= 4 * length ds)%nat as Hn4. { destruct (decide (n <= 4 * length ds)%nat) as [|E4]; [done|]. destruct HU as (_ & _ & HU). specialize (HU (4 * length ds)%nat ltac:(lia)). lia. }
  rewrite Nat2Z.id.
  assert ((Hp m, 0) +p ((if order >=? 0 then (Z.of_nat count - 1) * Z.of_nat size else 0) + (if en >=? 0 then Z.of_nat size - 1 else 0)) = (Hp m, Z.of_nat 0 + rowZ size count order (Z.of_nat 0) + colZ size en 0)) as ->.
  { unfold padd, rowZ, colZ. cbn [fst snd]. f_equal. destruct (_ >=? _), (_ >=? _); lia. }
  change 0 with (Z.of_nat 0) at 1.
  eapply (wpR_export_words σ f o ds (Hp m) 0 size count order en (Z.of_nat n)); [done|done|done|done|done|apply G|lia|rewrite Evd; apply HU|lia|exact HR|apply setb_lookup|lia|lia| |].
  { intros _. exists 0%nat, 0%nat. split; [done|]. split; [done|]. split; [lia|lia]. }
  intros st' HR'. apply wp_ret. cbn [Nat.mul] in HR'. rewrite (Nat.mul_comm count size), wrs_words, Evd in HR' by (done || lia).
  eapply (HQ (Hp m, 0)); [done| |].
  - eexists _, []. split; [done|]. split; [exact Hm|]. split; [reflexivity|cbn; lia].
  - exists ζ. split; [|done]. exists σ. split; [|done]. rewrite app_nil_r. rewrite <- Ew in HR'. unfold l in HR'.
    assert (length (words order endian size count (Z.abs v)) = (size * count)%nat) as Lw by apply words_length.
    rewrite blank_app in HR' by lia. rewrite Lw, Nat2Z.id, Nat.sub_diag, app_nil_r in HR'.
    match type of HR' with R _ _ ?Y => replace Y with (setb X (Hp m) (Some <$> words order endian size count (Z.abs v))) in HR'; [exact HR'|] end.
    symmetry. apply setb_setb.
Qed.

(** ** The copy of a string *)
Definition holds (l : list cell) (off : nat) (s : list Z) : Prop := forall i c, s !! i = Some c -> l !! (off + i)%nat = Some (Some c).
Lemma holds_cons l off c s : holds l off (c :: s) -> l !! off = Some (Some c) /\ holds l (S off) s.
Proof.
  intros H. split; [specialize (H 0%nat c eq_refl); by rewrite Nat.add_0_r in H|].
  intros i d Hi. specialize (H (S i) d Hi). by replace (S off + i)%nat with (off + S i)%nat by lia.
Qed.
Lemma overwrite_1 (l : list cell) off c : (off < length l)%nat -> overwrite off [c] l = <[off := Some c]> l.
Proof. intros H. rewrite insert_take_drop by done. unfold overwrite. cbn [length fmap list_fmap app]. by rewrite Nat.add_1_r. Qed.
Lemma wpV_strcpy V b s : forall st X l (off : nat) (Q : unit -> state -> Prop), RV st V X -> cmem X !! b = Some l -> (off + length s + 1 <= length l)%nat ->
  (forall st', RV st' V (setb X b (overwrite off (s ++ [0]) l)) -> Q tt st') -> wp (strcpy_loop s (b, Z.of_nat off)) Q st.
Proof.
  induction s as [|c s IH]; intros st X l off Q HV Hb Hl HQ; cbn [strcpy_loop length] in *.
  - eapply wpV_storeb; [exact HV|exact Hb|lia|]. intros st' H'. apply HQ. rewrite Nat2Z.id in H'. cbn [app]. rewrite overwrite_1 by lia. exact H'.
  - wb. eapply wpV_storeb; [exact HV|exact Hb|lia|]. intros st' H'. rewrite Nat2Z.id in H'. rewrite ptr_add. replace (Z.of_nat off + 1) with (Z.of_nat (S off)) by lia.
    eapply IH; [exact H'|apply setb_lookup|rewrite insert_length; lia|]. intros st2 H2. apply HQ. rewrite setb_setb in H2.
    replace (overwrite off ((c :: s) ++ [0]) l) with (overwrite (S off) (s ++ [0]) (<[off:=Some c]> l)); [exact H2|].
    rewrite <- overwrite_1 by lia. replace (S off) with (off + length [c])%nat by (cbn; lia). rewrite overwrite_app; [done|]. rewrite app_length. cbn. lia.
Qed.
Lemma wpV_strchr_some V b l s s2 : forall st X n (off : nat) (Q : option Z -> state -> Prop), RV st V X -> cmem X !! b = Some l -> holds l off (s ++ 47 :: s2) -> 47 ∉ s -> 0 ∉ s -> (length s < n)%nat ->
  Q (Some (Z.of_nat (off + length s))) st -> wp (strchr_loop n (Z.of_nat off) (b, 0)) Q st.
Proof.
  induction s as [|c s IH]; intros st X n off Q HV Hb Hh H47 H0 Hn HQ; (destruct n as [|n]; [cbn [length] in Hn; lia|]); cbn [strchr_loop app] in *; apply holds_cons in Hh as [Hc Hh]; rewrite ptr_add, Z.add_0_l; wb.
  - eapply wpV_loadb; [exact HV|exact Hb|lia|rewrite Nat2Z.id; exact Hc|]. change (47 =? 47) with true. apply wp_ret. cbn [length] in HQ. by rewrite Nat.add_0_r in HQ.
  - apply not_elem_of_cons in H47 as [N47 H47]. apply not_elem_of_cons in H0 as [N0 H0]. eapply wpV_loadb; [exact HV|exact Hb|lia|rewrite Nat2Z.id; exact Hc|].
    rewrite (proj2 (Z.eqb_neq c 47)), (proj2 (Z.eqb_neq c 0)) by done. replace (Z.of_nat off + 1) with (Z.of_nat (S off)) by lia. cbn [length] in *.
    eapply IH; [exact HV|exact Hb|exact Hh|done|done|lia|]. replace (S off + length s)%nat with (off + S (length s))%nat by lia. exact HQ.
Qed.
Lemma wpV_strchr_none V b l s : forall st X n (off : nat) (Q : option Z -> state -> Prop), RV st V X -> cmem X !! b = Some l -> holds l off (s ++ [0]) -> 47 ∉ s -> 0 ∉ s -> (length s < n)%nat ->
  Q None st -> wp (strchr_loop n (Z.of_nat off) (b, 0)) Q st.
Proof.
  induction s as [|c s IH]; intros st X n off Q HV Hb Hh H47 H0 Hn HQ; (destruct n as [|n]; [cbn [length] in Hn; lia|]); cbn [strchr_loop app] in *; apply holds_cons in Hh as [Hc Hh]; rewrite ptr_add, Z.add_0_l; wb.
  - eapply wpV_loadb; [exact HV|exact Hb|lia|rewrite Nat2Z.id; exact Hc|]. by apply wp_ret.
  - apply not_elem_of_cons in H47 as [N47 H47]. apply not_elem_of_cons in H0 as [N0 H0]. eapply wpV_loadb; [exact HV|exact Hb|lia|rewrite Nat2Z.id; exact Hc|].
    rewrite (proj2 (Z.eqb_neq c 47)), (proj2 (Z.eqb_neq c 0)) by done. replace (Z.of_nat off + 1) with (Z.of_nat (S off)) by lia. cbn [length] in *.
    eapply IH; [exact HV|exact Hb|exact Hh|done|done|lia|exact HQ].
Qed.
Lemma wpV_cstring V b l s : forall st X n (off : nat) (Q : list Z -> state -> Prop), RV st V X -> cmem X !! b = Some l -> holds l off (s ++ [0]) -> 0 ∉ s -> (length s < n)%nat ->
  Q s st -> wp (cstring n (b, Z.of_nat off)) Q st.
Proof.
  induction s as [|c s IH]; intros st X n off Q HV Hb Hh H0 Hn HQ; (destruct n as [|n]; [cbn [length] in Hn; lia|]); cbn [cstring app] in *; apply holds_cons in Hh as [Hc Hh]; wb.
  - eapply wpV_loadb; [exact HV|exact Hb|lia|rewrite Nat2Z.id; exact Hc|]. by apply wp_ret.
  - apply not_elem_of_cons in H0 as [N0 H0]. eapply wpV_loadb; [exact HV|exact Hb|lia|rewrite Nat2Z.id; exact Hc|].
    rewrite (proj2 (Z.eqb_neq c 0)) by done. rewrite ptr_add. replace (Z.of_nat off + 1) with (Z.of_nat (S off)) by lia. cbn [length] in *. wb.
    eapply IH; [exact HV|exact Hb|exact Hh|done|lia|]. by apply wp_ret.
Qed.

Lemma wpV_mpq_set_str_copy st V X r base s1 s2 n d rest1 rest2 v1 v2 (Q : Z -> state -> Prop) :
  RV st V X -> fst r <> snd r -> V !! fst r = Some v1 -> V !! snd r = Some v2 -> 2 <= base <= 36 -> Z.of_nat (length s1) < 2 ^ 31 -> Z.of_nat (length s2) < 2 ^ 31 ->
  47 ∉ s1 -> 0 ∉ s1 -> 0 ∉ s2 -> reads base s1 n rest1 -> reads base s2 d rest2 ->
  (forall st', RV st' (<[snd r := d]> (<[fst r := n]> V)) X -> Q (match rest1, rest2 with [], [] => 0 | _, _ => -1 end) st') ->
  exists p', chk (mpq_set_str_copy r (s1 ++ 47 :: s2) base) p' /\ wp p' Q st.
Proof.
  intros HV N H1 H2 Hb L1 L2 N47 N01 N02 R1 R2 HQ. eexists. split; [apply chk_malloc|].
  set (s := s1 ++ 47 :: s2). assert (length s = S (length s1 + length s2)) as Ls by (unfold s; rewrite app_length; cbn [length]; lia).
  eapply wpV_malloc_text; [exact HV|]. intros Hbl m st1 Hm HV1. set (l0 := blank _) in *.
  assert (length l0 = S (length s)) as Ll0 by (unfold l0, blank; rewrite replicate_length; lia). clearbody l0.
  set (b := Hp m) in *. wb. change (b, 0) with (b, Z.of_nat 0). eapply wpV_strcpy; [exact HV1|apply setb_lookup|lia|]. intros st2 HV2. rewrite setb_setb in HV2.
  set (l1 := overwrite 0 (s ++ [0]) l0) in *. assert (length (s ++ [0]) = S (length s)) as Ls1 by (rewrite app_length; cbn [length]; lia).
  assert (length l1 = S (length s)) as Ll1 by (unfold l1; rewrite overwrite_length; lia).
  assert (holds l1 0 (s ++ [0])) as Hh by (intros i c Hi; unfold l1; apply overwrite_at; [exact Hi|lia]). clearbody l1.
  wb. change 0 with (Z.of_nat 0) at 1. cbn [Z.of_nat]. eapply (wpV_strchr_some V b l1 s1 (s2 ++ [0]) st2 _ _ 0); [exact HV2|apply setb_lookup|unfold s in Hh; rewrite <- app_assoc in Hh; exact Hh|done|done|lia|].
  wb. rewrite ptr_add, !Z.add_0_l. cbn [Nat.add]. eapply wpV_storeb; [exact HV2|apply setb_lookup|lia|]. intros st3 HV3. rewrite setb_setb, Nat2Z.id in HV3.
  set (l2 := <[length s1 := Some 0]> l1) in *.
  assert (holds l2 0 (s1 ++ [0])) as Hh1.
  { intros i c Hi. unfold l2. cbn [Nat.add]. destruct (decide (i = length s1)) as [->|Ni].
    - rewrite lookup_app_r, Nat.sub_diag in Hi by lia. injection Hi as <-. apply list_lookup_insert. lia.
    - rewrite list_lookup_insert_ne by done. apply (Hh i c). unfold s. rewrite <- app_assoc. apply lookup_app_l_Some.
      apply lookup_app_Some in Hi as [Hi|[Li Hi]]; [exact Hi|]. apply lookup_lt_Some in Hi. cbn in Hi. lia. }
  assert (holds l2 (length s1 + 1) (s2 ++ [0])) as Hh2.
  { intros i c Hi. unfold l2. rewrite list_lookup_insert_ne by lia. apply (Hh (length s1 + 1 + i)%nat c). unfold s. rewrite <- app_assoc. rewrite lookup_app_r by lia.
    replace (length s1 + 1 + i - length s1)%nat with (S i) by lia. exact Hi. }
  assert (length l2 = S (length s)) as Ll2 by (unfold l2; by rewrite insert_length). clearbody l2. clear Hh.
  wb. eapply (wpV_cstring V b l2 s1 st3 _ _ 0); [exact HV3|apply setb_lookup|exact Hh1|done|lia|].
  unfold mp_rat_numer_ref, mp_rat_denom_ref, num, den. wb. unfold mp_int_read_string. wb. eapply wpV_read_reads; [exact HV3|exact H1|done|exact R1|done|]. intros st4 HV4. apply wp_ret.
  wb. wb. replace (Z.of_nat (length s1) + 1) with (Z.of_nat (length s1 + 1)) by lia. rewrite ?Z.add_0_l.
  eapply (wpV_cstring _ b l2 s2 st4 _ _ (length s1 + 1)); [exact HV4|apply setb_lookup|exact Hh2|done|lia|].
  wb. eapply wpV_read_reads; [exact HV4|rewrite lookup_insert_ne by done; exact H2|done|exact R2|done|]. intros st5 HV5. apply wp_ret. cbn [fst].
  eapply wp_Free; [cbn [live_heap]; eapply RV_mem; [exact HV5|apply setb_lookup]|]. apply wp_ret. cbn [fst].
  pose proof (RV_delB _ _ _ _ _ HV5 (setb_lookup _ _ _)) as HV6. rewrite setb_del in HV6 by done.
  specialize (HQ _ HV6). destruct rest1, rest2; exact HQ.
Qed.
Lemma wpV_mpq_set_str_int_copy st V X r base s n rest v1 v2 (Q : Z -> state -> Prop) :
  RV st V X -> fst r <> snd r -> V !! fst r = Some v1 -> V !! snd r = Some v2 -> 2 <= base <= 36 -> Z.of_nat (length s) < 2 ^ 31 ->
  47 ∉ s -> 0 ∉ s -> reads base s n rest ->
  (forall st', RV st' (<[snd r := 1]> (<[fst r := n]> V)) X -> Q (match rest with [] => 0 | _ => -1 end) st') ->
  exists p', chk (mpq_set_str_copy r s base) p' /\ wp p' Q st.
Proof.
  intros HV N H1 H2 Hb L1 N47 N01 R1 HQ. eexists. split; [apply chk_malloc|].
  eapply wpV_malloc_text; [exact HV|]. intros Hbl m st1 Hm HV1. set (l0 := blank _) in *.
  assert (length l0 = S (length s)) as Ll0 by (unfold l0, blank; rewrite replicate_length; lia). clearbody l0.
  set (b := Hp m) in *. wb. change (b, 0) with (b, Z.of_nat 0). eapply wpV_strcpy; [exact HV1|apply setb_lookup|lia|]. intros st2 HV2. rewrite setb_setb in HV2.
  set (l1 := overwrite 0 (s ++ [0]) l0) in *. assert (length (s ++ [0]) = S (length s)) as Ls1 by (rewrite app_length; cbn [length]; lia).
  assert (length l1 = S (length s)) as Ll1 by (unfold l1; rewrite overwrite_length; lia).
  assert (holds l1 0 (s ++ [0])) as Hh by (intros i c Hi; unfold l1; apply overwrite_at; [exact Hi|lia]). clearbody l1.
  wb. eapply (wpV_strchr_none V b l1 s st2 _ _ 0); [exact HV2|apply setb_lookup|exact Hh|done|done|lia|].
  wb. apply wp_ret. wb. eapply (wpV_cstring V b l1 s st2 _ _ 0); [exact HV2|apply setb_lookup|exact Hh|done|lia|].
  unfold mp_rat_numer_ref, mp_rat_denom_ref, num, den. wb. unfold mp_int_read_string. wb. eapply wpV_read_reads; [exact HV2|exact H1|done|exact R1|done|]. intros st4 HV4. apply wp_ret.
  wb. eapply wpV_set_uvalue; [exact HV4|rewrite lookup_insert_ne by done; exact H2|lia|]. intros st5 HV5. cbn [fst].
  eapply wp_Free; [cbn [live_heap]; eapply RV_mem; [exact HV5|apply setb_lookup]|]. apply wp_ret. cbn [fst].
  pose proof (RV_delB _ _ _ _ _ HV5 (setb_lookup _ _ _)) as HV6. rewrite setb_del in HV6 by done.
  specialize (HQ _ HV6). destruct rest; exact HQ.
Qed.
