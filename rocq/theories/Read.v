(** Rules for reading numerals. *)
From Coq Require Import ZArith List Lia.
From stdpp Require Import gmap list.
From Verif Require Import Mem Prog Kern Fp Imath Wp MemLem Dig KernLem KernMul KernKar KernDig Rel RelWp RelZ Life Basic Basic2 Mult Shift Knuth Divi Powr Spec Public Barrett Embar Buf Text Inlen Outlen.
Local Open Scope Z_scope.

Lemma wpZ_padc (st : state) (ζ : gmap oid zv) (X : ctx) (o : oid) (z : zv) (n : Z) (Q : bool -> state -> Prop) :
  RZ st ζ X -> ζ !! o = Some z -> zo z = None -> 0 <= n < RADIX - 1 ->
  (forall st', n <= MAXD -> RZ st' (<[o := zcap z (Z.to_nat n)]> ζ) X -> Q true st') -> wp (s_pad o n) Q st.
Proof.
  intros (σ & HR & Hz) Ho Oz Hn HQ. destruct (relz_get _ _ _ _ Hz Ho) as (f & l & Hf & G).
  eapply wpR_padg; [done..|]. intros st' F HR' G' K Hl _. apply HQ.
  { pose proof (R_len _ _ _ HR' o F ltac:(apply lookup_insert)). lia. }
  eapply RZ_upd; [done|done|]. exists l. destruct G'. constructor; cbn [zs zm zc zi zo zcap]; try done. lia.
Qed.
Lemma wpZ_dmul (st : state) (ζ : gmap oid zv) (X : ctx) (o : oid) (z : zv) (b : Z) (Q : unit -> state -> Prop) :
  RZ st ζ X -> ζ !! o = Some z -> 0 < b < RADIX -> zm z * b < Bn (zc z) ->
  (forall st', RZ st' (<[o := zput z (zs z) (zm z * b)]> ζ) X -> Q tt st') -> wp (s_dmul o b) Q st.
Proof.
  intros (σ & HR & Hz) Ho Hb Hlt HQ. destruct (relz_get _ _ _ _ Hz Ho) as (f & l & Hf & G). pose proof (g_cap _ _ _ G) as Hc.
  eapply wpR_dmul; [done|done|apply G|apply G| |done|]; rewrite (g_val _ _ _ G).
  { pose proof (Bn_le _ _ Hc). lia. }
  intros st' ds cells Cds Vds _ HR' V' K. apply HQ. eapply RZ_upd; [done..|].
  eapply (good_intro f z _ ds); [by eexists|apply K|done|done|done|apply G|apply G].
Qed.
Lemma wpZ_dadd (st : state) (ζ : gmap oid zv) (X : ctx) (o : oid) (z : zv) (b : Z) (Q : unit -> state -> Prop) :
  RZ st ζ X -> ζ !! o = Some z -> 0 <= b < RADIX -> zm z + b < Bn (zc z) ->
  (forall st', RZ st' (<[o := zput z (zs z) (zm z + b)]> ζ) X -> Q tt st') -> wp (s_dadd o b) Q st.
Proof.
  intros (σ & HR & Hz) Ho Hb Hlt HQ. destruct (relz_get _ _ _ _ Hz Ho) as (f & l & Hf & G). pose proof (g_cap _ _ _ G) as Hc.
  eapply wpR_dadd; [done|done|apply G|apply G| |done|]; rewrite (g_val _ _ _ G).
  { pose proof (Bn_le _ _ Hc). lia. }
  intros st' ds cells Cds Vds _ HR' V' K. apply HQ. eapply RZ_upd; [done..|].
  eapply (good_intro f z _ ds); [by eexists|apply K|done|done|done|apply G|apply G].
Qed.
(** [set_used z 1; *MP_DIGITS(z) = 0] *)
Lemma wpZ_clear1 (st : state) (ζ : gmap oid zv) (X : ctx) (o : oid) (z : zv) A (k : prog A) (Q : A -> state -> Prop) :
  RZ st ζ X -> ζ !! o = Some z ->
  (forall st', RZ st' (<[o := zput z (zs z) 0]> ζ) X -> wp k Q st') ->
  wp (set_used o 1;; dz <- get_digits o; Store dz 0;; k)%prog Q st.
Proof.
  intros (σ & HR & Hz) Ho HQ. destruct (relz_get _ _ _ _ Hz Ho) as (f & l & Hf & G). pose proof (R_len _ _ _ HR _ _ Hf) as Hl.
  wb. eapply wpR_set_used; [done..|]. intros st1 HR1. wb. eapply (wpR_digits _ _ _ HR1); [apply lookup_insert|]. cbn [fl].
  destruct (lookup_lt_is_Some_2 (fc f) 0) as [c Hc]; [lia|].
  wb. eapply wp_store; [exact (R_load0 _ _ _ o (Fo (fs f) 1 (fc f) (fl f)) c HR1 (lookup_insert _ _ _) Hc)|]. rewrite <- wr_1.
  pose proof (R_wr0 _ _ _ o _ [0] HR1 (lookup_insert _ _ _) ltac:(simpl; lia)) as HR2. rewrite insert_insert in HR2. cbn [fs fu fc fl] in HR2.
  apply HQ. eapply RZ_upd; [exact HR2|done|]. rewrite (g_sign _ _ _ G). eapply good_digit; [exact HR|done|by eexists|apply dig_0|apply G].
Qed.

Lemma wpZ_CLAMP (st : state) (ζ : gmap oid zv) (X : ctx) (o : oid) (z : zv) (Q : unit -> state -> Prop) :
  RZ st ζ X -> ζ !! o = Some z -> (forall st', RZ st' ζ X -> Q tt st') -> wp (CLAMP o) Q st.
Proof.
  intros (σ & HR & Hz) Ho HQ. destruct (relz_get _ _ _ _ Hz Ho) as (f & l & Hf & G). pose proof (g_canon _ _ _ G) as Hc.
  eapply wpR_CLAMP; [done|done|apply G|destruct Hc; lia|]. intros st' ds n Cds Dds Vds _ HR' V'. apply HQ.
  assert (RZ st' (<[o := zput z (zs z) (zm z)]> ζ) X) as H'; [|by rewrite zput_id, insert_id in H'].
  eapply RZ_upd; [exact HR'|done|]. eapply (good_intro f z _ ds); [by eexists|by apply keeps_same|done|done|by rewrite Vds; apply G|apply G|apply G].
Qed.

(** ** Characters *)
Lemma ch2val_digit c r : 2 <= r <= 36 -> s_ch2val c r = match digit_of c with Some d => if d <? r then d else -1 | None => -1 end.
Proof.
  intros Hr. unfold s_ch2val, digit_of, isdigit, isalpha, isupper, islower, toupper, islower. rewrite !Z.geb_leb, Z.gtb_ltb.
  destruct (Z.leb_spec 48 c), (Z.leb_spec c 57), (Z.leb_spec 65 c), (Z.leb_spec c 90), (Z.leb_spec 97 c), (Z.leb_spec c 122), (Z.ltb_spec 10 r); cbn [andb orb]; try lia;
  repeat match goal with |- context [?x <=? ?y] => destruct (Z.leb_spec x y) | |- context [?x <? ?y] => destruct (Z.ltb_spec x y) end; lia.
Qed.
Lemma digit_of_range c d : digit_of c = Some d -> 0 <= d < 36 /\ c <> 43 /\ c <> 45 /\ ~ is_space c.
Proof.
  unfold digit_of, is_space. destruct (Z.leb_spec 48 c), (Z.leb_spec c 57), (Z.leb_spec 65 c), (Z.leb_spec c 90), (Z.leb_spec 97 c), (Z.leb_spec c 122); cbn [andb]; intros [= <-] || intros [=]; lia.
Qed.
Definition digit_in (r c d : Z) : Prop := digit_of c = Some d /\ d < r.
Lemma ch2val_in c r d : 2 <= r <= 36 -> digit_in r c d -> s_ch2val c r = d /\ 0 <= d.
Proof. intros Hr [H1 H2]. pose proof (digit_of_range _ _ H1). rewrite ch2val_digit, H1 by done. destruct (Z.ltb_spec d r); lia. Qed.
Lemma ch2val_out c r : 2 <= r <= 36 -> (forall d, ~ digit_in r c d) -> s_ch2val c r = -1.
Proof. intros Hr H. rewrite ch2val_digit by done. destruct (digit_of c) as [d|] eqn:E; [|done]. destruct (Z.ltb_spec d r); [|done]. by destruct (H d). Qed.
Lemma isspace_spec c : isspace c = true <-> is_space c.
Proof. unfold isspace, is_space. rewrite orb_true_iff, andb_true_iff, Z.eqb_eq, !Z.leb_le. done. Qed.
Lemma skip_app (f : Z -> bool) s t : Forall (fun c => f c = true) s -> (forall c, head t = Some c -> f c = false) -> skip_while f (s ++ t) = t.
Proof.
  intros H Ht. induction H as [|c s Hc _ IH]; cbn [app skip_while]; [|by rewrite Hc].
  destruct t as [|c t]; [done|]. cbn [skip_while]. by rewrite (Ht c eq_refl).
Qed.

(** ** The loop *)
Section read.
Context (ζ : gmap oid zv) (X : ctx) (o : oid) (r : Z) (Hr : 2 <= r <= 36).
Lemma wpZ_read_loop body ds rest : Forall2 (digit_in r) body ds -> (forall c, head rest = Some c -> forall d, ~ digit_in r c d) ->
  forall st z (Q : list Z -> state -> Prop), RZ st (<[o := z]> ζ) X -> (zm z + 1) * r ^ Z.of_nat (length body) <= Bn (zc z) ->
  (forall st', RZ st' (<[o := zput z (zs z) (fold_left (fun v d => v * r + d) ds (zm z))]> ζ) X -> Q rest st') ->
  wp (read_loop o r (body ++ rest)) Q st.
Proof.
  intros HF Hrest. induction HF as [|c d body ds Hcd HF IH]; intros st z Q HZ Hcap HQ; cbn [app fold_left length] in *.
  - specialize (HQ st). rewrite zput_id in HQ. destruct rest as [|c rest]; cbn [read_loop]; [by apply wp_ret, HQ|].
    rewrite (ch2val_out c r) by eauto. cbn [Z.geb Z.compare]. by apply wp_ret, HQ.
  - cbn [read_loop]. destruct (ch2val_in _ _ _ Hr Hcd) as [-> Hd0]. destruct Hcd as [_ Hd1]. rewrite Z.geb_leb. destruct (Z.leb_spec 0 d); [|lia].
    assert (0 <= zm z) as Hz0. { by destruct (RZ_s01 _ _ _ _ _ HZ (lookup_insert _ _ _)). }
    rewrite Nat2Z.inj_succ, Z.pow_succ_r in Hcap by lia. assert (1 <= r ^ Z.of_nat (length body)) as Hp. { assert (0 < r ^ Z.of_nat (length body)); [apply Z.pow_pos_nonneg; lia|lia]. }
    set (P := r ^ Z.of_nat (length body)) in *. clearbody P.
    assert ((zm z + 1) * r <= Bn (zc z)) as Hcap1 by nia.
    wb. eapply wpZ_dmul; [exact HZ|apply lookup_insert|mx|nia|]. intros st1 HZ1. rewrite insert_insert in HZ1.
    wb. eapply wpZ_dadd; [exact HZ1|apply lookup_insert|mx|cbn [zm zc zput]; nia|]. intros st2 HZ2. rewrite insert_insert, zput_zput in HZ2. cbn [zs zm zput] in HZ2.
    eapply IH; [exact HZ2|cbn [zm zc zput]; nia|]. intros st3 HZ3. apply HQ. exact HZ3.
Qed.
End read.
Lemma horner_zeros r n ds : horner r (replicate n 0 ++ ds) = horner r ds.
Proof. unfold horner. induction n as [|n IH]; [done|]. cbn [replicate app fold_left]. by rewrite Z.mul_0_l. Qed.
(** split off the leading zeros *)
Lemma strip_zeros r body ds : 2 <= r -> Forall2 (digit_in r) body ds -> exists zs_ body' ds', body = zs_ ++ body' /\ Forall (fun c => digit_of c = Some 0) zs_ /\
  Forall2 (digit_in r) body' ds' /\ horner r ds = horner r ds' /\ (forall c, head body' = Some c -> digit_of c <> Some 0).
Proof.
  intros Hr H. induction H as [|c d body ds Hcd HF IH]; [by exists [], [], []|]. destruct (decide (d = 0)) as [->|N].
  - destruct IH as (zs_ & body' & ds' & -> & H1 & H2 & H3 & H4). exists (c :: zs_), body', ds'. split; [done|]. split; [constructor; [apply Hcd|done]|]. split; [done|]. split; [|done].
    by rewrite <- H3, <- (horner_zeros r 1 ds).
  - exists [], (c :: body), (d :: ds). split; [done|]. split; [constructor|]. split; [by constructor|]. split; [done|]. intros c' [= <-]. destruct Hcd as [E _]. congruence.
Qed.
Lemma digits_eq_val r ds : Forall (fun d => 0 <= d < r) ds -> 0 < r -> 0 <= horner r ds.
Proof. intros H Hr. rewrite <- lval_rev. pose proof (lval_bounds r (rev ds) Hr ltac:(by apply Forall_rev)). lia. Qed.

Lemma wpV_read_cstring (st : state) (V : gmap oid Z) (X : ctx) (o : oid) (v0 r : Z) (sp sg body ds rest : list Z) (Q : Z * list Z -> state -> Prop) :
  RV st V X -> V !! o = Some v0 -> 2 <= r <= 36 -> Forall is_space sp -> (sg = [] \/ sg = [43] \/ sg = [45]) ->
  Forall2 (digit_in r) body ds -> (forall c d, head rest = Some c -> ~ digit_in r c d) ->
  (sg = [] -> forall c, head (body ++ rest) = Some c -> ~ is_space c /\ c <> 43 /\ c <> 45) ->
  Z.of_nat (length (sp ++ sg ++ body ++ rest)) < 2 ^ 31 ->
  (forall st', RV st' (<[o := if decide (sg = [45]) then - horner r ds else horner r ds]> V) X -> Q (match rest with [] => MP_OK | _ => MP_TRUNC end, rest) st') ->
  wp (mp_int_read_cstring o r (sp ++ sg ++ body ++ rest)) Q st.
Proof.
  intros (ζ & HZ & Hv) Ho Hr Hsp Hsg HF Hrest Hhd Hlen HQ. destruct (relv_some _ _ _ _ Hv Ho) as (z & Hz & <- & Nz & Oz). destruct (RZ_s01 _ _ _ _ _ HZ Hz) as [Mz Sz].
  unfold mp_int_read_cstring. wb. apply wp_assert; [lia|].
  rewrite skip_app.
  2:{ eapply Forall_impl; [done|]. intros c. apply isspace_spec. }
  2:{ intros c Hc. destruct (isspace c) eqn:E; [|done]. apply isspace_spec in E. destruct Hsg as [->|[->| ->]]; cbn [app head] in Hc.
      - by apply Hhd in Hc as [? _].
      - injection Hc as <-. unfold is_space in E. lia.
      - injection Hc as <-. unfold is_space in E. lia. }
  set (sb := if decide (sg = [45]) then 1 else 0).
  wb. eapply wp_mono with (Q := fun s st1 => s = body ++ rest /\ RZ st1 (<[o := zput z sb (zm z)]> ζ) X).
  { destruct Hsg as [->|[->| ->]]; cbn [app].
    - assert (forall c t, body ++ rest = c :: t -> c <> 43 /\ c <> 45) as Hx. { intros c t E. apply Hhd; [done|]. by rewrite E. }
      destruct (body ++ rest) as [|c t] eqn:E.
      + wb. eapply wpZ_set_sign; [done..|by left|]. intros st1 HZ1. apply wp_ret. done.
      + destruct (Hx c t eq_refl) as [N1 N2]. 
        assert ((match c :: t with 45 :: s' => set_sign o MP_NEG;; Ret s' | 43 :: s' => set_sign o MP_ZPOS;; Ret s' | _ => set_sign o MP_ZPOS;; Ret (c :: t) end)%prog = (set_sign o MP_ZPOS;; Ret (c :: t))%prog) as ->.
        { clear -N1 N2. destruct c as [|p|p]; [done| |done]. do 6 (destruct p as [p|p|]; try done). }
        wb. eapply wpZ_set_sign; [done..|by left|]. intros st1 HZ1. apply wp_ret. done.
    - wb. eapply wpZ_set_sign; [done..|by left|]. intros st1 HZ1. apply wp_ret. done.
    - wb. eapply wpZ_set_sign; [done..|by right|]. intros st1 HZ1. apply wp_ret. done. }
  intros s st1 [-> HZ1].
  destruct (strip_zeros r body ds ltac:(lia) HF) as (zs_ & body' & ds' & -> & Hzs & HF' & Eh & Hnz). rewrite <- app_assoc, skip_app.
  2:{ eapply Forall_impl; [done|]. cbv beta. intros c Hc. rewrite ch2val_digit, Hc by done. by destruct (Z.ltb_spec 0 r); [|lia]. }
  2:{ intros c Hc. apply Z.eqb_neq. rewrite ch2val_digit by done. destruct body' as [|c' body'']; cbn [app head] in Hc.
      - specialize (Hrest c). destruct (digit_of c) as [d|] eqn:E; [|done]. destruct (Z.ltb_spec d r); [|done]. exfalso. by apply (Hrest d).
      - injection Hc as ->. specialize (Hnz c eq_refl). destruct (digit_of c) as [d|]; [|done]. destruct (Z.ltb_spec d r); [congruence|done]. }
  rewrite !app_length in Hlen. rewrite app_length.
  destruct (inlen_enough (Z.of_nat (length body' + length rest)) r Hr ltac:(lia)) as [Hi1 Hi2].
  set (N := s_inlen _ _) in *. clearbody N.
  wb. eapply wpZ_padc; [exact HZ1|apply lookup_insert|done|mx|]. intros st2 HN HZ2. rewrite insert_insert in HZ2. cbn [negb].
  eapply wpZ_clear1; [exact HZ2|apply lookup_insert|]. intros st3 HZ3. rewrite insert_insert in HZ3.
  wb. eapply wpZ_read_loop; [exact Hr|exact HF'|eauto|exact HZ3| |].
  { cbn [zm zc zput zcap]. rewrite Z.add_0_l, Z.mul_1_l. eapply Z.le_trans; [|apply Bn_le, Nat.le_max_r]. rewrite Bn_pow2, Z2Nat.id by lia.
    eapply Z.le_trans; [|exact Hi2]. apply Z.pow_le_mono_r; lia. }
  intros st4 HZ4. rewrite zput_zput in HZ4. cbn [zs zm zput zcap] in HZ4. fold (horner r ds') in HZ4. rewrite <- Eh in HZ4.
  wb. eapply wpZ_CLAMP; [exact HZ4|apply lookup_insert|]. intros st5 HZ5.
  set (m := horner r ds) in *. assert (0 <= m) as Hm. { by destruct (RZ_s01 _ _ _ _ _ HZ5 (lookup_insert _ _ _)) as [? _]. }
  wb. eapply wpZ_CMPZ; [exact HZ5|apply lookup_insert|]. 
  wb. eapply wp_mono with (Q := fun _ st6 => exists z', RZ st6 (<[o := z']> ζ) X /\ zval z' = (if decide (sg = [45]) then - m else m) /\ norm z' /\ zo z' = None).
  { assert (forall s, zval (zput (zput (zcap z (Z.to_nat N)) s 0) s m) = (if s =? 0 then m else - m)) as E by done.
    destruct (Z.eqb_spec (Z.sgn (zval (zput (zcap (zput z sb (zm z)) (Z.to_nat N)) sb m))) 0) as [E0|E0].
    - assert (m = 0) as Em. { apply (proj1 (Z.sgn_null_iff _)) in E0. unfold zval in E0. cbn [zs zm zput] in E0. destruct (sb =? 0); lia. }
      eapply wpZ_set_sign; [exact HZ5|apply lookup_insert|by left|]. intros st6 HZ6. rewrite insert_insert in HZ6. eexists. split; [exact HZ6|].
      split; [|by split]. unfold zval. cbn [zs zm zput zcap]. rewrite Em. change (0 =? 0) with true. by destruct (decide _).
    - apply wp_ret. eexists. split; [exact HZ5|]. split; [|split; [|done]].
      + unfold zval. cbn [zs zm zput zcap]. unfold sb. by destruct (decide _).
      + intros Em. cbn [zs zm zput zcap] in *. destruct E0. unfold zval. cbn [zs zm zput]. rewrite Em. by destruct (sb =? 0). }
  intros _ st6 (z' & HZ6 & Ev & Nz' & Oz'). apply wp_ret, HQ. exists (<[o := z']> ζ). split; [done|]. by apply relv_ins.
Qed.
Lemma wpV_read_string (st : state) (V : gmap oid Z) (X : ctx) (o : oid) (v0 r : Z) (sp sg body ds rest : list Z) (Q : Z -> state -> Prop) :
  RV st V X -> V !! o = Some v0 -> 2 <= r <= 36 -> Forall is_space sp -> (sg = [] \/ sg = [43] \/ sg = [45]) ->
  Forall2 (digit_in r) body ds -> (forall c d, head rest = Some c -> ~ digit_in r c d) ->
  (sg = [] -> forall c, head (body ++ rest) = Some c -> ~ is_space c /\ c <> 43 /\ c <> 45) ->
  Z.of_nat (length (sp ++ sg ++ body ++ rest)) < 2 ^ 31 ->
  (forall st', RV st' (<[o := if decide (sg = [45]) then - horner r ds else horner r ds]> V) X -> Q (match rest with [] => MP_OK | _ => MP_TRUNC end) st') ->
  wp (mp_int_read_string o r (sp ++ sg ++ body ++ rest)) Q st.
Proof. intros. unfold mp_int_read_string. apply wp_bind. eapply wpV_read_cstring; [done..|]. intros st' H'. apply wp_ret. cbn [fst]. auto. Qed.

(** ** Bit lengths *)
Lemma wp_count_loop fuel d n (Q : Z -> state -> Prop) (st : state) : 0 <= d < 2 ^ Z.of_nat fuel ->
  Q (if d =? 0 then n else n + Z.log2 d + 1) st -> wp (count_loop fuel d n) Q st.
Proof.
  revert d n. induction fuel as [|fuel IH]; intros d n Hd HQ; cbn [count_loop].
  - change (2 ^ Z.of_nat 0) with 1 in Hd. destruct (Z.eqb_spec d 0); [by apply wp_ret|lia].
  - destruct (Z.eqb_spec d 0) as [E|E]; [by apply wp_ret|]. rewrite Nat2Z.inj_succ, Z.pow_succ_r in Hd by lia.
    apply IH; rewrite Z.shiftr_div_pow2, Z.pow_1_r by lia.
    + split; [apply Z.div_pos; lia|]. apply Z.div_lt_upper_bound; lia.
    + destruct (Z.eqb_spec (d / 2) 0) as [E2|E2].
      * assert (d = 1) as -> by (pose proof (Z.div_mod d 2); pose proof (Z.mod_pos_bound d 2); lia). change (Z.log2 1) with 0 in HQ. by rewrite Z.add_0_r in HQ.
      * assert (Z.log2 d = Z.succ (Z.log2 (d / 2))) as Hl.
        { rewrite <- Z.div2_div in *. rewrite (Z.div2_odd d) at 1. pose proof (Z.div2_nonneg d). destruct (Z.odd d); cbn [Z.b2z].
          - rewrite Z.log2_succ_double by lia. done.
          - rewrite Z.add_0_r, Z.log2_double by lia. done. }
        rewrite Hl in HQ. replace (n + 1 + Z.log2 (d / 2) + 1) with (n + Z.succ (Z.log2 (d / 2)) + 1) by lia. done.
Qed.
Definition bitlen (v : Z) : Z := if v =? 0 then 1 else Z.log2 (Z.abs v) + 1.
Lemma log2_top l d : digs l -> dig d -> 0 < d -> Z.log2 (val (l ++ [d])) = 32 * Z.of_nat (length l) + Z.log2 d.
Proof.
  intros Hl Hd Pd. pose proof (val_bounds l Hl). rewrite val_app. cbn [val]. rewrite Z.mul_0_r, Z.add_0_r, Bn_pow2 in *.
  pose proof (Z.log2_spec d Pd) as [L1 L2]. pose proof (Z.log2_nonneg d). apply Z.log2_unique; [lia|].
  rewrite <- Z.add_succ_r, !Z.pow_add_r by lia. nia.
Qed.
Lemma abs_zval z : 0 <= zm z -> Z.abs (zval z) = zm z.
Proof. intros M. unfold zval. destruct (_ =? _); lia. Qed.
Lemma wpZ_count_bits (st : state) (ζ : gmap oid zv) (X : ctx) (o : oid) (z : zv) (Q : Z -> state -> Prop) :
  RZ st ζ X -> ζ !! o = Some z -> Q (bitlen (zval z)) st -> wp (mp_int_count_bits o) Q st.
Proof.
  intros (σ & HR & Hz) Ho HQ. destruct (relz_get _ _ _ _ Hz Ho) as (f & l & Hf & G). pose proof (g_view _ _ _ G) as Vf. pose proof (g_canon _ _ _ G) as Hc.
  pose proof (view_len _ _ Vf) as Hlen. pose proof (R_len _ _ _ HR _ _ Hf) as HL. 
  unfold bitlen in HQ. rewrite abs_zval in HQ by (rewrite <- (g_val _ _ _ G); apply val_bounds, Vf).
  assert (Z.eqb (zval z) 0 = Z.eqb (val l) 0) as E. { rewrite (g_val _ _ _ G). unfold zval. destruct (zs z =? 0), (Z.eqb_spec (zm z) 0) as [M|?]; try (by rewrite M); try done; apply Z.eqb_neq; lia. }
  rewrite E, <- (g_val _ _ _ G) in HQ. clear E.
  destruct (exists_last (l := l)) as (l' & d & ->). { intros ->. destruct Hc. simpl in *. lia. }
  destruct Vf as [Vu [rr Vc] Vd]. pose proof Vd as Vd'. apply digs_app in Vd' as [D1 D2]. apply Forall_cons in D2 as [Dd _].
  rewrite app_length in *. cbn [length] in *.
  unfold mp_int_count_bits. wb. eapply wpR_used; [done..|]. wb. eapply wpR_digits; [done..|]. rewrite Vu.
  wb. eapply wp_mono with (Q := fun zero st1 => zero = (val (l' ++ [d]) =? 0) /\ st1 = st).
  { destruct (Z.eqb_spec (Z.of_nat (length l' + 1)) 1) as [E|E].
    - wb. eapply (wpR_load0 _ _ _ _ _ (l' ++ [d])); [done|done|apply G|done|]. intros d0 ds' E0 _. apply wp_ret. split; [|done].
      destruct l'; [|simpl in E; lia]. cbn [app] in *. injection E0 as <- <-. cbn [val]. f_equal. lia.
    - apply wp_ret. split; [|done]. symmetry. apply Z.eqb_neq. destruct Hc as [_ Hc]. rewrite app_length in Hc. cbn [length] in Hc. specialize (Hc ltac:(lia)).
      pose proof (Bn_pos (length l' + 1 - 1)). lia. }
  intros ? ? [-> ->]. destruct (Z.eqb_spec (val (l' ++ [d])) 0) as [E|E]; [by apply wp_ret|].
  assert (0 < d) as Pd.
  { destruct (decide (length l' = 0%nat)) as [E0|E0].
    - destruct l'; [|done]. cbn [app val] in E. red in Dd. lia.
    - destruct Hc as [_ Hc]. rewrite app_length in Hc. cbn [length] in Hc. specialize (Hc ltac:(lia)). replace (length l' + 1 - 1)%nat with (length l') in Hc by lia.
      rewrite val_app in Hc. cbn [val] in Hc. pose proof (val_bounds _ D1). red in Dd. destruct (decide (d = 0)) as [->|]; lia. }
  wb. eapply wp_load.
  { replace (Z.of_nat (length l' + 1) - 1) with (Z.of_nat (length l')) by lia. eapply R_load; [done..|]. rewrite Vc, fmap_app, <- app_assoc, lookup_app_r by (by rewrite fmap_length).
    rewrite fmap_length, Nat.sub_diag. done. }
  apply wp_count_loop; [red in Dd; mx|]. destruct (Z.eqb_spec d 0); [lia|]. rewrite log2_top in HQ by done.
  unfold u32. rewrite Z.mod_small; [|unfold MAXD in HL; lia]. replace ((Z.of_nat (length l' + 1) - 1) * 32 + Z.log2 d + 1) with (32 * Z.of_nat (length l') + Z.log2 d + 1) by lia. done.
Qed.
Lemma wpV_count_bits (st : state) (V : gmap oid Z) (X : ctx) (o : oid) (v : Z) (Q : Z -> state -> Prop) :
  RV st V X -> V !! o = Some v -> Q (bitlen v) st -> wp (mp_int_count_bits o) Q st.
Proof. intros (ζ & HZ & Hv) Ho HQ. destruct (relv_some _ _ _ _ Hv Ho) as (z & Hz & <- & _). by eapply wpZ_count_bits. Qed.
Lemma bitlen_max (st : state) (V : gmap oid Z) (X : ctx) (o : oid) (v : Z) : RV st V X -> V !! o = Some v -> 1 <= bitlen v <= 2 ^ 30.
Proof.
  intros (ζ & HZ & Hv) Ho. destruct (relv_some _ _ _ _ Hv Ho) as (z & Hz & <- & _). destruct (RZ_ndig _ _ _ _ _ HZ Hz) as [H1 H2]. destruct (RZ_s01 _ _ _ _ _ HZ Hz) as [H0 _].
  unfold bitlen. rewrite abs_zval by done. destruct (Z.eqb_spec (zval z) 0) as [E|E]; [lia|]. pose proof (Z.log2_nonneg (zm z)).
  assert (0 < zm z) as P. { unfold zval in E. destruct (zs z =? 0); lia. }
  pose proof (pow_ndig_lt (zm z) (Z.log2 (zm z)) ltac:(lia) P ltac:(by apply Z.log2_spec)). unfold MAXD in *. lia.
Qed.
Lemma wpV_string_len (st : state) (V : gmap oid Z) (X : ctx) (o : oid) (v r : Z) (Q : Z -> state -> Prop) :
  RV st V X -> V !! o = Some v -> 2 <= r <= 36 -> Q (outlen (bitlen v) r + 1 + if v <? 0 then 1 else 0) st -> wp (mp_int_string_len o r) Q st.
Proof.
  intros HV Ho Hr HQ. unfold mp_int_string_len, s_outlen. wb. apply wp_assert; [lia|]. wb. wb. apply wp_assert; [lia|]. wb. eapply wpV_count_bits; [done..|]. apply wp_ret.
  destruct HV as (ζ & HZ & Hv). destruct (relv_some _ _ _ _ Hv Ho) as (z & Hz & <- & Nz & _). destruct (RZ_s01 _ _ _ _ _ HZ Hz) as [H0 S].
  wb. eapply wpZ_sign; [done..|]. apply wp_ret. unfold zval in *. red in Nz. unfold MP_NEG. destruct S as [S|S]; rewrite S in *.
  - change (0 =? 1) with false. cbv iota. destruct (Z.ltb_spec (if 0 =? 0 then zm z else - zm z) 0) as [L|L]; [change (zm z < 0) in L; lia|]. by rewrite Z.add_0_r in HQ.
  - change (1 =? 1) with true. cbv iota. destruct (Z.ltb_spec (if 1 =? 0 then zm z else - zm z) 0) as [L|L]; [done|]. change (0 <= - zm z) in L. assert (zm z = 0) as M0 by lia. by apply Nz in M0.
Qed.

(** ** Lengths of numerals *)
Lemma numeral_len_le r v s (N : Z) : 2 <= r -> numeral r v s -> Z.abs v < r ^ N -> 1 <= N -> Z.of_nat (length s) <= N + if v <? 0 then 1 else 0.
Proof.
  intros Hr H Hv HN. destruct (Z.eq_dec v 0) as [->|Nv]; [apply numeral_zero in H as ->; [simpl; lia|done]|].
  destruct (numeral_inv _ _ _ Hr H Nv) as (ds & H1 & H2 & H3 & _ & ->). rewrite app_length, rev_length, map_length.
  assert (length ds <= Z.to_nat N)%nat as HL. { eapply (rlen_le r); [lia| |done|exact H3]. rewrite Z2Nat.id by lia. done. }
  destruct (v <? 0); cbn [length]; lia.
Qed.
Lemma numeral_len_ge r v s (N : Z) : 2 <= r -> numeral r v s -> r ^ N <= Z.abs v -> 0 <= N -> N + 1 + (if v <? 0 then 1 else 0) <= Z.of_nat (length s).
Proof.
  intros Hr H Hv HN. destruct (Z.eq_dec v 0) as [->|Nv]; [pose proof (Z.pow_pos_nonneg r N); lia|].
  destruct (numeral_inv _ _ _ Hr H Nv) as (ds & H1 & H2 & H3 & _ & ->). rewrite app_length, rev_length, map_length.
  pose proof (lval_bounds r ds ltac:(lia) H1) as [_ B]. rewrite H3 in B. assert (r ^ N < r ^ Z.of_nat (length ds)) as L by lia. apply Z.pow_lt_mono_r_iff in L; [|lia|lia].
  destruct (v <? 0); cbn [length]; lia.
Qed.
Lemma bitlen_pow v : Z.abs v < 2 ^ bitlen v.
Proof. unfold bitlen. destruct (Z.eqb_spec v 0) as [->|E]; [done|]. apply Z.log2_spec. lia. Qed.
Lemma bitlen_le v n : 1 <= n -> Z.abs v < 2 ^ n -> bitlen v <= n.
Proof.
  intros Hn Hv. unfold bitlen. destruct (Z.eqb_spec v 0) as [->|E]; [done|]. apply Z.log2_lt_pow2 in Hv; lia.
Qed.
Lemma bitlen_pos v : 1 <= bitlen v.
Proof. unfold bitlen. destruct (_ =? _); [done|]. pose proof (Z.log2_nonneg (Z.abs v)). lia. Qed.
Lemma numeral_short (st : state) (V : gmap oid Z) (X : ctx) (o : oid) (v r : Z) s : RV st V X -> V !! o = Some v -> 2 <= r -> numeral r v s -> (1 <= length s)%nat /\ Z.of_nat (length s) < 2 ^ 31.
Proof.
  intros HV Ho Hr Hs. split.
  { destruct Hs as (ds & _ & _ & N & _ & ->). rewrite app_length, map_length. destruct ds; [done|]. simpl. lia. }
  pose proof (bitlen_max _ _ _ _ _ HV Ho) as [B1 B2]. assert (Z.of_nat (length s) <= bitlen v + if v <? 0 then 1 else 0) as L.
  { apply (numeral_len_le r); [done|done| |done]. eapply Z.lt_le_trans; [apply bitlen_pow|]. apply Z.pow_le_mono_l. lia. }
  destruct (v <? 0); lia.
Qed.
(** A numeral is read back. *)
Lemma digit_char_of d : 0 <= d < 36 -> digit_of (digit_char d) = Some d.
Proof.
  intros Hd. unfold digit_char, digit_of. destruct (Z.ltb_spec d 10).
  - destruct (Z.leb_spec 48 (48 + d)), (Z.leb_spec (48 + d) 57); try lia. cbn [andb]. f_equal. lia.
  - destruct (Z.leb_spec 48 (55 + d)), (Z.leb_spec (55 + d) 57), (Z.leb_spec 65 (55 + d)), (Z.leb_spec (55 + d) 90); try lia. cbn [andb]. f_equal. lia.
Qed.
Lemma numeral_body r v s : 2 <= r <= 36 -> numeral r v s -> exists body ds, s = (if v <? 0 then [45] else []) ++ body /\ Forall2 (digit_in r) body ds /\ horner r ds = Z.abs v.
Proof.
  intros Hr (ds & H & E & _ & _ & ->). exists (map digit_char ds), ds. split; [done|]. split; [|done]. clear E. induction H as [|d ds Hd _ IH]; [constructor|]. cbn [map]. constructor; [|done].
  split; [apply digit_char_of|]; lia.
Qed.
Lemma wpV_read_numeral (st : state) (V : gmap oid Z) (X : ctx) (o : oid) (v0 r v : Z) (s : list Z) (Q : Z -> state -> Prop) :
  RV st V X -> V !! o = Some v0 -> 2 <= r <= 36 -> numeral r v s -> Z.of_nat (length s) < 2 ^ 31 ->
  (forall st', RV st' (<[o := v]> V) X -> Q MP_OK st') -> wp (mp_int_read_string o r s) Q st.
Proof.
  intros HV Ho Hr Hs Hl HQ. destruct (numeral_body _ _ _ Hr Hs) as (body & ds & -> & HF & Eh).
  rewrite <- (app_nil_r body). eapply (wpV_read_string _ _ _ _ _ _ [] _ body ds []); [done|done|done|constructor| |exact HF|done| | |].
  - destruct (v <? 0); [right; by right|by left].
  - intros _ c Hc. rewrite app_nil_r in Hc. destruct HF as [|c' d body ds [Hd _] _]; [done|]. injection Hc as ->. apply digit_of_range in Hd. tauto.
  - rewrite app_nil_l, app_nil_r. done.
  - intros st' H'. apply HQ. rewrite Eh in H'. destruct (Z.ltb_spec v 0); cbn in H'; [rewrite Z.abs_neq, Z.opp_involutive in H' by lia|rewrite Z.abs_eq in H' by lia]; done.
Qed.
(** Every string has the shape the parser expects. *)
Lemma span_while (P : Z -> Prop) `{!forall c, Decision (P c)} s : exists a b, s = a ++ b /\ Forall P a /\ (forall c, head b = Some c -> ~ P c).
Proof.
  induction s as [|c s (a & b & -> & Ha & Hb)]; [by exists [], []|]. destruct (decide (P c)) as [Pc|Pc].
  - exists (c :: a), b. split; [done|]. split; [by constructor|done].
  - exists [], (c :: a ++ b). split; [done|]. split; [constructor|]. by intros ? [= <-].
Qed.
Lemma digit_in_dec r c : Decision (exists d, digit_in r c d).
Proof.
  destruct (digit_of c) as [d|] eqn:E.
  - destruct (decide (d < r)); [left; by exists d|right]. intros (d' & Hd & Hd'). congruence.
  - right. intros (d' & Hd & Hd'). congruence.
Qed.
Lemma is_space_dec c : Decision (is_space c).
Proof. unfold is_space. apply _. Qed.
Theorem parse_shape r (t : list Z) : exists sp sg body ds rest, t = sp ++ sg ++ body ++ rest /\
  Forall is_space sp /\ (sg = [] \/ sg = [43] \/ sg = [45]) /\ Forall2 (digit_in r) body ds /\
  (forall c d, head rest = Some c -> ~ digit_in r c d) /\
  (sg = [] -> forall c, head (body ++ rest) = Some c -> ~ is_space c /\ c <> 43 /\ c <> 45).
Proof.
  pose proof is_space_dec. pose proof (digit_in_dec r). destruct (span_while is_space t) as (sp & u & -> & Hsp & Hu).
  assert (forall w, exists body ds rest, w = body ++ rest /\ Forall2 (digit_in r) body ds /\ (forall c d, head rest = Some c -> ~ digit_in r c d)) as HB.
  { intros w. destruct (span_while (fun c => exists d, digit_in r c d) w) as (body & rest & -> & HF & Hr). 
    assert (exists ds, Forall2 (digit_in r) body ds) as [ds Hds].
    { clear -HF. induction HF as [|c body [d Hd] _ [ds IH]]; [by exists []|]. exists (d :: ds). by constructor. }
    exists body, ds, rest. split; [done|]. split; [done|]. intros c d Hc Hd. eapply Hr; eauto. }
  assert (exists sg w, u = sg ++ w /\ (sg = [] \/ sg = [43] \/ sg = [45]) /\ (sg = [] -> forall c, head w = Some c -> ~ is_space c /\ c <> 43 /\ c <> 45)) as (sg & w & -> & H1 & H2).
  { destruct u as [|c u]; [exists [], []; split; [done|split; [by left|done]]|]. specialize (Hu c eq_refl). destruct (decide (c = 43)) as [->|N1]; [exists [43], u; split; [done|split; [by right; left|done]]|]. destruct (decide (c = 45)) as [->|N2]; [exists [45], u; split; [done|split; [by right; right|done]]|].
    exists [], (c :: u). split; [done|]. split; [by left|]. intros _ c' [= <-]. done. }
  destruct (HB w) as (body & ds & rest & -> & H3 & H4). by exists sp, sg, body, ds, rest.
Qed.
Lemma RV_done_buf st V W b l : RV st V (setb (ctx_of W) b l) -> Rep st V (with_buf W b l).
Proof. intros H. apply RV_Rep in H. by rewrite world_setb, world_ctx in H. Qed.
