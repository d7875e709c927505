(** Runs that make no request for memory. *)
From Coq Require Import ZArith List Lia.
From stdpp Require Import gmap list.
From Verif Require Import Mem Prog Kern Imath Exec Wp MemLem Spec SpecHist SpecFits Public RelZ Life Hist Room Refuse Soft Soft3 ChkBind Concrete Basic Basic2 Mult Divi Powr Gcd Still.
From Verif Require Rel RelWp Dig SpecBin Buf Bin.
From Verif Require Import Fp Inlen.
Local Open Scope Z_scope.
Local Open Scope prog_scope.

Definition sl {A} (p : prog A) (st : state) (Φ : A -> state -> Prop) : Prop :=
  forall orc t, match run true orc p t st with Done a st' _ => Φ a st' | OOM _ => False | _ => True end.
Lemma sl_mono {A} (p : prog A) st (Φ Ψ : A -> state -> Prop) : sl p st Φ -> (forall a st', Φ a st' -> Ψ a st') -> sl p st Ψ.
Proof. intros H HI orc t. specialize (H orc t). destruct (run true orc p t st); eauto. Qed.
Lemma sl_bind {A B} (p : prog A) (f : A -> prog B) st (Φ : A -> state -> Prop) Ψ : sl p st Φ -> (forall a st', Φ a st' -> sl (f a) st' Ψ) -> sl (bind p f) st Ψ.
Proof. intros H HI orc t. rewrite run_bind. specialize (H orc t). destruct (run true orc p t st); try done. by apply HI. Qed.
Lemma sl_ret {A} (a : A) st (Φ : A -> state -> Prop) : Φ a st -> sl (Ret a) st Φ. Proof. by intros H orc t. Qed.
Lemma sl_wp {A} (p : prog A) st (Φ Q : A -> state -> Prop) : sl p st Φ -> wp p Q st -> sl p st (fun a st' => Φ a st' /\ Q a st').
Proof. intros H HW orc t. specialize (H orc t). pose proof (wp_sound _ _ _ HW orc t) as HS. by destruct (run true orc p t st). Qed.
Lemma sl_sure {A} (p : prog A) st (Φ Q : A -> state -> Prop) : sl p st Φ -> wp p Q st -> sure p st (fun a st' => Φ a st' /\ Q a st').
Proof.
  intros H HW dbg orc t. pose proof (sl_wp _ _ _ _ H HW orc t) as HB. pose proof (wp_sound _ _ _ HW orc t) as HS. destruct (run true orc p t st) as [a st' t'|n| | |] eqn:E; try done.
  exists a, st', t'. split; [|done]. destruct dbg; [done|by apply run_nd_agrees].
Qed.
Lemma sl_reader {A} (p : prog A) st : reader p -> sl p st (fun _ st' => st' = st).
Proof.
  induction p; cbn [reader]; try done; intros Hr orc t; cbn [run]; try done.
  - destruct (load _ _); [|done]. by apply H.
  - destruct (objs st !! _); [|done]. by apply H.
  - by apply H.
  - destruct a; try done. destruct b; [by apply IHp|done].
Qed.

(** Where the digits of each integer are, and how many there can be. *)
Definition slot (st : state) (o : oid) : option (option ptr * Z) := (fun z => (digits z, alloc z)) <$> objs st !! o.
Definition kept (st st' : state) : Prop := glob st' = glob st /\ forall o, slot st' o = slot st o.
Lemma kept_refl st : kept st st. Proof. done. Qed.
Lemma kept_trans a b c : kept a b -> kept b c -> kept a c. Proof. intros [H1 H2] [H3 H4]. split; [congruence|]. intros o. by rewrite H4. Qed.
Lemma slot_room st o : room st o = match slot st o with Some x => x.2 | None => 0 end.
Proof. unfold room, slot. by destruct (objs st !! o). Qed.
Lemma kept_room st st' o : kept st st' -> room st' o = room st o. Proof. intros [_ H]. by rewrite !slot_room, H. Qed.

Definition kp {A} (p : prog A) : Prop := forall st, sl p st (fun _ st' => kept st st').
Lemma kp_bind {A B} (p : prog A) (f : A -> prog B) : kp p -> (forall a, kp (f a)) -> kp (bind p f).
Proof. intros Hp Hf st. eapply sl_bind; [apply Hp|]. intros a st' H. eapply sl_mono; [apply Hf|]. intros ? ? H'. exact (kept_trans _ _ _ H H'). Qed.
Lemma kp_ret {A} (a : A) : kp (Ret a). Proof. intros st. by apply sl_ret. Qed.
Lemma kp_reader {A} (p : prog A) : reader p -> kp p.
Proof. intros H st. eapply sl_mono; [by apply sl_reader|]. by intros ? ? ->. Qed.
Lemma kp_Undef {A} : kp (@Undef A). Proof. intros st orc t. done. Qed.
Lemma kp_NoFuel {A} : kp (@NoFuel A). Proof. intros st orc t. done. Qed.
Section T.
Local Transparent Load Prog.Store getO setO getG assert bind.
Local Arguments bind {A B} !p f : simpl nomatch.
Lemma kp_Load p : kp (Load p). Proof. apply kp_reader. rd. Qed.
Lemma kp_Store p v : kp (Prog.Store p v).
Proof. intros st orc t. unfold Prog.Store. cbn [run]. by destruct (load _ _). Qed.
Lemma kp_getO o : kp (getO o). Proof. apply kp_reader. rd. Qed.
Lemma kp_getG : kp getG. Proof. apply kp_reader. exact (fun _ => I). Qed.
Lemma kp_assert b : kp (assert b). Proof. apply kp_reader. exact I. Qed.
Lemma kp_get_used o : kp (get_used o). Proof. apply kp_reader. rd. Qed.
Lemma kp_get_sign o : kp (get_sign o). Proof. apply kp_reader. rd. Qed.
Lemma kp_get_digits o : kp (get_digits o). Proof. apply kp_reader. rd. Qed.
Lemma slot_set st o z z' o' : objs st !! o = Some z -> digits z' = digits z -> alloc z' = alloc z -> slot (set_objs st (<[o := z']> (objs st))) o' = slot st o'.
Proof.
  intros Ho H1 H2. unfold slot. cbn [objs set_objs]. destruct (decide (o = o')) as [<-|N]; [rewrite lookup_insert, Ho; cbn; by rewrite H1, H2|by rewrite lookup_insert_ne].
Qed.
Lemma kp_set_used o v : kp (set_used o v).
Proof. intros st orc t. unfold set_used, getO, setO. cbn [run bind]. destruct (objs st !! o) as [z|] eqn:E; [|done]. split; [done|]. intros o'. by eapply slot_set. Qed.
Lemma kp_set_sign o v : kp (set_sign o v).
Proof. intros st orc t. unfold set_sign, getO, setO. cbn [run bind]. destruct (objs st !! o) as [z|] eqn:E; [|done]. split; [done|]. intros o'. by eapply slot_set. Qed.
End T.
Lemma kp_Peek {A} p (k : cell -> prog A) : (forall c, kp (k c)) -> kp (Peek p k).
Proof. intros H st orc t. cbn [run]. destruct (load _ _); [|done]. apply (H _ st). Qed.
Lemma kp_Poke {A} p c (k : prog A) : kp k -> kp (Poke p c k).
Proof. intros H st orc t. cbn [run]. destruct (load _ _); [|done]. exact (H (set_mem st _) orc t). Qed.
Create HintDb kp.
#[export] Hint Resolve kp_Load kp_Store kp_getO kp_getG kp_assert kp_get_used kp_get_sign kp_get_digits kp_set_used kp_set_sign kp_Undef kp_NoFuel : kp.
Ltac kpt :=
  lazymatch goal with
  | |- forall _, _ => intro; kpt
  | |- kp (bind _ _) => apply kp_bind; kpt
  | |- kp (if ?b then _ else _) => destruct b; kpt
  | |- kp (match ?x with _ => _ end) => destruct x; kpt
  | |- kp (let x := ?v in @?b x) => cbv zeta; kpt
  | |- kp (Ret _) => apply kp_ret
  | |- kp (Peek _ _) => apply kp_Peek; kpt
  | |- kp (Poke _ _ _) => apply kp_Poke; kpt
  | |- kp _ => solve [eauto with kp]
  end.
Lemma k_zero_loop n : forall p, kp (zero_loop n p). Proof. induction n; cbn [zero_loop]; kpt. Qed.
Lemma k_copy_loop n : forall p q, kp (copy_loop n p q). Proof. induction n; cbn [copy_loop]; kpt. Qed.
Lemma k_clamp_loop n : forall p, kp (clamp_loop n p). Proof. induction n as [|n IH]; [intros; apply kp_ret|]. destruct n; [intros; apply kp_ret|]. intros p. change (kp (d <- Load p; if d =? 0 then clamp_loop (S n) (p +p (-1)) else Ret (Z.of_nat (S (S n))))). kpt. Qed.
Lemma k_uadd1 n : forall a b c w, kp (uadd_loop1 n a b c w). Proof. induction n; cbn [uadd_loop1]; kpt. Qed.
Lemma k_uadd2 n : forall a c w, kp (uadd_loop2 n a c w). Proof. induction n; cbn [uadd_loop2]; kpt. Qed.
Lemma k_usub1 n : forall a b c w, kp (usub_loop1 n a b c w). Proof. induction n; cbn [usub_loop1]; kpt. Qed.
Lemma k_usub2 n : forall a c w, kp (usub_loop2 n a c w). Proof. induction n; cbn [usub_loop2]; kpt. Qed.
Lemma k_cdig n : forall a b, kp (cdig_loop n a b). Proof. induction n; cbn [cdig_loop]; kpt. Qed.
Lemma k_uvpack n : forall uv t d, kp (uvpack_loop n uv t d). Proof. induction n; cbn [uvpack_loop]; kpt. Qed.
Lemma k_move_down n : forall a b, kp (move_down n a b). Proof. induction n; cbn [move_down]; kpt. Qed.
Lemma k_move_up n : forall a b, kp (move_up n a b). Proof. induction n; cbn [move_up]; kpt. Qed.
Lemma k_shl n : forall a b c, kp (shl_loop n a b c). Proof. induction n; cbn [shl_loop]; kpt. Qed.
Lemma k_shr n : forall a b c, kp (shr_loop n a b c). Proof. induction n; cbn [shr_loop]; kpt. Qed.
Lemma k_umul_inner n : forall a b c d, kp (umul_inner n a b c d). Proof. induction n; cbn [umul_inner]; kpt. Qed.
#[export] Hint Resolve k_zero_loop k_copy_loop k_clamp_loop k_uadd1 k_uadd2 k_usub1 k_usub2 k_cdig k_uvpack k_move_down k_move_up k_shl k_shr k_umul_inner : kp.
Lemma k_umul_loop n : forall a b c m, kp (umul_loop n a b c m). Proof. induction n; cbn [umul_loop]; kpt. Qed.
Lemma k_usqr_inner n : forall a b c d, kp (usqr_inner n a b c d). Proof. induction n; cbn [usqr_inner]; kpt. Qed.
Lemma k_usqr_carry n : forall c w, kp (usqr_carry n c w). Proof. induction n; intros c w; unfold usqr_carry; fold usqr_carry; cbv zeta; kpt. Qed.
#[export] Hint Resolve k_umul_loop k_usqr_inner k_usqr_carry : kp.
Lemma k_usqr_loop n : forall a c, kp (usqr_loop n a c). Proof. induction n; cbn [usqr_loop]; kpt. Qed.
Lemma k_ZERO p n : kp (ZERO p n). Proof. unfold ZERO. kpt. Qed.
Lemma k_COPY p q n : kp (COPY p q n). Proof. unfold COPY. kpt. Qed.
Lemma k_CLAMP o : kp (CLAMP o). Proof. unfold CLAMP. kpt. Qed.
Lemma k_CMPZ o : kp (CMPZ o). Proof. unfold CMPZ. kpt. Qed.
Lemma k_s_uadd a b c n m : kp (s_uadd a b c n m). Proof. unfold s_uadd, s_uadd_ord. kpt. Qed.
Lemma k_s_usub a b c n m : kp (s_usub a b c n m). Proof. unfold s_usub. kpt. Qed.
#[export] Hint Resolve k_usqr_loop k_ZERO k_COPY k_CLAMP k_CMPZ k_s_uadd k_s_usub : kp.
Lemma k_s_umul a b c n m : kp (s_umul a b c n m). Proof. unfold s_umul. kpt. Qed.
Lemma k_s_usqr a c n : kp (s_usqr a c n). Proof. unfold s_usqr. kpt. Qed.
Lemma k_s_ucmp a b : kp (s_ucmp a b). Proof. unfold s_ucmp, s_cdig. kpt. Qed.
Lemma k_zero o : kp (mp_int_zero o). Proof. unfold mp_int_zero. kpt. Qed.
Lemma k_compare_zero o : kp (mp_int_compare_zero o). Proof. unfold mp_int_compare_zero. kpt. Qed.
#[export] Hint Resolve k_s_umul k_s_usqr k_s_ucmp k_zero k_compare_zero : kp.
Lemma k_compare a b : kp (mp_int_compare a b). Proof. unfold mp_int_compare. kpt. Qed.
Lemma k_fix_zero o : kp (fix_zero_sign o). Proof. unfold fix_zero_sign. kpt. Qed.
#[export] Hint Resolve k_compare k_fix_zero : kp.
Lemma k_qdiv_bits o n : kp (s_qdiv_bits o n). Proof. unfold s_qdiv_bits. kpt. Qed.
#[export] Hint Resolve k_qdiv_bits : kp.
Lemma k_qdiv o n : kp (s_qdiv o n). Proof. unfold s_qdiv. kpt. Qed.
Lemma k_qmod o n : kp (s_qmod o n). Proof. unfold s_qmod. kpt. Qed.
#[export] Hint Resolve k_qdiv k_qmod : kp.
Lemma k_isp2_top n : forall d k, kp (isp2_top n d k). Proof. induction n; cbn [isp2_top]; kpt. Qed.
#[export] Hint Resolve k_isp2_top : kp.
Lemma k_isp2_loop n : forall d k, kp (isp2_loop n d k).
Proof.
  induction n as [|n IH]; [cbn [isp2_loop]; kpt|]. destruct n; [cbn [isp2_loop]; kpt|]. intros dz k.
  change (kp (d <- Load dz; if negb (d =? 0) then Ret (-1) else isp2_loop (S n) (dz +p 1) (k + 32))). kpt.
Qed.
#[export] Hint Resolve k_isp2_loop : kp.
Lemma k_is_pow2 z : kp (mp_int_is_pow2 z). Proof. unfold mp_int_is_pow2, s_isp2. kpt. Qed.
Lemma k_is_odd z : kp (mp_int_is_odd z). Proof. unfold mp_int_is_odd. kpt. Qed.
Lemma k_is_even z : kp (mp_int_is_even z). Proof. unfold mp_int_is_even. kpt. Qed.
Lemma k_count_loop n : forall d k, kp (count_loop n d k). Proof. induction n; cbn [count_loop]; kpt. Qed.
#[export] Hint Resolve k_count_loop k_is_pow2 k_is_odd k_is_even : kp.
Lemma k_count_bits z : kp (mp_int_count_bits z). Proof. unfold mp_int_count_bits. kpt. Qed.
#[export] Hint Resolve k_count_bits : kp.
Lemma k_string_len z r : kp (mp_int_string_len z r). Proof. unfold mp_int_string_len, s_outlen. kpt. Qed.
Lemma k_unsigned_len z : kp (mp_int_unsigned_len z). Proof. unfold mp_int_unsigned_len. kpt. Qed.
#[export] Hint Resolve k_unsigned_len k_string_len : kp.
Lemma k_binary_len z : kp (mp_int_binary_len z). Proof. unfold mp_int_binary_len. kpt. Qed.
Lemma k_to_int_loop n : forall d u, kp (to_int_loop n d u). Proof. induction n; cbn [to_int_loop]; kpt. Qed.
Lemma k_to_uint_loop n : forall d u, kp (to_uint_loop n d u). Proof. induction n; cbn [to_uint_loop]; kpt. Qed.
Lemma k_rev n : forall h t, kp (rev_loop n h t). Proof. induction n; intros h t; cbn [rev_loop]; kpt. Qed.
Lemma k_comp2 n : forall h t, kp (comp2_loop n h t). Proof. induction n; intros h t; cbn [comp2_loop]; kpt. Qed.
Lemma k_tobin_digit n : forall b p l d u, kp (tobin_digit n b p l d u). Proof. induction n; intros; cbn [tobin_digit]; kpt. Qed.
#[export] Hint Resolve k_binary_len k_to_int_loop k_to_uint_loop k_rev k_comp2 k_tobin_digit : kp.
Lemma k_tobin_loop n : forall d b p l, kp (tobin_loop n d b p l). Proof. induction n; intros; cbn [tobin_loop]; kpt. Qed.
#[export] Hint Resolve k_tobin_loop : kp.
Lemma k_tobin z b l p : kp (s_tobin z b l p). Proof. unfold s_tobin. kpt. Qed.
Lemma k_2comp b l : kp (s_2comp b l). Proof. unfold s_2comp. kpt. Qed.
#[export] Hint Resolve k_tobin k_2comp : kp.
Lemma k_to_binary z b l : kp (mp_int_to_binary z b l). Proof. unfold mp_int_to_binary. kpt. Qed.
Lemma k_to_unsigned z b l : kp (mp_int_to_unsigned z b l). Proof. unfold mp_int_to_unsigned. kpt. Qed.
#[export] Hint Resolve k_to_binary k_to_unsigned : kp.

(** ** Local integers made of machine integers *)
Definition usd (st : state) (o : oid) : Z := match objs st !! o with Some z => used z | None => 0 end.
Section T2.
Local Transparent Load Prog.Store getO setO getG assert bind.
Local Arguments bind {A B} !p f : simpl nomatch.
Lemma sl_get_used a st : sl (get_used a) st (fun r st' => r = usd st a /\ st' = st).
Proof. intros orc t. unfold get_used, getO, usd. cbn [run bind]. destruct (objs st !! a); done. Qed.
Lemma sl_Store p v st : sl (Prog.Store p v) st (fun _ st' => objs st' = objs st /\ glob st' = glob st).
Proof. intros orc t. unfold Prog.Store. cbn [run]. by destruct (load _ _). Qed.
Lemma sl_uvpack n : forall uv p d st, sl (uvpack_loop n uv p d) st (fun r st' => r <= d + Z.of_nat n /\ objs st' = objs st /\ glob st' = glob st).
Proof.
  induction n as [|n IH]; intros uv p d st; cbn [uvpack_loop]; (destruct (uv =? 0); [apply sl_ret; split; [lia|done]|]); [by intros orc t|].
  eapply sl_bind; [apply sl_Store|]. intros _ st1 [E1 E2]. eapply sl_mono; [apply IH|]. intros r st' (H1 & H2 & H3). split; [lia|]. by rewrite H2, H3.
Qed.
Lemma sl_set o z st : sl (setO o z) st (fun _ st' => objs st' = <[o := z]> (objs st) /\ glob st' = glob st).
Proof. intros orc t. unfold setO. cbn [run]. by destruct (objs st !! o). Qed.
Lemma sl_upd o (f : mpz -> mpz) st : sl (m <- getO o; setO o (f m)) st (fun _ st' => glob st' = glob st /\ exists z, objs st !! o = Some z /\ objs st' = <[o := f z]> (objs st)).
Proof. intros orc t. unfold getO, setO. cbn [run bind]. destruct (objs st !! o) eqn:E; [|done]. rewrite ?E. split; [done|]. eexists. done. Qed.
Definition mine (vt : oid) (st st' : state) : Prop := glob st' = glob st /\ exists m, used m <= 2 /\ objs st' = <[vt := m]> (objs st).
Lemma sl_ufake vt v vb st : sl (s_ufake vt v vb) st (fun _ st' => mine vt st st').
Proof.
  unfold s_ufake. eapply (sl_bind _ _ _ (fun r st' => r <= 2 /\ objs st' = objs st /\ glob st' = glob st)).
  - unfold s_uvpack. destruct (v =? 0); [|apply (sl_uvpack 2)]. eapply sl_bind; [apply sl_Store|]. intros _ st1 [E1 E2]. apply sl_ret. split; [lia|done].
  - intros nd st1 (H1 & H2 & H3). eapply sl_bind; [apply sl_upd|]. intros _ st2 (G2 & z2 & L2 & E2). eapply sl_bind; [apply sl_upd|]. intros _ st3 (G3 & z3 & L3 & E3).
    eapply sl_bind; [apply sl_upd|]. intros _ st4 (G4 & z4 & L4 & E4). eapply sl_mono; [apply sl_upd|]. intros _ st5 (G5 & z5 & L5 & E5).
    split; [congruence|]. rewrite E2, lookup_insert in L3. injection L3 as <-. rewrite E3, lookup_insert in L4. injection L4 as <-. rewrite E4, lookup_insert in L5. injection L5 as <-.
    eexists. rewrite E5, E4, E3, E2, H2, !insert_insert. split; [|done]. done.
Qed.
Lemma sl_fake vt v vb st : sl (s_fake vt v vb) st (fun _ st' => mine vt st st').
Proof.
  unfold s_fake. destruct (v =? SMALL_MIN); [by intros orc t|]. eapply sl_bind; [apply sl_ufake|]. intros _ st1 (G1 & m & Hm & E1).
  destruct (v <? 0); [|apply sl_ret; split; [done|]; by exists m]. eapply sl_mono; [apply sl_upd|]. intros _ st2 (G2 & z2 & L2 & E2).
  split; [congruence|]. rewrite E1, lookup_insert in L2. injection L2 as <-. eexists. rewrite E2, E1, insert_insert. split; [|done]. done.
Qed.
Lemma slot_ne st st' vt m o : objs st' = <[vt := m]> (objs st) -> o <> vt -> slot st' o = slot st o.
Proof. intros E N. unfold slot. by rewrite E, lookup_insert_ne. Qed.
Lemma sl_local {A} (mk : oid -> ptr -> prog unit) (body : oid -> prog A) st :
  (forall vt vb st, sl (mk vt vb) st (fun _ st' => mine vt st st')) ->
  (forall vt m st2, objs st !! vt = None -> used m <= 2 -> objs st2 = <[vt := m]> (objs st) -> glob st2 = glob st -> sl (body vt) st2 (fun _ st3 => kept st2 st3)) ->
  sl (with_local (fun vt vb => mk vt vb;; body vt)) st (fun _ st' => kept st st').
Proof.
  intros Hm Hb orc t. unfold with_local. cbn [run]. set (st0 := add_block st _ _). set (vt := (false, pick_obj orc t false st0)).
  pose proof (pick_obj_fresh orc t false st0) as HF. fold vt in HF. assert (objs st !! vt = None) as HN. { destruct HF as [HF _]. exact HF. }
  set (st1 := add_obj st0 vt _). set (vb := (Ext _, 0)).
  assert (sl (mk vt vb;; body vt) st1 (fun _ st' => glob st' = glob st /\ forall o, o <> vt -> slot st' o = slot st o)) as HS.
  { eapply sl_bind; [apply Hm|]. intros _ st2 (G & m & Hu & E). assert (objs st2 = <[vt := m]> (objs st)) as E'. { rewrite E. unfold st1. cbn [objs add_obj]. by rewrite insert_insert. }
    eapply sl_mono; [eapply (Hb vt m); [done..|]|]. { rewrite G. done. }
    intros a st3 [K1 K2]. split; [rewrite K1, G; done|]. intros o No. rewrite K2. by eapply slot_ne. }
  specialize (HS orc (S t)). rewrite run_bind. destruct (run true orc (mk vt vb;; body vt) (S t) st1) as [a st3 t3|n| | |]; try done. destruct HS as [G HS].
  cbn [run]. destruct (objs st3 !! vt) eqn:E3; [|done]. cbn [fst vt]. destruct (mem (del_obj st3 vt) !! vb.1); [|done]. cbn [fst vb].
  split; [done|]. intros o. destruct (decide (o = vt)) as [->|No].
  - unfold slot. change (objs (del_block (del_obj st3 vt) (Ext (pick_ext orc t st)))) with (delete vt (objs st3)). rewrite lookup_delete, HN. done.
  - rewrite <- HS by done. unfold slot. change (objs (del_block (del_obj st3 vt) (Ext (pick_ext orc t st)))) with (delete vt (objs st3)). by rewrite lookup_delete_ne.
Qed.
End T2.

(** ** The calls *)
Lemma sl_with_fake {A} v (body : oid -> prog A) st :
  (forall vt m st2, objs st !! vt = None -> used m <= 2 -> objs st2 = <[vt := m]> (objs st) -> glob st2 = glob st -> sl (body vt) st2 (fun _ st3 => kept st2 st3)) ->
  sl (with_fake v body) st (fun _ st' => kept st st').
Proof. intros H. apply (sl_local (fun vt vb => s_fake vt v vb) body); [|done]. intros. apply sl_fake. Qed.
Lemma sl_with_ufake {A} v (body : oid -> prog A) st :
  (forall vt m st2, objs st !! vt = None -> used m <= 2 -> objs st2 = <[vt := m]> (objs st) -> glob st2 = glob st -> sl (body vt) st2 (fun _ st3 => kept st2 st3)) ->
  sl (with_ufake v body) st (fun _ st' => kept st st').
Proof. intros H. apply (sl_local (fun vt vb => s_ufake vt v vb) body); [|done]. intros. apply sl_ufake. Qed.
Lemma k_uvcmp a v : kp (s_uvcmp a v).
Proof. intros st. unfold s_uvcmp. apply sl_with_ufake. intros. by apply k_s_ucmp. Qed.
Lemma k_vcmp a v : kp (s_vcmp a v). Proof. apply k_uvcmp. Qed.
#[export] Hint Resolve k_uvcmp k_vcmp : kp.
Lemma k_compare_value z v : kp (mp_int_compare_value z v). Proof. unfold mp_int_compare_value. kpt. Qed.
Lemma k_compare_uvalue z v : kp (mp_int_compare_uvalue z v). Proof. unfold mp_int_compare_uvalue. kpt. Qed.
#[export] Hint Resolve k_compare_value k_compare_uvalue : kp.
Lemma k_to_int z : kp (mp_int_to_int z). Proof. unfold mp_int_to_int. kpt. Qed.
Lemma k_to_uint z : kp (mp_int_to_uint z). Proof. unfold mp_int_to_uint. kpt. Qed.
#[export] Hint Resolve k_to_int k_to_uint : kp.

Lemma u32_le x : 0 <= x -> u32 x <= x. Proof. intros H. unfold u32. apply Z.mod_le; lia. Qed.
Lemma sl_rd {A B} (p : prog A) (f : A -> prog B) st Ψ : reader p -> (forall a, sl (f a) st Ψ) -> sl (bind p f) st Ψ.
Proof. intros Hr Hf. eapply sl_bind; [by apply sl_reader|]. intros a st' ->. apply Hf. Qed.
Lemma sl_used {B} a (f : Z -> prog B) st Ψ : sl (f (usd st a)) st Ψ -> sl (bind (get_used a) f) st Ψ.
Proof. intros H. eapply sl_bind; [apply sl_get_used|]. intros r st' [-> ->]. done. Qed.
Section T3.
Local Transparent Load Prog.Store getO setO getG assert bind.
Local Arguments bind {A B} !p f : simpl nomatch.
Lemma sl_get_alloc a st : sl (get_alloc a) st (fun r st' => r = room st a /\ st' = st).
Proof. intros orc t. unfold get_alloc, getO, room. cbn [run bind]. destruct (objs st !! a); done. Qed.
Lemma sl_get_digits a st : sl (get_digits a) st (fun r st' => (fst <$> slot st a) = Some (Some r) /\ st' = st).
Proof. intros orc t. unfold get_digits, getO, slot. rewrite run_bind. cbn [run]. destruct (objs st !! a) as [z|]; [|done]. cbn [run fmap option_fmap option_map]. destruct (digits z); done. Qed.
Lemma sl_getG st : sl getG st (fun r st' => r = glob st /\ st' = st). Proof. by intros orc t. Qed.
End T3.
Lemma sl_pad c n st : n <= room st c -> sl (s_pad c n) st (fun r st' => r = true /\ st' = st).
Proof.
  intros H. unfold s_pad. eapply sl_bind; [apply sl_get_alloc|]. intros za st' [-> ->]. replace (room st c <? n) with false by (symmetry; apply Z.ltb_ge; lia).
  by apply sl_ret.
Qed.
Lemma sl_padb {B} c n (f : bool -> prog B) st Ψ : n <= room st c -> sl (f true) st Ψ -> sl (bind (s_pad c n) f) st Ψ.
Proof. intros H HF. eapply sl_bind; [by apply sl_pad|]. intros r st' [-> ->]. done. Qed.
Lemma sl_kp {A B} (p : prog A) (f : A -> prog B) st : kp p -> (forall a st', kept st st' -> sl (f a) st' (fun _ st2 => kept st' st2)) -> sl (bind p f) st (fun _ st' => kept st st').
Proof. intros Hp Hf. eapply sl_bind; [apply Hp|]. intros a st' K. eapply sl_mono; [by apply Hf|]. intros ? ? K'. exact (kept_trans _ _ _ K K'). Qed.
Ltac kp0 := match goal with |- sl ?p ?st _ => apply (fun H : kp p => H st) end; kpt.

Lemma sl_copy a c st : usd st a <= room st c -> sl (mp_int_copy a c) st (fun _ st' => kept st st').
Proof.
  intros H. unfold mp_int_copy. destruct (bool_decide (a = c)); [by apply sl_ret|]. apply sl_used, sl_padb; [done|]. cbn [negb]. kp0.
Qed.
Lemma sl_abs a c st : usd st a <= room st c -> sl (mp_int_abs a c) st (fun _ st' => kept st st').
Proof. intros H. unfold mp_int_abs. eapply sl_bind; [by apply sl_copy|]. intros r st' K. eapply (sl_mono _ _ (fun _ s => kept st' s)); [kp0|]. intros ? ? K'. exact (kept_trans _ _ _ K K'). Qed.
Lemma sl_neg a c st : usd st a <= room st c -> sl (mp_int_neg a c) st (fun _ st' => kept st st').
Proof. intros H. unfold mp_int_neg. eapply sl_bind; [by apply sl_copy|]. intros r st' K. eapply (sl_mono _ _ (fun _ s => kept st' s)); [kp0|]. intros ? ? K'. exact (kept_trans _ _ _ K K'). Qed.
Section T4.
Local Transparent Load getO getG assert bind.
Lemma rd_used a : reader (get_used a). Proof. rd. Qed.
Lemma rd_sign a : reader (get_sign a). Proof. rd. Qed.
Lemma rd_digits a : reader (get_digits a). Proof. rd. Qed.
Lemma rd_Load p : reader (Load p). Proof. rd. Qed.
Lemma rd_cmp0 a : reader (mp_int_compare_zero a). Proof. unfold mp_int_compare_zero. rd. Qed.
End T4.
Lemma sl_add_mags a b c st : 0 <= usd st a -> usd st a + 1 <= room st c -> usd st b + 1 <= room st c -> sl (add_mags a b c) st (fun _ st' => kept st st').
Proof.
  intros H0 Ha Hb. unfold add_mags. apply sl_used, sl_used. cbv zeta. assert (0 <= MAX (usd st a) (usd st b) /\ MAX (usd st a) (usd st b) + 1 <= room st c) as [M0 M1] by (unfold MAX; destruct (_ >? _) eqn:E; rewrite ?Z.gtb_ltb in E; lia).
  apply sl_padb; [lia|]. cbn [negb]. apply sl_rd; [apply rd_digits|]. intros da. apply sl_rd; [apply rd_digits|]. intros db. apply sl_rd; [apply rd_digits|]. intros dc.
  apply sl_kp; [kpt|]. intros w st' K. destruct (w =? 0); [kp0|]. apply sl_padb; [rewrite (kept_room _ _ _ K); pose proof (u32_le (MAX (usd st a) (usd st b) + 1)); lia|].
  cbn [negb]. kp0.
Qed.
Lemma sl_add a b c st : 0 <= usd st a -> usd st a + 1 <= room st c -> usd st b + 1 <= room st c -> sl (mp_int_add a b c) st (fun _ st' => kept st st').
Proof.
  intros H0 Ha Hb. unfold mp_int_add. apply sl_rd; [apply rd_sign|]. intros sa. apply sl_rd; [apply rd_sign|]. intros sb. destruct (sa =? sb); [by apply sl_add_mags|].
  apply sl_rd; [apply rd_ucmp|]. intros cmp. destruct (cmp =? 0); [kp0|]. cbv zeta. apply sl_used, sl_padb; [destruct (cmp <? 0); lia|]. cbn [negb]. kp0.
Qed.
Lemma sl_sub a b c st : 0 <= usd st a -> usd st a + 1 <= room st c -> usd st b + 1 <= room st c -> sl (mp_int_sub a b c) st (fun _ st' => kept st st').
Proof.
  intros H0 Ha Hb. unfold mp_int_sub. apply sl_used, sl_used. apply sl_rd; [apply rd_sign|]. intros sa. apply sl_rd; [apply rd_sign|]. intros sb. destruct (negb (sa =? sb)); [by apply sl_add_mags|].
  apply sl_padb; [unfold MAX; destruct (_ >? _); lia|]. cbn [negb]. kp0.
Qed.

Lemma usd_new st st2 vt m : objs st2 = <[vt := m]> (objs st) -> used m <= 2 -> usd st2 vt <= 2.
Proof. intros E H. unfold usd. by rewrite E, lookup_insert. Qed.
Lemma usd_old st st2 vt m a : objs st !! vt = None -> is_Some (objs st !! a) -> objs st2 = <[vt := m]> (objs st) -> usd st2 a = usd st a.
Proof. intros HN [z Hz] E. unfold usd. rewrite E, lookup_insert_ne; [done|congruence]. Qed.
Lemma room_old st st2 vt m a : objs st !! vt = None -> is_Some (objs st !! a) -> objs st2 = <[vt := m]> (objs st) -> room st2 a = room st a.
Proof. intros HN [z Hz] E. unfold room. rewrite E, lookup_insert_ne; [done|congruence]. Qed.
Lemma sl_set_value z v st : is_Some (objs st !! z) -> 2 <= room st z -> sl (mp_int_set_value z v) st (fun _ st' => kept st st').
Proof. intros Hz H. apply sl_with_fake. intros vt m st2 HN Hu E _. apply sl_copy. rewrite (room_old _ _ _ _ _ HN Hz E). pose proof (usd_new _ _ _ _ E Hu). lia. Qed.
Lemma sl_set_uvalue z v st : is_Some (objs st !! z) -> 2 <= room st z -> sl (mp_int_set_uvalue z v) st (fun _ st' => kept st st').
Proof. intros Hz H. apply sl_with_ufake. intros vt m st2 HN Hu E _. apply sl_copy. rewrite (room_old _ _ _ _ _ HN Hz E). pose proof (usd_new _ _ _ _ E Hu). lia. Qed.
Lemma sl_add_value a v c st : is_Some (objs st !! a) -> is_Some (objs st !! c) -> 0 <= usd st a -> usd st a + 1 <= room st c -> 3 <= room st c -> sl (mp_int_add_value a v c) st (fun _ st' => kept st st').
Proof.
  intros Ha Hc H0 H1 H3. apply sl_with_fake. intros vt m st2 HN Hu E _. pose proof (usd_new _ _ _ _ E Hu). apply sl_add; rewrite ?(usd_old _ _ _ _ _ HN Ha E), ?(room_old _ _ _ _ _ HN Hc E); lia.
Qed.
Lemma sl_sub_value a v c st : is_Some (objs st !! a) -> is_Some (objs st !! c) -> 0 <= usd st a -> usd st a + 1 <= room st c -> 3 <= room st c -> sl (mp_int_sub_value a v c) st (fun _ st' => kept st st').
Proof.
  intros Ha Hc H0 H1 H3. apply sl_with_fake. intros vt m st2 HN Hu E _. pose proof (usd_new _ _ _ _ E Hu). apply sl_sub; rewrite ?(usd_old _ _ _ _ _ HN Ha E), ?(room_old _ _ _ _ _ HN Hc E); lia.
Qed.
Lemma sl_qmul z p st : 0 <= usd st z -> 0 <= p -> usd st z + p / 32 + 1 <= room st z -> sl (s_qmul z p) st (fun _ st' => kept st st').
Proof.
  intros H0 Hp H. unfold s_qmul. destruct (p =? 0); [by apply sl_ret|]. apply sl_used. cbv zeta. assert (0 <= p / 32) by (apply Z.div_pos; lia).
  eapply (sl_bind _ _ _ (fun e st' => 0 <= e <= 1 /\ st' = st)).
  { destruct (p mod 32 =? 0); [apply sl_ret; split; [lia|done]|]. apply sl_rd; [apply rd_digits|]. intros d. apply sl_rd; [apply rd_Load|]. intros v. apply sl_ret. destruct (_ =? 0); (split; [lia|done]). }
  intros e st' [He ->]. apply sl_padb; [pose proof (u32_le (usd st z + p / 32 + e)); lia|]. cbn [negb]. kp0.
Qed.
(** Karatsuba's method is not used below the threshold. *)
Lemma sl_kmul da db dc na nb st : na < multiply_threshold (glob st) -> nb < multiply_threshold (glob st) -> sl (s_kmul da db dc na nb) st (fun _ st' => kept st st').
Proof.
  intros Ha Hb. unfold s_kmul, kmul; fold kmul; cbv beta zeta. destruct (nb >? na).
  - eapply sl_bind; [apply sl_getG|]. intros g st' [-> ->]. replace (nb >=? multiply_threshold (glob st)) with false by (symmetry; rewrite Z.geb_leb; apply Z.leb_gt; lia). rewrite andb_false_r. cbn [andb]. kp0.
  - eapply sl_bind; [apply sl_getG|]. intros g st' [-> ->]. replace (na >=? multiply_threshold (glob st)) with false by (symmetry; rewrite Z.geb_leb; apply Z.leb_gt; lia). rewrite andb_false_r. cbn [andb]. kp0.
Qed.
Lemma sl_ksqr da dc na st : na <= multiply_threshold (glob st) -> sl (s_ksqr da dc na) st (fun _ st' => kept st st').
Proof.
  intros Ha. unfold s_ksqr, ksqr; fold ksqr; cbv beta zeta. eapply sl_bind; [apply sl_getG|]. intros g st' [-> ->].
  replace (na >? multiply_threshold (glob st)) with false by (symmetry; rewrite Z.gtb_ltb; apply Z.ltb_ge; lia). rewrite andb_false_r. kp0.
Qed.
Lemma kept_digits st st' c : kept st st' -> (fst <$> slot st' c) = (fst <$> slot st c). Proof. intros [_ H]. by rewrite H. Qed.
Lemma sl_install c d p st : (fst <$> slot st c) = Some (Some d) -> sl (install c d p) st (fun _ st' => kept st st').
Proof.
  intros H. unfold install. eapply sl_bind; [apply sl_get_digits|]. intros d' st' [E ->]. rewrite H in E. injection E as <-. unfold ptr_eqb. rewrite bool_decide_true by done. by apply sl_ret.
Qed.
Lemma osize_le m n : 0 <= m -> 2 * (m + 1) <= n -> u32 (4 * (u32 (m + 1) / 2)) <= n.
Proof.
  intros H0 H. assert (0 <= u32 (m + 1) <= m + 1) as [U0 U1]. { split; [unfold u32; apply Z.mod_pos_bound; lia|apply u32_le; lia]. }
  assert (0 <= u32 (m + 1) / 2) by (apply Z.div_pos; lia). pose proof (Z.mul_div_le (u32 (m + 1)) 2). pose proof (u32_le (4 * (u32 (m + 1) / 2))). lia.
Qed.
Lemma sl_mul a b c st m : c <> a -> c <> b -> 0 <= usd st a -> usd st a <= m -> usd st b <= m -> m < multiply_threshold (glob st) -> 2 * (m + 1) <= room st c -> sl (mp_int_mul a b c) st (fun _ st' => kept st st').
Proof.
  intros Na Nb H0 Ha Hb Hm H. unfold mp_int_mul. apply sl_rd; [apply rd_cmp0|]. intros ca. apply sl_rd; [destruct (ca =? 0); [exact I|apply rd_cmp0]|]. intros cb. destruct (_ || _)%bool; [kp0|].
  apply sl_rd; [apply rd_sign|]. intros sa. apply sl_rd; [apply rd_sign|]. intros sb. cbv zeta. apply sl_used, sl_used. set (os := u32 _).
  assert (os <= room st c) as HO. { unfold os. apply osize_le; unfold MAX; destruct (_ >? _) eqn:E; rewrite ?Z.gtb_ltb in E; lia. }
  rewrite !bool_decide_false by done. cbn [orb]. unfold out_buffer.
  eapply (sl_bind _ _ _ (fun op st' => st' = st /\ exists d, op.1 = Some d /\ (fst <$> slot st c) = Some (Some d))).
  { apply sl_padb; [done|]. cbn [negb]. eapply sl_bind; [apply sl_get_digits|]. intros d st' [E ->]. apply sl_ret. split; [done|]. by exists d. }
  intros [od p] st' [-> (d & E & HS)]. cbn [fst] in E. subst od. cbn [fst snd]. apply sl_kp; [kpt|]. intros _ st1 K1. apply sl_kp; [kpt|]. intros da st2 K2. apply sl_kp; [kpt|]. intros db st3 K3.
  assert (kept st st3) as K by exact (kept_trans _ _ _ (kept_trans _ _ _ K1 K2) K3).
  eapply sl_bind; [apply sl_kmul; rewrite (proj1 K); lia|]. intros ok st4 K4. destruct (negb ok); [by apply sl_ret|].
  eapply sl_bind; [apply sl_install; rewrite (kept_digits _ _ _ (kept_trans _ _ _ K K4)); exact HS|]. intros u5 st5 K5.
  eapply (sl_mono _ _ (fun _ s => kept st5 s)); [kp0|]. intros ? ? K6. exact (kept_trans _ _ _ K4 (kept_trans _ _ _ K5 K6)).
Qed.
Lemma sl_sqr a c st m : a <> c -> 0 <= usd st a -> usd st a <= m -> m <= multiply_threshold (glob st) -> 2 * (m + 1) <= room st c -> sl (mp_int_sqr a c) st (fun _ st' => kept st st').
Proof.
  intros Na H0 Ha Hm H. unfold mp_int_sqr. apply sl_used. cbv zeta. set (os := u32 _).
  assert (os <= room st c) as HO by (apply osize_le; lia). rewrite bool_decide_false by done. unfold out_buffer.
  eapply (sl_bind _ _ _ (fun op st' => st' = st /\ exists d, op.1 = Some d /\ (fst <$> slot st c) = Some (Some d))).
  { apply sl_padb; [done|]. cbn [negb]. eapply sl_bind; [apply sl_get_digits|]. intros d st' [E ->]. apply sl_ret. split; [done|]. by exists d. }
  intros [od p] st' [-> (d & E & HS)]. cbn [fst] in E. subst od. cbn [fst snd]. apply sl_kp; [kpt|]. intros _ st1 K1. apply sl_kp; [kpt|]. intros da st2 K2.
  assert (kept st st2) as K by exact (kept_trans _ _ _ K1 K2).
  eapply sl_bind; [apply sl_ksqr; rewrite (proj1 K); lia|]. intros ok st4 K4.
  eapply sl_bind; [apply sl_install; rewrite (kept_digits _ _ _ (kept_trans _ _ _ K K4)); exact HS|]. intros u5 st5 K5.
  eapply (sl_mono _ _ (fun _ s => kept st5 s)); [kp0|]. intros ? ? K6. exact (kept_trans _ _ _ K4 (kept_trans _ _ _ K5 K6)).
Qed.
Lemma sl_mul_value a v c st m : is_Some (objs st !! a) -> is_Some (objs st !! c) -> a <> c -> 0 <= usd st a -> usd st a <= m -> 2 <= m -> m < multiply_threshold (glob st) -> 2 * (m + 1) <= room st c ->
  sl (mp_int_mul_value a v c) st (fun _ st' => kept st st').
Proof.
  intros Ha Hc Na H0 H1 H2 Hm H. apply sl_with_fake. intros vt m' st2 HN Hu E EG. pose proof (usd_new _ _ _ _ E Hu).
  apply (sl_mul _ _ _ _ m); rewrite ?(usd_old _ _ _ _ _ HN Ha E), ?(room_old _ _ _ _ _ HN Hc E), ?EG; try lia; [congruence|]. intros ->. rewrite HN in Hc. by destruct Hc.
Qed.

Section T5.
Local Transparent Load Prog.Store getO setO getG assert bind.
Local Arguments bind {A B} !p f : simpl nomatch.
Lemma sl_getO a st : sl (getO a) st (fun z st' => objs st !! a = Some z /\ st' = st).
Proof. intros orc t. unfold getO. cbn [run]. by destruct (objs st !! a). Qed.
Lemma sl_setO a z st : sl (setO a z) st (fun _ st' => objs st' = <[a := z]> (objs st)).
Proof. intros orc t. unfold setO. cbn [run]. by destruct (objs st !! a). Qed.
Lemma sl_SetG g st : sl (SetG g (Ret tt)) st (fun _ st' => objs st' = objs st). Proof. by intros orc t. Qed.
Lemma sl_free p st : sl (s_free p) st (fun _ st' => objs st' = objs st).
Proof. intros orc t. unfold s_free. cbn [run]. by destruct (live_heap st p). Qed.
Lemma sl_FreeO o st : sl (FreeO o (Ret tt)) st (fun _ st' => objs st' = delete o (objs st)).
Proof. intros orc t. cbn [run]. destruct (objs st !! o); [|done]. destruct o as [[] n]; done. Qed.
Lemma sl_Peek {A} p (k : cell -> prog A) st Ψ : (forall v, sl (k v) st Ψ) -> sl (Peek p k) st Ψ.
Proof. intros H orc t. cbn [run]. destruct (load _ _); [|done]. apply H. Qed.
Lemma sl_Poke {A} p v (k : prog A) st Ψ : (forall st', objs st' = objs st -> sl k st' Ψ) -> sl (Poke p v k) st Ψ.
Proof. intros H orc t. cbn [run]. destruct (load _ _); [|done]. by apply H. Qed.
End T5.
Definition ample (N : Z) (P : oid -> Prop) (st : state) : Prop := forall o, P o -> N <= room st o.
Lemma ample_kept N P st st' : kept st st' -> ample N P st -> ample N P st'. Proof. intros K H o Ho. rewrite (kept_room _ _ _ K). by apply H. Qed.
Lemma ample_objs N P st st' : objs st' = objs st -> ample N P st -> ample N P st'. Proof. intros E H o Ho. unfold room. rewrite E. by apply H. Qed.
Lemma ample_ins N P st st' o z : objs st' = <[o := z]> (objs st) -> ample N P st -> (P o -> N <= alloc z) -> ample N P st'.
Proof. intros E H Hz o' Ho'. unfold room. rewrite E. destruct (decide (o = o')) as [<-|Ne]; [rewrite lookup_insert; by apply Hz|rewrite lookup_insert_ne by done; by apply H]. Qed.
Lemma sl_set_digits N P o p st : ample N P st -> sl (set_digits o p) st (fun _ st' => ample N P st').
Proof.
  intros H. eapply sl_mono; [apply sl_upd|]. intros u st' (_ & z & Hz & E). eapply ample_ins; [exact E|done|]. intros Ho. cbn [alloc]. specialize (H o Ho). unfold room in H. by rewrite Hz in H.
Qed.
Lemma sl_clear N P o st : ample N P st -> sl (mp_int_clear o) st (fun _ st' => ample N P st').
Proof.
  intros H. unfold mp_int_clear. eapply sl_bind; [apply sl_getO|]. intros m st' [_ ->]. destruct (digits m) as [d|]; [|by apply sl_ret].
  eapply (sl_bind _ _ _ (fun _ s => ample N P s)); [|intros u s Hs; by apply sl_set_digits].
  destruct (ptr_eqb d (Sng o, 0)); [by apply sl_ret|]. eapply sl_mono; [apply sl_free|]. intros u s E. exact (ample_objs _ _ _ _ E H).
Qed.
Lemma sl_free_int N (P : oid -> Prop) o st : ample N P st -> sl (mp_int_free o) st (fun _ st' => ample N (fun o' => P o' /\ o' <> o) st').
Proof.
  intros H. unfold mp_int_free. eapply sl_bind; [by apply (sl_clear N P)|]. intros u s Hs. eapply sl_mono; [apply sl_FreeO|]. intros u' s' E o' [Ho' Ne]. unfold room. rewrite E, lookup_delete_ne by done. by apply Hs.
Qed.
Lemma sl_swap N (P : oid -> Prop) a c st : P a -> P c -> ample N P st -> sl (mp_int_swap a c) st (fun _ st' => ample N P st').
Proof.
  intros Pa Pc H. unfold mp_int_swap. destruct (bool_decide (a = c)); [by apply sl_ret|].
  eapply sl_bind; [apply sl_getO|]. intros ta s [Ea ->]. eapply sl_bind; [apply sl_getO|]. intros tc s [Ec ->].
  apply sl_Peek. intros sa. apply sl_Peek. intros sc. apply sl_Poke. intros s1 E1. apply sl_Poke. intros s2 E2.
  assert (N <= alloc ta) as Ta by (specialize (H a Pa); unfold room in H; by rewrite Ea in H). assert (N <= alloc tc) as Tc by (specialize (H c Pc); unfold room in H; by rewrite Ec in H).
  eapply sl_bind; [apply sl_setO|]. intros u3 s3 E3. eapply sl_bind; [apply sl_setO|]. intros u4 s4 E4.
  assert (ample N P s4) as H4. { eapply ample_ins; [exact E4| |done]. eapply ample_ins; [exact E3| |done]. eapply ample_objs; [exact E2|]. exact (ample_objs _ _ _ _ E1 H). }
  eapply sl_bind; [apply sl_getO|]. intros da s [_ ->]. eapply (sl_bind _ _ _ (fun _ s => ample N P s)); [destruct (bool_decide _); [by apply sl_set_digits|by apply sl_ret]|].
  intros u5 s5 H5. eapply sl_bind; [apply sl_getO|]. intros dc s [_ ->]. destruct (bool_decide _); [by apply sl_set_digits|by apply sl_ret].
Qed.
Lemma sl_defprec N P n st : ample N P st -> sl (mp_int_default_precision n) st (fun _ st' => ample N P st').
Proof. intros H. unfold mp_int_default_precision. apply sl_rd; [exact I|]. intros _ orc t. cbn [run]. exact H. Qed.
Lemma sl_multhr N P n st : ample N P st -> sl (mp_int_multiply_threshold n) st (fun _ st' => ample N P st').
Proof. intros H. unfold mp_int_multiply_threshold. apply sl_rd; [exact I|]. intros _ orc t. cbn [run]. exact H. Qed.

(** ** Values and sizes *)
Lemma RV_usd st V X a v m : RV st V X -> V !! a = Some v -> SpecFits.fits v m -> is_Some (objs st !! a) /\ 1 <= usd st a <= m.
Proof.
  intros HV Ha [H1 Hl]. apply RV_Rep in HV. destruct (rep_holds _ _ _ HV _ _ Ha) as (b & (al & us & sg & ds & rest & Ho & _ & _ & _ & Hu & H1' & Hd & Hn & Hv) & _).
  unfold usd. rewrite Ho. split; [by eexists|]. cbn [used].
  assert (Z.abs v = Dig.val ds) as E. { pose proof (Dig.val_bounds ds Hd). rewrite digits_value_val in Hv. destruct Hv as [[_ ->]|[_ [-> _]]]; lia. }
  pose proof (Dig.canon_len ds (Z.to_nat m)) as HC. assert (Dig.canon ds) as Hcan by (apply canon_iff; [done|split; [lia|by rewrite <- Hu]]).
  specialize (HC Hcan). rewrite E in Hl. assert (Dig.val ds < Dig.Bn (Z.to_nat m)) as Hl'. { rewrite Dig.Bn_pow2. replace (32 * Z.of_nat (Z.to_nat m)) with (32 * m) by lia. done. }
  specialize (HC Hl'). lia.
Qed.
Lemma RV_usd1 st V X a v : RV st V X -> V !! a = Some v -> is_Some (objs st !! a).
Proof. intros HV Ha. apply RV_Rep in HV. destruct (rep_holds _ _ _ HV _ _ Ha) as (b & (al & us & sg & ds & rest & Ho & _) & _). by eexists. Qed.
Lemma RV_thr st V X : RV st V X -> 8 <= multiply_threshold (glob st).
Proof. intros HV. apply RV_Rep in HV. rewrite (rep_glob _ _ _ HV). apply (rep_tun _ _ _ HV). Qed.
Lemma sl_mul_pow2 st V X a va k c vc m : RV st V X -> V !! a = Some va -> V !! c = Some vc -> SpecFits.fits va m -> 0 <= k < 2 ^ 32 -> m + k / 32 + 1 <= room st c -> sl (mp_int_mul_pow2 a k c) st (fun _ st' => kept st st').
Proof.
  intros HV Ha Hc Hf Hk Hr. destruct (RV_usd _ _ _ _ _ _ HV Ha Hf) as [_ HU]. assert (0 <= k / 32) by (apply Z.div_pos; lia).
  unfold mp_int_mul_pow2. apply sl_rd; [exact I|]. intros _. eapply sl_bind; [eapply sl_wp; [apply sl_copy; lia|eapply (wpV_copy st V X a c va vc (fun r s => RV s (<[c := va]> V) X)); [done|done|done|]; by intros]|].
  intros r st1 [K HV1]. destruct (negb (r =? MP_OK)); [by apply sl_ret|]. destruct (RV_usd _ _ _ c _ _ HV1 (lookup_insert _ _ _) Hf) as [_ HU1].
  replace (u32 k) with k by (unfold u32; rewrite Z.mod_small; lia).
  eapply sl_bind; [apply sl_qmul; [lia|lia|rewrite (kept_room _ _ _ K); lia]|]. intros ok st2 K2. apply sl_ret. exact (kept_trans _ _ _ K K2).
Qed.
Lemma sl_div_pow2 st V X a va k q r m : RV st V X -> V !! a = Some va -> (forall o, q = Some o -> is_Some (V !! o) /\ m <= room st o) -> (forall o, r = Some o -> is_Some (V !! o) /\ m <= room st o) ->
  (q = Some a -> r = None) -> SpecFits.fits va m -> 0 <= k < 2 ^ 32 -> sl (mp_int_div_pow2 a k q r) st (fun _ st' => kept st st').
Proof.
  intros HV Ha Hq Hr Hqa Hf Hk. destruct (RV_usd _ _ _ _ _ _ HV Ha Hf) as [_ HU].
  unfold mp_int_div_pow2. apply sl_rd; [exact I|]. intros _. replace (u32 k) with k by (unfold u32; rewrite Z.mod_small; lia).
  eapply (sl_bind _ _ _ (fun _ st1 => kept st st1 /\ (r <> None -> usd st1 a <= m))).
  { destruct q as [q|]; cbn [when]; [|apply sl_ret; split; [done|lia]]. destruct (Hq q eq_refl) as [[vq Hvq] Hmq].
    eapply sl_bind; [eapply sl_wp; [apply sl_copy; lia|eapply (wpV_copy st V X a q va vq (fun r s => r = MP_OK /\ RV s (<[q := va]> V) X)); [done|done|done|]; by intros]|].
    intros e st1 [K [-> HV1]]. rewrite Z.eqb_refl.
    eapply sl_bind; [eapply sl_wp; [apply k_qdiv|eapply (wpV_qdiv st1 _ X q va k (fun _ s => RV s _ X)); [exact HV1|apply lookup_insert|lia|]; intros; eassumption]|].
    intros u st2 [K2 HV2]. apply sl_ret. split; [exact (kept_trans _ _ _ K K2)|]. intros HN. rewrite insert_insert in HV2.
    apply (RV_usd _ _ _ a va _ HV2); [|done]. rewrite lookup_insert_ne; [done|]. intros ->. by apply HN, Hqa. }
  intros e st1 [K Hu]. destruct (negb (e =? MP_OK)); [by apply sl_ret|]. destruct r as [r|]; cbn [when]; [|by apply sl_ret].
  destruct (Hr r eq_refl) as [_ Hmr]. specialize (Hu ltac:(done)).
  eapply sl_bind; [apply sl_copy; rewrite (kept_room _ _ _ K); lia|]. intros e2 st2 K2. eapply (sl_mono _ _ (fun _ s => kept st2 s)); [destruct (e2 =? MP_OK); kp0|].
  intros ? ? K3. exact (kept_trans _ _ _ K (kept_trans _ _ _ K2 K3)).
Qed.

(** ** One call *)
Lemma sl_ans {A B} (p : prog A) (f : A -> B) st (P : state -> Prop) : sl p st (fun _ s => P s) -> sl (r <- p; Ret (f r)) st (fun _ s => P s).
Proof. intros H. eapply sl_bind; [exact H|]. intros a s Hs. by apply sl_ret. Qed.
Lemma sl_k {A} N P (p : prog A) st : sl p st (fun _ s => kept st s) -> ample N P st -> sl p st (fun _ s => ample N P s).
Proof. intros H HA. eapply sl_mono; [exact H|]. intros a s K. exact (ample_kept _ _ _ _ K HA). Qed.
Lemma has_val S a : has S a -> ints S !! a = Some (val S a).
Proof. unfold has, val. intros [v ->]. done. Qed.
(** ** Reading bytes *)
Lemma wpV_read_1 st V X o v b l off c : RV st V X -> V !! o = Some v -> 0 <= v -> Rel.cmem X !! b = Some l -> SpecBin.has_bytes l off [c] -> v * 256 + c < 2 ^ (32 * room st o) ->
  wp (read_ubytes 1 o (b, Z.of_nat off)) (fun _ st' => RV st' (<[o := v * 256 + c]> V) X) st.
Proof.
  intros (ζ & (σ & HR & Hz) & Hv) Ho H0 Hb HB Hr. destruct (relv_some _ _ _ _ Hv Ho) as (z & Hzz & <- & Nz & Oz). destruct (relz_some _ _ _ _ Hz Hzz) as (f & Hf & G).
  pose proof (good_m0 _ _ G) as M0.
  assert (zs z = 0) as ES. { unfold zval in H0. unfold norm in Nz. destruct (Z.eqb_spec (zs z) 0); [done|]. apply Nz. lia. }
  assert (zval z = zm z) as EV by (unfold zval; rewrite ES; done). rewrite EV in *.
  pose proof (Rel.R_get _ _ _ _ _ HR Hf) as HO. unfold room in Hr. rewrite HO in Hr. cbn [alloc Rel.mpz_of] in Hr.
  assert (zm z * 256 ^ Z.of_nat (length [c]) + horner 256 [c] = zm z * 256 + c) as EH by (cbn; lia).
  assert (Dig.dig c \/ 0 <= c < 256) as Hc by (destruct HB as [HB _]; apply Forall_inv in HB; right; exact HB).
  change 1%nat with (length [c]). eapply Bin.wpR_read_u; [exact HR|exact Hf|exact G|exact Oz|exact Hb|exact HB| |].
  { rewrite EH, Dig.Bn_pow2. exact Hr. }
  intros st' F HR' G'. rewrite EH in G'. exists (<[o := zput z (zs z) (zm z * 256 + c)]> ζ). split; [eapply RZ_upd; done|].
  apply relv_ins; [done| | |done].
  - unfold zval. cbn [zs zm zput]. by rewrite ES.
  - intros _. exact ES.
Qed.
Lemma sl_assoc_read n o p st Ψ : sl (bind (read_ubytes 1 o p) (fun _ => read_ubytes n o (padd p 1))) st Ψ -> sl (read_ubytes (S n) o p) st Ψ.
Proof.
  intros H orc t. specialize (H orc t). revert H. cbn [read_ubytes]. rewrite !run_bind. destruct (run true orc (s_qmul o 8) t st) as [a1 s1 t1| | | |]; try done.
  rewrite !run_bind. destruct (run true orc (get_digits o) t1 s1) as [a2 s2 t2| | | |]; try done.
  rewrite !run_bind. destruct (run true orc (Load a2) t2 s2) as [a3 s3 t3| | | |]; try done.
  rewrite !run_bind. destruct (run true orc (Load p) t3 s3) as [a4 s4 t4| | | |]; try done.
  rewrite !run_bind. destruct (run true orc (Prog.Store a2 _) t4 s4) as [a5 s5 t5| | | |]; try done.
Qed.
Lemma sl_read_1 o p st : 0 <= usd st o -> usd st o + 1 <= room st o -> sl (read_ubytes 1 o p) st (fun _ st' => kept st st').
Proof.
  intros H0 H. cbn [read_ubytes]. eapply sl_bind; [apply sl_qmul; [lia|lia|change (8 / 32) with 0; lia]|]. intros r st1 K. eapply sl_mono; [kp0|]. intros r2 st2 K2. exact (kept_trans _ _ _ K K2).
Qed.
Lemma sl_read_ubytes bs : forall st V X o v b l off m, RV st V X -> V !! o = Some v -> 0 <= v -> Rel.cmem X !! b = Some l -> SpecBin.has_bytes l off bs -> 1 <= m -> m + 1 <= room st o ->
  v * 256 ^ Z.of_nat (length bs) + horner 256 bs < 2 ^ (32 * m) -> sl (read_ubytes (length bs) o (b, Z.of_nat off)) st (fun _ st' => kept st st').
Proof.
  induction bs as [|c bs IH]; intros st V X o v b l off m HV Ho H0 Hb [HB Hl] H1 Hm Hlt; [by apply sl_ret|].
  cbn [length] in *. rewrite Nat2Z.inj_succ, Z.pow_succ_r in Hlt by lia. rewrite Bin.horner_cons in Hlt by lia. set (P := 256 ^ _) in *. assert (0 < P) by (apply Z.pow_pos_nonneg; lia).
  pose proof HB as HB'. apply Forall_cons in HB' as [Bc HB']. pose proof (Bin.horner_bounds _ HB') as Hh. assert (0 <= c < 256) as Bc' by exact Bc.
  assert (SpecFits.fits v m) as F0. { split; [done|]. rewrite Z.abs_eq by done. nia. }
  destruct (RV_usd _ _ _ _ _ _ HV Ho F0) as [_ HU].
  assert (v * 256 + c < 2 ^ (32 * m)) as L1 by nia.
  apply sl_assoc_read. eapply sl_bind; [eapply sl_wp; [apply sl_read_1; lia|]|].
  { eapply (wpV_read_1 st V X o v b l off c); [done|done|done|done| |].
    - split; [by constructor|]. intros i e Hi. destruct i; [by apply Hl|done].
    - eapply Z.lt_le_trans; [exact L1|]. apply Z.pow_le_mono_r; lia. }
  intros r st1 [K HV1]. eapply sl_mono; [|intros ? ? K2; exact (kept_trans _ _ _ K K2)].
  replace (padd (b, Z.of_nat off) 1) with (b, Z.of_nat (S off)) by (unfold padd; cbn [fst snd]; f_equal; lia).
  eapply (IH st1 _ X o (v * 256 + c) b l (S off) m); [exact HV1|apply lookup_insert|lia|done| |done|by rewrite (kept_room _ _ _ K)|fold P; lia].
  split; [done|]. intros i e Hi. replace (S off + i)%nat with (off + S i)%nat by lia. by apply Hl.
Qed.
Lemma sl_read_unsigned st V X o b l off bs : RV st V X -> is_Some (V !! o) -> Rel.cmem X !! b = Some l -> SpecBin.has_bytes l off bs -> bs <> [] -> Z.of_nat (length bs) < 2 ^ 28 -> Z.of_nat (length bs) / 4 + 2 <= room st o ->
  sl (mp_int_read_unsigned o (b, Z.of_nat off) (Z.of_nat (length bs))) st (fun _ st' => kept st st').
Proof.
  intros HV [v Ho] Hb HB N Hn Hr. assert (0 < length bs)%nat by (destruct bs; [done|simpl; lia]).
  unfold mp_int_read_unsigned. apply sl_rd; [exact I|]. intros _. unfold bytes_need. destruct (Z.gtb_spec (Z.of_nat (length bs) * 8) (2 ^ 31 - 1)); [lia|].
  eapply sl_bind; [by apply (sl_ret _ _ (fun n s => n = u32 ((Z.of_nat (length bs) * 8 + 31) / 32) /\ s = st))|]. intros n st' [-> ->].
  set (L := Z.of_nat (length bs)) in *. pose proof (Z.div_mod L 4). pose proof (Z.mod_pos_bound L 4).
  assert (0 <= (L * 8 + 31) / 32 <= L / 4 + 1). { split; [apply Z.div_pos; lia|]. apply Z.lt_succ_r. apply Z.div_lt_upper_bound; lia. }
  apply sl_padb; [pose proof (u32_le ((L * 8 + 31) / 32)); lia|]. cbn [negb].
  eapply sl_bind; [eapply sl_wp; [apply (k_zero o)|eapply (wpV_zero st V X o v (fun _ s => RV s (<[o := 0]> V) X)); [done|done|]; by intros]|].
  intros r st1 [K HV1]. assert (Z.to_nat L = length bs) as -> by (unfold L; lia).
  eapply sl_bind; [eapply (sl_read_ubytes bs st1 _ X o 0 b l off (L / 4 + 1)); [exact HV1|apply lookup_insert|lia|exact Hb|exact HB|lia|rewrite (kept_room _ _ _ K); lia|]|].
  - rewrite Z.mul_0_l, Z.add_0_l. destruct HB as [HB _]. pose proof (Bin.horner_bounds _ HB) as Hh. eapply Z.lt_le_trans; [apply Hh|]. rewrite Bin.pow256. fold L. apply Z.pow_le_mono_r; lia.
  - intros r2 st2 K2. apply sl_ret. exact (kept_trans _ _ _ K K2).
Qed.
Lemma sl_assoc_read_b n o d p st Ψ : sl (bind (read_bytes 1 o d p) (fun _ => read_bytes n o d (padd p 1))) st Ψ -> sl (read_bytes (S n) o d p) st Ψ.
Proof.
  intros H orc t. specialize (H orc t). revert H. cbn [read_bytes]. rewrite !run_bind. destruct (run true orc (s_qmul o 8) t st) as [a1 s1 t1| | | |]; try done.
  rewrite !run_bind. destruct (run true orc (Load d) t1 s1) as [a3 s3 t3| | | |]; try done.
  rewrite !run_bind. destruct (run true orc (Load p) t3 s3) as [a4 s4 t4| | | |]; try done.
  rewrite !run_bind. destruct (run true orc (Prog.Store d _) t4 s4) as [a5 s5 t5| | | |]; try done.
Qed.
Lemma sl_read_b1 o d p st : 0 <= usd st o -> usd st o + 1 <= room st o -> sl (read_bytes 1 o d p) st (fun _ st' => kept st st').
Proof.
  intros H0 H. cbn [read_bytes]. eapply sl_bind; [apply sl_qmul; [lia|lia|change (8 / 32) with 0; lia]|]. intros r st1 K. eapply sl_mono; [kp0|]. intros r2 st2 K2. exact (kept_trans _ _ _ K K2).
Qed.
Lemma sl_read_bytes bs : forall st σ X o f z b l off m, Rel.R st σ X -> σ !! o = Some f -> good f z -> zo z = None -> Rel.cmem X !! b = Some l -> SpecBin.has_bytes l off bs -> 1 <= m -> m + 1 <= room st o ->
  zm z * 256 ^ Z.of_nat (length bs) + horner 256 bs < 2 ^ (32 * m) -> sl (read_bytes (length bs) o (Rel.fl f, 0) (b, Z.of_nat off)) st (fun _ st' => kept st st').
Proof.
  induction bs as [|c bs IH]; intros st σ X o f z b l off m HR Ho G Hown Hb [HB Hl] H1 Hm Hlt; [by apply sl_ret|].
  cbn [length] in *. rewrite Nat2Z.inj_succ, Z.pow_succ_r in Hlt by lia. rewrite Bin.horner_cons in Hlt by lia. set (P := 256 ^ _) in *. assert (0 < P) by (apply Z.pow_pos_nonneg; lia).
  pose proof HB as HB'. apply Forall_cons in HB' as [Bc HB']. pose proof (Bin.horner_bounds _ HB') as Hh. assert (0 <= c < 256) as Bc' by exact Bc.
  pose proof (good_m0 _ _ G) as H0. pose proof (Rel.R_get _ _ _ _ _ HR Ho) as HO.
  assert (1 <= usd st o <= m) as HU.
  { destruct G as [ds [Gv Gc Gval _ _ _ _ _]]. unfold usd. rewrite HO. cbn [used Rel.mpz_of]. destruct Gv as [Gu Gv]. pose proof (Dig.canon_len ds (Z.to_nat m) Gc) as HC. pose proof (proj1 Gc).
    assert (Dig.val ds < Dig.Bn (Z.to_nat m)) as HL. { rewrite Gval, Dig.Bn_pow2, Z2Nat.id by lia. nia. } specialize (HC HL). lia. }
  assert (zm z * 256 + c < 2 ^ (32 * m)) as L1 by nia.
  assert (room st o = Z.of_nat (length (Rel.fc f))) as ER by (unfold room; rewrite HO; done).
  assert (zm z * 256 ^ Z.of_nat (length [c]) + horner 256 [c] = zm z * 256 + c) as EH by (cbn; lia).
  apply sl_assoc_read_b. eapply sl_bind; [eapply (sl_wp _ _ _ (fun _ st' => exists F, Rel.R st' (<[o := F]> σ) X /\ good F (zput z (zs z) (zm z * 256 + c)))); [apply sl_read_b1; lia|]|].
  { change 1%nat with (length [c]). eapply Bin.wpR_read_b; [exact HR|exact Ho|exact G|exact Hown|exact Hb| | |].
    - split; [by constructor|]. intros i e Hi. destruct i; [by apply Hl|done].
    - rewrite EH, Dig.Bn_pow2, <- ER. eapply Z.lt_le_trans; [exact L1|]. apply Z.pow_le_mono_r; lia.
    - intros st' F HR' G'. rewrite EH in G'. by exists F. }
  intros r st1 [K (F & HR1 & G1)]. eapply sl_mono; [|intros ? ? K2; exact (kept_trans _ _ _ K K2)].
  assert (Rel.fl F = Rel.fl f) as EF.
  { destruct K as [_ K]. specialize (K o). unfold slot in K. rewrite HO, (Rel.R_get _ _ _ _ _ HR1 (lookup_insert _ _ _)) in K. cbn in K. congruence. }
  replace (padd (b, Z.of_nat off) 1) with (b, Z.of_nat (S off)) by (unfold padd; cbn [fst snd]; f_equal; lia). rewrite <- EF.
  eapply (IH st1 _ X o F (zput z (zs z) (zm z * 256 + c)) b l (S off) m); [exact HR1|apply lookup_insert|exact G1|exact Hown|done| |done|by rewrite (kept_room _ _ _ K)|cbn [zm zput]; fold P; lia].
  split; [done|]. intros i e Hi. replace (S off + i)%nat with (off + S i)%nat by lia. by apply Hl.
Qed.
Lemma k_set_sign_2comp o s b l : kp (set_sign o s;; s_2comp b l). Proof. kpt. Qed.
Lemma sl_read_binary st V X o b l off bs : RV st V X -> is_Some (V !! o) -> Rel.cmem X !! b = Some l -> SpecBin.has_bytes l off bs -> bs <> [] -> Z.of_nat (length bs) < 2 ^ 28 -> Z.of_nat (length bs) / 4 + 2 <= room st o ->
  sl (mp_int_read_binary o (b, Z.of_nat off) (Z.of_nat (length bs))) st (fun _ st' => kept st st').
Proof.
  intros (ζ & (σ & HR & Hz) & Hv) [v Ho] Hb HB N Hn Hr. destruct (relv_some _ _ _ _ Hv Ho) as (z & Hzz & _ & Nz & Oz). destruct (relz_some _ _ _ _ Hz Hzz) as (f & Hf & G).
  assert (0 < length bs)%nat by (destruct bs; [done|simpl; lia]). pose proof (Bin.has_bytes_len _ _ _ HB N) as Hlen.
  unfold mp_int_read_binary. apply sl_rd; [exact I|]. intros _. unfold bytes_need. destruct (Z.gtb_spec (Z.of_nat (length bs) * 8) (2 ^ 31 - 1)); [lia|].
  eapply sl_bind; [by apply (sl_ret _ _ (fun n s => n = u32 ((Z.of_nat (length bs) * 8 + 31) / 32) /\ s = st))|]. intros n st' [-> ->].
  set (L := Z.of_nat (length bs)) in *. pose proof (Z.div_mod L 4). pose proof (Z.mod_pos_bound L 4).
  assert (0 <= (L * 8 + 31) / 32 <= L / 4 + 1). { split; [apply Z.div_pos; lia|]. apply Z.lt_succ_r. apply Z.div_lt_upper_bound; lia. }
  apply sl_padb; [pose proof (u32_le ((L * 8 + 31) / 32)); lia|]. cbn [negb].
  set (f0 := Rel.Fo 0 1 ((Some <$> [0]) ++ drop 1 (Rel.fc f)) (Rel.fl f)).
  eapply sl_bind; [eapply (sl_wp _ _ _ (fun _ s => Rel.R s (<[o := f0]> σ) X)); [apply (k_zero o)|eapply wpR_zero; [exact HR|exact Hf|]; by intros]|].
  intros r st1 [K HR1]. apply sl_rd; [apply rd_Load|]. intros b0.
  assert (Dig.dig 0) as D0 by apply Dig.dig_0.
  pose proof (good_digit _ _ _ _ _ _ 0 0 HR Hf G D0 ltac:(lia)) as G0. pose proof (good_digit _ _ _ _ _ _ 0 1 HR Hf G D0 ltac:(lia)) as G1.
  eapply (sl_bind _ _ _ (fun _ s => kept st1 s /\ exists σ' X' f' s' l' bs', Rel.R s σ' X' /\ σ' !! o = Some f' /\ good f' (zput z s' 0) /\ Rel.cmem X' !! b = Some l' /\ SpecBin.has_bytes l' off bs' /\ length bs' = length bs)).
  { destruct (_ =? 0).
    - apply sl_ret. split; [done|]. exists (<[o := f0]> σ), X, f0, 0, l, bs. split_and!; [done|apply lookup_insert|exact G0|done|done|done].
    - eapply sl_wp; [apply k_set_sign_2comp|]. apply wp_bind. eapply RelWp.wpR_set_sign; [exact HR1|apply lookup_insert|]. intros st3 HR3. rewrite insert_insert in HR3. cbn [Rel.fu Rel.fc Rel.fl f0] in HR3.
      rewrite <- (Bin.has_bytes_overwrite l off bs HB Hlen) in Hb.
      eapply Bin.wpR_2comp; [exact HR3|exact Hb|done|apply HB|]. intros st4 HR4. eexists _, _, _, 1, _, _.
      split_and!; [exact HR4|apply lookup_insert|exact G1|apply Buf.setb_lookup|apply Bin.has_overwrite; [apply Bin.be_bytes_byte|lia]|apply Bin.be_bytes_length]. }
  intros r2 st2 (K2 & σ' & X' & f' & s' & l' & bs' & HR2 & Hf' & G' & Hb' & HB' & EL).
  eapply sl_bind; [eapply (sl_wp _ _ _ (fun d _ => d = (Rel.fl f', 0))); [apply sl_reader, rd_digits|by eapply RelWp.wpR_digits; [exact HR2|exact Hf'|]]|].
  intros d st3 [-> ->]. assert (Z.to_nat L = length bs') as -> by (unfold L; lia).
  pose proof (kept_trans _ _ _ K K2) as K3. eapply sl_mono; [|intros ? ? K4; exact (kept_trans _ _ _ K3 K4)].
  eapply sl_bind; [eapply (sl_read_bytes bs' st2 σ' X' o f' _ b l' off (L / 4 + 1)); [exact HR2|exact Hf'|exact G'|exact Oz|exact Hb'|exact HB'|lia|rewrite (kept_room _ _ _ K3); lia|]|].
  - cbn [zm zput]. rewrite Z.mul_0_l, Z.add_0_l. destruct HB' as [HB' _]. pose proof (Bin.horner_bounds _ HB') as Hh. eapply Z.lt_le_trans; [apply Hh|]. rewrite Bin.pow256, EL. fold L. apply Z.pow_le_mono_r; lia.
  - intros r4 st4 K4. eapply sl_mono; [|intros ? ? K5; exact (kept_trans _ _ _ K4 K5)]. apply (fun H : kp _ => H st4). kpt.
Qed.
(** ** Reading strings *)
Lemma inlen_upper len r : 2 <= r <= 36 -> 0 <= len < 2 ^ 31 -> s_inlen len r <= len / 4 + 2.
Proof.
  intros Hr Hlen0. destruct (Z.eq_dec len 0) as [->|Hne].
  { assert (s_inlen 0 r = 1) as ->; [|done]. unfold s_inlen. unfold f_of_int, f_of_frac at 2. cbn [Z.leb Z.compare]. unfold f_div, f_num at 1. cbn. unfold f_of_frac at 1. cbn. done. }
  assert (0 < len < 2 ^ 31) as Hlen by lia. destruct (inlen_bits len r Hr Hlen) as [_ HB]. unfold s_inlen. set (bits := f_trunc _) in *.
  assert (bits <= 8 * len + 2) as HU.
  { pose proof (upto_spec _ _ _ r inlen_all ltac:(lia)) as H. unfold inlen_ok in H. rewrite !andb_true_iff in H.
    destruct H as [[[[H1 H2] H3] H4] _]. apply Z.ltb_lt in H1, H2. apply Z.leb_le in H3, H4. unfold bits. clear bits HB.
    set (Ln := f_num (s_log2 r)) in *. set (Ld := f_den (s_log2 r)) in *.
    assert (0 < c53) as Hc by (unfold c53; lia).
    set (A := f_of_int len). destruct (frac_bounds len 1 ltac:(lia) ltac:(lia)) as (A1 & A2 & _). fold (f_of_int len) in A1, A2. fold A in A1, A2.
    assert (fle A (len * (c53 + 1)) (1 * c53)) as LA by (apply frac_le; lia).
    set (B := f_div A (s_log2 r)). assert (0 < f_num A * Ld) as PN by nia. assert (0 < f_den A * Ln) as PD by nia.
    destruct (frac_bounds _ _ PN PD) as (B1 & B2 & _). fold Ln Ld in B. change (f_of_frac (f_num A * Ld) (f_den A * Ln)) with B in B1, B2.
    assert (fle B (len * Ld * (c53 + 1) * (c53 + 1)) (c53 * Ln * c53)) as LB.
    { apply frac_le; [done|done|nia|]. unfold fle in LA. pose proof (Z.mul_le_mono_nonneg_r _ _ (Ld * Ln) ltac:(nia) LA). lia. }
    set (S := f_add B (f_of_frac 1 2)). set (hn := f_num (f_of_frac 1 2)). set (hd := f_den (f_of_frac 1 2)).
    assert (0 < hn) as Hhn by (by vm_compute). assert (hd = 2 * hn) as Hh by (by vm_compute).
    assert (0 < f_num B * hd + hn * f_den B) as SN by nia. assert (0 < f_den B * hd) as SD by nia.
    destruct (frac_bounds _ _ SN SD) as (S1 & S2 & _). change (f_of_frac (f_num B * hd + hn * f_den B) (f_den B * hd)) with S in S1, S2.
    assert (fle B (8 * len + 1) 1) as LB'.
    { unfold fle in *. set (fn := f_num B) in *. set (fd := f_den B) in *. assert (len * Ld * (c53 + 1) * (c53 + 1) <= (8 * len + 1) * (c53 * Ln * c53)) as Hb.
      { assert (len * Ld <= len * (8 * Ln)) as Hx by nia. assert (len * 8 * ((c53 + 1) * (c53 + 1)) <= (8 * len + 1) * (c53 * c53)) as Hy by (unfold c53; lia).
        pose proof (Z.mul_le_mono_nonneg_r _ _ ((c53 + 1) * (c53 + 1)) ltac:(nia) Hx) as Hx'. pose proof (Z.mul_le_mono_nonneg_r _ _ Ln ltac:(lia) Hy) as Hy'. lia. }
      assert (0 < c53 * Ln * c53) as Hq by nia. apply (Z.mul_le_mono_pos_r _ _ _ Hq). pose proof (Z.mul_le_mono_nonneg_r _ _ fd ltac:(lia) Hb). lia. }
    assert (fle S ((16 * len + 3) * (c53 + 1)) (2 * c53)) as LS.
    { apply frac_le; [done|done|lia|]. fold hn hd. unfold fle in LB'. set (fn := f_num B) in *. set (fd := f_den B) in *. clearbody fn fd hn hd. nia. }
    apply trunc_le in LS; [|done|lia]. unfold c53 in LS. lia. }
  rewrite (Z.mod_small (bits + 31)) by lia. pose proof (Z.div_mod (bits + 31) 32). pose proof (Z.mod_pos_bound (bits + 31) 32). pose proof (Z.div_mod len 4). pose proof (Z.mod_pos_bound len 4).
  rewrite Z.mod_small by lia. lia.
Qed.
Lemma k_dadd_loop n : forall p w, kp (dadd_loop n p w). Proof. induction n; intros; cbn [dadd_loop]; kpt. Qed.
Lemma k_dmul_loop n : forall p b w, kp (dmul_loop n p b w). Proof. induction n; intros; cbn [dmul_loop]; kpt. Qed.
#[export] Hint Resolve k_dadd_loop k_dmul_loop : kp.
Lemma k_s_dadd a b : kp (s_dadd a b). Proof. unfold s_dadd, bump_used. kpt. Qed.
Lemma k_s_dmul a b : kp (s_dmul a b). Proof. unfold s_dmul, bump_used. kpt. Qed.
#[export] Hint Resolve k_s_dadd k_s_dmul : kp.
Lemma k_read_loop z r s : kp (read_loop z r s). Proof. induction s as [|c s IH]; cbn [read_loop]; kpt. Qed.
#[export] Hint Resolve k_read_loop : kp.
Lemma skip_len f s : (length (skip_while f s) <= length s)%nat. Proof. induction s as [|c s IH]; cbn [skip_while]; [done|]. destruct (f c); cbn [length]; lia. Qed.
Lemma sl_read_cstring z r s st : 2 <= r <= 36 -> Z.of_nat (length s) < 2 ^ 31 -> Z.of_nat (length s) / 4 + 2 <= room st z -> sl (mp_int_read_cstring z r s) st (fun _ st' => kept st st').
Proof.
  intros Hr Hl Hm. unfold mp_int_read_cstring. apply sl_rd; [exact I|]. intros _. cbv zeta.
  pose proof (skip_len isspace s) as H1. set (s1 := skip_while isspace s) in *. clearbody s1.
  eapply (sl_bind _ _ _ (fun s2 st' => kept st st' /\ (length s2 <= length s)%nat)).
  { assert (forall w (s2 : list Z), (length s2 <= length s)%nat -> sl (set_sign z w;; Ret s2) st (fun s2 st' => kept st st' /\ (length s2 <= length s)%nat)) as HS.
    { intros w s2 H2. eapply sl_bind; [apply kp_set_sign|]. intros u st' K. by apply sl_ret. }
    repeat match goal with |- sl (match ?x with _ => _ end) _ _ => destruct x end; apply HS; cbn [length] in *; lia. }
  intros s2 st1 [K H2]. pose proof (skip_len (fun c => s_ch2val c r =? 0) s2) as H3. set (s3 := skip_while _ s2) in *. clearbody s3.
  apply sl_padb. { rewrite (kept_room _ _ _ K). pose proof (inlen_upper (Z.of_nat (length s3)) r Hr ltac:(lia)). pose proof (Z.div_le_mono (Z.of_nat (length s3)) (Z.of_nat (length s)) 4). lia. }
  cbn [negb]. eapply sl_mono; [|intros ? ? K2; exact (kept_trans _ _ _ K K2)]. kp0.
Qed.
Lemma sl_read_string z r s st : 2 <= r <= 36 -> Z.of_nat (length s) < 2 ^ 31 -> Z.of_nat (length s) / 4 + 2 <= room st z -> sl (mp_int_read_string z r s) st (fun _ st' => kept st st').
Proof. intros Hr Hl Hm. unfold mp_int_read_string. eapply sl_bind; [by apply sl_read_cstring|]. intros x st1 K. by apply sl_ret. Qed.

Lemma one_sl N c st S : SH st S -> legal c S -> thrifty N c S -> roomy N st S ->
  sl (do_call c) st (fun _ st' => ample N (fun o => has S o /\ match c with FreeInt o' => o <> o' | _ => True end) st').
Proof.
  intros (X & HV & HX) HL HT HR. pose proof (RV_thr _ _ _ HV) as H8.
  destruct c; cbn [thrifty legal] in HT, HL; try done; cbn [do_call]; apply sl_ans; set (P := fun o : oid => _);
  assert (ample N P st) as HA by (intros ? [? _]; by apply HR).
  all: try (apply sl_k; [|exact HA]; match goal with |- sl ?p ?s _ => apply (fun H : kp p => H s) end; solve [kpt]).
  all: try solve [by apply sl_clear].
  all: try solve [by apply sl_defprec | by apply sl_multhr].
  all: assert (forall a m, has S a -> SpecFits.fits (val S a) m -> is_Some (objs st !! a) /\ 1 <= usd st a <= m) as HS by (intros; by eapply RV_usd; [exact HV|by apply has_val|]).
  all: assert (forall a, has S a -> is_Some (objs st !! a)) as HO by (intros; by eapply RV_usd1; [exact HV|by apply has_val]).
  - eapply sl_mono; [apply (sl_free_int N (has S)); exact HR|]. done.
  - destruct HL as [Hc _]. specialize (HR _ Hc). apply sl_k; [|exact HA]. apply sl_set_value; [by apply HO|lia].
  - destruct HL as [Hc _]. specialize (HR _ Hc). apply sl_k; [|exact HA]. apply sl_set_uvalue; [by apply HO|lia].
  - destruct HL as [Ha Hc]. specialize (HR _ Hc). apply sl_k; [|exact HA]. destruct (HS _ _ Ha HT). apply sl_copy; lia.
  - destruct HL as [Ha Hc]. by apply sl_swap.
  - destruct HL as [Ha Hc]. specialize (HR _ Hc). apply sl_k; [|exact HA]. destruct (HS _ _ Ha HT). apply sl_abs; lia.
  - destruct HL as [Ha Hc]. specialize (HR _ Hc). apply sl_k; [|exact HA]. destruct (HS _ _ Ha HT). apply sl_neg; lia.
  - destruct HL as (Ha & Hb & Hc). destruct HT as [Fa Fb]. specialize (HR _ Hc). apply sl_k; [|exact HA]. destruct (HS _ _ Ha Fa), (HS _ _ Hb Fb). apply sl_add; lia.
  - destruct HL as (Ha & Hc & _). destruct HT as [Fa F3]. specialize (HR _ Hc). apply sl_k; [|exact HA]. destruct (HS _ _ Ha Fa). apply sl_add_value; [done|by apply HO|lia..].
  - destruct HL as (Ha & Hb & Hc). destruct HT as [Fa Fb]. specialize (HR _ Hc). apply sl_k; [|exact HA]. destruct (HS _ _ Ha Fa), (HS _ _ Hb Fb). apply sl_sub; lia.
  - destruct HL as (Ha & Hc & _). destruct HT as [Fa F3]. specialize (HR _ Hc). apply sl_k; [|exact HA]. destruct (HS _ _ Ha Fa). apply sl_sub_value; [done|by apply HO|lia..].
  - destruct HL as (Ha & Hb & Hc). destruct HT as (Na & Nb & m & Hm & Fa & Fb & H2). specialize (HR _ Hc). apply sl_k; [|exact HA]. destruct (HS _ _ Ha Fa), (HS _ _ Hb Fb). apply (sl_mul _ _ _ _ m); [done|done|lia..].
  - destruct HL as (Ha & Hc & _). destruct HT as (Na & m & Hm & Fa & H2). specialize (HR _ Hc). apply sl_k; [|exact HA]. destruct (HS _ _ Ha Fa). apply (sl_mul_value _ _ _ _ m); [done|by apply HO|done|lia..].
  - destruct HL as (Ha & Hc & Hk). destruct HT as (m & Fa & H2). specialize (HR _ Hc). apply sl_k; [|exact HA]. eapply sl_mul_pow2; [exact HV|by apply has_val|by apply has_val|exact Fa|done|lia].
  - destruct HL as (Ha & Hc). destruct HT as (Na & m & Hm & Fa & H2). specialize (HR _ Hc). apply sl_k; [|exact HA]. destruct (HS _ _ Ha Fa). apply (sl_sqr _ _ _ m); [done|lia..].
  - destruct HL as (Ha & Hq & Hr & _ & Hk & Hqa & _). apply sl_k; [|exact HA]. eapply sl_div_pow2; [exact HV|by apply has_val| | |exact Hqa|exact HT|exact Hk].
    + intros o ->. split; [exact Hq|]. by apply HR.
    + intros o ->. split; [exact Hr|]. by apply HR.
  - destruct HL as (Hc & Hk & Hl). specialize (HR _ Hc). apply sl_k; [|exact HA]. apply sl_read_string; [done|done|lia].
  - destruct HL as (Hc & Hk & Hl). specialize (HR _ Hc). apply sl_k; [|exact HA]. apply sl_read_cstring; [done|done|lia].
  - destruct HL as (Hc & H1 & H2 & l & bs & Hl & HB & <-). apply sl_k; [|exact HA]. eapply sl_read_unsigned; [exact HV|exact Hc|by eapply text_has|exact HB|by destruct bs; [simpl in *; lia|]|exact H2|]. specialize (HR _ Hc). lia.
  - destruct HL as (Hc & H1 & H2 & l & bs & Hl & HB & <-). apply sl_k; [|exact HA]. eapply sl_read_binary; [exact HV|exact Hc|by eapply text_has|exact HB|by destruct bs; [simpl in *; lia|]|exact H2|]. specialize (HR _ Hc). lia.
Qed.
Lemma has_put S c v o : has (put_int c v S) o -> has S c -> has S o.
Proof. unfold has, put_int. cbn [ints]. intros H Hc. destruct (decide (c = o)) as [<-|N]; [done|by rewrite lookup_insert_ne in H]. Qed.
Lemma has_putopt S c v o : has (put_opt c v S) o -> has_opt S c -> has S o.
Proof. destruct c as [c|]; [|done]. intros H Hc. by eapply (has_put S c v). Qed.
Lemma thrifty_has N c S r S' : legal c S -> thrifty N c S -> effect c S r S' -> forall o, has S' o -> has S o /\ match c with FreeInt o' => o <> o' | _ => True end.
Proof.
  intros HL HT HE o Ho. destruct c; cbn [thrifty legal effect] in HT, HL, HE; try done; repeat match goal with H : _ /\ _ |- _ => destruct H | H : exists _, _ |- _ => destruct H | H : _ \/ _ |- _ => destruct H end; subst; try (split; [|exact I]); try done;
  try solve [by eapply has_put].
  all: try solve [unfold has in Ho; cbn [ints] in Ho; apply lookup_delete_is_Some in Ho; destruct Ho as [Ho1 Ho2]; first [exact Ho2|split; [exact Ho2|congruence]]].
  - eapply has_put; [eapply has_put; [exact Ho|]|done]. unfold has, put_int. cbn [ints]. destruct (decide (a = c)) as [<-|Ne]; [rewrite lookup_insert; by eexists|by rewrite lookup_insert_ne].
  - eapply has_putopt; [eapply has_putopt; [exact Ho|]|done]. destruct r0 as [r0|]; [|done]. destruct q as [q|]; [|done]. unfold has_opt, live, put_opt, assign. cbn [ints]. destruct (decide (q = r0)) as [<-|Ne]; [rewrite lookup_insert; by eexists|by rewrite lookup_insert_ne].
Qed.
Lemma one_sure N c st S : SH st S -> legal c S -> thrifty N c S -> roomy N st S -> sure (do_call c) st (fun r st' => exists S', effect c S r S' /\ SH st' S' /\ roomy N st' S').
Proof.
  intros HS HL HT HR. intros dbg orc t. assert (wp (do_call c) (fun r st' => exists S', effect c S r S' /\ SH st' S') st) as HW by (apply (one_call c st S _ HS HL); intros r S' st' H1 H2; by exists S'). destruct (sl_sure _ _ _ _ (one_sl N c st S HS HL HT HR) HW dbg orc t) as (r & st' & t' & E & HA & S' & HE & HS').
  exists r, st', t'. split; [exact E|]. exists S'. split; [done|]. split; [done|]. intros o Ho. apply HA. by eapply thrifty_has.
Qed.
Lemma sure_bind {A B} (p : prog A) (f : A -> prog B) st (Φ : A -> state -> Prop) Ψ : sure p st Φ -> (forall a st', Φ a st' -> sure (f a) st' Ψ) -> sure (bind p f) st Ψ.
Proof.
  intros H HI dbg orc t. destruct (H true orc t) as (a & st' & t' & E & Ha). destruct (HI a st' Ha true orc t') as (b & st2 & t2 & E2 & Hb).
  assert (run true orc (bind p f) t st = Done b st2 t2) as E3 by (by rewrite run_bind, E). exists b, st2, t2. split; [|exact Hb]. destruct dbg; [exact E3|by apply run_nd_agrees].
Qed.
Lemma sure_ret {A} (a : A) st (Φ : A -> state -> Prop) : Φ a st -> sure (Ret a) st Φ.
Proof. intros H dbg orc t. by exists a, st, t. Qed.
Lemma drive_sure N k : forall st S, SH st S -> roomy N st S -> well_behaved k S -> thrifty_all N k S ->
  sure (drive k) st (fun h st' => exists S', history k S h S' /\ SH st' S' /\ roomy N st' S').
Proof.
  induction k as [|c k IH]; intros st S HS HR HW HT; cbn [drive].
  - apply sure_ret. exists S. split; [constructor|done].
  - destruct HW as [HL HW], HT as [HT HT']. eapply sure_bind; [by apply (one_sure N c st S)|]. intros r st1 (S1 & HE & HS1 & HR1).
    eapply sure_bind; [apply (IH r st1 S1); eauto|]. intros h st2 (S2 & HH & HS2 & HR2). apply sure_ret. exists S2. split; [by econstructor|done].
Qed.

(** ** Making room *)
Definition pd {A} (p : prog A) (st : state) (Φ : A -> state -> Prop) : Prop :=
  forall orc t, match run true orc p t st with Done a st' _ => Φ a st' | _ => True end.
Lemma pd_sl {A} (p : prog A) st Φ : sl p st Φ -> pd p st Φ.
Proof. intros H orc t. specialize (H orc t). by destruct (run true orc p t st). Qed.
Lemma pd_bind {A B} (p : prog A) (f : A -> prog B) st (Φ : A -> state -> Prop) Ψ : pd p st Φ -> (forall a st', Φ a st' -> pd (f a) st' Ψ) -> pd (bind p f) st Ψ.
Proof. intros H HI orc t. rewrite run_bind. specialize (H orc t). destruct (run true orc p t st); try done. by apply HI. Qed.
Lemma pd_alloc n st : pd (s_alloc n) st (fun p st' => p <> None /\ objs st' = objs st).
Proof. intros orc t. unfold s_alloc. cbn [run]. destruct (granted orc t n); cbn [run]; [|by rewrite bool_decide_false by (by intros [? ?])]. by rewrite bool_decide_true by done. Qed.
Lemma u32_pos x : 0 <= u32 x. Proof. unfold u32. apply Z.mod_pos_bound. lia. Qed.
Lemma round_prec_ge p : 0 <= p < 2 ^ 32 - 1 -> p <= s_round_prec p.
Proof.
  intros H. unfold s_round_prec. assert (u32 (p + 1) = p + 1) as -> by (unfold u32; apply Z.mod_small; lia).
  pose proof (Z.div_mod (p + 1) 2 ltac:(lia)). pose proof (Z.mod_pos_bound (p + 1) 2 ltac:(lia)). unfold u32. rewrite Z.mod_small; lia.
Qed.
Lemma pd_upd {B} o (f : mpz -> mpz) (k : unit -> prog B) st Ψ : (forall z st', objs st !! o = Some z -> objs st' = <[o := f z]> (objs st) -> pd (k tt) st' Ψ) -> pd (bind (m <- getO o; setO o (f m)) k) st Ψ.
Proof. intros H. eapply pd_bind; [apply pd_sl, sl_upd|]. intros [] st' (_ & z & Hz & E). by eapply H. Qed.
Lemma ample_upd N (P : oid -> Prop) o st st' z : ~ P o -> ample N P st -> objs st' = <[o := z]> (objs st) -> N <= alloc z -> ample N (fun o' => P o' \/ o' = o) st'.
Proof.
  intros Ho H E Hz o' [Ho'| ->]; unfold room; rewrite E; [|by rewrite lookup_insert]. rewrite lookup_insert_ne; [by apply H|]. by intros ->.
Qed.
(** mp_int_init_size gives the storage that is asked for. *)
Lemma pd_init_size N P o n st : 1 <= N <= n -> n < 2 ^ 32 - 1 -> ~ P o -> ample N P st -> pd (mp_int_init_size o n) st (fun _ st' => ample N (fun o' => P o' \/ o' = o) st').
Proof.
  intros HN Hn Ho H. unfold mp_int_init_size. destruct (Z.eqb_spec n 1) as [->|N1].
  - unfold mp_int_init. eapply pd_bind; [apply pd_sl, sl_Store|]. intros u s1 [E1 _].
    apply pd_upd. intros z2 s2 L2 E2. apply pd_upd. intros z3 s3 L3 E3. apply pd_upd. intros z4 s4 L4 E4. apply pd_upd. intros z5 s5 L5 E5. apply pd_sl, sl_ret.
    rewrite E2, lookup_insert in L3. injection L3 as <-. rewrite E3, lookup_insert in L4. injection L4 as <-. rewrite E4, lookup_insert in L5. injection L5 as <-.
    rewrite E4, E3, E2, !insert_insert, E1 in E5. eapply ample_upd; [done|exact H|exact E5|]. cbn [alloc]. lia.
  - eapply pd_bind; [apply pd_sl, sl_getG|]. intros g s0 [_ ->]. replace (n =? 0) with false by (symmetry; apply Z.eqb_neq; lia).
    pose proof (round_prec_ge n ltac:(lia)) as HR. eapply pd_bind; [apply pd_alloc|]. intros p s1 [Hp E1]. apply pd_upd. intros z2 s2 L2 E2. destruct p as [d|]; [|done].
    eapply pd_bind; [apply pd_sl, sl_Store|]. intros u s2' [E2' _].
    apply pd_upd. intros z3 s3 L3 E3. apply pd_upd. intros z4 s4 L4 E4. apply pd_upd. intros z5 s5 L5 E5. apply pd_sl, sl_ret.
    rewrite E2', E2, lookup_insert in L3. injection L3 as <-. rewrite E3, lookup_insert in L4. injection L4 as <-. rewrite E4, lookup_insert in L5. injection L5 as <-.
    rewrite E4, E3, E2', E2, !insert_insert, E1 in E5. eapply ample_upd; [done|exact H|exact E5|]. cbn [alloc]. lia.
Qed.
Lemma one_init N o st S : SH st S -> blank_at S o -> roomy N st S -> 1 <= N < 2 ^ 32 - 1 -> forall orc t,
  match run true orc (do_call (InitSize o N)) t st with Done r st' _ => exists S', effect (InitSize o N) S r S' /\ SH st' S' /\ roomy N st' S' | OOM n => exists t', (t <= t')%nat /\ granted orc t' n = false | _ => False end.
Proof.
  intros HS HB HR HN orc t. assert (legal (InitSize o N) S) as HL by (split; [done|lia]).
  assert (wp (do_call (InitSize o N)) (fun r st' => exists S', effect (InitSize o N) S r S' /\ SH st' S') st) as HW by (apply (one_call _ st S _ HS HL); intros r S' st' H1 H2; by exists S').
  pose proof (pd_init_size N (fun o' => has S o' /\ o' <> o) o N st ltac:(lia) ltac:(lia) ltac:(by intros [_ ?]) ltac:(by intros o' [Ho' _]; apply HR)) as HP.
  assert (pd (do_call (InitSize o N)) st (fun _ st' => ample N (fun o' => (has S o' /\ o' <> o) \/ o' = o) st')) as HP'.
  { eapply pd_bind; [exact HP|]. intros r s Hs. by apply pd_sl, sl_ret. }
  pose proof (wp_calls _ _ _ HW orc t) as HC. specialize (HP' orc t). destruct (run true orc (do_call (InitSize o N)) t st) as [r st' t'|n| | |]; try done.
  destruct HC as (S' & HE & HS'). exists S'. split; [done|]. split; [done|]. destruct HE as [_ ->]. intros o' Ho'. apply HP'. destruct (decide (o' = o)); [by right|left]. split; [|done].
  unfold has, put_new in Ho'. cbn [ints] in Ho'. by rewrite lookup_insert_ne in Ho'.
Qed.
(** It makes one request for memory at the most. *)
Definition tk {A} (B : Z) (n : nat) (p : prog A) : Prop := forall orc t st,
  match run true orc p t st with Done _ _ t' => (t <= t' <= t + n)%nat | OOM m => 0 <= m <= B /\ exists t', (t <= t' < t + n)%nat /\ granted orc t' m = false | _ => True end.
Lemma tk_bind {A B} Z n m (p : prog A) (f : A -> prog B) : tk Z n p -> (forall a, tk Z m (f a)) -> tk Z (n + m) (bind p f).
Proof.
  intros Hp Hf orc t st. rewrite run_bind. specialize (Hp orc t st). destruct (run true orc p t st) as [a st' t'|k| | |]; try done.
  - specialize (Hf a orc t' st'). destruct (run true orc (f a) t' st') as [b st2 t2|k| | |]; try done; [lia|]. destruct Hf as (HB & t2 & H1 & H2). split; [done|]. exists t2. split; [lia|done].
  - destruct Hp as (HB & t' & H1 & H2). split; [done|]. exists t'. split; [lia|done].
Qed.
Lemma tk_quiet {A} Z (p : prog A) : quiet p -> tk Z 0 p.
Proof. intros H orc t st. pose proof (quiet_run true orc p t st H) as HS. destruct (run true orc p t st); try done. cbn in HS. lia. Qed.
Lemma tk_alloc Z n : 0 <= n <= Z -> tk Z 1 (s_alloc n).
Proof.
  intros HZ orc t st. unfold s_alloc. cbn [run]. destruct (granted orc t n) eqn:E; cbn [run]; [rewrite bool_decide_true by done; lia|]. rewrite bool_decide_false by (by intros [? ?]).
  split; [done|]. exists t. split; [lia|done].
Qed.
Lemma tk_mono {A} Z n m (p : prog A) : tk Z n p -> (n <= m)%nat -> tk Z m p.
Proof. intros H L orc t st. specialize (H orc t st). destruct (run true orc p t st); try done; [lia|]. destruct H as (HB & t' & H1 & H2). split; [done|]. exists t'. split; [lia|done]. Qed.
Lemma round_prec_le p : 0 <= p -> s_round_prec p <= p + 1.
Proof.
  intros H. unfold s_round_prec. pose proof (u32_pos (p + 1)). pose proof (u32_le (p + 1)). assert (0 <= u32 (p + 1) / 2) by (apply Z.div_pos; lia). pose proof (Z.mul_div_le (u32 (p + 1)) 2). pose proof (u32_le (2 * (u32 (p + 1) / 2))). lia.
Qed.
Lemma tk_init_size o n : 1 <= n -> tk (n + 1) 1 (mp_int_init_size o n).
Proof.
  intros Hn.  unfold mp_int_init_size. destruct (n =? 1); [apply (tk_mono _ 0); [|lia]; apply tk_quiet; unfold mp_int_init; qt|].
  apply (tk_bind _ 0 1); [apply tk_quiet; qt|]. intros g. cbv zeta. apply (tk_bind _ 1 0); [apply tk_alloc; replace (n =? 0) with false by (symmetry; apply Z.eqb_neq; lia); split; [apply u32_pos|apply round_prec_le; lia]|]. intros p. apply tk_quiet. qt.
Qed.
Lemma tk_do o n : 1 <= n -> tk (n + 1) 1 (do_call (InitSize o n)).
Proof. intros Hn. apply (tk_bind _ 1 0); [by apply tk_init_size|]. intros r. by apply tk_quiet. Qed.

Lemma prepare_ok N os : forall k st S, SH st S -> roomy N st S -> 1 <= N < 2 ^ 32 - 1 -> NoDup os -> (forall o, o ∈ os -> blank_at S o) ->
  well_behaved k (prepared os S) -> thrifty_all N k (prepared os S) ->
  forall orc t, match run true orc (drive (prepare N os k)) t st with
    | Done h st' _ => exists S', history (prepare N os k) S h S' /\ SH st' S' /\ roomy N st' S'
    | OOM n => 0 <= n <= N + 1 /\ exists t', (t <= t' < t + length os)%nat /\ granted orc t' n = false
    | _ => False end.
Proof.
  induction os as [|o os IH]; intros k st S HS HR HN HD HB HW HT orc t; cbn [prepare].
  - destruct (drive_sure N k st S HS HR HW HT true orc t) as (h & st' & t' & -> & H). exact H.
  - cbn [drive]. rewrite run_bind. pose proof (one_init N o st S HS (HB o ltac:(left)) HR HN orc t) as H1. pose proof (tk_do o N ltac:(lia) orc t st) as HK.
    destruct (run true orc (do_call (InitSize o N)) t st) as [r st1 t1|n| | |]; try done; [|destruct HK as (HB' & t' & Ht & Hg); split; [done|]; exists t'; split; [cbn [length]; lia|done]].
    destruct H1 as (S1 & HE & HS1 & HR1). pose proof HE as [_ ->]. apply NoDup_cons in HD as [Ho HD].
    assert (forall o', o' ∈ os -> blank_at (put_new o 0 S) o') as HB1. { intros o' Ho'. unfold blank_at, put_new. cbn [raws]. rewrite lookup_delete_ne by (intros ->; done). apply HB. by right. }
    rewrite run_bind. specialize (IH k st1 (put_new o 0 S) HS1 HR1 HN HD HB1 HW HT orc t1). destruct (run true orc (drive (prepare N os k)) t1 st1) as [h st2 t2|n| | |]; try done.
    + destruct IH as (S2 & HH & HS2 & HR2). cbn [run]. exists S2. split; [by econstructor|done].
    + destruct IH as (HB' & t' & Ht & Hg). split; [done|]. exists t'. split; [cbn [length]; lia|done].
Qed.
