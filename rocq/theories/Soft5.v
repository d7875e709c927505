(** The [NDEBUG] build when requests are refused, continued: calls that make no
    request, structures whose number is lost, input of text. *)
From Coq Require Import ZArith List Lia.
From stdpp Require Import gmap list.
From Verif Require Import Mem Prog Kern Imath Exec Wp MemLem Rel RelWp RelZ Life Basic Basic2 Mult Shift Knuth Divi Powr Spec SpecHist SpecRef Public Refuse Gcd SpecBin Buf Text Read Bin Soft Soft2 Soft3 Soft4 Dig.
Local Open Scope Z_scope.
Local Open Scope prog_scope.
Local Ltac wb := apply wp_bind.

(** Programs without digit requests; they may have locals. *)
Section plain.
Local Transparent wp bind Load Prog.Store getO setO getG assert.
Local Arguments bind {A B} !p f : simpl nomatch.
Local Arguments wp {A} !p Q st.
Fixpoint plain {A} (p : prog A) : Prop :=
  match p with
  | Ret _ | Undef | NoFuel => True
  | Peek _ k => forall c, plain (k c)
  | Poke _ _ k | SetO _ _ k | DelO _ k | FreeO _ k | Free _ k | DelE _ k | SetG _ k | Assert ALogic _ k => plain k
  | GetO _ k => forall z, plain (k z)
  | NewO k => forall o, plain (k o)
  | MallocO k => forall o, plain (k o)
  | NewE _ k => forall p, plain (k p)
  | GetG k => forall g, plain (k g)
  | Malloc _ _ | Realloc _ _ _ | Assert (ANull _) _ _ => False
  end.
Lemma plain_bind {A B} (p : prog A) (q : A -> prog B) : plain p -> (forall a, plain (q a)) -> plain (bind p q).
Proof. intros Hp Hq. induction p; cbn [plain bind] in *; try (destruct a); eauto. Qed.
Lemma quiet_plain {A} (p : prog A) : quiet p -> plain p.
Proof. induction p; cbn [quiet plain]; try done; try (destruct a); eauto; done. Qed.
Lemma plain_soft {A} (p : prog A) Q st : plain p -> wp p Q st -> sw p Q st.
Proof.
  unfold sw. revert st. induction p; intros st0; cbn [plain soft wp]; try done; try (destruct a; cbn [wp]; try done); repeat case_match; try done; naive_solver.
Qed.
Lemma plain_wf {A} (p : prog A) : plain p -> wf p.
Proof. induction p; cbn [plain wf]; try done; try (destruct a; done); eauto. Qed.
End plain.
Lemma s_plain {A B} (p : prog A) (f : A -> prog B) Q st : plain p -> wp p (fun a st' => sw (f a) Q st') st -> sw (bind p f) Q st.
Proof. intros Hq H. apply soft_bind, wp_bind. by apply plain_soft. Qed.

Section q.
Local Transparent Load Prog.Store getO setO getG assert.
Lemma q_swap a c : quiet (mp_int_swap a c). Proof. unfold mp_int_swap. qt. Qed.
Lemma q_compare a c : quiet (mp_int_compare a c). Proof. unfold mp_int_compare. qt. Qed.
Lemma q_compare_unsigned a c : quiet (mp_int_compare_unsigned a c). Proof. unfold mp_int_compare_unsigned. qt. Qed.
Lemma q_compare_zero a : quiet (mp_int_compare_zero a). Proof. unfold mp_int_compare_zero. qt. Qed.
Lemma p_uvcmp a v : plain (s_uvcmp a v).
Proof.
  unfold s_uvcmp, with_ufake, with_local. cbn [plain]. intros p o. apply plain_bind; [|done]. apply plain_bind; [apply quiet_plain; qt|]. intros _. apply quiet_plain. qt.
Qed.
Lemma p_compare_value a v : plain (mp_int_compare_value a v).
Proof.
  unfold mp_int_compare_value. apply plain_bind; [apply quiet_plain; qt|]. intros s. destruct (_ =? s); [|done]. apply plain_bind; [apply p_uvcmp|done].
Qed.
Lemma p_compare_uvalue a v : plain (mp_int_compare_uvalue a v).
Proof. unfold mp_int_compare_uvalue. apply plain_bind; [apply quiet_plain; qt|]. intros s. destruct (s =? _); [done|]. apply p_uvcmp. Qed.
Lemma q_isp2_top n : forall d k, quiet (isp2_top n d k). Proof. induction n; cbn [isp2_top]; qt. Qed.
Hint Resolve q_isp2_top : quiet.
Lemma q_isp2_loop n : forall d k, quiet (isp2_loop n d k).
Proof. induction n as [|n IH]; [cbn [isp2_loop]; qt|]. destruct n; [cbn [isp2_loop]; qt|]. intros d k. change (quiet (x <- Load d; if negb (x =? 0) then Ret (-1) else isp2_loop (S n) (d +p 1) (k + 32))). qt. Qed.
Hint Resolve q_isp2_loop : quiet.
Lemma q_is_pow2 a : quiet (mp_int_is_pow2 a). Proof. unfold mp_int_is_pow2, s_isp2. qt. Qed.
Lemma q_is_odd a : quiet (mp_int_is_odd a). Proof. unfold mp_int_is_odd. qt. Qed.
Lemma q_is_even a : quiet (mp_int_is_even a). Proof. unfold mp_int_is_even. qt. Qed.
Lemma q_to_int_loop n : forall d v, quiet (to_int_loop n d v). Proof. induction n; cbn [to_int_loop]; qt. Qed.
Lemma q_to_uint_loop n : forall d v, quiet (to_uint_loop n d v). Proof. induction n; cbn [to_uint_loop]; qt. Qed.
Hint Resolve q_to_int_loop q_to_uint_loop : quiet.
Lemma p_to_int a : plain (mp_int_to_int a).
Proof.
  unfold mp_int_to_int. apply plain_bind; [apply quiet_plain; qt|]. intros s. apply plain_bind.
  { destruct (s =? _); [|done]. apply plain_bind; [apply p_compare_value|done]. }
  intros c1. apply plain_bind. { destruct c1; [done|]. apply plain_bind; [apply p_compare_value|done]. }
  intros [|]; [done|]. apply quiet_plain. qt.
Qed.
Lemma p_to_uint a : plain (mp_int_to_uint a).
Proof.
  unfold mp_int_to_uint. apply plain_bind; [apply quiet_plain; qt|]. intros s. apply plain_bind.
  { destruct (s =? _); [done|]. apply plain_bind; [apply p_compare_uvalue|done]. }
  intros [|]; [done|]. apply quiet_plain. qt.
Qed.
Lemma q_count_loop n : forall d k, quiet (count_loop n d k). Proof. induction n; cbn [count_loop]; qt. Qed.
Hint Resolve q_count_loop : quiet.
Lemma q_count_bits a : quiet (mp_int_count_bits a). Proof. unfold mp_int_count_bits. qt. Qed.
Hint Resolve q_count_bits : quiet.
Lemma q_string_len a r : quiet (mp_int_string_len a r). Proof. unfold mp_int_string_len, s_outlen. qt. Qed.
Lemma q_unsigned_len a : quiet (mp_int_unsigned_len a). Proof. unfold mp_int_unsigned_len. qt. Qed.
Hint Resolve q_unsigned_len : quiet.
Lemma q_binary_len a : quiet (mp_int_binary_len a). Proof. unfold mp_int_binary_len. qt. Qed.
Lemma q_tobin_digit i : forall b p l d u, quiet (tobin_digit i b p l d u). Proof. induction i; cbn [tobin_digit]; qt. Qed.
Hint Resolve q_tobin_digit : quiet.
Lemma q_tobin_loop n : forall d b p l, quiet (tobin_loop n d b p l).
Proof. induction n; intros; unfold tobin_loop; fold tobin_loop; qt. Qed.
Lemma q_rev_loop n : forall h t, quiet (rev_loop n h t). Proof. induction n; cbn [rev_loop]; qt. Qed.
Hint Resolve q_tobin_loop q_rev_loop : quiet.
Lemma q_tobin z b l p : quiet (s_tobin z b l p). Proof. unfold s_tobin. qt. Qed.
Hint Resolve q_tobin : quiet.
Lemma q_to_unsigned a b l : quiet (mp_int_to_unsigned a b l). Proof. unfold mp_int_to_unsigned. qt. Qed.
Lemma q_to_binary a b l : quiet (mp_int_to_binary a b l). Proof. unfold mp_int_to_binary. qt. Qed.
Lemma p_alloc : plain mp_int_alloc.
Proof. unfold mp_int_alloc. cbn [plain]. intros [o|]; [|done]. apply plain_bind; [apply quiet_plain; qt|done]. Qed.
Lemma p_free o : plain (mp_int_free o).
Proof. unfold mp_int_free. apply plain_bind; [apply quiet_plain; qt|done]. Qed.
Lemma p_default_precision n : plain (mp_int_default_precision n).
Proof. unfold mp_int_default_precision. apply plain_bind; [apply quiet_plain; qt|]. intros _. by cbn. Qed.
Lemma p_multiply_threshold n : plain (mp_int_multiply_threshold n).
Proof. unfold mp_int_multiply_threshold. apply plain_bind; [apply quiet_plain; qt|]. intros _. by cbn. Qed.
End q.
#[export] Hint Resolve q_swap q_compare q_compare_unsigned q_compare_zero q_is_pow2 q_is_odd q_is_even q_count_bits q_string_len q_unsigned_len q_binary_len q_to_unsigned q_to_binary : quiet.

(** ** Structures whose number is lost *)
(** [o] owns the storage [b] but holds no number. *)
Definition lost_in (X : ctx) (o : oid) (b : base) : Prop :=
  exists z, craw X !! o = Some z /\ digits z = Some (b, 0) /\ (b = Sng o \/ exists n l, b = Hp n /\ cmem X !! b = Some l).
(** Everything but [o] and its storage is as in [X]. *)
Definition loses (X : ctx) (o : oid) (b : base) (X' : ctx) : Prop :=
  lost_in X' o b /\ cglob X' = cglob X /\ (forall o', o' <> o -> craw X' !! o' = craw X !! o') /\
  (forall b', b' <> b -> cmem X' !! b' = cmem X !! b') /\ cmem X !! b = None.
Lemma spoilt_loses st V X c : spoilt st V X c -> exists b X', RV st (delete c V) X' /\ loses X c b X'.
Proof.
  intros (ζ & (σ & f & HR & Hc & Ho & Hz) & Hv). pose proof (R_uninit _ _ _ c f (mpz_of f) HR Hc) as HR1.
  rewrite insert_id in HR1 by (by eapply R_get). destruct st as [so sm sg]. cbn [set_objs Mem.objs Mem.mem Mem.glob] in HR1.
  eexists (fl f), _. split; [exists (delete c ζ); split; [by exists (delete c σ)|by apply relv_del]|].
  pose proof (R_loc _ _ _ HR _ _ Hc) as Hl. unfold owned in Ho. unfold loses, lost_in, release. cbn [cmem craw cglob].
  assert (forall b l, cmem X !! b = Some l -> fl f <> b) as Hn by (intros b l Hb; by eapply (R_ctx_own _ _ _ HR)).
  destruct (fl f) as [o'|n|n] eqn:E; [simpl in Hl; subst o'| |done].
  - split; [|split; [done|]].
    + exists (mpz_of f). rewrite lookup_insert. unfold mpz_of. rewrite E. auto.
    + split; [intros; by rewrite lookup_insert_ne|]. split; [done|]. destruct (cmem X !! Sng c) eqn:E2; [|done]. by apply Hn in E2.
  - split; [|split; [done|]].
    + exists (mpz_of f). rewrite lookup_insert. unfold mpz_of. rewrite E. split; [done|]. split; [done|]. right. exists n, (fc f). by rewrite lookup_insert.
    + split; [intros; by rewrite lookup_insert_ne|]. split; [intros; by rewrite lookup_insert_ne|]. destruct (cmem X !! Hp n) eqn:E2; [|done]. by apply Hn in E2.
Qed.
Lemma wpV_clear_lost st V X o b (Q : unit -> state -> Prop) : RV st V X -> lost_in X o b ->
  (forall st' z, digits z = None -> RV st' V (Ctx (delete b (cmem X)) (<[o := z]> (craw X)) (cglob X)) -> Q tt st') -> wp (mp_int_clear o) Q st.
Proof.
  intros (ζ & (σ & HR & Hz) & Hv) (z & Ho & Hd & Hb) HQ. unfold mp_int_clear. wb. eapply wp_getO; [by eapply R_get_raw|]. rewrite Hd.
  set (z' := Mpz None (alloc z) (used z) (sign z)). wb. unfold ptr_eqb. destruct Hb as [->|(n & l & -> & Hl)].
  - rewrite bool_decide_eq_true_2 by done. apply wp_ret. eapply wp_set_digits; [by eapply R_get_raw|]. apply (HQ _ z'); [done|].
    rewrite delete_notin. 2:{ destruct (cmem X !! Sng o) eqn:E; [|done]. exfalso. by eapply (R_ctx_sng _ _ _ HR _ _ o E). }
    exists ζ. split; [|done]. exists σ. split; [|done]. by eapply (R_set_raw _ _ _ o z).
  - rewrite bool_decide_eq_false_2 by done. unfold s_free. eapply wp_Free; [simpl; by eapply (R_ctx _ _ _ HR)|]. apply wp_ret.
    eapply wp_set_digits; [simpl; by eapply R_get_raw|]. apply (HQ _ z'); [done|]. exists ζ. split; [|done]. exists σ. split; [|done].
    eapply (R_delB _ _ _ (Hp n)) in HR; [|done]. exact (R_set_raw _ _ _ o z z' HR Ho).
Qed.
Lemma wpV_free_raw st V X o z (Q : unit -> state -> Prop) : RV st V X -> craw X !! o = Some z -> o.1 = true ->
  (forall st', RV st' V (with_craw X (delete o (craw X))) -> Q tt st') -> wp (FreeO o (Ret tt)) Q st.
Proof.
  intros (ζ & HZ & Hv) Ho Hb HQ. eapply wp_FreeO; [by eapply RZ_raw|done|]. apply wp_ret. apply HQ. exists ζ. split; [|done]. by eapply RZ_delO.
Qed.

(** ** Input of text *)
Lemma sf_read_cstring o r s st V X v (Q : Z * list Z -> state -> Prop) : RV st V X -> V !! o = Some v ->
  (forall st' s', spoilt st' V X o -> Q (MP_MEMORY, s') st') -> wp (mp_int_read_cstring o r s) Q st -> sw (mp_int_read_cstring o r s) Q st.
Proof.
  intros (ζ & HZ & Hv) Ho HF HW. destruct (relv_some _ _ _ _ Hv Ho) as (z & Hz & _ & _ & Oz). destruct (RZ_s01 _ _ _ _ _ HZ Hz) as [Mz Sz].
  unfold mp_int_read_cstring in *. rstep HW HW1 u G. cbv zeta in *.
  apply wp_bind_inv in HW1; [|apply quiet_wf; qt]. apply s_quiet; [qt|].
  eapply wp_mono; [eapply wp_and; [qt|exact HW1|]|].
  { instantiate (1 := fun _ st1 => exists z', RZ st1 (<[o := z']> ζ) X /\ zo z' = None).
    assert (forall sg (s1 : list Z), (sg = MP_ZPOS \/ sg = MP_NEG) -> wp (set_sign o sg;; Ret s1) (fun (_ : list Z) st1 => exists z', RZ st1 (<[o := z']> ζ) X /\ zo z' = None) st) as HS.
    { intros sg s1 Hsg. wb. eapply wpZ_set_sign; [done..| |]. { destruct Hsg as [-> | ->]; [by left|by right]. } intros st1 HZ1. apply wp_ret. by eexists. }
    repeat case_match; apply HS; auto. }
  cbv beta. intros s1 st1 [HW2 (z' & HZ1 & Oz')].
  eapply (sf_bind_at _ _ (fun a st' => a = false /\ st' = st1)); [apply wf_pad| |intros a; apply same_quiet; qt|exact HW2|].
  - intros Q' H1 H2. apply sf_pad; [done|]. intros a st'. apply H2.
  - intros a st' [-> ->]. cbn [negb]. apply s_ret. apply HF. exists ζ. split; [|done].
    destruct (RZ_ruined _ _ _ o _ HZ1 (lookup_insert _ _ _) Oz') as (σ & f & H1 & H2 & H3 & H4). exists σ, f. split_and!; try done. by rewrite delete_insert_delete in H4.
Qed.
