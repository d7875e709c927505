(** The [NDEBUG] build when requests are refused, continued: small operands,
    initialisation, shifts, text. *)
From Coq Require Import ZArith List Lia.
From stdpp Require Import gmap list.
From Verif Require Import Mem Prog Kern Imath Exec Wp MemLem Dig Rel RelWp RelZ Life Basic Basic2 Mult Shift Knuth Divi Powr Spec SpecHist Public Refuse Gcd SpecBin Buf Text Soft.
Local Open Scope Z_scope.
Local Open Scope prog_scope.

(** ** Locals *)
Lemma sZ_with_local {A} st ζ X v (body : oid -> prog A) mk s (Q : A -> state -> Prop) :
  RZ st ζ X -> (forall t p, quiet (mk t p)) ->
  (forall t n z σ st1 X1 (Q1 : unit -> state -> Prop), R st1 σ X1 -> craw X1 !! t = Some z ->
     cmem X1 !! Ext n = Some [None; None] ->
     (forall st' f, R st' (<[t := f]> σ) (Ctx (delete (Ext n) (cmem X1)) (delete t (craw X1)) (cglob X1)) ->
      good f (fakev s v n) -> Q1 tt st') -> wp (mk t (Ext n, 0)) Q1 st1) ->
  (forall t n st1, ζ !! t = None -> RZ st1 (<[t := fakev s v n]> ζ) X ->
     sw (body t) (fun r st2 => exists ζ2 X2, ζ2 !! t = None /\ RZ st2 (<[t := fakev s v n]> ζ2) X2 /\
                    (forall st3, RZ st3 ζ2 X2 -> Q r st3)) st1) ->
  sw (with_local (fun vtmp vbuf => bind (mk vtmp vbuf) (fun _ => body vtmp))) Q st.
Proof.
  intros (σ & HR & Hz) Hq Hmk HB. unfold with_local. cbn [soft]. apply wp_NewE. intros n Fn.
  destruct (R_newB st σ X (Ext n) (replicate 2 None) HR) as [Hc HR1]; [exact Fn|done|].
  apply wp_NewO. intros z iz Fz.
  destruct (R_newO _ σ _ false z _ HR1 Fz) as (H1 & H2 & HR2). set (t := (false, iz)) in *.
  apply soft_bind, wp_bind. apply s_quiet; [apply Hq|]. eapply (Hmk t n z); [exact HR2|simpl; apply lookup_insert|simpl; apply lookup_insert|].
  intros st' f HR3 Hgood. simpl in HR3. rewrite !delete_insert in HR3 by done.
  assert (R st' (<[t:=f]> σ) X) as HR3' by (destruct X; exact HR3).
  eapply wp_mono; [apply (HB t n)|].
  { by eapply relz_none. }
  { by eapply RZ_upd. }
  intros r st2 (ζ2 & X2 & Ht & (σ2 & HR4 & Hz2) & HQ).
  destruct (relz_some _ _ _ _ Hz2 (lookup_insert _ _ _)) as (f2 & Hf2 & ds & G). pose proof (g_own _ _ _ G) as Ho. cbn [zo fakev] in Ho.
  cbn [soft]. eapply wp_DelO; [by eapply R_get|done|].
  pose proof (R_delFake _ _ _ _ _ _ HR4 Hf2 Ho) as HR5.
  eapply wp_DelE; [eapply (R_ctx _ _ _ HR5); simpl; apply lookup_insert|]. apply wp_ret. apply HQ.
  eapply (R_delB _ _ _ (Ext n)) in HR5; [|simpl; apply lookup_insert].
  simpl in HR5. rewrite delete_insert in HR5.
  - exists (delete t σ2). split; [destruct X2; exact HR5|]. apply (relz_del _ _ t) in Hz2. by rewrite delete_insert in Hz2.
  - destruct (cmem X2 !! Ext n) eqn:E; [|done]. exfalso. by eapply (R_ctx_own _ _ _ HR4).
Qed.
Lemma sZ_with_fake {A} st ζ X v (body : oid -> prog A) (Q : A -> state -> Prop) :
  RZ st ζ X -> - 2 ^ 63 < v < 2 ^ 63 ->
  (forall t n st1, ζ !! t = None -> RZ st1 (<[t := fakev (sgnbit v) (Z.abs v) n]> ζ) X ->
     sw (body t) (fun r st2 => exists ζ2 X2, ζ2 !! t = None /\ RZ st2 (<[t := fakev (sgnbit v) (Z.abs v) n]> ζ2) X2 /\
                    (forall st3, RZ st3 ζ2 X2 -> Q r st3)) st1) ->
  sw (with_fake v body) Q st.
Proof.
  intros HZ Hv HB. unfold with_fake.
  apply (sZ_with_local st ζ X (Z.abs v) body (fun vtmp vbuf => s_fake vtmp v vbuf) (sgnbit v) Q HZ); [intros; qt| |done].
  intros t n z σ st1 X1 Q1 HR Ht Hn HQ. by eapply wpR_fake.
Qed.
Lemma sZ_with_ufake {A} st ζ X v (body : oid -> prog A) (Q : A -> state -> Prop) :
  RZ st ζ X -> 0 <= v < RADIX * RADIX ->
  (forall t n st1, ζ !! t = None -> RZ st1 (<[t := fakev 0 v n]> ζ) X ->
     sw (body t) (fun r st2 => exists ζ2 X2, ζ2 !! t = None /\ RZ st2 (<[t := fakev 0 v n]> ζ2) X2 /\
                    (forall st3, RZ st3 ζ2 X2 -> Q r st3)) st1) ->
  sw (with_ufake v body) Q st.
Proof.
  intros HZ Hv HB. unfold with_ufake.
  apply (sZ_with_local st ζ X v body (fun vtmp vbuf => s_ufake vtmp v vbuf) 0 Q HZ); [intros; qt| |done].
  intros t n z σ st1 X1 Q1 HR Ht Hn HQ. by eapply wpR_ufake.
Qed.
(** The same for stores of values. *)
Lemma sV_set_value st V X c v vc (Q : Z -> state -> Prop) : RV st V X -> V !! c = Some vc -> - 2 ^ 63 < v < 2 ^ 63 ->
  (forall st', RV st' V X -> Q MP_MEMORY st') -> (forall st', RV st' (<[c := v]> V) X -> Q MP_OK st') -> sw (mp_int_set_value c v) Q st.
Proof.
  intros (ζ & HZ & Hv) Hc Hr HF HQ. destruct (relv_some _ _ _ _ Hv Hc) as (zc & Hc' & E & N & O).
  unfold mp_int_set_value. eapply sZ_with_fake; [done..|]. intros t n st1 Ht HZ1. assert (c <> t) by congruence.
  apply sf_copy.
  - eapply wpZ_copy; [exact HZ1|apply lookup_insert|by rewrite lookup_insert_ne|done|]. intros st' HZ'.
    eexists (<[c := _]> ζ), _. split; [by rewrite lookup_insert_ne|]. split; [rewrite (insert_commute _ t c) by done; exact HZ'|].
    intros st3 HZ3. apply HQ. cbn [zs zm fakev] in HZ3. rewrite fakev_put in HZ3. by eapply RV_set.
  - intros r st' [-> ->]. exists ζ, X. split; [done|]. split; [done|]. intros st3 HZ3. apply HF. by exists ζ.
Qed.
Lemma sV_set_uvalue st V X c v vc (Q : Z -> state -> Prop) : RV st V X -> V !! c = Some vc -> 0 <= v < 2 ^ 64 ->
  (forall st', RV st' V X -> Q MP_MEMORY st') -> (forall st', RV st' (<[c := v]> V) X -> Q MP_OK st') -> sw (mp_int_set_uvalue c v) Q st.
Proof.
  intros (ζ & HZ & Hv) Hc Hr HF HQ. destruct (relv_some _ _ _ _ Hv Hc) as (zc & Hc' & E & N & O).
  unfold mp_int_set_uvalue. eapply sZ_with_ufake; [done..|]. intros t n st1 Ht HZ1. assert (c <> t) by congruence.
  apply sf_copy.
  - eapply wpZ_copy; [exact HZ1|apply lookup_insert|by rewrite lookup_insert_ne|done|]. intros st' HZ'.
    eexists (<[c := _]> ζ), _. split; [by rewrite lookup_insert_ne|]. split; [rewrite (insert_commute _ t c) by done; exact HZ'|].
    intros st3 HZ3. apply HQ. cbn [zs zm fakev] in HZ3. rewrite ufakev_put in HZ3 by lia. by eapply RV_set.
  - intros r st' [-> ->]. exists ζ, X. split; [done|]. split; [done|]. intros st3 HZ3. apply HF. by exists ζ.
Qed.

(** ** Initialisation *)
Ltac rstep HW HW' a G := match type of HW with wp (bind ?p ?f) ?Q ?st => let H := fresh in assert (reader p) as H by first [done|rd]; destruct (reader_step p f Q st H HW) as (a & HW' & G); clear H; apply G; clear HW G end.
Definition blanked (o : oid) (z : mpz) (st : state) (r : Z) (st' : state) : Prop :=
  r = MP_MEMORY /\ st' = set_objs st (<[o := Mpz None (alloc z) (used z) (sign z)]> (objs st)).
Lemma wf_init_size z n : wf (mp_int_init_size z n).
Proof.
  unfold mp_int_init_size. destruct (_ =? _); [apply quiet_wf; qt|]. apply wf_bind; [apply quiet_wf; qt|]. intros g. cbv zeta.
  apply wf_bind; [by split|]. intros p. apply wf_bind; [apply quiet_wf; qt|]. intros _. destruct p; apply quiet_wf; qt.
Qed.
Section init.
Local Transparent wp bind Load Prog.Store getO setO getG assert.
Local Arguments bind {A B} !p f : simpl nomatch.
Local Arguments wp {A} !p Q st.
Lemma sf_init_size o n z st (Q : Z -> state -> Prop) : objs st !! o = Some z -> wp (mp_int_init_size o n) Q st ->
  (forall r st', blanked o z st r st' -> Q r st') -> sw (mp_int_init_size o n) Q st.
Proof.
  intros Ho HW HQ. unfold mp_int_init_size in *. destruct (_ =? _); [revert HW; apply quiet_soft; qt|].
  rstep HW HW' g G. cbv zeta in *.
  unfold s_alloc in *. cbn [bind soft wp] in *. destruct HW' as [_ HW]. split; [right|].
  - unfold set_digits, getO, setO. cbn [bind soft wp]. rewrite Ho. by apply HQ.
  - intros Hn ib Hib. specialize (HW Hn ib Hib). cbv zeta in *. destruct HW as [_ HW]. revert HW. apply quiet_soft. qt.
Qed.
End init.
(** No request and so no difference. *)
Definition same {A} (p : prog A) : Prop := forall (Q : A -> state -> Prop) st, wp p Q st -> sw p Q st.
Lemma same_quiet {A} (p : prog A) : quiet p -> same p. Proof. intros Hq Q st. by apply quiet_soft. Qed.
Lemma same_bind {A B} (p : prog A) (f : A -> prog B) : quiet p -> (forall a, same (f a)) -> same (bind p f).
Proof. intros Hq Hf Q st HW. apply wp_bind_inv in HW; [|by apply quiet_wf]. apply s_quiet; [done|]. eapply wp_mono; [exact HW|]. intros a st'. apply Hf. Qed.
Lemma sf_bind_at {A B} (p : prog A) (f : A -> prog B) (E : A -> state -> Prop) (Q : B -> state -> Prop) st :
  wf p -> (forall Q' : A -> state -> Prop, wp p Q' st -> (forall a st', E a st' -> Q' a st') -> sw p Q' st) -> (forall a, same (f a)) ->
  wp (bind p f) Q st -> (forall a st', E a st' -> sw (f a) Q st') -> sw (bind p f) Q st.
Proof.
  intros Hw Hp Hf HW HE. apply soft_bind, wp_bind. apply wp_bind_inv in HW; [|done]. apply Hp; [|done].
  eapply wp_mono; [exact HW|]. intros a st' H. by apply Hf.
Qed.
Lemma sf_init_copy o a z st (Q : Z -> state -> Prop) : objs st !! o = Some z -> wp (mp_int_init_copy o a) Q st ->
  (forall r st', blanked o z st r st' -> Q r st') -> sw (mp_int_init_copy o a) Q st.
Proof.
  intros Ho HW HQ. unfold mp_int_init_copy in *. rstep HW HW' u G.
  destruct (u =? 1); [revert HW'; apply quiet_soft; qt|]. eapply (sf_bind_at _ _ (blanked o z st)); [| | |exact HW'|].
  - apply wf_bind; [apply quiet_wf; qt|intros; apply wf_init_size].
  - intros Q' H1 H2. rstep H1 H3 g G. by eapply sf_init_size.
  - intros r. apply same_quiet. qt.
  - intros r st' [-> ->]. change (wp (soft (Ret MP_MEMORY)) Q (set_objs st (<[o:=Mpz None (alloc z) (used z) (sign z)]> (objs st)))). apply s_ret. by apply HQ.
Qed.
Lemma RZ_blank st ζ X o z z' : RZ st ζ X -> craw X !! o = Some z -> RZ (set_objs st (<[o := z']> (objs st))) ζ (with_craw X (<[o := z']> (craw X))).
Proof. intros (σ & HR & Hz) Ho. exists σ. split; [|done]. by eapply R_set_raw. Qed.
Definition nulled (z : mpz) : mpz := Mpz None (alloc z) (used z) (sign z).
Section V.
Context (st : state) (V : gmap oid Z) (X : ctx) (o : oid) (z : mpz).
Implicit Types Q : Z -> state -> Prop.
Definition refused_init Q : Prop := forall st', RV st' V (with_craw X (<[o := nulled z]> (craw X))) -> Q MP_MEMORY st'.
Lemma sV_init_size n Q : RV st V X -> craw X !! o = Some z -> 0 <= n < 2 ^ 32 - 1 -> refused_init Q ->
  (forall st', V !! o = None -> RV st' (<[o := 0]> V) (with_craw X (delete o (craw X))) -> Q MP_OK st') -> sw (mp_int_init_size o n) Q st.
Proof.
  intros HV Ho Hn HF HQ. pose proof HV as (ζ & HZ & Hv). eapply sf_init_size; [by eapply RZ_raw|by eapply wpV_init_size|].
  intros r st' [-> ->]. apply HF. exists ζ. split; [|done]. by eapply RZ_blank.
Qed.
Lemma sV_init_copy a va Q : RV st V X -> craw X !! o = Some z -> V !! a = Some va -> refused_init Q ->
  (forall st', V !! o = None -> RV st' (<[o := va]> V) (with_craw X (delete o (craw X))) -> Q MP_OK st') -> sw (mp_int_init_copy o a) Q st.
Proof.
  intros HV Ho Ha HF HQ. pose proof HV as (ζ & HZ & Hv). eapply sf_init_copy; [by eapply RZ_raw|by eapply wpV_init_copy|].
  intros r st' [-> ->]. apply HF. exists ζ. split; [|done]. by eapply RZ_blank.
Qed.
Lemma sV_init_value v Q : RV st V X -> craw X !! o = Some z -> - 2 ^ 63 < v < 2 ^ 63 -> refused_init Q ->
  (forall st', V !! o = None -> RV st' (<[o := v]> V) (with_craw X (delete o (craw X))) -> Q MP_OK st') -> sw (mp_int_init_value o v) Q st.
Proof.
  intros (ζ & HZ & Hv) Ho Hr HF HQ. unfold mp_int_init_value. eapply sZ_with_fake; [done..|]. intros t n st1 Ht HZ1.
  eapply sf_init_copy; [by eapply RZ_raw|eapply wpZ_init_copy; [exact HZ1|done|apply lookup_insert|]|].
  - intros st' Hno HZ'. apply lookup_insert_None in Hno as [Hno Hne].
    eexists (<[o := _]> ζ), _. split; [by rewrite lookup_insert_ne|]. split; [rewrite (insert_commute _ t o) by done; exact HZ'|].
    intros st3 HZ3. apply HQ; [by eapply relv_none'|]. cbn [zs zm fakev] in HZ3. rewrite fakev_put in HZ3. by eapply RV_set.
  - intros r st' [-> ->]. eexists ζ, _. split; [done|]. split; [by eapply RZ_blank|]. intros st3 HZ3. apply HF. by exists ζ.
Qed.
Lemma sV_init_uvalue v Q : RV st V X -> craw X !! o = Some z -> 0 <= v < 2 ^ 64 -> refused_init Q ->
  (forall st', V !! o = None -> RV st' (<[o := v]> V) (with_craw X (delete o (craw X))) -> Q MP_OK st') -> sw (mp_int_init_uvalue o v) Q st.
Proof.
  intros (ζ & HZ & Hv) Ho Hr HF HQ. unfold mp_int_init_uvalue. eapply sZ_with_ufake; [done..|]. intros t n st1 Ht HZ1.
  eapply sf_init_copy; [by eapply RZ_raw|eapply wpZ_init_copy; [exact HZ1|done|apply lookup_insert|]|].
  - intros st' Hno HZ'. apply lookup_insert_None in Hno as [Hno Hne].
    eexists (<[o := _]> ζ), _. split; [by rewrite lookup_insert_ne|]. split; [rewrite (insert_commute _ t o) by done; exact HZ'|].
    intros st3 HZ3. apply HQ; [by eapply relv_none'|]. cbn [zs zm fakev] in HZ3. rewrite ufakev_put in HZ3 by lia. by eapply RV_set.
  - intros r st' [-> ->]. eexists ζ, _. split; [done|]. split; [by eapply RZ_blank|]. intros st3 HZ3. apply HF. by exists ζ.
Qed.
End V.

(** ** Shifts *)
Lemma sV_mul_pow2 st V X a p c va vc (Q : Z -> state -> Prop) : RV st V X -> V !! a = Some va -> V !! c = Some vc -> 0 <= p < 2 ^ 32 ->
  (forall st', RV st' V X -> Q MP_MEMORY st') -> (forall st', RV st' (<[c := va]> V) X -> Q MP_MEMORY st') ->
  (forall st', RV st' (<[c := va * 2 ^ p]> V) X -> Q MP_OK st') -> sw (mp_int_mul_pow2 a p c) Q st.
Proof.
  intros HV Ha Hc Hp HF1 HF2 HQ. unfold mp_int_mul_pow2. sqt. apply wp_assert; [lia|].
  apply soft_bind, wp_bind. eapply sV_copy; [exact HV|done|done| |].
  { apply s_ret. by apply HF1. }
  intros st1 HV1. change (negb (MP_OK =? MP_OK)) with false. cbv iota. rewrite u32_id by mx.
  apply soft_bind, wp_bind. eapply sV_qmul; [exact HV1|lk|mx| |].
  { apply s_ret. by apply HF2. }
  intros st2 HV2. apply s_ret. apply HQ. vn HV2.
Qed.
Section pow2.
Local Transparent wp bind Load Prog.Store getO setO getG assert.
Local Arguments bind {A B} !p f : simpl nomatch.
Local Arguments wp {A} !p Q st.
Lemma sV_rpart st V X a k r va (Q : Z -> state -> Prop) : RV st V X -> V !! a = Some va -> live (Some r) V -> 0 <= k < 2 ^ 32 ->
  (va < 0 -> Z.rem va (2 ^ k) <> 0) -> (forall st', RV st' V X -> Q MP_MEMORY st') -> (forall st', RV st' (<[r := Z.rem va (2 ^ k)]> V) X -> Q MP_OK st') ->
  sw (res <- mp_int_copy a r; if res =? MP_OK then s_qmod r (u32 k);; Ret MP_OK else Ret res) Q st.
Proof.
  intros HV Ha Hr Hk Hz HF HQ.
  assert (wp (mp_int_div_pow2 a k None (Some r)) Q st) as HW. { eapply wpV_div_pow2; [exact HV|exact Ha|done|exact I|exact Hr|exact Hk|done|intros _; exact Hz|exact HQ]. }
  unfold mp_int_div_pow2 in HW. cbn [bind wp when assert] in HW. destruct HW as [_ HW].
  assert (softens (res <- mp_int_copy a r; if res =? MP_OK then s_qmod r (u32 k);; Ret MP_OK else Ret res) untouched) as HS.
  { eapply sf_bind_quiet; [apply wf_copy|apply sf_copy|intros x; left; qt|]. intros st' Q' x st'' [-> ->] HQ'. change (wp (soft (Ret MP_MEMORY)) Q' st'). by apply HQ'. }
  apply HS; [exact HW|]. intros x st' [-> ->]. by apply HF.
Qed.
End pow2.
Lemma sV_div_pow2 st V X a k q r va (Q : Z -> state -> Prop) : RV st V X -> V !! a = Some va -> q <> r -> live q V -> live r V -> 0 <= k < 2 ^ 32 ->
  (q = Some a -> r = None) -> (r <> None -> va < 0 -> Z.rem va (2 ^ k) <> 0) ->
  (forall st', RV st' V X -> Q MP_MEMORY st') -> (forall st', RV st' (assign q (Z.quot va (2 ^ k)) V) X -> Q MP_MEMORY st') ->
  (forall st', RV st' (assign r (Z.rem va (2 ^ k)) (assign q (Z.quot va (2 ^ k)) V)) X -> Q MP_OK st') -> sw (mp_int_div_pow2 a k q r) Q st.
Proof.
  intros HV Ha Nqr Lq Lr Hk Hqa Hrz HF1 HF2 HQ. unfold mp_int_div_pow2. sqt. apply wp_assert.
  { rewrite bool_decide_eq_false_2 by done. simpl. destruct (Z.leb_spec 0 k); [done|lia]. }
  assert (forall st1, RV st1 (assign q (Z.quot va (2 ^ k)) V) X -> sw (when r (fun r : oid => res <- mp_int_copy a r; if res =? MP_OK then s_qmod r (u32 k);; Ret MP_OK else Ret res)) Q st1) as HR.
  { intros st1 HV1. destruct r as [r|]; cbn [when]; [|by apply s_ret, HQ]. eapply sV_rpart; [exact HV1| | |done| |done|done].
    - destruct q as [q|]; cbn [assign]; [|done]. rewrite lookup_insert_ne; [done|]. intros ->. by specialize (Hqa eq_refl).
    - by apply live_assign.
    - by apply Hrz. }
  apply soft_bind, wp_bind. destruct q as [q|]; cbn [when].
  - destruct Lq as [vq Hq]. apply soft_bind, wp_bind. eapply sV_copy; [exact HV|done|done| |].
    { change (wp (soft (Ret MP_MEMORY)) (fun r0 st' => sw (if negb (r0 =? MP_OK) then Ret r0 else when r (fun r1 => res <- mp_int_copy a r1; if res =? MP_OK then s_qmod r1 (u32 k);; Ret MP_OK else Ret res)) Q st') st).
      apply s_ret. change (negb (MP_MEMORY =? MP_OK)) with true. cbv iota. apply s_ret. by apply HF1. }
    intros st1 HV1. change (MP_OK =? MP_OK) with true. cbv iota. sqt. eapply wpV_qdiv; [exact HV1|lk|rewrite (u32_id k) by (clear -Hk; mx); clear -Hk; lia|]. intros st2 HV2.
    apply s_ret. change (negb (MP_OK =? MP_OK)) with false. cbv iota. apply HR. cbn [assign]. rewrite (u32_id k) in HV2 by (clear -Hk; mx). vn HV2.
  - apply s_ret. change (negb (MP_OK =? MP_OK)) with false. cbv iota. by apply HR.
Qed.

(** ** Text *)
Lemma wf_init_copy o a : wf (mp_int_init_copy o a).
Proof.
  unfold mp_int_init_copy. apply wf_bind; [apply quiet_wf; qt|]. intros u. apply wf_bind; [|intros; apply quiet_wf; qt].
  destruct (_ =? _); [apply quiet_wf; qt|]. apply wf_bind; [apply quiet_wf; qt|]. intros; apply wf_init_size.
Qed.
Section text.
Local Transparent wp bind Load Prog.Store getO setO getG assert.
Local Arguments bind {A B} !p f : simpl nomatch.
Local Arguments wp {A} !p Q st.
Lemma sV_to_string st V X z v r b (off : nat) l limit s (Q : Z -> state -> Prop) :
  RV st V X -> V !! z = Some v -> cmem X !! b = Some l -> 2 <= r <= 36 -> 2 <= limit -> numeral r v s ->
  (off + Nat.min (length s) (Z.to_nat limit) + 1 <= length l)%nat -> (forall st', RV st' V X -> Q MP_MEMORY st') ->
  (forall st', Z.of_nat (length s) < limit -> RV st' V (setb X b (overwrite off (s ++ [0]) l)) -> Q MP_OK st') ->
  (forall st' s', limit <= Z.of_nat (length s) -> length s' = Z.to_nat limit -> RV st' V (setb X b (overwrite off (s' ++ [0]) l)) -> Q MP_TRUNC st') ->
  sw (mp_int_to_string z r (b, Z.of_nat off) limit) Q st.
Proof.
  intros HV Hz Hb Hr Hlim Hs Hl HF HQ1 HQ2. pose proof (wpV_to_string st V X z v r b off l limit s Q HV Hz Hb Hr Hlim Hs Hl HQ1 HQ2) as HW.
  unfold mp_int_to_string in *. assert (forall x, reader (assert x)) as Ra by done.
  rstep HW HW1 u G. rstep HW1 HW u1 G. rstep HW HW1 cz G. destruct (cz =? 0); [revert HW1; apply quiet_soft; qt|].
  cbn [soft wp] in *. intros z0 iz0 Fz0. specialize (HW1 z0 iz0 Fz0). destruct HV as (ζ & HZ & Hv). destruct (RZ_newO st ζ X false z0 _ HZ Fz0) as (Ht1 & Ht2 & HZ1). set (t := (false, iz0)) in *.
  eapply (sf_bind_at _ _ (blanked t z0 _)); [apply wf_init_copy| | |exact HW1|].
  - intros Q' H1 H2. eapply sf_init_copy; [|exact H1|exact H2]. eapply RZ_raw; [exact HZ1|simpl; apply lookup_insert].
  - intros x. assert (forall y : Z, same (DelO t (Ret y))) as SD by (intros y Q' st'; exact (fun H => H)).
    destruct (negb _); [apply SD|]. repeat (apply same_bind; [qt|intros ?]). apply SD.
  - intros x st' [-> ->]. change (negb (MP_MEMORY =? MP_OK)) with true. cbv iota. cbn [soft].
    eapply (RZ_blank _ _ _ t z0 (nulled z0)) in HZ1; [|simpl; apply lookup_insert].
    eapply wp_DelO; [eapply RZ_raw; [exact HZ1|simpl; apply lookup_insert]|done|]. apply wp_ret. apply HF.
    eapply RZ_delO in HZ1; [|simpl; apply lookup_insert]. unfold with_craw in HZ1. simpl in HZ1. assert (delete t (<[t:=nulled z0]> (<[t:=z0]> (craw X))) = craw X) as Ec by (rewrite insert_insert; by apply delete_insert). rewrite Ec in HZ1. exists ζ. split; [|done]. destruct X; exact HZ1.
Qed.
End text.
