(** The [NDEBUG] build when requests are refused, continued: calls that need no
    request because there is room already, and products of short operands. *)
From Coq Require Import ZArith List Lia.
From stdpp Require Import gmap list.
From Verif Require Import Mem Prog Kern Imath Exec Wp MemLem Rel RelWp RelZ Life Basic Basic2 Mult Shift Knuth Divi Powr Barrett Spec SpecHist SpecLow SpecRef Public Refuse Gcd SpecBin Buf Text Bin Soft Soft2 Soft3 Dig.
Local Open Scope Z_scope.
Local Open Scope prog_scope.
Local Ltac wb := apply wp_bind.

Section g.
Local Transparent wp bind Load Prog.Store getO setO getG assert.
Local Arguments bind {A B} !p f : simpl nomatch.
Local Arguments wp {A} !p Q st.
(** Programs that request nothing as long as the tunable variables are [g]. *)
Fixpoint quietg {A} (g : globals) (p : prog A) : Prop :=
  match p with
  | Ret a => True
  | Peek _ k => forall c, quietg g (k c)
  | Poke _ _ k | SetO _ _ k | Assert ALogic _ k => quietg g k
  | GetO o k => forall z, quietg g (k z)
  | GetG k => quietg g (k g)
  | Free _ k => quietg g k
  | Undef | NoFuel => True
  | _ => False
  end.
Lemma quietg_bind {A B} g (p : prog A) (q : A -> prog B) : quietg g p -> (forall a, quietg g (q a)) -> quietg g (bind p q).
Proof. intros Hp Hq. induction p; cbn [quietg bind] in *; try (destruct a); eauto. Qed.
Lemma quietg_soft {A} (p : prog A) Q st : quietg (glob st) p -> wp p Q st -> wp (soft p) Q st.
Proof.
  revert st. induction p; intros st0; cbn [quietg soft wp]; try done; try (destruct a; cbn [wp]; try done); repeat case_match; try done; try naive_solver.
Qed.
(** Programs that leave the tunable variables alone. *)
Fixpoint nosetg {A} (p : prog A) : Prop :=
  match p with
  | Ret _ | Undef | NoFuel => True
  | Peek _ k => forall c, nosetg (k c)
  | Poke _ _ k | SetO _ _ k | Free _ k | DelO _ k | FreeO _ k | DelE _ k | Assert _ _ k => nosetg k
  | GetO _ k => forall z, nosetg (k z)
  | NewO k | MallocO k => forall o, nosetg (k o)
  | Malloc _ k | Realloc _ _ k => forall p, nosetg (k p)
  | NewE _ k => forall p, nosetg (k p)
  | GetG k => forall g, nosetg (k g)
  | SetG _ _ => False
  end.
Lemma nosetg_bind {A B} (p : prog A) (q : A -> prog B) : nosetg p -> (forall a, nosetg (q a)) -> nosetg (bind p q).
Proof. intros Hp Hq. induction p; cbn [nosetg bind] in *; eauto. Qed.
Lemma wp_glob {A} (p : prog A) (Q : A -> state -> Prop) g st : nosetg p -> glob st = g -> wp p Q st -> wp p (fun a st' => Q a st' /\ glob st' = g) st.
Proof.
  revert st. induction p; intros st0 HN HG; cbn [nosetg wp] in *; try done; repeat case_match; try done; try naive_solver.
Qed.
Lemma sf_bind_g {A B} (p : prog A) (f : A -> prog B) (E : A -> state -> Prop) (Q : B -> state -> Prop) st :
  wf p -> nosetg p -> (forall Q' : A -> state -> Prop, wp p Q' st -> (forall a st', E a st' -> Q' a st') -> wp (soft p) Q' st) -> (forall a, quietg (glob st) (f a)) ->
  wp (bind p f) Q st -> (forall a st', E a st' -> wp (soft (f a)) Q st') -> wp (soft (bind p f)) Q st.
Proof.
  intros Hw HN Hp Hf HW HE. apply wp_bind_inv in HW; [|done]. apply soft_bind, wp_bind. apply Hp; [|done].
  eapply wp_mono; [eapply (wp_glob _ _ (glob st)); [done|done|exact HW]|]. intros a st' [Ha Hg]. apply quietg_soft; [rewrite Hg; apply Hf|done].
Qed.
(** A step that only reads, when what it reads is known. *)
Lemma wp_and {A} (p : prog A) (Q Q' : A -> state -> Prop) st : quiet p -> wp p Q st -> wp p Q' st -> wp p (fun a st' => Q a st' /\ Q' a st') st.
Proof.
  revert st. induction p; intros st0; cbn [quiet wp]; try done; try (destruct a; cbn [wp]; try done); repeat case_match; try done; naive_solver.
Qed.
Lemma reader_at {A B} (p : prog A) (f : A -> prog B) (E : A -> state -> Prop) Q st : reader p -> wp p E st -> wp (bind p f) Q st ->
  exists a, E a st /\ wp (f a) Q st /\ (wp (soft (f a)) Q st -> wp (soft (bind p f)) Q st).
Proof.
  induction p; cbn [reader bind wp soft]; try done; try (destruct a; cbn [wp]; try done); repeat case_match; try done; try naive_solver.
Qed.
Lemma quietg_getG {B} g (k : globals -> prog B) : quietg g (k g) -> quietg g (bind getG k).
Proof. done. Qed.
End g.
Lemma quiet_quietg {A} g (p : prog A) : quiet p -> quietg g p.
Proof. induction p; cbn [quiet quietg]; try done; try (destruct a; done); eauto. Qed.
Lemma quiet_nosetg {A} (p : prog A) : quiet p -> nosetg p.
Proof. induction p; cbn [quiet nosetg]; try done; try (destruct a; done); eauto. Qed.
Ltac rat HW E a HE HW' := match type of HW with wp (bind ?p ?f) ?Q ?st =>
  let Hr := fresh in assert (reader p) as Hr by first [done|rd]; let He := fresh in
  cut (wp p E st); [intros He; let G := fresh in destruct (reader_at p f E Q st Hr He HW) as (a & HE & HW' & G); apply G; clear HW G Hr He|clear Hr] end.

(** ** Products of short operands *)
Lemma q_umul_inner n : forall a b c w, quiet (umul_inner n a b c w).
Proof. induction n; cbn [umul_inner]; qt. Qed.
#[export] Hint Resolve q_umul_inner : quiet.
Lemma q_umul_loop n : forall a b c m, quiet (umul_loop n a b c m).
Proof. induction n; cbn [umul_loop]; qt. Qed.
Lemma q_umul a b c n m : quiet (s_umul a b c n m). Proof. apply q_umul_loop. Qed.
Lemma q_usqr_inner n : forall a b c w, quiet (usqr_inner n a b c w).
Proof. induction n; cbn [usqr_inner]; qt. Qed.
Lemma q_usqr_carry n : forall c w, quiet (usqr_carry n c w).
Proof. induction n; intros c w; unfold usqr_carry; fold usqr_carry; cbv zeta; qt. Qed.
#[export] Hint Resolve q_umul q_usqr_inner q_usqr_carry : quiet.
Lemma q_usqr_loop n : forall a c, quiet (usqr_loop n a c).
Proof. induction n; cbn [usqr_loop]; qt. Qed.
Lemma q_usqr a c n : quiet (s_usqr a c n). Proof. unfold s_usqr. apply q_usqr_loop. Qed.
Lemma q_install c o p : quiet (install c o p). Proof. unfold install, s_free. qt. Qed.
#[export] Hint Resolve q_usqr q_install : quiet.
Lemma ge_false n m : n < m -> (n >=? m) = false.
Proof. intros. destruct (Z.geb_spec n m); [lia|done]. Qed.
Lemma gt_false n m : n <= m -> (n >? m) = false.
Proof. intros. destruct (Z.gtb_spec n m); [lia|done]. Qed.
(** No Karatsuba step for these lengths. *)
Definition flat (g : globals) (n m : Z) : Prop := (n < multiply_threshold g /\ m < multiply_threshold g) \/ 2 * m <= n + 1 \/ 2 * n <= m + 1.
Lemma qg_kmul g a b c n m : 1 <= n <= MAXD -> 1 <= m <= MAXD -> flat g n m -> quietg g (s_kmul a b c n m).
Proof.
  intros Hn Hm Hf. rewrite MAXD_val in *. unfold s_kmul, kmul; fold kmul; cbv beta zeta. destruct (Z.gtb_spec m n) as [L|L]; refine (quietg_getG g _ _); cbv beta zeta.
  - destruct Hf as [[Hf Hg]|Hf]; [rewrite ge_false, andb_false_r by done; cbn [andb]; apply quiet_quietg; qt|].
    rewrite (gt_false n), andb_false_r by (rewrite u32_id by mx; apply Z.div_le_lower_bound; lia). apply quiet_quietg; qt.
  - destruct Hf as [[Hf Hg]|Hf]; [rewrite ge_false, andb_false_r by done; cbn [andb]; apply quiet_quietg; qt|].
    rewrite (gt_false m), andb_false_r by (rewrite u32_id by mx; apply Z.div_le_lower_bound; lia). apply quiet_quietg; qt.
Qed.
Lemma qg_ksqr g a c n : n <= multiply_threshold g -> quietg g (s_ksqr a c n).
Proof.
  intros Hn. unfold s_ksqr, ksqr; fold ksqr. refine (quietg_getG g _ _); cbv beta zeta; rewrite gt_false, andb_false_r by done; cbn [andb]; apply quiet_quietg; qt.
Qed.
Lemma wf_out_buffer b c n : wf (out_buffer b c n).
Proof.
  unfold out_buffer. destruct b.
  - apply wf_bind; [by apply quiet_wf; qt|]. intros g. cbv zeta. apply wf_bind; [by split|]. done.
  - apply wf_bind; [apply wf_pad|]. intros [|]; apply quiet_wf; cbn [negb]; qt.
Qed.
Lemma ng_pad z n : nosetg (s_pad z n).
Proof.
  unfold s_pad. apply nosetg_bind; [apply quiet_nosetg; qt|]. intros za. destruct (_ <? _); [|done]. cbv zeta. apply nosetg_bind; [apply quiet_nosetg; qt|]. intros d. apply nosetg_bind.
  - destruct (ptr_eqb _ _); [|done]. apply nosetg_bind; [done|]. intros [t|]; [|done]. apply quiet_nosetg; qt.
  - intros [t|]; apply quiet_nosetg; qt.
Qed.
Lemma ng_out_buffer b c n : nosetg (out_buffer b c n).
Proof.
  unfold out_buffer. destruct b.
  - apply nosetg_bind; [apply quiet_nosetg; qt|]. intros g. cbv zeta. by apply nosetg_bind.
  - apply nosetg_bind; [apply ng_pad|]. intros [|]; apply quiet_nosetg; cbn [negb]; qt.
Qed.
Section ob.
Local Transparent wp bind Load Prog.Store getO setO getG assert.
Local Arguments bind {A B} !p f : simpl nomatch.
Local Arguments wp {A} !p Q st.
Lemma sf_out_buffer b c n : softens (out_buffer b c n) (fun st a st' => a.1 = None /\ st' = st).
Proof.
  unfold out_buffer. destruct b.
  - srd. cbv zeta. intros st Q HW HQ. unfold s_alloc in *. cbn [bind soft wp] in *. destruct HW as [_ HW]. split; [right; by apply HQ|].
    intros Hn ib Hib. specialize (HW Hn ib Hib). cbv zeta in *. by destruct HW.
  - eapply sf_bind_quiet; [apply wf_pad|apply sf_pad|intros [|]; left; cbn [negb]; qt|].
    intros st Q ok st' [-> ->] HQ. cbn [negb soft]. by apply HQ.
Qed.
Lemma rd_cz o : reader (mp_int_compare_zero o). Proof. unfold mp_int_compare_zero. rd. Qed.
Lemma rd_used o : reader (get_used o). Proof. rd. Qed.
Lemma rd_sign o : reader (get_sign o). Proof. rd. Qed.
End ob.
Lemma sZ_mul st ζ X a b c za zb zc (Q : Z -> state -> Prop) :
  RZ st ζ X -> ζ !! a = Some za -> ζ !! b = Some zb -> ζ !! c = Some zc -> zo zc = None ->
  flat (cglob X) (Z.of_nat (ndig (zm za))) (Z.of_nat (ndig (zm zb))) ->
  Q MP_MEMORY st -> (forall st', RZ st' (<[c := zset znil (zval za * zval zb)]> ζ) X -> Q MP_OK st') ->
  sw (mp_int_mul a b c) Q st.
Proof.
  intros HZ Ha Hb Hc Ho La HF HQ. pose proof (wpZ_mul _ _ _ _ _ _ _ _ _ Q HZ Ha Hb Hc Ho HQ) as HW.
  assert (glob st = cglob X) as HG by (destruct HZ as (σ & HR & _); apply (R_glob _ _ _ HR)).
  unfold mp_int_mul in *. assert (forall (b : bool) o, reader (if b then Ret 1 else mp_int_compare_zero o)) as Rc by (intros []; [done|apply rd_cz]). pose proof rd_cz. pose proof rd_sign.
  rstep HW HW1 ca G. rstep HW1 HW cb G. destruct (_ || _)%bool; [revert HW; apply quiet_soft; qt|].
  rstep HW HW1 sa G. rstep HW1 HW sb G. cbv zeta in *.
  destruct (reader_at (get_used a) _ (fun u _ => u = Z.of_nat (ndig (zm za))) Q st (rd_used _) ltac:(by eapply wpZ_used) HW) as (ua & -> & HW1 & G). apply G. clear HW G.
  destruct (reader_at (get_used b) _ (fun u _ => u = Z.of_nat (ndig (zm zb))) Q st (rd_used _) ltac:(by eapply wpZ_used) HW1) as (ub & -> & HW & G). apply G. clear HW1 G.
  eapply (sf_bind_g _ _ (fun a st' => a.1 = None /\ st' = st)); [apply wf_out_buffer|apply ng_out_buffer| | |exact HW|].
  - intros Q' H1 H2. by eapply sf_out_buffer.
  - intros [[out|] p]; cbn [fst snd]; [|done]. rewrite HG. apply quietg_bind; [apply quiet_quietg; qt|]. intros _.
    apply quietg_bind; [apply quiet_quietg; qt|]. intros da. apply quietg_bind; [apply quiet_quietg; qt|]. intros db.
    apply quietg_bind; [pose proof (ndig_pos (zm za)); pose proof (ndig_pos (zm zb)); destruct (RZ_ndig _ _ _ _ _ HZ Ha); destruct (RZ_ndig _ _ _ _ _ HZ Hb); apply qg_kmul; [lia|lia|done]|]. intros ok. apply quiet_quietg; qt.
  - intros [out p] st' [E ->]. cbn [fst] in *. subst out. by apply s_ret.
Qed.
Lemma sZ_sqr st ζ X a c za zc (Q : Z -> state -> Prop) :
  RZ st ζ X -> ζ !! a = Some za -> ζ !! c = Some zc -> zo zc = None ->
  Z.of_nat (ndig (zm za)) <= multiply_threshold (cglob X) ->
  Q MP_MEMORY st -> (forall st', RZ st' (<[c := zset znil (zm za * zm za)]> ζ) X -> Q MP_OK st') ->
  sw (mp_int_sqr a c) Q st.
Proof.
  intros HZ Ha Hc Ho La HF HQ. pose proof (wpZ_sqr _ _ _ _ _ _ _ Q HZ Ha Hc Ho HQ) as HW.
  assert (glob st = cglob X) as HG by (destruct HZ as (σ & HR & _); apply (R_glob _ _ _ HR)).
  unfold mp_int_sqr in *. cbv zeta in *.
  destruct (reader_at (get_used a) _ (fun u _ => u = Z.of_nat (ndig (zm za))) Q st (rd_used _) ltac:(by eapply wpZ_used) HW) as (ua & -> & HW1 & G). apply G. clear HW G.
  eapply (sf_bind_g _ _ (fun a st' => a.1 = None /\ st' = st)); [apply wf_out_buffer|apply ng_out_buffer| | |exact HW1|].
  - intros Q' H1 H2. by eapply sf_out_buffer.
  - intros [[out|] p]; cbn [fst snd]; [|done]. rewrite HG. apply quietg_bind; [apply quiet_quietg; qt|]. intros _.
    apply quietg_bind; [apply quiet_quietg; qt|]. intros da.
    apply quietg_bind; [by apply qg_ksqr|]. intros ok. apply quiet_quietg; qt.
  - intros [out p] st' [E ->]. cbn [fst] in *. subst out. by apply s_ret.
Qed.
Lemma short_ndig st V X a va : RV st V X -> V !! a = Some va -> short (cglob X) va -> Z.of_nat (ndig (Z.abs va)) < multiply_threshold (cglob X).
Proof.
  intros HV Ha Hs. red in Hs. destruct HV as (ζ & (σ & HR & _) & _). pose proof (R_ok _ _ _ HR) as [_ Hm].
  set (n := Z.to_nat (multiply_threshold (cglob X) - 1)). assert (ndig (Z.abs va) <= n)%nat; [|lia].
  apply ndig_le; [|lia]. rewrite Bn_pow2. unfold n. rewrite Z2Nat.id by lia. lia.
Qed.
Lemma lop_ndig x y : lopsided x y -> 2 * Z.of_nat (ndig (Z.abs y)) <= Z.of_nat (ndig (Z.abs x)) + 1.
Proof.
  intros (k & Hk & Hy & Hx). assert (ndig (Z.abs y) <= Z.to_nat k)%nat. { apply ndig_le; [|lia]. rewrite Bn_pow2, Z2Nat.id by lia. lia. }
  assert (S (Z.to_nat (2 * k - 2)) <= ndig (Z.abs x))%nat. { apply ndig_ge. rewrite Bn_pow2, Z2Nat.id by lia. lia. } lia.
Qed.
Lemma unsplit_flat st V X a b va vb : RV st V X -> V !! a = Some va -> V !! b = Some vb -> unsplit (cglob X) va vb -> flat (cglob X) (Z.of_nat (ndig (Z.abs va))) (Z.of_nat (ndig (Z.abs vb))).
Proof.
  intros HV Ha Hb [[H1 H2]|[H1|H1]]; [left; split; by eapply short_ndig|right; left; by apply lop_ndig|right; right; by apply lop_ndig].
Qed.
Section V.
Context (st : state) (V : gmap oid Z) (X : ctx).
Implicit Types Q : Z -> state -> Prop.
Lemma sV_mul a b c va vb vc Q : RV st V X -> V !! a = Some va -> V !! b = Some vb -> V !! c = Some vc -> unsplit (cglob X) va vb ->
  Q MP_MEMORY st -> (forall st', RV st' (<[c := va * vb]> V) X -> Q MP_OK st') -> sw (mp_int_mul a b c) Q st.
Proof.
  intros HV Ha Hb Hc Sa HF HQ. apply (unsplit_flat _ _ _ _ _ _ _ HV Ha Hb) in Sa.
  destruct HV as (ζ & HZ & Hv). destruct (relv_some _ _ _ _ Hv Ha) as (za & Ha' & <- & Na & _). destruct (relv_some _ _ _ _ Hv Hb) as (zb & Hb' & <- & Nb & _). destruct (relv_some _ _ _ _ Hv Hc) as (zc & Hc' & <- & N & O).
  rewrite <- (zm_abs za Na (proj1 (RZ_s01 _ _ _ _ _ HZ Ha'))) in Sa. rewrite <- (zm_abs zb Nb (proj1 (RZ_s01 _ _ _ _ _ HZ Hb'))) in Sa.
  eapply (sZ_mul _ _ _ a b c); [done..|]. intros st' HZ'. apply HQ. by eapply RV_set.
Qed.
Lemma sV_sqr a c va vc Q : RV st V X -> V !! a = Some va -> V !! c = Some vc -> short (cglob X) va ->
  Q MP_MEMORY st -> (forall st', RV st' (<[c := va * va]> V) X -> Q MP_OK st') -> sw (mp_int_sqr a c) Q st.
Proof.
  intros HV Ha Hc Sa HF HQ. apply (short_ndig _ _ _ _ _ HV Ha) in Sa.
  destruct HV as (ζ & HZ & Hv). destruct (relv_some _ _ _ _ Hv Ha) as (za & Ha' & <- & Na & _). destruct (relv_some _ _ _ _ Hv Hc) as (zc & Hc' & <- & N & O).
  rewrite <- (zm_abs za Na (proj1 (RZ_s01 _ _ _ _ _ HZ Ha'))) in Sa.
  eapply (sZ_sqr _ _ _ a c); [done|done|done|done|lia|done|]. intros st' HZ'. apply HQ. rewrite zval_sq in HZ'. by eapply RV_set.
Qed.
Lemma sV_mul_value a v c va vc Q : RV st V X -> V !! a = Some va -> V !! c = Some vc -> - 2 ^ 63 < v < 2 ^ 63 ->
  (forall st', RV st' V X -> Q MP_MEMORY st') -> (forall st', RV st' (<[c := va * v]> V) X -> Q MP_OK st') -> sw (mp_int_mul_value a v c) Q st.
Proof.
  intros HV Ha Hc Hr HF HQ.
  destruct HV as (ζ & HZ & Hv). destruct (relv_some _ _ _ _ Hv Ha) as (za & Ha' & <- & Na & _). destruct (relv_some _ _ _ _ Hv Hc) as (zc & Hc' & <- & N & O).
  assert (8 <= multiply_threshold (cglob X)) as Hm. { destruct HZ as (σ & HR & _). apply (R_ok _ _ _ HR). }
  unfold mp_int_mul_value. eapply sZ_with_fake; [done..|]. intros t n st1 Ht HZ1. assert (a <> t) by congruence. assert (c <> t) by congruence.
  eapply (sZ_mul _ _ _ a t c); [exact HZ1|by rewrite lookup_insert_ne|apply lookup_insert|by rewrite lookup_insert_ne|done| | |].
  - cbn [zm fakev]. assert (ndig (Z.abs v) <= 2)%nat; [|unfold flat; lia]. apply ndig_le; [|lia]. change (Bn 2) with (RADIX * (RADIX * 1)). mx.
  - exists ζ, X. split; [done|]. split; [done|]. intros st3 HZ3. apply HF. by exists ζ.
  - intros st' HZ'. eexists (<[c := _]> ζ), _. split; [by rewrite lookup_insert_ne|]. split; [rewrite (insert_commute _ t c) by done; exact HZ'|].
    intros st3 HZ3. apply HQ. rewrite fakev_val in HZ3. by eapply RV_set.
Qed.
End V.

(** ** Bytes *)
Section qm.
Local Transparent wp bind Load Prog.Store getO setO getG assert.
Local Arguments bind {A B} !p f : simpl nomatch.
Local Arguments wp {A} !p Q st.
(** There is room: no request. *)
Lemma sf_pad_room o m n (Q : bool -> state -> Prop) st : objs st !! o = Some m -> n <= alloc m -> wp (s_pad o n) Q st -> sw (s_pad o n) Q st.
Proof.
  intros Ho Hn HW. unfold s_pad in *. rat HW (fun a (_ : state) => a = alloc m) a Ea HW1.
  2: { unfold get_alloc, getO. cbn. by rewrite Ho. }
  subst a. revert HW1. destruct (Z.ltb_spec (alloc m) n); [lia|]. exact (fun H => H).
Qed.
Lemma rd_extra rest o uz : reader (if rest =? 0 then Ret 0 else d <- get_digits o; v <- Load (d +p (uz - 1)); Ret (if Z.shiftr v (32 - rest) =? 0 then 0 else 1)).
Proof. rd. Qed.
End qm.
Lemma sR_qmul8 st σ X o f z l (Q : bool -> state -> Prop) :
  R st σ X -> σ !! o = Some f -> goodw f z l -> zo z = None -> val l * 256 < Bn (length (fc f)) -> wp (s_qmul o 8) Q st -> sw (s_qmul o 8) Q st.
Proof.
  intros HR Ho G Hown Hlt HW. destruct (goodw_len _ _ _ _ _ _ _ HR Ho G) as [Hl1 Hl2]. pose proof (goodw_dig _ _ _ G) as Dl.
  unfold s_qmul in *. change (8 =? 0) with false in *. cbv iota zeta in *. change (8 / 32) with 0 in *. change (8 mod 32) with 8 in *. change (8 =? 0) with false in *. cbv iota in *.
  pose proof rd_used. rat HW (fun u (_ : state) => u = Z.of_nat (length l)) uz Eu HW1.
  2: { eapply wpR_used; [done..|]. by rewrite (goodw_u _ _ _ G). }
  subst uz.
  destruct (exists_last (l := l)) as (l0 & t & El). { intros ->. simpl in Hl1. lia. }
  assert (digs l0 /\ dig t) as [Dl0 Dt]. { rewrite El in Dl. apply digs_app in Dl as [? Dl]. apply digs_1 in Dl. done. }
  destruct (v_c _ _ (g_view _ _ _ G)) as [r Hr].
  pose proof (rd_extra 8 o (Z.of_nat (length l))) as Rx. change (8 =? 0) with false in Rx. cbv iota in Rx.
  rat HW1 (fun e (_ : state) => 0 <= e <= 1 /\ Z.of_nat (length l) + e <= Z.of_nat (length (fc f))) e He HW.
  2: { wb. eapply wpR_digits; [done..|]. wb. replace (Z.of_nat (length l) - 1) with (Z.of_nat (length l0)) by (rewrite El, app_length; simpl; lia).
    eapply wp_load.
    { eapply (R_load _ _ _ o f _ (Some t)); [done..|]. rewrite Hr, El, fmap_app, <- app_assoc.
      rewrite lookup_app_r by (rewrite fmap_length; lia). rewrite fmap_length, Nat.sub_diag. done. }
    apply wp_ret. rewrite Z.shiftr_div_pow2 by lia. change (2 ^ (32 - 8)) with (2 ^ 24). destruct (Z.eqb_spec (t / 2 ^ 24) 0) as [E|E]; [lia|]. split; [lia|].
    destruct (Z.le_gt_cases (Z.of_nat (length l) + 1) (Z.of_nat (length (fc f)))) as [L|L]; [done|]. exfalso. assert (length (fc f) = length l) as EL by lia.
    rewrite EL, El, app_length, val_app, Nat.add_1_r in Hlt. cbn [length val] in Hlt. rewrite Bn_S in Hlt. pose proof (val_bounds l0 Dl0) as [V0 _]. pose proof (Bn_pos (length l0)).
    assert (2 ^ 24 <= t). { pose proof (Z.div_mod t (2 ^ 24) ltac:(lia)). pose proof (Z.mod_pos_bound t (2 ^ 24) ltac:(lia)). red in Dt. assert (0 <= t / 2 ^ 24) by (apply Z.div_pos; lia). nia. }
    change RADIX with (2 ^ 24 * 256) in Hlt. nia. }
  destruct He as [He1 He2]. rewrite Z.add_0_r in HW |- *. rewrite u32_id in HW |- * by mx.
  apply wp_bind_inv in HW; [|apply wf_pad]. apply soft_bind, wp_bind. eapply sf_pad_room; [by eapply R_get|done|].
  eapply wp_mono; [exact HW|]. intros ok st'. apply quiet_soft. cbn [negb]. qt.
Qed.
Lemma sR_byte {A} st σ X o f z l b off lb c (pd : prog ptr) (k : prog A) (Q : A -> state -> Prop) :
  quiet pd ->
  (forall st' F (Q' : ptr -> state -> Prop), R st' (<[o := F]> σ) X -> fl F = fl f -> Q' (fl f, 0) st' -> wp pd Q' st') ->
  R st σ X -> σ !! o = Some f -> goodw f z l -> zo z = None -> cmem X !! b = Some lb -> lb !! off = Some (Some c) -> is_byte c ->
  zm z * 256 + c < Bn (length (fc f)) ->
  (forall st' F, R st' (<[o := F]> σ) X -> good F (zput z (zs z) (zm z * 256 + c)) -> fl F = fl f -> (length (fc f) <= length (fc F))%nat -> sw k Q st') ->
  sw (s_qmul o 8;; dz <- pd; v <- Load dz; x <- Load (b, Z.of_nat off); Prog.Store dz (Z.lor v x);; k)%prog Q st.
Proof.
  intros Hqp Hpd HR Ho G Hown Hb Hc Bc Hlt HQ.
  apply soft_bind, wp_bind. eapply sR_qmul8; [done|done|done|done| |]. { rewrite (g_val _ _ _ G). red in Bc. lia. }
  (* from here on there is no request *)
  pose proof (wpR_byte st σ X o f z l b off lb c pd (Ret tt) (fun _ st' => sw k Q st') Hpd HR Ho G Hown Hb Hc Bc Hlt) as HW.
  assert (wp (s_qmul o 8;; dz <- pd; v <- Load dz; x <- Load (b, Z.of_nat off); Prog.Store dz (Z.lor v x);; Ret tt)%prog (fun _ st' => sw k Q st') st) as HW1.
  { apply HW. intros st' F H1 H2 H3 H4. apply wp_ret. by eapply HQ. }
  apply wp_bind_inv in HW1; [|apply wf_qmul]. eapply wp_mono; [exact HW1|]. intros ok st' H'.
  apply wp_bind_inv in H'; [|by apply quiet_wf]. sqt. eapply wp_mono; [exact H'|]. clear H'. intros dz st2 H'.
  apply wp_bind_inv in H'; [|apply quiet_wf; qt]. sqt. eapply wp_mono; [exact H'|]. clear H'. intros v st3 H'.
  apply wp_bind_inv in H'; [|apply quiet_wf; qt]. sqt. eapply wp_mono; [exact H'|]. clear H'. intros x st4 H'.
  apply wp_bind_inv in H'; [|apply quiet_wf; qt]. sqt. eapply wp_mono; [exact H'|]. clear H'. intros [] st5 H'. exact H'.
Qed.
Lemma sR_read_bytes bs : forall st σ X o f z b off lb (Q : unit -> state -> Prop),
  R st σ X -> σ !! o = Some f -> good f z -> zo z = None -> cmem X !! b = Some lb -> has_bytes lb off bs ->
  zm z * 256 ^ Z.of_nat (length bs) + horner 256 bs < Bn (length (fc f)) ->
  (forall st' F, R st' (<[o := F]> σ) X -> good F (zput z (zs z) (zm z * 256 ^ Z.of_nat (length bs) + horner 256 bs)) -> Q tt st') ->
  sw (read_bytes (length bs) o (fl f, 0) (b, Z.of_nat off)) Q st /\ sw (read_ubytes (length bs) o (b, Z.of_nat off)) Q st.
Proof.
  induction bs as [|c bs IH]; intros st σ X o f z b off lb Q HR Ho G Hown Hb [HB Hl] Hlt HQ.
  { cbn [read_bytes read_ubytes length horner] in *. change (256 ^ Z.of_nat 0) with 1 in HQ. change (horner 256 []) with 0 in HQ. rewrite Z.mul_1_r, Z.add_0_r in HQ.
    assert (Q tt st); [|split; by apply s_ret]. apply (HQ st f); [by rewrite insert_id|]. by rewrite zput_id. }
  cbn [length] in *. rewrite Nat2Z.inj_succ, Z.pow_succ_r in * by lia. rewrite horner_cons in * by lia. set (P := 256 ^ _) in *. assert (0 < P) by (apply Z.pow_pos_nonneg; lia).
  pose proof HB as HB'. apply Forall_cons in HB' as [Bc HB']. pose proof (horner_bounds _ HB') as Hh. pose proof (good_m0 _ _ G) as Z0. red in Bc.
  destruct G as [l G]. pose proof (Hl 0%nat c eq_refl) as Hc. rewrite Nat.add_0_r in Hc. fold P in Hh.
  assert (zm z * 256 + c < Bn (length (fc f))) as HL1 by nia.
  assert (forall st' F, R st' (<[o := F]> σ) X -> good F (zput z (zs z) (zm z * 256 + c)) -> fl F = fl f -> (length (fc f) <= length (fc F))%nat ->
    sw (read_bytes (length bs) o (fl f, 0) (padd (b, Z.of_nat off) 1)) Q st' /\ sw (read_ubytes (length bs) o (padd (b, Z.of_nat off) 1)) Q st') as Step.
  { intros st' F HR' G' EF LF. rewrite <- EF. replace (padd (b, Z.of_nat off) 1) with (b, Z.of_nat (S off)) by (unfold padd; cbn [fst snd]; f_equal; lia).
    eapply IH; [exact HR'|apply lookup_insert|exact G'|done|exact Hb| | |].
    - split; [done|]. intros i e Hi. replace (S off + i)%nat with (off + S i)%nat by lia. by apply Hl.
    - cbn [zm zput]. fold P. pose proof (Bn_le _ _ LF). lia.
    - cbn [zm zs zput]. fold P. intros st2 F2 HR2 G2. rewrite insert_insert in HR2. eapply HQ; [exact HR2|].
      replace (zput (zput z (zs z) (zm z * 256 + c)) (zs z) ((zm z * 256 + c) * P + horner 256 bs)) with (zput z (zs z) (zm z * (256 * P) + (c * P + horner 256 bs))) in G2; [done|]. unfold zput. cbn. f_equal. lia. }
  split; cbn [read_bytes read_ubytes].
  - apply (sR_byte st σ X o f z l b off lb c (Ret (fl f, 0)) (read_bytes (length bs) o (fl f, 0) (padd (b, Z.of_nat off) 1))); [done| |done|done|exact G|done|done|exact Hc|exact Bc|exact HL1|].
    + intros st' F Q' _ _ H'. by apply wp_ret.
    + intros st' F HR' G' EF LF. by apply (Step st' F).
  - eapply (sR_byte st σ X o f z l b off lb c (get_digits o) (read_ubytes (length bs) o (padd (b, Z.of_nat off) 1))); [qt| |done|done|exact G|done|done|exact Hc|exact Bc|exact HL1|].
    + intros st' F Q' HR' EF H'. eapply wpR_digits; [exact HR'|apply lookup_insert|]. by rewrite EF.
    + intros st' F HR' G' EF LF. by apply (Step st' F).
Qed.
Lemma sV_read_unsigned (st : state) (V : gmap oid Z) (X : ctx) o b l off bs (Q : Z -> state -> Prop) :
  RV st V X -> is_Some (V !! o) -> cmem X !! b = Some l -> has_bytes l off bs -> bs <> [] -> Z.of_nat (length bs) * 8 < 2 ^ 31 ->
  Q MP_MEMORY st -> (forall st', RV st' (<[o := horner 256 bs]> V) X -> Q MP_OK st') ->
  sw (mp_int_read_unsigned o (b, Z.of_nat off) (Z.of_nat (length bs))) Q st.
Proof.
  intros (ζ & (σ & HR & Hz) & Hv) [v Ho] Hb HB N Hn HF HQ. destruct (relv_some _ _ _ _ Hv Ho) as (z & Hzz & <- & Nz & Oz). destruct (relz_get _ _ _ _ Hz Hzz) as (f & ds & Hf & G).
  assert (0 < length bs)%nat by (destruct bs; [done|simpl; lia]).
  unfold mp_int_read_unsigned. sqt. apply wp_assert; [lia|]. unfold bytes_need.
  destruct (Z.gtb_spec (Z.of_nat (length bs) * 8) (2 ^ 31 - 1)); [lia|]. sqt. apply wp_ret.
  destruct (need_room (Z.of_nat (length bs)) ltac:(lia) ltac:(lia)) as [NR1 NR2]. set (need := u32 _) in *.
  apply soft_bind, wp_bind. apply sf_pad; [|intros ok st' [-> ->]; cbn [negb]; by apply s_ret].
  eapply wpR_padg; [done|done|done|done|done|]. intros st1 F HR1 GF K LF _. cbn [negb].
  sqt. eapply wpR_zero; [exact HR1|apply lookup_insert|]. intros st2 HR2. rewrite insert_insert in HR2.
  assert (good F z) as GF' by (by eexists). pose proof (good_digit _ _ _ _ _ _ 0 0 HR1 (lookup_insert _ _ _) GF' dig_0 ltac:(lia)) as G0.
  pose proof (horner_bounds bs (proj1 HB)) as Hh. pose proof (R_len _ _ _ HR1 o F (lookup_insert _ _ _)) as LF'.
  rewrite Nat2Z.id. apply soft_bind, wp_bind. eapply (sR_read_bytes bs); [exact HR2|apply lookup_insert|exact G0|exact Oz|exact Hb|exact HB| |].
  { cbn [zm zput fc]. rewrite Z.mul_0_l, Z.add_0_l. eapply Z.lt_le_trans; [apply Hh|]. etransitivity; [apply NR2|]. apply Bn_le. rewrite app_length, drop_length, fmap_length. cbn [length]. lia. }
  cbn [zm zs zput]. intros st3 F3 HR3 G3. rewrite insert_insert in HR3. apply s_ret, HQ.
  rewrite Z.mul_0_l, Z.add_0_l in G3. exists (<[o := zput z 0 (horner 256 bs)]> ζ). split; [eapply RZ_upd; done|]. by apply relv_ins.
Qed.
Lemma q_comp2_loop n : forall p s, quiet (comp2_loop n p s). Proof. induction n; intros; unfold comp2_loop; fold comp2_loop; qt. Qed.
Lemma q_2comp p n : quiet (s_2comp p n). Proof. apply q_comp2_loop. Qed.
#[export] Hint Resolve q_2comp : quiet.
Lemma sV_read_binary (st : state) (V : gmap oid Z) (X : ctx) o b l off bs (Q : Z -> state -> Prop) :
  RV st V X -> is_Some (V !! o) -> cmem X !! b = Some l -> has_bytes l off bs -> bs <> [] -> Z.of_nat (length bs) * 8 < 2 ^ 31 ->
  Q MP_MEMORY st -> (forall st', RV st' (<[o := signed_value bs]> V) X -> Q MP_OK st') ->
  sw (mp_int_read_binary o (b, Z.of_nat off) (Z.of_nat (length bs))) Q st.
Proof.
  intros (ζ & (σ & HR & Hz) & Hv) [v Ho] Hb HB N Hn HF HQ. destruct (relv_some _ _ _ _ Hv Ho) as (z & Hzz & <- & Nz & Oz). destruct (relz_get _ _ _ _ Hz Hzz) as (f & ds & Hf & G).
  assert (0 < length bs)%nat as N0 by (destruct bs; [done|simpl; lia]). pose proof (has_bytes_len _ _ _ HB N) as Hlen.
  unfold mp_int_read_binary. sqt. apply wp_assert; [lia|]. unfold bytes_need.
  destruct (Z.gtb_spec (Z.of_nat (length bs) * 8) (2 ^ 31 - 1)); [lia|]. sqt. apply wp_ret.
  destruct (need_room (Z.of_nat (length bs)) ltac:(lia) ltac:(lia)) as [NR1 NR2]. set (need := u32 _) in *.
  apply soft_bind, wp_bind. apply sf_pad; [|intros ok st' [-> ->]; cbn [negb]; by apply s_ret].
  eapply wpR_padg; [done|done|done|done|done|]. intros st1 F HR1 GF K LF _. cbn [negb].
  sqt. eapply wpR_zero; [exact HR1|apply lookup_insert|]. intros st2 HR2. rewrite insert_insert in HR2.
  assert (good F z) as GF' by (by eexists).
  pose proof (good_digit _ _ _ _ _ _ 0 0 HR1 (lookup_insert _ _ _) GF' dig_0 ltac:(lia)) as G0.
  pose proof (good_digit _ _ _ _ _ _ 0 1 HR1 (lookup_insert _ _ _) GF' dig_0 ltac:(lia)) as G1.
  pose proof (horner_bounds bs (proj1 HB)) as Hh. pose proof (R_len _ _ _ HR1 o F (lookup_insert _ _ _)) as LF'.
  set (cells := (Some <$> [0]) ++ drop 1 (fc F)) in *.
  assert (256 ^ Z.of_nat (length bs) <= Bn (length cells)) as Room.
  { etransitivity; [apply NR2|]. apply Bn_le. unfold cells. rewrite app_length, drop_length, fmap_length. cbn [length]. lia. }
  assert (exists c bt, bs = c :: bt /\ is_byte c) as (c & bt & Ebs & Bc). { destruct bs as [|c bt]; [done|]. exists c, bt. split; [done|]. destruct HB as [HB _]. by apply Forall_inv in HB. }
  sqt. eapply wpR_loadb; [exact HR2|exact Hb|lia| |]. { rewrite Nat2Z.id, <- (Nat.add_0_r off). apply HB. by rewrite Ebs. }
  assert (signed_value bs = horner 256 bs - if 128 <=? c then 256 ^ Z.of_nat (length bs) else 0) as ES by (by rewrite Ebs).
  rewrite shr7 by done. destruct (Z.ltb_spec c 128) as [C7|C7].
  - sqt. apply wp_ret. sqt. eapply wpR_digits; [exact HR2|apply lookup_insert|]. cbn [fl].
    rewrite Nat2Z.id. apply soft_bind, wp_bind. eapply (proj1 (A := sw _ _ _)), (sR_read_bytes _ _ _ _ o (Fo 0 1 cells (fl F))); [exact HR2|apply lookup_insert|exact G0|exact Oz|exact Hb|exact HB| |].
    { cbn [zm zput fc]. lia. }
    cbn [zm zs zput]. intros st3 F3 HR3 G3. rewrite insert_insert in HR3. rewrite Z.mul_0_l, Z.add_0_l in G3.
    sqt. eapply wpR_sign; [exact HR3|apply lookup_insert|]. destruct G3 as [d3 G3]. rewrite (g_sign _ _ _ G3). cbn [zs zput]. change (0 =? MP_NEG) with false. cbv iota.
    sqt. apply wp_ret. apply s_ret, HQ. rewrite ES. destruct (Z.leb_spec 128 c); [lia|]. rewrite Z.sub_0_r.
    exists (<[o := zput z 0 (horner 256 bs)]> ζ). split; [eapply RZ_upd; [exact HR3|done|by eexists]|]. by apply relv_ins.
  - sqt. wb. eapply wpR_set_sign; [exact HR2|apply lookup_insert|]. intros st3 HR3. rewrite insert_insert in HR3. cbn [fu fc fl] in HR3.
    rewrite <- (has_bytes_overwrite l off bs HB Hlen) in Hb.
    eapply wpR_2comp; [exact HR3|exact Hb|done|apply HB|]. intros st4 HR4. set (n := length bs) in *. set (bs' := be_bytes n (- horner 256 bs)) in *.
    assert (length bs' = n) as Ln by apply be_bytes_length. assert (Forall is_byte bs') as HB' by apply be_bytes_byte.
    assert (128 * 256 ^ Z.of_nat (length bt) <= horner 256 bs) as Hbig.
    { rewrite Ebs, horner_cons by lia. destruct HB as [HB _]. rewrite Ebs in HB. apply Forall_cons in HB as [_ HB]. pose proof (horner_bounds _ HB). pose proof (Z.pow_pos_nonneg 256 (Z.of_nat (length bt))). nia. }
    pose proof (Z.pow_pos_nonneg 256 (Z.of_nat (length bt)) ltac:(lia) ltac:(lia)) as P0.
    assert (horner 256 bs' = 256 ^ Z.of_nat n - horner 256 bs) as Hh'.
    { unfold bs'. rewrite horner_be. symmetry. apply (Z.mod_unique _ _ (-1)); lia. }
    sqt. eapply wpR_digits; [exact HR4|apply lookup_insert|]. cbn [fl]. rewrite Nat2Z.id, <- Ln.
    pose proof (has_overwrite l off bs' HB' ltac:(lia)) as HAS.
    apply soft_bind, wp_bind. eapply (proj1 (A := sw _ _ _)), (sR_read_bytes _ _ _ _ o (Fo 1 1 cells (fl F))); [exact HR4|apply lookup_insert|exact G1|exact Oz|apply setb_lookup|exact HAS| |].
    { cbn [zm zput fc]. lia. }
    cbn [zm zs zput]. intros st5 F5 HR5 G5. rewrite insert_insert in HR5. rewrite Z.mul_0_l, Z.add_0_l in G5.
    sqt. eapply wpR_sign; [exact HR5|apply lookup_insert|]. destruct G5 as [d5 G5]. rewrite (g_sign _ _ _ G5). cbn [zs zput]. change (1 =? MP_NEG) with true. cbv iota.
    sqt. eapply wpR_2comp; [exact HR5|apply setb_lookup|lia|done|]. intros st6 HR6. rewrite setb_setb in HR6.
    replace (be_bytes (length bs') (- horner 256 bs')) with bs in HR6.
    2: { apply be_unique; [apply HB|by rewrite Ln|]. rewrite Ln, Hh'. apply (Z.mod_unique _ _ (-1)); lia. }
    rewrite setb_id in HR6 by done. apply s_ret, HQ. rewrite ES. destruct (Z.leb_spec 128 c); [|lia].
    rewrite Hh' in G5. exists (<[o := zput z 1 (256 ^ Z.of_nat n - horner 256 bs)]> ζ). split; [eapply RZ_upd; [exact HR6|done|by eexists]|].
    apply relv_ins; [done| |unfold norm; cbn [zs zm zput]; lia|done]. unfold zval. cbn [zs zm zput]. change (1 =? 0) with false. cbv iota. lia.
Qed.
