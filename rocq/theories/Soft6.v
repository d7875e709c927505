(** The [NDEBUG] build when requests are refused, continued: temporaries that
    lose their number, and the extended greatest common divisor. *)
From Coq Require Import ZArith List Lia.
From stdpp Require Import gmap list.
From Verif Require Import Mem Prog Kern Imath Exec Wp MemLem Rel RelWp RelZ Life Basic Basic2 Mult Shift Knuth Divi Powr Spec SpecHist SpecRef Public Refuse Gcd SpecBin Buf Text Read Bin Soft Soft2 Soft3 Soft4 Soft5 Dig.
Local Open Scope Z_scope.
Local Open Scope prog_scope.
Local Ltac wb := apply wp_bind.

(** ** Temporaries of which one may have lost its number *)
(** [V1] is [V] with numbers for the temporaries [ts]. *)
Definition temps (ts : list oid) (V1 V : gmap oid Z) : Prop :=
  (forall o, o ∉ ts -> V1 !! o = V !! o) /\ (forall t, t ∈ ts -> is_Some (V1 !! t)).
(** Every temporary holds a number, but perhaps one, which only holds its storage. *)
Definition gone (ts : list oid) (st : state) (V : gmap oid Z) (X : ctx) : Prop :=
  (exists V1, temps ts V1 V /\ RV st V1 X) \/
  (exists V1 t b X', temps ts V1 V /\ t ∈ ts /\ loses X t b X' /\ RV st (delete t V1) X').
Lemma temps_ins ts V1 V o v : temps ts V1 V -> o ∈ ts -> temps ts (<[o := v]> V1) V.
Proof.
  intros [H1 H2] Ho. split.
  - intros o' Ho'. rewrite lookup_insert_ne by (intros ->; done). by apply H1.
  - intros t Ht. rewrite lookup_insert_is_Some. destruct (decide (o = t)); [by left|right; eauto].
Qed.
Lemma temps_new ts V1 V o v : temps ts V1 V -> V !! o = None -> temps (o :: ts) (<[o := v]> V1) V.
Proof.
  intros [H1 H2] Ho. split.
  - intros o' Ho'. apply not_elem_of_cons in Ho' as [N Ho']. rewrite lookup_insert_ne by done. by apply H1.
  - intros t Ht. rewrite lookup_insert_is_Some. destruct (decide (o = t)); [by left|right; split; [done|]]. apply elem_of_cons in Ht as [->|Ht]; [done|eauto].
Qed.
Lemma temps_nil V1 V : temps [] V1 V -> V1 = V.
Proof. intros [H _]. apply map_eq. intros o. apply H. apply not_elem_of_nil. Qed.
Lemma temps_refl V : temps [] V V. Proof. split; [done|]. intros t Ht. by apply elem_of_nil in Ht. Qed.
Lemma temps_eq ts V1 V2 V : temps ts V1 V -> V1 = V2 -> temps ts V2 V. Proof. by intros H <-. Qed.
Lemma gone_live ts st V V1 X : temps ts V1 V -> RV st V1 X -> gone ts st V X.
Proof. intros H1 H2. left. eauto. Qed.
Lemma gone_spoilt ts st V V1 X c : temps ts V1 V -> c ∈ ts -> spoilt st V1 X c -> gone ts st V X.
Proof. intros H1 Hc Hs. apply spoilt_loses in Hs as (b & X' & HV & HL). right. exists V1, c, b, X'. auto. Qed.
Lemma gone_nil st V X : gone [] st V X -> RV st V X.
Proof.
  intros [(V1 & Ht & HV)|(V1 & t & b & X' & _ & Ht & _)]; [|by apply elem_of_nil in Ht]. apply temps_nil in Ht. by subst.
Qed.

Lemma sV_with_temp_gone ts st V X (body : oid -> prog Z) (Q : Z -> state -> Prop) :
  RV st V X ->
  (forall t st1, V !! t = None -> RV st1 (<[t := 0]> V) X ->
     sw (body t) (fun r st2 => exists V2, V2 !! t = None /\ t ∉ ts /\ gone (t :: ts) st2 V2 X /\ (forall st3, gone ts st3 V2 X -> Q r st3)) st1) ->
  sw (with_temp body) Q st.
Proof.
  intros HV H. unfold with_temp. cbn [soft]. apply wp_NewO. intros z iz Fz. destruct HV as (ζ & HZ & Hv).
  destruct (RZ_newO st ζ X false z _ HZ Fz) as (H1 & H2 & H3). set (t := (false, iz)) in *.
  apply s_quiet; [apply q_init|]. eapply wpZ_init; [exact H3|simpl; apply lookup_insert|]. intros st1 _ HZ1. simpl in HZ1.
  rewrite delete_insert in HZ1 by done. unfold with_craw in HZ1. simpl in HZ1.
  assert (RZ st1 (<[t:=zzero]> ζ) X) as HZ1' by (destruct X; exact HZ1).
  assert (craw X !! t = None) as Hraw by (eapply RZ_not_raw; [exact HZ1'|apply lookup_insert]).
  apply soft_bind, wp_bind. eapply wp_mono.
  { apply H; [by eapply relv_none'|]. eexists. split; [exact HZ1'|]. by apply relv_ins. }
  cbv beta. intros r st2 (V2 & N & Nt & HG & HQ). clear H H1 H2 H3 HZ1 HZ1' st1 HZ Hv.
  assert (forall V1 X' v, RV st2 V1 X' -> V1 !! t = Some v -> (forall st3, RV st3 (delete t V1) X' -> Q r st3) -> sw (mp_int_clear t;; DelO t (Ret r)) Q st2) as Clr.
  { intros V1 X' v HV1 Ht HQ1. apply s_quiet; [apply q_clear|]. eapply wpV_clear; [exact HV1|exact Ht|]. intros st3 z3 _ (ζ3 & HZ3 & Hv3). cbn [soft].
    eapply wp_DelO; [eapply RZ_raw; [exact HZ3|simpl; apply lookup_insert]|done|]. apply wp_ret. apply HQ1.
    eapply RZ_delO in HZ3; [|simpl; apply lookup_insert]. unfold with_craw in HZ3. simpl in HZ3.
    assert (craw X' !! t = None) as Hr by (destruct HV1 as (ζ1 & HZ1 & Hv1); destruct (relv_some _ _ _ _ Hv1 Ht) as (zt & Hzt & _); by eapply RZ_not_raw).
    rewrite delete_insert in HZ3 by done. exists ζ3. split; [destruct X'; exact HZ3|done]. }
  destruct HG as [(V1 & [T1 T2] & HV1)|(V1 & t' & b & X' & [T1 T2] & Ht' & HL & HV1)].
  - destruct (T2 t) as [v Hv]; [set_solver|]. eapply Clr; [exact HV1|exact Hv|]. intros st3 HV3. apply HQ. left. exists (delete t V1). split; [|done]. split.
    + intros o Ho. destruct (decide (t = o)) as [<-|Ne]; [by rewrite lookup_delete|]. rewrite lookup_delete_ne by done. apply T1. set_solver.
    + intros o Ho. rewrite lookup_delete_ne by (intros <-; done). apply T2. set_solver.
  - destruct (decide (t' = t)) as [->|Ne].
    + destruct HL as (HL & Eg & Er & Em & Eb). apply s_quiet; [apply q_clear|]. eapply wpV_clear_lost; [exact HV1|exact HL|]. intros st3 z3 _ (ζ3 & HZ3 & Hv3). cbn [soft].
      eapply wp_DelO; [eapply RZ_raw; [exact HZ3|simpl; apply lookup_insert]|done|]. apply wp_ret. apply HQ.
      eapply RZ_delO in HZ3; [|simpl; apply lookup_insert]. unfold with_craw in HZ3. simpl in HZ3. left. exists (delete t V1). split.
      { split.
        - intros o Ho. destruct (decide (t = o)) as [<-|Ne]; [by rewrite lookup_delete|]. rewrite lookup_delete_ne by done. apply T1. set_solver.
        - intros o Ho. rewrite lookup_delete_ne by (intros <-; done). apply T2. set_solver. }
      exists ζ3. split; [|done]. replace X with (Ctx (delete b (cmem X')) (delete t (<[t := z3]> (craw X'))) (cglob X')); [exact HZ3|].
      destruct X as [m w g]. cbn [cmem craw cglob] in *. f_equal; [| |done]; apply map_eq; intros i.
      * destruct (decide (b = i)) as [<-|]; [by rewrite lookup_delete, Eb|]. rewrite lookup_delete_ne by done. by apply Em.
      * destruct (decide (t = i)) as [<-|]; [by rewrite lookup_delete, Hraw|]. rewrite lookup_delete_ne, lookup_insert_ne by done. by apply Er.
    + destruct (T2 t) as [v Hv]; [set_solver|]. eapply Clr; [exact HV1|by rewrite lookup_delete_ne|]. intros st3 HV3. apply HQ. right.
      exists (delete t V1), t', b, X'. split.
      { split.
        - intros o Ho. destruct (decide (t = o)) as [<-|Ne']; [by rewrite lookup_delete|]. rewrite lookup_delete_ne by done. apply T1. set_solver.
        - intros o Ho. rewrite lookup_delete_ne by (intros <-; done). apply T2. set_solver. }
      split; [set_solver|]. split; [done|]. by rewrite delete_commute.
Qed.

(** ** A number of one digit can always be assigned *)
Section room.
Local Transparent wp bind Load Prog.Store getO setO getG assert.
Local Arguments bind {A B} !p f : simpl nomatch.
Local Arguments wp {A} !p Q st.
Lemma sf_copy_room a c m (Q : Z -> state -> Prop) st : objs st !! c = Some m -> wp (get_used a) (fun u _ => u <= alloc m) st ->
  wp (mp_int_copy a c) Q st -> sw (mp_int_copy a c) Q st.
Proof.
  intros Hc Hu HW. unfold mp_int_copy in *. case_bool_decide; [by apply quiet_soft; [qt|]|]. rat HW (fun u (_ : state) => u <= alloc m) u Eu HW1; [|done].
  apply wp_bind_inv in HW1; [|apply wf_pad]. apply soft_bind, wp_bind. eapply sf_pad_room; [done..|]. eapply wp_mono; [exact HW1|]. intros ok st' HW2. apply quiet_soft; [qt|done].
Qed.
End room.
Lemma RZ_alloc1 st ζ X c z : RZ st ζ X -> ζ !! c = Some z -> exists m, objs st !! c = Some m /\ 1 <= alloc m.
Proof.
  intros (σ & HR & Hz) Hc. destruct (relz_get _ _ _ _ Hz Hc) as (f & l & Hf & G). exists (mpz_of f). split; [by eapply R_get|].
  destruct (goodw_hd _ _ _ G) as (d & Hd). apply lookup_lt_Some in Hd. unfold mpz_of. cbn [alloc]. lia.
Qed.
Lemma sV_set_one st V X c v vc (Q : Z -> state -> Prop) : RV st V X -> V !! c = Some vc -> - 2 ^ 32 < v < 2 ^ 32 ->
  (forall st', RV st' (<[c := v]> V) X -> Q MP_OK st') -> sw (mp_int_set_value c v) Q st.
Proof.
  intros (ζ & HZ & Hv) Hc Hr HQ. destruct (relv_some _ _ _ _ Hv Hc) as (zc & Hc' & E & N & O).
  unfold mp_int_set_value. eapply sZ_with_fake; [done|lia|]. intros t n st1 Ht HZ1. assert (c <> t) by congruence.
  destruct (RZ_alloc1 st1 (<[t:=fakev (sgnbit v) (Z.abs v) n]> ζ) X c zc HZ1) as (m & Hm & Lm); [by rewrite lookup_insert_ne|].
  eapply sf_copy_room; [exact Hm| |].
  - eapply wpZ_used; [exact HZ1|apply lookup_insert|]. intros _. cbn [zm fakev]. destruct (decide (v = 0)) as [->|].
    { change (Z.of_nat (ndig (Z.abs 0))) with 1. lia. }
    assert (ndig (Z.abs v) <= 1)%nat; [|lia]. apply ndig_le; [|lia]. rewrite Bn_pow2. change (32 * Z.of_nat 1) with 32. lia.
  - eapply wpZ_copy; [exact HZ1|apply lookup_insert|by rewrite lookup_insert_ne|done|]. intros st' HZ'.
    eexists (<[c := _]> ζ), _. split; [by rewrite lookup_insert_ne|]. split; [rewrite (insert_commute _ t c) by done; exact HZ'|].
    intros st3 HZ3. apply HQ. cbn [zs zm fakev] in HZ3. rewrite fakev_put in HZ3. by eapply RV_set.
Qed.

(** ** Extended greatest common divisor *)
Lemma s_when (o : option oid) f (Q : Z -> state -> Prop) st :
  (match o with Some c => sw (f c) Q st | None => Q MP_OK st end) -> sw (when o f) Q st.
Proof. destruct o; simpl; [done|]. by intros; apply s_ret. Qed.
Section egcd.
Context (ts : list oid) (V : gmap oid Z) (X : ctx).
Context (A B C D u v ou ov : oid).
Hypothesis HN : (A <> B /\ A <> C /\ A <> D /\ A <> u /\ A <> v /\ A <> ou /\ A <> ov) /\ (B <> C /\ B <> D /\ B <> u /\ B <> v /\ B <> ou /\ B <> ov)
  /\ (C <> D /\ C <> u /\ C <> v /\ C <> ou /\ C <> ov) /\ (D <> u /\ D <> v /\ D <> ou /\ D <> ov) /\ (u <> v /\ u <> ou /\ u <> ov) /\ (v <> ou /\ v <> ov) /\ ou <> ov.

(** One halving step, on any four of the handles. *)
Lemma sV_egcd_half (W : gmap oid Z) (st : state) (w p q : oid) (n vw vp vq vou vov : Z) :
  w <> p -> w <> q -> p <> q -> w <> ou -> w <> ov -> p <> ou -> p <> ov -> q <> ou -> q <> ov -> ou <> ov ->
  (Z.odd vou = true \/ Z.odd vov = true) ->
  W !! ou = Some vou -> W !! ov = Some vov -> temps ts W V -> w ∈ ts -> p ∈ ts -> q ∈ ts ->
  RV st (<[q := vq]> (<[p := vp]> (<[w := vw]> W))) X -> vp * vou + vq * vov = vw -> 0 < vw -> vw <= n ->
  sw (egcd_half w p q ou ov tt) (fun r st' => match r with
     | inl _ => exists n', 0 <= n' < n /\ exists vw' vp' vq', RV st' (<[q := vq']> (<[p := vp']> (<[w := vw']> W))) X /\ vp' * vou + vq' * vov = vw' /\ 0 < vw' /\ vw' <= n' /\ vw = 2 * vw'
     | inr x => (x = MP_OK /\ RV st' (<[q := vq]> (<[p := vp]> (<[w := vw]> W))) X /\ Z.odd vw = true) \/ (x = MP_MEMORY /\ gone ts st' V X) end) st.
Proof.
  intros N1 N2 N3 N4 N5 N6 N7 N8 N9 N10 Hodd Hou Hov HT Tw Tp Tq HV E Hw Hn. unfold egcd_half.
  sqt. eapply wpV_is_even; [exact HV|lk|]. rewrite <- Z.negb_odd, negb_involutive. destruct (Z.odd vw) eqn:Ow.
  { apply s_ret. by left. }
  destruct (even_half _ Ow) as [w' ->].
  sqt. eapply wpV_qdiv; [exact HV|lk|lia|]. intros st1 HV1. rewrite quot2 in HV1.
  sqt. eapply wpV_is_odd; [exact HV1|lk|].
  assert (forall st4 vp' vq', RV st4 (<[q := 2 * vq']> (<[p := 2 * vp']> (<[w := w']> W))) X -> vp' * vou + vq' * vov = w' ->
    sw (s_qdiv p 1;; s_qdiv q 1;; Ret (inl tt))%prog (fun (r : unit + Z) st' => match r with
     | inl _ => exists n', 0 <= n' < n /\ exists vw' vp' vq', RV st' (<[q := vq']> (<[p := vp']> (<[w := vw']> W))) X /\ vp' * vou + vq' * vov = vw' /\ 0 < vw' /\ vw' <= n' /\ 2 * w' = 2 * vw'
     | inr x => (x = MP_OK /\ RV st' (<[q := vq]> (<[p := vp]> (<[w := 2 * w']> W))) X /\ false = true) \/ (x = MP_MEMORY /\ gone ts st' V X) end) st4) as Fin.
  { intros st4 vp' vq' HV4 E4. sqt. eapply wpV_qdiv; [exact HV4|lk|lia|]. intros st5 HV5. rewrite quot2 in HV5.
    sqt. eapply wpV_qdiv; [exact HV5|lk|lia|]. intros st6 HV6. rewrite quot2 in HV6. apply s_ret.
    exists w'. split; [lia|]. exists w', vp', vq'. split; [vn HV6|]. lia. }
  assert (wp (if Z.odd vp then Ret true else mp_int_is_odd q) (fun b st' => st' = st1 /\ b = (Z.odd vp || Z.odd vq)%bool) st1) as Hb.
  { destruct (Z.odd vp); [by apply wp_ret|]. eapply wpV_is_odd; [exact HV1|lk|]. done. }
  apply s_quiet; [destruct (Z.odd vp); qt|].
  eapply wp_mono; [exact Hb|]. intros b st2 [-> ->]. apply s_reqL.
  assert (Z.odd (vp * vou + vq * vov) = false) as Hpar by (rewrite E, Z.odd_mul; done). rewrite Z.odd_add, !Z.odd_mul in Hpar.
  destruct (Z.odd vp || Z.odd vq)%bool eqn:Ob.
  - apply s_req. eapply sV_add_spoilt; [exact HV1|lk| |lk|lk|].
    { intros st3 HS. badr. badr. right. split; [done|]. eapply gone_spoilt; [|exact Tp|exact HS]. by repeat apply temps_ins. }
    intros st3 HV3. okr.
    apply s_req. eapply sV_sub_spoilt; [exact HV3|lk| |lk|lk|].
    { intros st4 HS. badr. badr. right. split; [done|]. eapply gone_spoilt; [|exact Tq|exact HS]. by repeat apply temps_ins. }
    intros st4 HV4. okr. apply s_ret. okr.
    assert (exists p', vp + vov = 2 * p') as [p' Ep]. { apply even_half. rewrite Z.odd_add. destruct (Z.odd vp), (Z.odd vq), (Z.odd vou), (Z.odd vov); naive_solver. }
    assert (exists q', vq - vou = 2 * q') as [q' Eq]. { apply even_half. rewrite Z.odd_sub. destruct (Z.odd vp), (Z.odd vq), (Z.odd vou), (Z.odd vov); naive_solver. }
    rewrite Ep, Eq in HV4. apply Fin with p' q'; [vn HV4|]. nia.
  - apply s_ret. okr. apply orb_false_iff in Ob as [O1 O2]. destruct (even_half _ O1) as [p' ->]. destruct (even_half _ O2) as [q' ->].
    apply Fin with p' q'; [vn HV1|]. lia.
Qed.
(** The halving loop. *)
Lemma sV_egcd_halves (W : gmap oid Z) (st : state) (k : nat) (w p q : oid) (vw vp vq vou vov : Z) (z : Z) (Q : Z -> state -> Prop) :
  w <> p -> w <> q -> p <> q -> w <> ou -> w <> ov -> p <> ou -> p <> ov -> q <> ou -> q <> ov -> ou <> ov ->
  (Z.odd vou = true \/ Z.odd vov = true) ->
  W !! ou = Some vou -> W !! ov = Some vov -> temps ts W V -> w ∈ ts -> p ∈ ts -> q ∈ ts ->
  RV st (<[q := vq]> (<[p := vp]> (<[w := vw]> W))) X -> vp * vou + vq * vov = vw -> 0 < vw -> vw < 2 ^ Z.of_nat k ->
  (Z.odd vw = true \/ Z.odd z = true) ->
  (forall st', gone ts st' V X -> Q MP_MEMORY st') ->
  (forall st' vw' vp' vq', RV st' (<[q := vq']> (<[p := vp']> (<[w := vw']> W))) X -> vp' * vou + vq' * vov = vw' -> 0 < vw' <= vw -> Z.odd vw' = true ->
     Z.gcd vw' z = Z.gcd vw z -> Q MP_OK st') ->
  sw (loop k (egcd_half w p q ou ov) tt) Q st.
Proof.
  intros N1 N2 N3 N4 N5 N6 N7 N8 N9 N10 Hodd Hou Hov HT Tw Tp Tq HV E Hw Hk Hz HF HQ.
  eapply s_loop with (n := vw) (I := fun n _ st' => exists vw' vp' vq', RV st' (<[q := vq']> (<[p := vp']> (<[w := vw']> W))) X /\ vp' * vou + vq' * vov = vw' /\ 0 < vw' <= vw /\ vw' <= n
     /\ Z.gcd vw' z = Z.gcd vw z /\ (Z.odd vw' = true \/ Z.odd z = true)); [|done|].
  - exists vw, vp, vq. split_and!; try (done || lia).
  - intros n [] st' (vw' & vp' & vq' & HV' & E' & Hw' & Hn' & Hg' & Hz'). eapply wp_mono; [eapply (sV_egcd_half W st' w p q n vw' vp' vq' vou vov); (done || lia)|].
    intros [[]|x] st'' H.
    + destruct H as (n' & Hn'' & vw2 & vp2 & vq2 & HV2 & E2 & Hw2 & Hle2 & Heq). exists n'. split; [done|]. exists vw2, vp2, vq2. split; [done|]. split; [done|].
      split; [lia|]. split; [done|]. rewrite Heq in Hz', Hg'. assert (Z.odd z = true) as Oz. { destruct Hz' as [Hz'|]; [|done]. by rewrite Z.odd_mul in Hz'. }
      split; [|by right]. by rewrite <- Hg', gcd_half.
    + destruct H as [(-> & HV2 & O2)|[-> HG]]; [|by apply HF]. eapply (HQ _ vw' vp' vq'); (done || lia).
Qed.

Local Notation ES a b c d x y ox oy V := (<[ov := oy]> (<[ou := ox]> (<[v := y]> (<[u := x]> (<[D := d]> (<[C := c]> (<[B := b]> (<[A := a]> V)))))))).
(** What a failing call may have assigned to the coefficients. *)
Definition begun (x y : option oid) (V V' : gmap oid Z) : Prop :=
  V' = V \/ (exists s, V' = assign x s V) \/ (exists s t, V' = assign y t (assign x s V)).
Lemma sV_egcd_body (fuel : nat) (k g o1 o2 n vc : Z) (c : oid) (x y : option oid) (st : state) :
  ts = [ov; ou; v; u; D; C; B; A] ->
  V !! A = None -> V !! B = None -> V !! C = None -> V !! D = None -> V !! u = None -> V !! v = None -> V !! ou = None -> V !! ov = None ->
  V !! c = Some vc -> live x V -> live y V -> 0 <= k < 2 ^ 30 -> n < 2 ^ Z.of_nat fuel -> (Z.odd o1 = true \/ Z.odd o2 = true) ->
  egcd_inv V X A B C D u v ou ov g o1 o2 n st ->
  sw (egcd_body fuel A B C D u v ou ov k c x y tt) (fun r st' => match r with
     | inl _ => exists n', 0 <= n' < n /\ egcd_inv V X A B C D u v ou ov g o1 o2 n' st'
     | inr res => (res = MP_OK /\ exists vA vB s t vu vv, RV st' (ES vA vB s t vu vv o1 o2 (<[c := g * 2 ^ k]> (assign y t (assign x s V)))) X /\ s * o1 + t * o2 = g)
                  \/ (res = MP_MEMORY /\ exists V', begun x y V V' /\ gone ts st' V' X) end) st.
Proof.
  intros Ets. assert (forall a b c d x y ox oy W, W !! A = None -> W !! B = None -> W !! C = None -> W !! D = None -> W !! u = None -> W !! v = None -> W !! ou = None -> W !! ov = None -> temps ts (ES a b c d x y ox oy W) W) as TS.
  { intros. subst ts. repeat (apply temps_new; [|done]). apply temps_refl. }
  assert (A ∈ ts /\ B ∈ ts /\ C ∈ ts /\ D ∈ ts /\ u ∈ ts /\ v ∈ ts) as (TA & TB & TC & TD & Tu & Tv) by (subst ts; rewrite !elem_of_cons; tauto). clear Ets.
  destruct HN as ((? & ? & ? & ? & ? & ? & ?) & (? & ? & ? & ? & ? & ?) & (? & ? & ? & ? & ?) & (? & ? & ? & ?) & (? & ? & ?) & (? & ?) & ?).
  intros FA FB FC FD Fu Fv Fou Fov Hc Hx Hy Hk Hfuel Hodd (vA & vB & vC & vD & vu & vv & HV & Pu & Pv & E1 & E2 & Hpar & Hg & Hn).
  assert (forall st', gone ts st' V X -> exists V', begun x y V V' /\ gone ts st' V' X) as Early by (intros st' HG; exists V; split; [by left|done]).
  unfold egcd_body. apply s_reqL.
  eapply (sV_egcd_halves (ES vA vB vC vD vu vv o1 o2 V) st fuel u A B vu vA vB o1 o2 vv); [neqs..|done|lk|lk|by apply TS|done|done|done|vn HV|done|done|lia|done| |].
  { intros st' HG. badr. right. split; [done|]. by apply Early. }
  intros st1 vu1 vA1 vB1 HV1 E3 Pu1 Ou1 Hg1. okr. apply s_reqL.
  eapply (sV_egcd_halves (ES vA1 vB1 vC vD vu1 vv o1 o2 V) st1 fuel v C D vv vC vD o1 o2 vu1); [neqs..|done|lk|lk|by apply TS|done|done|done|vn HV1|done|done|lia|by right| |].
  { intros st' HG. badr. right. split; [done|]. by apply Early. }
  intros st2 vv1 vC1 vD1 HV2 E4 Pv1 Ov1 Hg2. okr.
  assert (Z.gcd vu1 vv1 = g) as Hg3. { rewrite <- Hg, <- Hg1. rewrite (Z.gcd_comm vu1 vv1), Hg2. apply Z.gcd_comm. }
  assert (RV st2 (ES vA1 vB1 vC1 vD1 vu1 vv1 o1 o2 V) X) as HV2' by (vn HV2). clear HV2. rename HV2' into HV2.
  sqt. eapply wpV_compare; [exact HV2|lk|lk|]. apply s_reqL.
  assert (forall st6 vA2 vB2 vC2 vD2 vu2 vv2, RV st6 (ES vA2 vB2 vC2 vD2 vu2 vv2 o1 o2 V) X -> 0 <= vu2 -> 0 < vv2 -> vA2 * o1 + vB2 * o2 = vu2 -> vC2 * o1 + vD2 * o2 = vv2 ->
     (Z.odd vu2 = true \/ Z.odd vv2 = true) -> Z.gcd vu2 vv2 = g -> vu2 + vv2 < n ->
    sw (cu <- CMPZ u;
  if cu =? 0 then
    REQUIREL when x (fun x => mp_int_copy C x);;
    REQUIREL when y (fun y => mp_int_copy D y);;
    ok <- s_qmul v (u32 k);
    if negb ok then Ret (inr MP_MEMORY) else
    REQUIREL mp_int_copy v c;;
    Ret (inr MP_OK)
  else Ret (inl tt))%prog (fun r st' => match r with
     | inl _ => exists n', 0 <= n' < n /\ egcd_inv V X A B C D u v ou ov g o1 o2 n' st'
     | inr res => (res = MP_OK /\ exists vA vB s t vu vv, RV st' (ES vA vB s t vu vv o1 o2 (<[c := g * 2 ^ k]> (assign y t (assign x s V)))) X /\ s * o1 + t * o2 = g)
                  \/ (res = MP_MEMORY /\ exists V', begun x y V V' /\ gone ts st' V' X) end) st6) as Fin.
  { intros st6 vA2 vB2 vC2 vD2 vu2 vv2 HV6 Pu2 Pv2 E5 E6 Hpar2 Hg4 Hn2. sqt. eapply wpV_CMPZ; [exact HV6|lk|].
    destruct (Z.eqb_spec (Z.sgn vu2) 0) as [Z0|Z0]; cycle 1.
    { apply s_ret. exists (vu2 + vv2). split; [lia|]. exists vA2, vB2, vC2, vD2, vu2, vv2. split_and!; (done || lia). }
    assert (vu2 = 0) as Zu by lia. rewrite Zu in Hg4. rewrite Z.gcd_0_l, Z.abs_eq in Hg4 by lia. rewrite Hg4 in HV6, E6. clear Hg4.
    assert (forall W, begun x y V W -> forall o, V !! o = None -> W !! o = None) as FW.
    { intros W HW o Ho. destruct HW as [->|[[s ->]|(s & t & ->)]]; [done| |]; (destruct y as [y0|], x as [x0|]); cbn [assign live] in *;
       repeat match goal with H : is_Some _ |- _ => destruct H end; rewrite ?lookup_insert_ne by congruence; done. }
    assert (forall W, begun x y V W -> forall st' a b d e f h, RV st' (ES a b d e f h o1 o2 W) X -> exists V', begun x y V V' /\ gone ts st' V' X) as Late.
    { intros W HW st' a b d e f h HR. exists W. split; [done|]. eapply gone_live; [|exact HR]. apply TS; by apply (FW W HW). }
    apply s_reqL. eapply wp_mono with (Q := fun r st' => (r = MP_OK /\ RV st' (ES vA2 vB2 vC2 vD2 vu2 g o1 o2 (assign x vC2 V)) X) \/ (r = MP_MEMORY /\ RV st' (ES vA2 vB2 vC2 vD2 vu2 g o1 o2 V) X)).
    { apply s_when. destruct x as [x|]; [|left; split; [done|exact HV6]]. destruct Hx as [vx Hx]. cbn [assign]. eapply sV_copy; [exact HV6|lk|lk|by right|]. intros st7 HV7. left. split; [done|]. vn HV7. }
    intros r st7 [[-> HV7]|[-> HV7]]; [|badr; right; split; [done|]; eapply Late; [|exact HV7]; by left].
    okr. apply s_reqL. eapply wp_mono with (Q := fun r st' => (r = MP_OK /\ RV st' (ES vA2 vB2 vC2 vD2 vu2 g o1 o2 (assign y vD2 (assign x vC2 V))) X) \/ (r = MP_MEMORY /\ RV st' (ES vA2 vB2 vC2 vD2 vu2 g o1 o2 (assign x vC2 V)) X)).
    { apply s_when. destruct y as [y|]; [|left; split; [done|exact HV7]]. assert (live (Some y) (assign x vC2 V)) as [vy Hy'].
      { cbn [live] in *. destruct x as [x|]; cbn [assign]; [|done]. rewrite lookup_insert_is_Some. destruct (decide (x = y)); [by left|by right]. }
      cbn [assign]. assert (y <> A /\ y <> B /\ y <> C /\ y <> D /\ y <> u /\ y <> v /\ y <> ou /\ y <> ov) as (? & ? & ? & ? & ? & ? & ? & ?) by (destruct Hy as [? Hy]; split_and!; congruence).
      eapply sV_copy; [exact HV7|lk|lk|by right|]. intros st8 HV8. left. split; [done|]. vn HV8. }
    intros r st8 [[-> HV8]|[-> HV8]]; [|badr; right; split; [done|]; eapply Late; [|exact HV8]; right; left; by eexists].
    okr. rewrite u32_id by mx.
    assert (begun x y V (assign y vD2 (assign x vC2 V))) as HB by (right; right; by eexists _, _).
    apply soft_bind, wp_bind. eapply sV_qmul; [exact HV8|lk|mx| |].
    { apply s_ret. right. split; [done|]. eapply Late; [exact HB|exact HV8]. } intros st9 HV9. cbn [negb].
    assert (is_Some (assign y vD2 (assign x vC2 V) !! c)) as [vc' Hc'].
    { destruct y as [y|]; cbn [assign]; [rewrite lookup_insert_is_Some; destruct (decide (y = c)); [by left|right; split; [done|]]|];
       (destruct x as [x|]; cbn [assign]; [rewrite lookup_insert_is_Some; destruct (decide (x = c)); [by left|right; split; [done|]]|]); by eexists. }
    apply s_reqL. eapply sV_copy; [exact HV9|lk|lk| |].
    { badr. right. split; [done|]. eapply (Late _ HB _ vA2 vB2 vC2 vD2 vu2 _). vn HV9. } intros st10 HV10. okr. apply s_ret. left. split; [done|].
    exists vA2, vB2, vC2, vD2, vu2, (g * 2 ^ k). split; [|done]. vn HV10. }
  assert (forall st' a b d e f h, RV st' (ES a b d e f h o1 o2 V) X -> exists V', begun x y V V' /\ gone ts st' V' X) as Whole.
  { intros st' a b d e f h HR. apply Early. eapply gone_live; [by apply TS|exact HR]. }
  assert (forall st' a b d e f h o, spoilt st' (ES a b d e f h o1 o2 V) X o -> o ∈ ts -> exists V', begun x y V V' /\ gone ts st' V' X) as Broken.
  { intros st' a b d e f h o HS Ho. apply Early. eapply gone_spoilt; [|exact Ho|exact HS]. by apply TS. }
  destruct (Z.leb_spec vv1 vu1) as [L|L].
  - assert (Z.sgn (vu1 - vv1) >=? 0 = true) as -> by lia.
    apply s_req. eapply sV_sub; [exact HV2|lk|lk|lk| | |].
    { rewrite (proj2 (Z.ltb_ge vu1 0)) by lia. symmetry. apply Z.ltb_ge. lia. }
    { badr. badr. right. split; [done|]. eapply Whole; exact HV2. }
    intros st3 HV3. assert (RV st3 (ES vA1 vB1 vC1 vD1 (vu1 - vv1) vv1 o1 o2 V) X) as HV3' by (vn HV3). clear HV3. okr.
    apply s_req. eapply sV_sub_spoilt; [exact HV3'|lk| |lk|lk|].
    { intros st' HS. badr. badr. right. split; [done|]. eapply Broken; [exact HS|done]. }
    intros st4 HV4. assert (RV st4 (ES (vA1 - vC1) vB1 vC1 vD1 (vu1 - vv1) vv1 o1 o2 V) X) as HV4' by (vn HV4). clear HV4. okr.
    apply s_req. eapply sV_sub_spoilt; [exact HV4'|lk| |lk|lk|].
    { intros st' HS. badr. badr. right. split; [done|]. eapply Broken; [exact HS|done]. }
    intros st5 HV5. okr. apply s_ret. okr.
    apply (Fin _ (vA1 - vC1) (vB1 - vD1) vC1 vD1 (vu1 - vv1) vv1); [vn HV5|lia|lia|lia|lia|by right| |lia].
    by rewrite Z.gcd_comm, Z.gcd_sub_diag_r, Z.gcd_comm.
  - assert (Z.sgn (vu1 - vv1) >=? 0 = false) as -> by lia.
    apply s_req. eapply sV_sub; [exact HV2|lk|lk|lk| | |].
    { rewrite (proj2 (Z.ltb_ge vv1 0)) by lia. symmetry. apply Z.ltb_ge. lia. }
    { badr. badr. right. split; [done|]. eapply Whole; exact HV2. }
    intros st3 HV3. assert (RV st3 (ES vA1 vB1 vC1 vD1 vu1 (vv1 - vu1) o1 o2 V) X) as HV3' by (vn HV3). clear HV3. okr.
    apply s_req. eapply sV_sub_spoilt; [exact HV3'|lk| |lk|lk|].
    { intros st' HS. badr. badr. right. split; [done|]. eapply Broken; [exact HS|done]. }
    intros st4 HV4. assert (RV st4 (ES vA1 vB1 (vC1 - vA1) vD1 vu1 (vv1 - vu1) o1 o2 V) X) as HV4' by (vn HV4). clear HV4. okr.
    apply s_req. eapply sV_sub_spoilt; [exact HV4'|lk| |lk|lk|].
    { intros st' HS. badr. badr. right. split; [done|]. eapply Broken; [exact HS|done]. }
    intros st5 HV5. okr. apply s_ret. okr.
    apply (Fin _ vA1 vB1 (vC1 - vA1) (vD1 - vB1) vu1 (vv1 - vu1)); [vn HV5|lia|lia|lia|lia|by left| |lia].
    by rewrite Z.gcd_sub_diag_r.
Qed.
End egcd.
Lemma sV_egcd (st : state) (V : gmap oid Z) (X : ctx) (a b c : oid) (x y : option oid) (va vb vc : Z) (Q : Z -> state -> Prop) :
  RV st V X -> V !! a = Some va -> V !! b = Some vb -> V !! c = Some vc -> live x V -> live y V -> (is_Some x \/ is_Some y) ->
  (va = 0 \/ vb = 0 -> is_Some x /\ is_Some y) ->
  (va = 0 -> vb = 0 -> Q MP_UNDEF st) ->
  (forall st' V', begun x y V V' -> RV st' V' X -> Q MP_MEMORY st') ->
  (va = 0 -> vb <> 0 -> forall st', RV st' (assign y 1 (assign x 0 (<[c := Z.abs vb]> V))) X -> Q MP_OK st') ->
  (va <> 0 -> vb = 0 -> forall st', RV st' (assign y 0 (assign x 1 (<[c := Z.abs va]> V))) X -> Q MP_OK st') ->
  (va <> 0 -> vb <> 0 -> forall st' s t, s * Z.abs va + t * Z.abs vb = Z.gcd va vb -> RV st' (<[c := Z.gcd va vb]> (assign y t (assign x s V))) X -> Q MP_OK st') ->
  sw (mp_int_egcd a b c x y) Q st.
Proof.
  intros HV Ha Hb Hc Hx Hy Hxy Hz HU HF Q1 Q2 HQ. unfold mp_int_egcd. sqt. apply wp_assert.
  { rewrite orb_true_iff, !bool_decide_eq_true. done. }
  assert (forall st', RV st' V X -> Q MP_MEMORY st') as HF0 by (intros st' HR; eapply HF; [by left|done]).
  sqt. eapply wpV_CMPZ; [exact HV|exact Ha|]. sqt. eapply wpV_CMPZ; [exact HV|exact Hb|].
  destruct (Z.eqb_spec (Z.sgn va) 0) as [Ea|Ea]; cbn [andb].
  { destruct (Z.eqb_spec (Z.sgn vb) 0) as [Eb|Eb]; cbn [andb]; [apply s_ret; apply HU; lia|].
    destruct Hz as [[x0 ->] [y0 ->]]; [lia|]. cbn [assign live] in *. destruct Hx as [vx Hx]. destruct Hy as [vy Hy].
    apply soft_bind, wp_bind. eapply sV_abs; [exact HV|exact Hb|exact Hc| |]. { apply s_ret. by apply HF0. } intros st1 HV1. rewrite Z.eqb_refl. cbn [negb].
    assert (is_Some (<[c:=Z.abs vb]> V !! x0)) as [vx' Hx'] by (rewrite lookup_insert_is_Some; destruct (decide (c = x0)); eauto).
    sqt. eapply wpV_zero; [exact HV1|exact Hx'|]. intros st2 HV2.
    assert (is_Some (<[x0 := 0]> (<[c:=Z.abs vb]> V) !! y0)) as [vy' Hy'] by (rewrite !lookup_insert_is_Some; destruct (decide (c = y0)), (decide (x0 = y0)); eauto).
    apply soft_bind, wp_bind. eapply sV_set_one; [exact HV2|exact Hy'|lia|]. intros st3 HV3. apply s_ret. apply Q1; [lia|lia|done]. }
  destruct (Z.eqb_spec (Z.sgn vb) 0) as [Eb|Eb].
  { destruct Hz as [[x0 ->] [y0 ->]]; [lia|]. cbn [assign live] in *. destruct Hx as [vx Hx]. destruct Hy as [vy Hy].
    apply soft_bind, wp_bind. eapply sV_abs; [exact HV|exact Ha|exact Hc| |]. { apply s_ret. by apply HF0. } intros st1 HV1. rewrite Z.eqb_refl. cbn [negb].
    assert (is_Some (<[c:=Z.abs va]> V !! x0)) as [vx' Hx'] by (rewrite lookup_insert_is_Some; destruct (decide (c = x0)); eauto).
    apply soft_bind, wp_bind. eapply sV_set_one; [exact HV1|exact Hx'|lia|]. intros st2 HV2.
    assert (is_Some (<[x0 := 1]> (<[c:=Z.abs va]> V) !! y0)) as [vy' Hy'] by (rewrite !lookup_insert_is_Some; destruct (decide (c = y0)), (decide (x0 = y0)); eauto).
    sqt. eapply wpV_zero; [exact HV2|exact Hy'|]. intros st3 HV3. apply s_ret. apply Q2; [lia|lia|done]. }
  sqt. eapply wpV_used; [exact HV|exact Ha|]. intros na Na1 Na2 _ Na. sqt. eapply wpV_used; [exact HV|exact Hb|]. intros nb Nb1 Nb2 _ Nb.
  cbv zeta. set (fuel := Z.to_nat _).
  eapply (sV_with_temp_gone []); [exact HV|]. intros A st1 F1 HV1. eapply (sV_with_temp_gone [A]); [exact HV1|]. intros B st2 F2 HV2. fr F2.
  eapply (sV_with_temp_gone [B; A]); [exact HV2|]. intros C st3 F3 HV3. fr F3. eapply (sV_with_temp_gone [C; B; A]); [exact HV3|]. intros D st4 F4 HV4. fr F4.
  eapply (sV_with_temp_gone [D; C; B; A]); [exact HV4|]. intros u st5 F5 HV5. fr F5. eapply (sV_with_temp_gone [u; D; C; B; A]); [exact HV5|]. intros v st6 F6 HV6. fr F6.
  eapply (sV_with_temp_gone [v; u; D; C; B; A]); [exact HV6|]. intros ou st7 F7 HV7. fr F7. eapply (sV_with_temp_gone [ou; v; u; D; C; B; A]); [exact HV7|]. intros ov st8 F8 HV8. fr F8.
  match goal with |- sw _ ?P _ => set (PP := P) end.
  assert (forall r st' W, W !! A = None -> W !! B = None -> W !! C = None -> W !! D = None -> W !! u = None -> W !! v = None -> W !! ou = None -> W !! ov = None ->
     gone [ov; ou; v; u; D; C; B; A] st' W X -> (forall st3, RV st3 W X -> Q r st3) -> PP r st') as Out.
  { intros r st' W G1 G2 G3 G4 G5 G6 G7 G8 HG HR. unfold PP.
    do 8 (exists W; split; [eassumption|]; split; [rewrite ?not_elem_of_cons; split_and?; solve [neqs|apply not_elem_of_nil]|]; split; [eassumption|]; clear HG; intros ?st HG).
    apply HR. by apply gone_nil. }
  assert (forall st' a b c d x y ox oy, RV st' (<[ov := oy]> (<[ou := ox]> (<[v := y]> (<[u := x]> (<[D := d]> (<[C := c]> (<[B := b]> (<[A := a]> V)))))))) X -> PP MP_MEMORY st') as Early.
  { intros. eapply (Out _ _ V); [done..| |exact HF0]. eapply gone_live; [|done]. repeat (apply temps_new; [|done]). apply temps_refl. }
  clearbody PP.
  apply s_req. eapply sV_set_value; [exact HV8|lk|lia| |]. { intros st9 HV9. badr. eapply Early. exact HV9. } intros st9 HV9. okr.
  apply s_req. eapply sV_set_value; [exact HV9|lk|lia| |]. { intros st10 HV10. badr. eapply (Early _ 1 0 0 0 0 0 0 0). vn HV10. } intros st10 HV10. okr.
  apply s_req. eapply sV_copy; [exact HV10|lk|lk| |]. { badr. eapply (Early _ 1 0 0 1 0 0 0 0). vn HV10. } intros st11 HV11. okr.
  apply s_req. eapply sV_copy; [exact HV11|lk|lk| |]. { badr. eapply (Early _ 1 0 0 1 _ 0 0 0). vn HV11. } intros st12 HV12. okr.
  sqt. eapply wpV_set_pos; [exact HV12|lk|]. intros st13 HV13. sqt. eapply wpV_set_pos; [exact HV13|lk|]. intros st14 HV14.
  sqt. eapply wpV_dp2k; [exact HV14|lk|lia|]. intros j1 e1 Hj1 O1 E1. sqt. eapply wpV_dp2k; [exact HV14|lk|lia|]. intros j2 e2 Hj2 O2 E2.
  rewrite Z.abs_involutive in E1, E2. set (k := MIN j1 j2). assert (0 <= k < 2 ^ 30) as Hk by (unfold k, MIN; destruct (_ <? _); lia).
  destruct (common_two (Z.abs va) (Z.abs vb) j1 e1 j2 e2) as (x' & y' & Ex & Ey & Hx' & Hy' & Hodd); try (done || lia). fold k in Ex, Ey.
  assert (RV st14 (<[ov := 0]> (<[ou := 0]> (<[v := Z.abs vb]> (<[u := Z.abs va]> (<[D := 1]> (<[C := 0]> (<[B := 0]> (<[A := 1]> V)))))))) X) as HW by (vn HV14).
  clear HV1 HV2 HV3 HV4 HV5 HV6 HV7 HV8 HV9 HV10 HV11 HV12 HV13 HV14.
  rewrite u32_id by mx. sqt. eapply wpV_qdiv; [exact HW|lk|lia|]. intros st15 HV15. sqt. eapply wpV_qdiv; [exact HV15|lk|lia|]. intros st16 HV16.
  rewrite Ex, Ey, !quot_pow_exact in HV16 by lia.
  apply s_req. eapply sV_copy; [exact HV16|lk|lk| |]. { badr. eapply (Early _ 1 0 0 1 x' y' 0 0). vn HV16. } intros st17 HV17. okr.
  apply s_req. eapply sV_copy; [exact HV17|lk|lk| |]. { badr. eapply (Early _ 1 0 0 1 x' y' x' 0). vn HV17. } intros st18 HV18. okr.
  set (g := Z.gcd x' y').
  assert (Z.gcd va vb = 2 ^ k * g) as Eg by (unfold g; rewrite <- gcd_common, <- Ex, <- Ey, Z.gcd_abs_l, Z.gcd_abs_r by lia; done).
  assert (x' + y' < 2 ^ Z.of_nat fuel) as Hf. { unfold fuel. rewrite Z2Nat.id by lia. apply Z.le_lt_trans with (Z.abs va + Z.abs vb + 1); [lia|]. apply pow_sum_lt; lia. }
  eapply s_loop with (n := x' + y') (I := fun n _ st => n <= x' + y' /\ egcd_inv V X A B C D u v ou ov g x' y' n st); [|done|].
  - split; [lia|]. exists 1, 0, 0, 1, x', y'. split; [vn HV18|]. split_and!; (done || lia).
  - intros n [] st19 [Hn HI]. eapply wp_mono.
    { apply (sV_egcd_body [ov; ou; v; u; D; C; B; A] V X A B C D u v ou ov) with (g := g) (o1 := x') (o2 := y') (n := n) (vc := vc); first [assumption|reflexivity|exact (Z.le_lt_trans _ _ _ Hn Hf)|split_and!; neqs]. }
    intros [[]|r] st20 H.
    { destruct H as (n' & Hn' & HI'). exists n'. split; [done|]. split; [lia|done]. }
    assert (forall V', begun x y V V' -> forall o, V !! o = None -> V' !! o = None) as FB.
    { intros W HB o Ho. destruct HB as [->|[[s ->]|(s & t & ->)]]; [done| |]; (destruct y as [y0|], x as [x0|]); cbn [assign live] in *;
       repeat match goal with H : is_Some _ |- _ => destruct H end; rewrite ?lookup_insert_ne by congruence; done. }
    destruct H as [(-> & vA & vB & s & t & vu & vv & HV20 & Bz)|(-> & V' & HB & HG)].
    2:{ apply (Out _ _ V'); [by apply (FB _ HB)..|exact HG|]. intros st' HR. by eapply HF. }
    set (W := <[c:=g * 2 ^ k]> (assign y t (assign x s V))) in *.
    assert (forall o, V !! o = None -> W !! o = None) as FW.
    { intros o Ho. unfold W. rewrite lookup_insert_ne by congruence. apply FB; [right; right; by eexists _, _|done]. }
    apply (Out _ _ W); [by apply FW..| |].
    { eapply gone_live; [|exact HV20]. repeat (apply temps_new; [|by apply FW]). apply temps_refl. }
    intros st' HR. apply (HQ ltac:(lia) ltac:(lia) st' s t); [rewrite Eg, Ex, Ey, <- Bz; ring|]. rewrite Eg, Z.mul_comm. exact HR.
Qed.
