(** The relation between machine states and abstract heaps of integer objects,
    value level, and the basic rules. *)
From Coq Require Import ZArith List Lia.
From stdpp Require Import gmap list.
From Verif Require Import Mem Prog Kern Imath Wp MemLem Dig KernLem KernMul KernKar Rel RelWp.
Local Open Scope Z_scope.

(** ** Views of an array as a digit list *)
Record view (f : fobj) (ds : list Z) : Prop := View {
  v_u : fu f = Z.of_nat (length ds);
  v_c : exists rest, fc f = (Some <$> ds) ++ rest;
  v_d : digs ds
}.
Record keeps (f F : fobj) : Prop := Keeps {
  k_len : (length (fc f) <= length (fc F))%nat;
  k_own : fl F = fl f \/ (owned f /\ owned F);
  k_ini : forall i d, fc f !! i = Some (Some d) -> dig d -> exists d', fc F !! i = Some (Some d') /\ dig d'
}.
Lemma keeps_refl f : keeps f f.
Proof. constructor; eauto. Qed.
Lemma keeps_trans f g h : keeps f g -> keeps g h -> keeps f h.
Proof.
  intros [A1 A2 A3] [B1 B2 B3]. constructor; [lia| |].
  { unfold owned in *. destruct A2 as [A2|[? ?]], B2 as [B2|[? ?]]; [left; congruence|right|right|right]; split; auto.
    - by rewrite <- A2.
    - by rewrite B2. }
  intros i d Hi Hd. destruct (A3 _ _ Hi Hd) as (d' & Hi' & Hd'). eauto.
Qed.
Lemma keeps_pad f s u k b : owned f -> owned (Fo s u (fc f ++ replicate k None) b) ->
  keeps f (Fo s u (fc f ++ replicate k None) b).
Proof.
  intros. constructor; simpl; [rewrite app_length; lia|by right|].
  intros i d Hi Hd. exists d. split; [|done]. by apply lookup_app_l_Some.
Qed.
Lemma keeps_same f s u : keeps f (Fo s u (fc f) (fl f)).
Proof. constructor; simpl; eauto. Qed.
Lemma keeps_ins f s u off l : digs l ->
  keeps f (Fo s u (list_inserts off (Some <$> l) (fc f)) (fl f)).
Proof.
  intros Hl. constructor; simpl; [by rewrite inserts_length|by left|].
  intros i d Hi Hd. rewrite inserts_lookup. destruct (decide _) as [[H1 H2]|]; [|eauto].
  rewrite fmap_length in H1. destruct (lookup_lt_is_Some_2 l (i - off)%nat) as [x Hx]; [lia|].
  exists x. rewrite list_lookup_fmap, Hx. split; [done|]. by eapply Forall_lookup_1.
Qed.
Lemma keeps_wr0 f s u l : digs l -> (length l <= length (fc f))%nat ->
  keeps f (Fo s u ((Some <$> l) ++ drop (length l) (fc f)) (fl f)).
Proof.
  intros Hl Hlen. pose proof (keeps_ins f s u 0 l Hl) as H.
  rewrite list_inserts_0, fmap_length in H by (by rewrite fmap_length). done.
Qed.

Lemma view_len f ds : view f ds -> (length ds <= length (fc f))%nat.
Proof. intros [_ [r ->] _]. rewrite app_length, fmap_length. lia. Qed.
Lemma view_pad f ds s k b : view f ds -> view (Fo s (fu f) (fc f ++ replicate k None) b) ds.
Proof. intros [Hu [r Hr] Hd]. constructor; simpl; [done| |done]. rewrite Hr, <- app_assoc. eauto. Qed.
Lemma view_darr st σ X o f ds : R st σ X -> σ !! o = Some f -> view f ds -> darr (mem st) (fl f, 0) ds.
Proof. intros HR Ho [_ [r Hr] _]. by eapply R_darr. Qed.
Lemma view_sign f ds s : view f ds -> view (Fo s (fu f) (fc f) (fl f)) ds.
Proof. intros [? ? ?]. by constructor. Qed.

Lemma R_wr0 st σ X o f l : R st σ X -> σ !! o = Some f -> (length l <= length (fc f))%nat ->
  R (set_mem st (wrd (mem st) (fl f, 0) l))
    (<[o := Fo (fs f) (fu f) ((Some <$> l) ++ drop (length l) (fc f)) (fl f)]> σ) X.
Proof.
  intros HR Ho Hl. pose proof (R_writed _ _ _ o f 0 l HR Ho) as H.
  change (Z.to_nat 0) with 0%nat in H.
  rewrite list_inserts_0, fmap_length in H by (by rewrite fmap_length). done.
Qed.

(** ** Abstract values of objects *)
(** sign (0 or 1), magnitude, known capacity, length of the prefix of the array
    known to hold digits, and [Some n] if the array is the external array [n]
    instead of one that belongs to the object. *)
Record zv : Type := Zv { zs : Z; zm : Z; zc : nat; zi : nat; zo : option positive }.
Definition zval (z : zv) : Z := if zs z =? 0 then zm z else - zm z.
Definition zput (z : zv) (s m : Z) : zv := Zv s m (zc z) (zi z) (zo z).
Definition zset (z : zv) (v : Z) : zv := zput z (if v <? 0 then 1 else 0) (Z.abs v).
(** no negative zero *)
Definition norm (z : zv) : Prop := zm z = 0 -> zs z = 0.

Record goodw (f : fobj) (z : zv) (ds : list Z) : Prop := Good {
  g_view : view f ds;
  g_canon : canon ds;
  g_val : val ds = zm z;
  g_sign : fs f = zs z;
  g_bit : zs z = 0 \/ zs z = 1;
  g_cap : (zc z <= length (fc f))%nat;
  g_ini : forall i, (i < zi z)%nat -> exists d, fc f !! i = Some (Some d) /\ dig d;
  g_own : match zo z with None => owned f | Some n => fl f = Ext n end
}.
Definition good (f : fobj) (z : zv) : Prop := exists ds, goodw f z ds.

Definition relz (σ : gmap oid fobj) (ζ : gmap oid zv) : Prop :=
  forall o, match σ !! o, ζ !! o with
            | Some f, Some z => good f z
            | None, None => True
            | _, _ => False
            end.
Definition RZ (st : state) (ζ : gmap oid zv) (X : ctx) : Prop :=
  exists σ, R st σ X /\ relz σ ζ.

Lemma good_intro f z F ds s m :
  good f z -> keeps f F -> view F ds -> canon ds -> val ds = m -> fs F = s -> (s = 0 \/ s = 1) ->
  good F (zput z s m).
Proof.
  intros [ds0 [? ? ? ? ? Hc Hi Ho]] [K1 K2 K3] ? ? ? ? ?. exists ds. constructor; try done; simpl.
  - lia.
  - intros i Hlt. destruct (Hi i Hlt) as (d & Hd & Hdd). eauto.
  - unfold owned in *. destruct (zo z); destruct K2 as [K2|[K2 K2']]; try rewrite K2; try done.
    by rewrite Ho in K2.
Qed.
Lemma good_keep f z F : good f z -> keeps f F -> fs F = fs f -> fu F = fu f ->
  (forall ds, view f ds -> view F ds) -> good F z.
Proof.
  intros [ds0 [? ? ? ? ? Hc Hi Ho]] [K1 K2 K3] Hs Hu Hv. exists ds0. constructor; try done; auto.
  - congruence.
  - lia.
  - intros i Hlt. destruct (Hi i Hlt) as (d & Hd & Hdd). eauto.
  - unfold owned in *. destruct (zo z); destruct K2 as [K2|[K2 K2']]; try rewrite K2; try done.
    by rewrite Ho in K2.
Qed.
Lemma good_m0 f z : good f z -> 0 <= zm z.
Proof. intros [ds [[? ? Hd] ? Hv ? ? ? ? ?]]. rewrite <- Hv. by apply val_bounds. Qed.

Lemma relz_some σ ζ o z : relz σ ζ -> ζ !! o = Some z -> exists f, σ !! o = Some f /\ good f z.
Proof. intros H Ho. specialize (H o). rewrite Ho in H. destruct (σ !! o); [eauto|done]. Qed.
Lemma relz_none σ ζ o : relz σ ζ -> σ !! o = None -> ζ !! o = None.
Proof. intros H Ho. specialize (H o). rewrite Ho in H. by destruct (ζ !! o). Qed.
Lemma relz_none' σ ζ o : relz σ ζ -> ζ !! o = None -> σ !! o = None.
Proof. intros H Ho. specialize (H o). rewrite Ho in H. by destruct (σ !! o). Qed.
Lemma relz_ins σ ζ o f z : relz σ ζ -> good f z -> relz (<[o := f]> σ) (<[o := z]> ζ).
Proof.
  intros H Hg o'. destruct (decide (o = o')) as [->|]; [by rewrite !lookup_insert|].
  rewrite !lookup_insert_ne by done. apply H.
Qed.
Lemma relz_del σ ζ o : relz σ ζ -> relz (delete o σ) (delete o ζ).
Proof.
  intros H o'. destruct (decide (o = o')) as [->|]; [by rewrite !lookup_delete|].
  rewrite !lookup_delete_ne by done. apply H.
Qed.
Lemma RZ_upd st σ ζ X o F z : R st (<[o := F]> σ) X -> relz σ ζ -> good F z -> RZ st (<[o := z]> ζ) X.
Proof. intros. eexists. split; [done|]. by apply relz_ins. Qed.

Lemma RZ_weaken st ζ X o z z' : RZ st ζ X -> ζ !! o = Some z ->
  zs z' = zs z -> zm z' = zm z -> (zc z' <= zc z)%nat -> (zi z' <= zi z)%nat -> zo z' = zo z ->
  RZ st (<[o := z']> ζ) X.
Proof.
  intros (σ & HR & Hz) Ho Hs Hm Hc Hi Hown. destruct (relz_some _ _ _ _ Hz Ho) as (f & Hf & ds & [? ? ? ? ? Hcap Hini ?]).
  exists σ. split; [done|]. rewrite <- (insert_id σ o f) by done. apply relz_ins; [done|].
  exists ds. constructor; try done; try congruence; auto with lia. by rewrite Hown.
Qed.

Lemma zput_id z : zput z (zs z) (zm z) = z. Proof. by destruct z. Qed.
Lemma zput_zput z s m s' m' : zput (zput z s m) s' m' = zput z s' m'. Proof. done. Qed.
Lemma zset_zput z s m v : zset (zput z s m) v = zset z v. Proof. done. Qed.
Lemma zset_zset z v v' : zset (zset z v) v' = zset z v'. Proof. done. Qed.
Lemma zval_zset z v : zval (zset z v) = v.
Proof. unfold zval, zset, zput; simpl. destruct (Z.ltb_spec v 0); simpl; lia. Qed.
Lemma norm_zset z v : norm (zset z v).
Proof. unfold norm, zset, zput; simpl. destruct (Z.ltb_spec v 0); lia. Qed.
Lemma zput_zset z s m : 0 <= m -> (s = 0 \/ s = 1) -> (m = 0 -> s = 0) ->
  zput z s m = zset z (if s =? 0 then m else - m).
Proof.
  intros Hm [->| ->] Hn; unfold zset, zput.
  - rewrite Z.eqb_refl, Z.abs_eq by done. destruct (Z.ltb_spec m 0); [lia|done].
  - change (1 =? 0) with false. cbv iota. rewrite Z.abs_opp, Z.abs_eq by done.
    destruct (Z.ltb_spec (- m) 0); [done|]. lia.
Qed.
Lemma zset_self z : norm z -> 0 <= zm z -> (zs z = 0 \/ zs z = 1) -> zset z (zval z) = z.
Proof. intros. unfold zval. rewrite <- zput_zset by done. apply zput_id. Qed.
Lemma RZ_s01 st ζ X o z : RZ st ζ X -> ζ !! o = Some z -> 0 <= zm z /\ (zs z = 0 \/ zs z = 1).
Proof.
  intros (σ & HR & Hz) Ho. destruct (relz_some _ _ _ _ Hz Ho) as (f & Hf & Hg).
  split; [by eapply good_m0|]. by destruct Hg as [ds []].
Qed.

(** ** Rules *)
Lemma wp_CLAMP o z p l (Q : unit -> state -> Prop) st :
  objs st !! o = Some z -> digits z = Some p -> used z = Z.of_nat (length l) ->
  darr (mem st) p l -> digs l -> (1 <= length l)%nat ->
  (forall ds n, canon ds -> val ds = val l -> l = ds ++ replicate n 0 ->
     Q tt (set_objs st (<[o := Mpz (digits z) (alloc z) (Z.of_nat (length ds)) (sign z)]> (objs st)))) ->
  wp (CLAMP o) Q st.
Proof.
  intros Ho Hp Hu Hl Hd Hn HQ. unfold CLAMP. wb. eapply wp_get_used; [done|].
  wb. eapply wp_get_digits; [done..|]. wb. rewrite Hu, Nat2Z.id.
  apply wp_clamp_loop; [done..|]. intros u Hu' Hc Hv Hz.
  eapply wp_set_used; [done|].
  specialize (HQ (take u l) (length (drop u l))). rewrite take_length, Nat.min_l in HQ by lia. apply HQ; try done.
  rewrite <- (take_drop u l) at 1. f_equal. clear -Hz. induction Hz as [|x k <- _ IH]; [done|]. simpl. by rewrite <- IH.
Qed.
Lemma wpR_CLAMP st σ X o f l (Q : unit -> state -> Prop) :
  R st σ X -> σ !! o = Some f -> view f l -> (1 <= length l)%nat ->
  (forall st' ds n, canon ds -> digs ds -> val ds = val l -> l = ds ++ replicate n 0 ->
     R st' (<[o := Fo (fs f) (Z.of_nat (length ds)) (fc f) (fl f)]> σ) X ->
     view (Fo (fs f) (Z.of_nat (length ds)) (fc f) (fl f)) ds -> Q tt st') ->
  wp (CLAMP o) Q st.
Proof.
  intros HR Ho [Vu [r Vc] Vd] Hl HQ. eapply (wp_CLAMP _ _ _ l); [by eapply R_get|done|done|by eapply R_darr|done|done|].
  intros ds n Hc Hv Hds.
  assert (digs ds) as Hdd by (rewrite Hds in Vd; by apply digs_app in Vd as [? _]).
  eapply HQ; try done.
  - by apply R_setf.
  - constructor; simpl; [done| |done]. exists ((Some <$> replicate n 0) ++ r). by rewrite Vc, Hds, fmap_app, app_assoc.
Qed.

Lemma wp_s_ucmp a b za zb pa pb la lb (Q : Z -> state -> Prop) st :
  objs st !! a = Some za -> digits za = Some pa -> used za = Z.of_nat (length la) -> darr (mem st) pa la ->
  digs la -> canon la ->
  objs st !! b = Some zb -> digits zb = Some pb -> used zb = Z.of_nat (length lb) -> darr (mem st) pb lb ->
  digs lb -> canon lb ->
  Q (Z.sgn (val la - val lb)) st -> wp (s_ucmp a b) Q st.
Proof.
  intros Ha Pa Ua La Da Ca Hb Pb Ub Lb Db Cb HQ. unfold s_ucmp.
  wb. eapply wp_get_used; [done|]. wb. eapply wp_get_used; [done|]. rewrite Ua, Ub.
  destruct (Z.gtb_spec (Z.of_nat (length la)) (Z.of_nat (length lb))) as [Hgt|Hle].
  { apply wp_ret. pose proof (canon_len_lt lb la Db Ca ltac:(lia) (proj1 Cb)).
    rewrite Z.sgn_pos in HQ by lia. done. }
  destruct (Z.gtb_spec (Z.of_nat (length lb)) (Z.of_nat (length la))) as [Hgt|Hle'].
  { apply wp_ret. pose proof (canon_len_lt la lb Da Cb ltac:(lia) (proj1 Ca)).
    rewrite Z.sgn_neg in HQ by lia. done. }
  wb. eapply wp_get_digits; [done..|]. wb. eapply wp_get_digits; [done..|].
  eapply wp_s_cdig; try done. lia.
Qed.
Lemma wpR_ucmp st σ X a b fa fb la lb (Q : Z -> state -> Prop) :
  R st σ X -> σ !! a = Some fa -> view fa la -> canon la -> σ !! b = Some fb -> view fb lb -> canon lb ->
  Q (Z.sgn (val la - val lb)) st -> wp (s_ucmp a b) Q st.
Proof.
  intros HR Ha Va Ca Hb Vb Cb HQ.
  eapply (wp_s_ucmp a b _ _ _ _ la lb);
    [by eapply R_get|done|by apply Va|by eapply view_darr|by apply Va|done|
     by eapply R_get|done|by apply Vb|by eapply view_darr|by apply Vb|done|done].
Qed.
Lemma wpZ_ucmp st ζ X a b za zb (Q : Z -> state -> Prop) :
  RZ st ζ X -> ζ !! a = Some za -> ζ !! b = Some zb -> Q (Z.sgn (zm za - zm zb)) st -> wp (s_ucmp a b) Q st.
Proof.
  intros (σ & HR & Hz) Ha Hb HQ. destruct (relz_some _ _ _ _ Hz Ha) as (fa & Hfa & la & []).
  destruct (relz_some _ _ _ _ Hz Hb) as (fb & Hfb & lb & []).
  eapply wpR_ucmp; try done. by rewrite g_val0, g_val1.
Qed.

Lemma view_hd f ds : view f ds -> canon ds -> exists d r, fc f = Some d :: r /\ dig d /\ ds = d :: tail ds.
Proof.
  intros [_ [r Hr] Hd] [Hl _]. destruct ds as [|d ds]; [simpl in Hl; lia|].
  rewrite Hr. simpl. apply Forall_cons in Hd as [? ?]. eauto.
Qed.
Lemma wpR_load0 st σ X o f ds (Q : Z -> state -> Prop) : R st σ X -> σ !! o = Some f -> view f ds -> canon ds ->
  (forall d ds', ds = d :: ds' -> dig d -> Q d st) -> wp (Load (fl f, 0)) Q st.
Proof.
  intros HR Ho Hv Hc HQ. destruct (view_hd f ds Hv Hc) as (d & r & Hf & Hd & He).
  eapply wp_load; [|by eapply HQ]. eapply R_load0; [done..|]. by rewrite Hf.
Qed.
Lemma canon_used1 ds : digs ds -> canon ds -> val ds = 0 <-> length ds = 1%nat /\ forall d ds', ds = d :: ds' -> d = 0.
Proof.
  intros Hd Hc. rewrite canon_val_0 by done. split.
  - intros ->. split; [done|]. intros d ds' [= <- _]. done.
  - intros [Hl Hd0]. destruct ds as [|d [|e ds]]; [done| |done]. by rewrite (Hd0 _ _ eq_refl).
Qed.
Lemma wpR_CMPZ st σ X o f ds (Q : Z -> state -> Prop) :
  R st σ X -> σ !! o = Some f -> view f ds -> canon ds ->
  Q (if val ds =? 0 then 0 else if fs f =? 1 then -1 else 1) st -> wp (CMPZ o) Q st.
Proof.
  intros HR Ho Hv Hc HQ. pose proof (canon_used1 ds (v_d _ _ Hv) Hc) as Hz.
  unfold CMPZ. wb. eapply wpR_used; [done..|]. rewrite (v_u _ _ Hv).
  destruct (Z.eqb_spec (Z.of_nat (length ds)) 1) as [H1|H1].
  - wb. eapply wpR_digits; [done..|]. wb. eapply wpR_load0; [done..|]. intros d ds' Hds Hd.
    destruct (Z.eqb_spec d 0) as [->|Hn].
    + apply wp_ret. destruct (Z.eqb_spec (val ds) 0) as [|Hne]; [done|]. exfalso. apply Hne, Hz.
      split; [lia|]. intros ??. rewrite Hds. by intros [= <- _].
    + wb. eapply wpR_sign; [done..|]. apply wp_ret.
      destruct (Z.eqb_spec (val ds) 0) as [Hv0|Hne]; [|done]. exfalso. apply Hn. by eapply (proj1 Hz).
  - wb. eapply wpR_sign; [done..|]. apply wp_ret.
    destruct (Z.eqb_spec (val ds) 0) as [Hv0|Hne]; [|done]. exfalso. apply H1. apply Hz in Hv0 as [? _]. lia.
Qed.
Lemma wpZ_CMPZ st ζ X o z (Q : Z -> state -> Prop) :
  RZ st ζ X -> ζ !! o = Some z -> Q (Z.sgn (zval z)) st -> wp (CMPZ o) Q st.
Proof.
  intros (σ & HR & Hz) Ho HQ. destruct (relz_some _ _ _ _ Hz Ho) as (f & Hf & l & []).
  eapply wpR_CMPZ; [done..|]. rewrite g_val0, g_sign0. unfold zval in HQ.
  assert (0 <= zm z) by (rewrite <- g_val0; apply val_bounds; by destruct g_view0).
  destruct (Z.eqb_spec (zm z) 0) as [He|Hne].
  - rewrite He in HQ. by destruct (zs z =? 0).
  - destruct g_bit0 as [He|He]; rewrite He in *; simpl in HQ.
    + change (0 =? 1) with false. change (0 =? 0) with true in HQ. cbv iota in *. by rewrite Z.sgn_pos in HQ by lia.
    + change (1 =? 1) with true. change (1 =? 0) with false in HQ. cbv iota in *. by rewrite Z.sgn_neg in HQ by lia.
Qed.
Lemma wpR_compare_zero st σ X o f ds (Q : Z -> state -> Prop) :
  R st σ X -> σ !! o = Some f -> view f ds -> canon ds ->
  Q (if val ds =? 0 then 0 else if fs f =? 0 then 1 else -1) st -> wp (mp_int_compare_zero o) Q st.
Proof.
  intros HR Ho Hv Hc HQ. pose proof (canon_used1 ds (v_d _ _ Hv) Hc) as Hz.
  unfold mp_int_compare_zero. wb. eapply wpR_used; [done..|]. rewrite (v_u _ _ Hv).
  destruct (Z.eqb_spec (Z.of_nat (length ds)) 1) as [H1|H1].
  - wb. eapply wpR_digits; [done..|]. wb. eapply wpR_load0; [done..|]. intros d ds' Hds Hd.
    destruct (Z.eqb_spec d 0) as [->|Hn].
    + apply wp_ret. destruct (Z.eqb_spec (val ds) 0) as [|Hne]; [done|]. exfalso. apply Hne, Hz.
      split; [lia|]. intros ??. rewrite Hds. by intros [= <- _].
    + wb. eapply wpR_sign; [done..|]. apply wp_ret.
      destruct (Z.eqb_spec (val ds) 0) as [Hv0|Hne]; [|done]. exfalso. apply Hn. by eapply (proj1 Hz).
  - wb. eapply wpR_sign; [done..|]. apply wp_ret.
    destruct (Z.eqb_spec (val ds) 0) as [Hv0|Hne]; [|done]. exfalso. apply H1. apply Hz in Hv0 as [? _]. lia.
Qed.
Lemma wpZ_compare_zero st ζ X o z (Q : Z -> state -> Prop) :
  RZ st ζ X -> ζ !! o = Some z -> Q (Z.sgn (zval z)) st -> wp (mp_int_compare_zero o) Q st.
Proof.
  intros (σ & HR & Hz) Ho HQ. destruct (relz_some _ _ _ _ Hz Ho) as (f & Hf & l & []).
  eapply wpR_compare_zero; [done..|]. rewrite g_val0, g_sign0. unfold zval in HQ.
  assert (0 <= zm z) by (rewrite <- g_val0; apply val_bounds; by destruct g_view0).
  destruct (Z.eqb_spec (zm z) 0) as [He|Hne].
  - rewrite He in HQ. by destruct (zs z =? 0).
  - destruct g_bit0 as [He|He]; rewrite He in *; simpl in HQ.
    + change (0 =? 0) with true in *. cbv iota in *. by rewrite Z.sgn_pos in HQ by lia.
    + change (1 =? 0) with false in *. cbv iota in *. by rewrite Z.sgn_neg in HQ by lia.
Qed.

(** ** Getting fields *)
Lemma wpZ_sign st ζ X o z (Q : Z -> state -> Prop) :
  RZ st ζ X -> ζ !! o = Some z -> Q (zs z) st -> wp (get_sign o) Q st.
Proof.
  intros (σ & HR & Hz) Ho HQ. destruct (relz_some _ _ _ _ Hz Ho) as (f & Hf & l & []).
  eapply wpR_sign; [done..|]. by rewrite g_sign0.
Qed.
Lemma wpZ_set_sign st ζ X o z s (Q : unit -> state -> Prop) :
  RZ st ζ X -> ζ !! o = Some z -> (s = 0 \/ s = 1) ->
  (forall st', RZ st' (<[o := zput z s (zm z)]> ζ) X -> Q tt st') -> wp (set_sign o s) Q st.
Proof.
  intros (σ & HR & Hz) Ho Hs HQ. destruct (relz_some _ _ _ _ Hz Ho) as (f & Hf & Hg).
  eapply wpR_set_sign; [done..|]. intros st' HR'. apply HQ. eapply RZ_upd; [done..|].
  pose proof Hg as [l []]. eapply (good_intro f z _ l); try done; [apply keeps_same|by apply view_sign].
Qed.
