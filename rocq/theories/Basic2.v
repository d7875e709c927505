(** Rules for initialisation with values, swap, comparison and the functions
    that take a small operand. *)
From Coq Require Import ZArith List Lia.
From stdpp Require Import gmap list.
From Verif Require Import Mem Prog Kern Imath Wp MemLem Dig KernLem KernMul KernKar Rel RelWp RelZ Life Basic.
Local Open Scope Z_scope.

(** ** Swap *)
Definition reloc (o : oid) (f : fobj) : fobj :=
  Fo (fs f) (fu f) (fc f) (match fl f with Sng _ => Sng o | b => b end).
Lemma good_reloc o f z : good f z -> good (reloc o f) z.
Proof.
  intros [ds [[Vu Vc Vd] ? ? ? ? ? ? Ho]]. exists ds. constructor; simpl; try done.
  unfold owned in *. destruct (zo z), (fl f) eqn:E; simpl; rewrite ?E; simpl; try done.
Qed.
Lemma R_swap st σ X a c fa fc0 sa sc st' :
  R st σ X -> a <> c -> σ !! a = Some fa -> σ !! c = Some fc0 ->
  mem st !! Sng a = Some [sa] -> mem st !! Sng c = Some [sc] ->
  objs st' = <[c := mpz_of (reloc c fa)]> (<[a := mpz_of (reloc a fc0)]> (objs st)) ->
  mem st' = <[Sng c := [sa]]> (<[Sng a := [sc]]> (mem st)) ->
  glob st' = glob st ->
  R st' (<[c := reloc c fa]> (<[a := reloc a fc0]> σ)) X.
Proof.
  intros H Hne Ha Hc Hma Hmc Ho Hm Hg.
  pose proof (R_get _ _ _ _ _ H Ha) as Hga. pose proof (R_get _ _ _ _ _ H Hc) as Hgc.
  destruct H.
  assert (forall o f, σ !! o = Some f -> fl f = Sng o \/ forall o', fl f <> Sng o') as Hsng.
  { intros o f Hf. pose proof (R_loc o f Hf) as Hl. destruct (fl f); simpl in Hl; subst; auto. }
  assert (forall b, (forall o, b <> Sng o) -> mem st' !! b = mem st !! b) as Hoth.
  { intros b Hb. rewrite Hm, !lookup_insert_ne; auto. }
  assert (forall o f, σ !! o = Some f -> (forall o', fl f <> Sng o') -> fl (reloc c f) = fl f /\ fl (reloc a f) = fl f) as Hrel.
  { intros o f _ Hf. unfold reloc; simpl. destruct (fl f); [|done..]. by destruct (Hf o0). }
  assert (forall o l, mem st' !! Sng o = Some l -> exists l', mem st !! Sng o = Some l' /\ length l = length l') as Hs1.
  { intros o l. rewrite Hm. intros Hl. Rcase; simplify_eq; eauto. }
  constructor.
  - intros o. rewrite Ho. destruct (decide (o = c)) as [->|]; [by rewrite !lookup_insert|].
    rewrite !(lookup_insert_ne _ c) by done. destruct (decide (o = a)) as [->|]; [by rewrite !lookup_insert|].
    rewrite !lookup_insert_ne by done. apply R_objs.
  - intros o f Hf. Rcase; eauto.
  - intros o f Hf. Rcase.
    + destruct (Hsng _ _ Ha) as [E|E].
      * unfold reloc; simpl. rewrite E. rewrite Hm, lookup_insert. f_equal.
        pose proof (R_mem _ _ Ha) as Hx. rewrite E in Hx. congruence.
      * destruct (Hrel _ _ Ha E) as [-> _]. simpl. rewrite Hoth by done. eauto.
    + destruct (Hsng _ _ Hc) as [E|E].
      * unfold reloc; simpl. rewrite E. rewrite Hm, lookup_insert_ne by congruence. rewrite lookup_insert. f_equal.
        pose proof (R_mem _ _ Hc) as Hx. rewrite E in Hx. congruence.
      * destruct (Hrel _ _ Hc E) as [_ ->]. simpl. rewrite Hoth by done. eauto.
    + rewrite Hm, !lookup_insert_ne; [eauto| |]; intros E; apply R_loc in Hf; rewrite <- E in Hf; simpl in Hf; congruence.
  - intros o f Hf. Rcase; simpl; eauto.
  - intros o f Hf. Rcase; simpl; eauto; unfold loc_ok, reloc; simpl; destruct (fl _); done.
  - set (p := fun o => if decide (o = c) then a else if decide (o = a) then c else o).
    assert (forall o f, fl (reloc o f) = Sng o \/ ((forall o', fl f <> Sng o') /\ fl (reloc o f) = fl f)) as Hrl.
    { intros o f. unfold reloc; simpl. destruct (fl f); auto; right; split; auto; done. }
    assert (forall o f, <[c:=reloc c fa]> (<[a:=reloc a fc0]> σ) !! o = Some f ->
      fl f = Sng o \/ exists f0, σ !! p o = Some f0 /\ fl f = fl f0 /\ forall o', fl f0 <> Sng o') as Hor.
    { intros o f. unfold p. destruct (decide (o = c)) as [->|].
      { rewrite lookup_insert. intros [= <-]. destruct (Hrl c fa) as [|[? ?]]; eauto. }
      rewrite lookup_insert_ne by done. destruct (decide (o = a)) as [->|].
      { rewrite lookup_insert. intros [= <-]. destruct (Hrl a fc0) as [|[? ?]]; eauto. }
      rewrite lookup_insert_ne by done. intros Hf. destruct (Hsng _ _ Hf); eauto. }
    intros o1 o2 f1 f2 H1 H2 He.
    destruct (Hor _ _ H1) as [E1|(g1 & G1 & E1 & N1)], (Hor _ _ H2) as [E2|(g2 & G2 & E2 & N2)]; rewrite E1, E2 in He.
    + congruence.
    + by edestruct N2.
    + by edestruct N1.
    + pose proof (R_inj _ _ _ _ G1 G2 He) as Ep. unfold p in Ep. repeat destruct (decide _); congruence.
  - intros o. rewrite Ho, Hm. destruct (decide (o = c)) as [->|]; [rewrite !lookup_insert; split; eauto|].
    rewrite !(lookup_insert_ne _ c) by done. rewrite !(lookup_insert_ne _ (Sng c)) by congruence.
    destruct (decide (o = a)) as [->|]; [rewrite !lookup_insert; split; eauto|].
    rewrite !lookup_insert_ne by congruence. apply R_sng.
  - intros o l Hl. destruct (Hs1 _ _ Hl) as (l' & Hl' & ->). eauto.
  - intros b l Hl. rewrite Hoth; eauto.
  - intros b l o f Hb Hf. Rcase; eauto.
    + destruct (Hsng _ _ Ha) as [E|E]; [|destruct (Hrel _ _ Ha E) as [-> _]; eauto].
      unfold reloc; simpl; rewrite E. intros <-. by eapply R_ctx_sng.
    + destruct (Hsng _ _ Hc) as [E|E]; [|destruct (Hrel _ _ Hc E) as [_ ->]; eauto].
      unfold reloc; simpl; rewrite E. intros <-. by eapply R_ctx_sng.
  - done.
  - intros b l Hb. destruct b as [o|n|n]; [eauto| |].
    all: rewrite Hoth in Hb by done; destruct (R_all _ _ Hb) as [(o & f & Hf & E)|[?|?]]; [left|auto|auto].
    all: destruct (decide (o = a)) as [->|]; [exists c, (reloc c fa); rewrite lookup_insert; split; [done|]; unfold reloc; simpl; replace f with fa in E by congruence; by rewrite E|].
    all: destruct (decide (o = c)) as [->|]; [exists a, (reloc a fc0); rewrite lookup_insert_ne, lookup_insert by done; split; [done|]; unfold reloc; simpl; replace f with fc0 in E by congruence; by rewrite E|].
    all: exists o, f; by rewrite !lookup_insert_ne by done.
  - congruence.
  - done.
Qed.

Lemma wpZ_swap st ζ X a c za zc (Q : unit -> state -> Prop) :
  RZ st ζ X -> ζ !! a = Some za -> ζ !! c = Some zc ->
  (forall st', RZ st' (<[c := za]> (<[a := zc]> ζ)) X -> Q tt st') ->
  wp (mp_int_swap a c) Q st.
Proof.
  intros HZ Ha Hc HQ. unfold mp_int_swap. destruct (bool_decide_reflect (a = c)) as [->|Hne].
  { apply wp_ret. apply HQ. replace zc with za by congruence. by rewrite !insert_id by (by rewrite ?insert_id). }
  destruct HZ as (σ & HR & Hz).
  destruct (relz_some _ _ _ _ Hz Ha) as (fa & Hfa & Ga). destruct (relz_some _ _ _ _ Hz Hc) as (fc0 & Hfc & Gc).
  pose proof (R_get _ _ _ _ _ HR Hfa) as Hga. pose proof (R_get _ _ _ _ _ HR Hfc) as Hgc.
  assert (exists sa, mem st !! Sng a = Some [sa]) as [sa Hsa].
  { destruct (proj1 (Rel.R_sng _ _ _ HR a)) as [l Hl]; [eauto|]. pose proof (Rel.R_sng1 _ _ _ HR _ _ Hl).
    destruct l as [|x [|]]; try done. eauto. }
  assert (exists sc, mem st !! Sng c = Some [sc]) as [sc Hsc].
  { destruct (proj1 (Rel.R_sng _ _ _ HR c)) as [l Hl]; [eauto|]. pose proof (Rel.R_sng1 _ _ _ HR _ _ Hl).
    destruct l as [|x [|]]; try done. eauto. }
  wb. eapply wp_getO; [done|]. wb. eapply wp_getO; [done|].
  eapply wp_Peek. { by rewrite (load_blk _ _ [sa]). }
  eapply wp_Peek. { by rewrite (load_blk _ _ [sc]). }
  eapply wp_Poke. { by rewrite (load_blk _ _ [sa]). }
  set (st1 := set_mem st _).
  assert (mem st1 = <[Sng a := [sc]]> (mem st)) as Hm1.
  { unfold st1. rewrite mem_set_mem. apply map_eq. intros b. destruct (decide (b = Sng a)) as [->|].
    - rewrite lookup_insert. rewrite <- wr_1. erewrite (wr_lookup_eq (mem st) (Sng a, 0)); [|exact Hsa]. done.
    - rewrite lookup_insert_ne by done. rewrite <- wr_1. by rewrite wr_lookup_ne. }
  eapply wp_Poke. { erewrite (load_blk _ (Sng c, 0) [sc]); [done| |done]. rewrite Hm1. simpl. by rewrite lookup_insert_ne by congruence. }
  set (st2 := set_mem st1 _).
  assert (mem st2 = <[Sng c := [sa]]> (<[Sng a := [sc]]> (mem st))) as Hm2.
  { unfold st2. rewrite mem_set_mem, Hm1. apply map_eq. intros b. destruct (decide (b = Sng c)) as [->|].
    - rewrite lookup_insert. rewrite <- wr_1. erewrite (wr_lookup_eq _ (Sng c, 0)); [|simpl; rewrite lookup_insert_ne by congruence; exact Hsc]. done.
    - rewrite lookup_insert_ne by done. rewrite <- wr_1. by rewrite wr_lookup_ne. }
  assert (objs st2 = objs st) as Ho2 by done. assert (glob st2 = glob st) as Hg2 by done.
  clearbody st2. clear st1 Hm1.
  wb. eapply wp_setO; [rewrite Ho2; exact Hga|]. wb. eapply wp_setO.
  { rewrite objs_set_objs, Ho2, lookup_insert_ne by done. exact Hgc. }
  rewrite set_objs_set_objs, objs_set_objs.
  set (st3 := set_objs st2 _).
  assert (forall st4, objs st4 = <[c := mpz_of (reloc c fa)]> (<[a := mpz_of (reloc a fc0)]> (objs st)) ->
     mem st4 = mem st2 -> glob st4 = glob st2 -> Q tt st4) as HQ4.
  { intros st4 E1 E2 E3. apply HQ. eexists. split.
    - eapply (R_swap st σ X a c fa fc0 sa sc st4); try done; congruence.
    - apply relz_ins; [|by apply good_reloc]. apply relz_ins; [done|]. by apply good_reloc. }
  assert (objs st3 = <[c := mpz_of fa]> (<[a := mpz_of fc0]> (objs st))) as Ho3.
  { unfold st3. rewrite objs_set_objs. by rewrite Ho2. }
  assert (mem st3 = mem st2) as Hm3 by done. assert (glob st3 = glob st2) as Hg3 by done. clearbody st3.
  assert (forall o o' f, σ !! o = Some f -> mpz_of (reloc o' f) =
     if bool_decide (fl f = Sng o) then Mpz (Some (Sng o', 0)) (alloc (mpz_of f)) (used (mpz_of f)) (sign (mpz_of f)) else mpz_of f) as Hrel.
  { intros o o' f Hf. pose proof (R_loc _ _ _ HR _ _ Hf) as Hl. unfold mpz_of, reloc. simpl.
    case_bool_decide as E; [by rewrite E|]. destruct (fl f); try done. simpl in Hl. congruence. }
  wb. eapply wp_getO. { rewrite Ho3, lookup_insert_ne, lookup_insert by done. done. }
  pose proof (Hrel c a fc0 Hfc) as Rc. pose proof (Hrel a c fa Hfa) as Ra.
  wb. simpl digits. 
  assert (bool_decide (Some (fl fc0, 0) = Some (Sng c, 0)) = bool_decide (fl fc0 = Sng c)) as ->.
  { apply bool_decide_ext. split; congruence. }
  set (Q2 := fun (_ : unit) (st4 : state) => 
    objs st4 = <[c := mpz_of fa]> (<[a := mpz_of (reloc a fc0)]> (objs st)) /\ mem st4 = mem st2 /\ glob st4 = glob st2).
  apply (wp_mono _ Q2 _ st3).
  { destruct (bool_decide_reflect (fl fc0 = Sng c)) as [E|E].
    - eapply wp_set_digits. { rewrite Ho3, lookup_insert_ne, lookup_insert by done. done. }
      unfold Q2. rewrite objs_set_objs, Ho3. rewrite (insert_commute _ a c) by done. rewrite insert_insert. rewrite Rc. done.
    - apply wp_ret. unfold Q2. rewrite Ho3, Rc. done. }
  intros _ st4 (Ho4 & Hm4 & Hg4).
  wb. eapply wp_getO. { rewrite Ho4, lookup_insert. done. }
  simpl digits.
  assert (bool_decide (Some (fl fa, 0) = Some (Sng a, 0)) = bool_decide (fl fa = Sng a)) as ->.
  { apply bool_decide_ext. split; congruence. }
  destruct (bool_decide_reflect (fl fa = Sng a)) as [E|E].
  - eapply wp_set_digits. { rewrite Ho4, lookup_insert. done. }
    apply HQ4; [|done..]. rewrite objs_set_objs, Ho4, insert_insert, Ra. done.
  - apply wp_ret. apply HQ4; [|done..]. rewrite Ho4, Ra. done.
Qed.

(** ** Initialisation with a size *)
Lemma wpR_init_size st σ X o z n (Q : Z -> state -> Prop) :
  R st σ X -> craw X !! o = Some z -> 0 <= n < RADIX - 1 ->
  (forall st' k b, R st' (<[o := Fo 0 1 (Some 0 :: replicate k None) b]> σ) (with_craw X (delete o (craw X))) ->
     owned (Fo 0 1 (Some 0 :: replicate k None) b) ->
     n <= Z.of_nat (S k) -> Z.of_nat (S k) <= MAXD -> Q MP_OK st') ->
  wp (mp_int_init_size o n) Q st.
Proof.
  intros HR Ho Hn HQ. unfold mp_int_init_size. destruct (Z.eqb_spec n 1) as [->|Hn1].
  { eapply wpR_init; [done..|]. intros st' HR'. apply (HQ st' 0%nat (Sng o)); [done|done|lia|mx]. }
  wb. apply wp_getG. rewrite (R_glob _ _ _ HR). destruct (R_ok _ _ _ HR) as [Hg _].
  set (p := if n =? 0 then default_precision (cglob X) else s_round_prec n).
  assert (0 < p /\ n <= p) as [Hp0 Hnp].
  { unfold p. destruct (Z.eqb_spec n 0) as [->|]; [lia|]. pose proof (round_prec n Hn). lia. }
  clearbody p. wb. apply wp_s_alloc. intros Hmax i Hi. set (b := Hp i).
  destruct (R_newB st σ X b (blank p) HR) as [Hcb HR1]; [exact Hi|done|].
  set (st1 := add_block st b (blank p)) in *.
  set (cells := Some 0 :: replicate (Z.to_nat p - 1) None).
  assert (length cells = Z.to_nat p) as Lc by (unfold cells; simpl; rewrite replicate_length; lia).
  assert (blank p = None :: replicate (Z.to_nat p - 1) None) as Hbl.
  { unfold blank. destruct (Z.to_nat p) as [|m] eqn:E; [lia|]. simpl. by rewrite Nat.sub_0_r. }
  pose proof (R_set_raw _ _ _ o z (Mpz (Some (b, 0)) (alloc z) (used z) (sign z)) HR1 Ho) as HR2.
  wb. eapply wp_set_digits; [by eapply R_get_raw|]. set (st2 := set_objs st1 _) in *. simpl in HR2.
  wb. eapply wp_store.
  { rewrite (load_blk _ _ (blank p)); [|eapply (R_ctx _ _ _ HR2); simpl; apply lookup_insert|done]. by rewrite Hbl. }
  rewrite <- wr_1.
  eapply (R_cwrite _ _ _ b (blank p) 0 [Some 0]) in HR2; [|simpl; apply lookup_insert].
  assert (list_inserts (Z.to_nat 0) [Some 0] (blank p) = cells) as Hci by (by rewrite Hbl).
  rewrite Hci in HR2. set (st3 := set_mem st2 _) in *.
  wb. eapply wp_set_used; [eapply R_get_raw; [exact HR2|simpl; apply lookup_insert]|].
  wb. eapply wp_set_alloc; [simpl; apply lookup_insert|]. wb. eapply wp_set_sign; [simpl; apply lookup_insert|].
  apply wp_ret. rewrite !set_objs_set_objs, !objs_set_objs, !insert_insert. cbn [digits alloc used sign].
  eapply (R_init_blk _ _ _ o _ b cells 0 1) in HR2; [|simpl; apply lookup_insert|simpl; apply lookup_insert|lia].
  apply (HQ _ (Z.to_nat p - 1)%nat b); [|done|lia|lia].
  fold cells. unfold mpz_of in HR2. simpl fs in HR2. simpl fu in HR2. simpl fc in HR2. simpl fl in HR2.
  rewrite Lc, Z2Nat.id in HR2 by lia.
  unfold with_craw, MP_ZPOS. simpl in HR2. 
  replace (delete b (<[b := cells]> (<[b := blank p]> (cmem X)))) with (cmem X) in HR2
    by (rewrite insert_insert, delete_insert; done).
  replace (delete o (<[o:=Mpz (Some (b, 0)) (alloc z) (used z) (sign z)]> (craw X))) with (delete o (craw X)) in HR2
    by (by rewrite delete_insert_delete). exact HR2.
Qed.
Definition zblank (n : nat) : zv := Zv 0 0 n 1 None.
Lemma good_blank k b : owned (Fo 0 1 (Some 0 :: replicate k None) b) ->
  good (Fo 0 1 (Some 0 :: replicate k None) b) (zblank (S k)).
Proof.
  intros Ho. exists [0]. constructor; simpl; try done; [|apply canon_sing|auto| |].
  - constructor; simpl; [done|by eexists|by apply Forall_singleton, dig_0].
  - by rewrite replicate_length.
  - intros i Hi. assert (i = 0)%nat as -> by lia. exists 0. split; [done|apply dig_0].
Qed.
Lemma wpZ_init_size st ζ X o z n (Q : Z -> state -> Prop) :
  RZ st ζ X -> craw X !! o = Some z -> 0 <= n < RADIX - 1 ->
  (forall st', ζ !! o = None -> RZ st' (<[o := zblank (Z.to_nat n)]> ζ) (with_craw X (delete o (craw X))) -> Q MP_OK st') ->
  wp (mp_int_init_size o n) Q st.
Proof.
  intros (σ & HR & Hz) Ho Hn HQ. eapply wpR_init_size; [done..|].
  intros st' k b HR' Hob Hk _. apply HQ.
  { eapply relz_none; [done|]. by eapply R_raw_None. }
  eapply RZ_upd; [done..|]. destruct (good_blank k b Hob) as [ds []]. exists ds. constructor; try done. simpl in *. lia.
Qed.

(** ** Initialisation from another integer *)
Lemma wpZ_init_copy st ζ X o a z za (Q : Z -> state -> Prop) :
  RZ st ζ X -> craw X !! o = Some z -> ζ !! a = Some za ->
  (forall st', ζ !! o = None -> RZ st' (<[o := zput zzero (zs za) (zm za)]> ζ) (with_craw X (delete o (craw X))) -> Q MP_OK st') ->
  wp (mp_int_init_copy o a) Q st.
Proof.
  intros (σ & HR & Hz) Ho Ha HQ.
  destruct (relz_get _ _ _ _ Hz Ha) as (fa & la & Hfa & Ga).
  destruct (goodw_len _ _ _ _ _ _ _ HR Hfa Ga) as [La1 La2].
  assert (a <> o) as Hne. { intros ->. pose proof (R_raw_None _ _ _ _ _ HR Ho). congruence. }
  unfold mp_int_init_copy. wb. eapply wpR_used; [done..|]. rewrite (goodw_u _ _ _ Ga).
  wb. apply (wp_mono _ (fun r st' => r = MP_OK /\ exists k b, R st' (<[o := Fo 0 1 (Some 0 :: replicate k None) b]> σ) (with_craw X (delete o (craw X))) /\
     owned (Fo 0 1 (Some 0 :: replicate k None) b) /\ (length la <= S k)%nat)).
  { destruct (Z.eqb_spec (Z.of_nat (length la)) 1) as [E|E].
    - eapply wpR_init; [done..|]. intros st' HR'. split; [done|]. exists 0%nat, (Sng o). split; [done|]. split; [done|lia].
    - wb. apply wp_getG. rewrite (R_glob _ _ _ HR). destruct (R_ok _ _ _ HR) as [Hg _].
      set (mm := MAX (Z.of_nat (length la)) (default_precision (cglob X))).
      assert (Z.of_nat (length la) <= mm /\ 0 <= mm < RADIX - 1) as [Hm1 Hm2].
      { unfold mm, MAX. destruct (Z.gtb_spec (default_precision (cglob X)) (Z.of_nat (length la))); mx. }
      eapply wpR_init_size; [done..|]. intros st' k b HR' Hob Hk _. split; [done|]. exists k, b. split; [done|]. split; [done|lia]. }
  intros r st1 (-> & k & b & HR1 & Hob & Hk). change (negb (MP_OK =? MP_OK)) with false. cbv iota.
  set (F := Fo 0 1 (Some 0 :: replicate k None) b) in *.
  assert (length (fc F) = S k) as LF by (unfold F; simpl; by rewrite replicate_length).
  wb. eapply wpR_set_used; [exact HR1|apply lookup_insert|]. intros st2 HR2. rewrite insert_insert in HR2.
  wb. eapply wpR_sign; [exact HR2|by rewrite lookup_insert_ne|]. rewrite (g_sign _ _ _ Ga).
  wb. eapply wpR_set_sign; [exact HR2|apply lookup_insert|]. intros st3 HR3. rewrite insert_insert in HR3.
  cbn [fs fu fc fl] in HR3.
  wb. eapply wpR_digits; [exact HR3|by rewrite lookup_insert_ne|].
  wb. eapply wpR_digits; [exact HR3|apply lookup_insert|].
  wb. eapply (wp_COPY_d la); [done|eapply view_darr; [exact HR3|by rewrite lookup_insert_ne|apply Ga]| | |].
  { eapply R_valid; [exact HR3|apply lookup_insert|done|cbn [fc]; lia]. }
  { left. eapply R_fl_ne; [exact HR3|by rewrite lookup_insert_ne|apply lookup_insert|done]. }
  pose proof (R_wr0 _ _ _ o _ la HR3 (lookup_insert _ _ _) ltac:(cbn [fc]; lia)) as HR4. rewrite insert_insert in HR4.
  cbn [fs fu fc fl] in HR4.
  apply wp_ret. apply HQ. { eapply relz_none; [done|]. by eapply R_raw_None. }
  eapply RZ_upd; [exact HR4|done|].
  assert (good F zzero) as GF.
  { destruct (good_blank k b Hob) as [ds []]. exists ds. constructor; try done. simpl in *. lia. }
  eapply (good_intro F zzero _ la); [exact GF|apply keeps_wr0; [by eapply goodw_dig|lia]| |apply Ga|apply Ga|done|apply Ga].
  constructor; simpl; [done|by eexists|by eapply goodw_dig].
Qed.

(** ** Small operands *)
Lemma wpZ_with_fake1 {A} st ζ X v (body : oid -> prog A) (Q : A -> state -> Prop) :
  RZ st ζ X -> - 2 ^ 63 < v < 2 ^ 63 ->
  (forall t n st1, ζ !! t = None -> RZ st1 (<[t := fakev (sgnbit v) (Z.abs v) n]> ζ) X ->
     wp (body t) (fun r st2 => exists ζ2 X2, ζ2 !! t = None /\ RZ st2 (<[t := fakev (sgnbit v) (Z.abs v) n]> ζ2) X2 /\
                    (forall st3, RZ st3 ζ2 X2 -> Q r st3)) st1) ->
  wp (with_fake v body) Q st.
Proof.
  intros HZ Hv HB. eapply wpZ_with_fake; [done..|]. intros t n st1 Ht HZ1.
  eapply wp_mono; [by apply (HB t n)|]. intros r st2 (ζ2 & X2 & Hn & HZ2 & HQ).
  exists (<[t := fakev (sgnbit v) (Z.abs v) n]> ζ2). eexists _, X2. rewrite lookup_insert. split; [done|]. split; [done|].
  split; [done|]. intros st3. rewrite delete_insert by done. apply HQ.
Qed.
Lemma wpZ_with_ufake1 {A} st ζ X v (body : oid -> prog A) (Q : A -> state -> Prop) :
  RZ st ζ X -> 0 <= v < RADIX * RADIX ->
  (forall t n st1, ζ !! t = None -> RZ st1 (<[t := fakev 0 v n]> ζ) X ->
     wp (body t) (fun r st2 => exists ζ2 X2, ζ2 !! t = None /\ RZ st2 (<[t := fakev 0 v n]> ζ2) X2 /\
                    (forall st3, RZ st3 ζ2 X2 -> Q r st3)) st1) ->
  wp (with_ufake v body) Q st.
Proof.
  intros HZ Hv HB. eapply wpZ_with_ufake; [done..|]. intros t n st1 Ht HZ1.
  eapply wp_mono; [by apply (HB t n)|]. intros r st2 (ζ2 & X2 & Hn & HZ2 & HQ).
  exists (<[t := fakev 0 v n]> ζ2). eexists _, X2. rewrite lookup_insert. split; [done|]. split; [done|].
  split; [done|]. intros st3. rewrite delete_insert by done. apply HQ.
Qed.
Lemma fakev_val v n : zval (fakev (sgnbit v) (Z.abs v) n) = v.
Proof. unfold zval, fakev, sgnbit; simpl. destruct (Z.ltb_spec v 0); simpl; lia. Qed.
Lemma fakev_norm v n : norm (fakev (sgnbit v) (Z.abs v) n).
Proof. unfold norm, fakev, sgnbit; simpl. destruct (Z.ltb_spec v 0); lia. Qed.
Lemma ufakev_norm v n : norm (fakev 0 v n). Proof. done. Qed.
Lemma fakev_put z v : zput z (sgnbit v) (Z.abs v) = zset z v. Proof. done. Qed.
Lemma ufakev_put z v : 0 <= v -> zput z 0 v = zset z v.
Proof. intros. unfold zset. rewrite Z.abs_eq by done. by destruct (Z.ltb_spec v 0); [lia|]. Qed.

Lemma ins_ne_none (ζ : gmap oid zv) c t x z : ζ !! c = Some x -> ζ !! t = None -> <[c := z]> ζ !! t = None /\ c <> t.
Proof. intros. assert (c <> t) by congruence. by rewrite lookup_insert_ne. Qed.
(** finish a body that changed [c] under a small operand [t] *)
Ltac fin_fake c t HZ' HQ :=
  eexists (<[c := _]> _), _; split; [eapply ins_ne_none; eassumption|]; split;
  [rewrite (insert_commute _ t c) by congruence; exact HZ'|]; exact HQ.

Lemma wpZ_add_value st ζ X a v c za zc (Q : Z -> state -> Prop) :
  RZ st ζ X -> ζ !! a = Some za -> ζ !! c = Some zc -> zo zc = None -> norm za -> - 2 ^ 63 < v < 2 ^ 63 ->
  (forall st', RZ st' (<[c := zset zc (zval za + v)]> ζ) X -> Q MP_OK st') ->
  wp (mp_int_add_value a v c) Q st.
Proof.
  intros HZ Ha Hc Hown Na Hv HQ. unfold mp_int_add_value. eapply wpZ_with_fake1; [done..|].
  intros t n st1 Ht HZ1. assert (a <> t) by congruence. assert (c <> t) by congruence.
  eapply wpZ_add; [exact HZ1|by rewrite lookup_insert_ne|apply lookup_insert|by rewrite lookup_insert_ne|done|done|apply fakev_norm|].
  intros st' HZ'. rewrite fakev_val in HZ'. fin_fake c t HZ' HQ.
Qed.
Lemma wpZ_sub_value st ζ X a v c za zc (Q : Z -> state -> Prop) :
  RZ st ζ X -> ζ !! a = Some za -> ζ !! c = Some zc -> zo zc = None -> norm za -> - 2 ^ 63 < v < 2 ^ 63 ->
  (forall st', RZ st' (<[c := zset zc (zval za - v)]> ζ) X -> Q MP_OK st') ->
  wp (mp_int_sub_value a v c) Q st.
Proof.
  intros HZ Ha Hc Hown Na Hv HQ. unfold mp_int_sub_value. eapply wpZ_with_fake1; [done..|].
  intros t n st1 Ht HZ1. assert (a <> t) by congruence. assert (c <> t) by congruence.
  eapply wpZ_sub; [exact HZ1|by rewrite lookup_insert_ne|apply lookup_insert|by rewrite lookup_insert_ne|done|done|apply fakev_norm|].
  intros st' HZ'. rewrite fakev_val in HZ'. fin_fake c t HZ' HQ.
Qed.
Lemma wpZ_set_value st ζ X c v zc (Q : Z -> state -> Prop) :
  RZ st ζ X -> ζ !! c = Some zc -> zo zc = None -> - 2 ^ 63 < v < 2 ^ 63 ->
  (forall st', RZ st' (<[c := zset zc v]> ζ) X -> Q MP_OK st') ->
  wp (mp_int_set_value c v) Q st.
Proof.
  intros HZ Hc Hown Hv HQ. unfold mp_int_set_value. eapply wpZ_with_fake1; [done..|].
  intros t n st1 Ht HZ1. assert (c <> t) by congruence.
  eapply wpZ_copy; [exact HZ1|apply lookup_insert|by rewrite lookup_insert_ne|done|].
  intros st' HZ'. fin_fake c t HZ' HQ.
Qed.
Lemma wpZ_set_uvalue st ζ X c v zc (Q : Z -> state -> Prop) :
  RZ st ζ X -> ζ !! c = Some zc -> zo zc = None -> 0 <= v < RADIX * RADIX ->
  (forall st', RZ st' (<[c := zset zc v]> ζ) X -> Q MP_OK st') ->
  wp (mp_int_set_uvalue c v) Q st.
Proof.
  intros HZ Hc Hown Hv HQ. unfold mp_int_set_uvalue. eapply wpZ_with_ufake1; [done..|].
  intros t n st1 Ht HZ1. assert (c <> t) by congruence.
  eapply wpZ_copy; [exact HZ1|apply lookup_insert|by rewrite lookup_insert_ne|done|].
  intros st' HZ'. cbn [zs zm fakev] in HZ'. rewrite ufakev_put in HZ' by lia. fin_fake c t HZ' HQ.
Qed.
Lemma wpZ_init_value st ζ X o z v (Q : Z -> state -> Prop) :
  RZ st ζ X -> craw X !! o = Some z -> - 2 ^ 63 < v < 2 ^ 63 ->
  (forall st', ζ !! o = None -> RZ st' (<[o := zset zzero v]> ζ) (with_craw X (delete o (craw X))) -> Q MP_OK st') ->
  wp (mp_int_init_value o v) Q st.
Proof.
  intros HZ Ho Hv HQ. unfold mp_int_init_value. eapply wpZ_with_fake1; [done..|].
  intros t n st1 Ht HZ1. eapply wpZ_init_copy; [exact HZ1|done|apply lookup_insert|].
  intros st' Hno HZ'. apply lookup_insert_None in Hno as [Hno Hne].
  eexists (<[o := _]> ζ), _. split; [by rewrite lookup_insert_ne|]. split; [rewrite (insert_commute _ t o) by done; exact HZ'|].
  intros st3 HZ3. by apply HQ.
Qed.
Lemma wpZ_init_uvalue st ζ X o z v (Q : Z -> state -> Prop) :
  RZ st ζ X -> craw X !! o = Some z -> 0 <= v < RADIX * RADIX ->
  (forall st', ζ !! o = None -> RZ st' (<[o := zset zzero v]> ζ) (with_craw X (delete o (craw X))) -> Q MP_OK st') ->
  wp (mp_int_init_uvalue o v) Q st.
Proof.
  intros HZ Ho Hv HQ. unfold mp_int_init_uvalue. eapply wpZ_with_ufake1; [done..|].
  intros t n st1 Ht HZ1. eapply wpZ_init_copy; [exact HZ1|done|apply lookup_insert|].
  intros st' Hno HZ'. apply lookup_insert_None in Hno as [Hno Hne].
  cbn [zs zm fakev] in HZ'. rewrite ufakev_put in HZ' by lia.
  eexists (<[o := _]> ζ), _. split; [by rewrite lookup_insert_ne|]. split; [rewrite (insert_commute _ t o) by done; exact HZ'|].
  intros st3 HZ3. by apply HQ.
Qed.

(** ** Comparison *)
Lemma wpZ_compare st ζ X a b za zb (Q : Z -> state -> Prop) :
  RZ st ζ X -> ζ !! a = Some za -> ζ !! b = Some zb -> norm za -> norm zb ->
  Q (Z.sgn (zval za - zval zb)) st -> wp (mp_int_compare a b) Q st.
Proof.
  intros HZ Ha Hb Na Nb HQ. unfold norm in *.
  destruct (RZ_s01 _ _ _ _ _ HZ Ha) as [Hma Hsa]. destruct (RZ_s01 _ _ _ _ _ HZ Hb) as [Hmb Hsb].
  rewrite !zval_sgn in HQ by done.
  unfold mp_int_compare. wb. eapply wpZ_sign; [done..|]. wb. eapply wpZ_sign; [done..|].
  unfold MP_ZPOS. destruct (Z.eqb_spec (zs za) (zs zb)) as [E|E].
  - wb. eapply wpZ_ucmp; [done..|]. apply wp_ret. rewrite <- E in HQ.
    destruct Hsa as [Hs|Hs]; rewrite Hs in *; simpl.
    + by rewrite !Z.mul_1_l in HQ.
    + replace (_ - _) with (- (zm za - zm zb)) in HQ by lia. by rewrite Z.sgn_opp in HQ.
  - apply wp_ret. destruct Hsa as [Hs|Hs], Hsb as [Hs'|Hs']; rewrite Hs, Hs' in *; try done; simpl.
    + rewrite Z.sgn_pos in HQ; [done|]. lia.
    + rewrite Z.sgn_neg in HQ; [done|]. lia.
Qed.
Lemma wpZ_uvcmp st ζ X a za v (Q : Z -> state -> Prop) :
  RZ st ζ X -> ζ !! a = Some za -> 0 <= v < RADIX * RADIX ->
  (forall st', RZ st' ζ X -> Q (Z.sgn (zm za - v)) st') -> wp (s_uvcmp a v) Q st.
Proof.
  intros HZ Ha Hv HQ. unfold s_uvcmp. eapply wpZ_with_ufake1; [done..|]. intros t n st1 Ht HZ1.
  assert (a <> t) by congruence.
  eapply wpZ_ucmp; [exact HZ1|by rewrite lookup_insert_ne|apply lookup_insert|]. exists ζ, X. split; [done|]. split; [done|]. exact HQ.
Qed.
Lemma wpZ_vcmp st ζ X a za v (Q : Z -> state -> Prop) :
  RZ st ζ X -> ζ !! a = Some za -> - 2 ^ 63 <= v < 2 ^ 63 ->
  (forall st', RZ st' ζ X -> Q (Z.sgn (zm za - Z.abs v)) st') -> wp (s_vcmp a v) Q st.
Proof.
  intros HZ Ha Hv HQ. unfold s_vcmp.
  replace (if v <? 0 then w64 (- w64 v) else w64 v) with (Z.abs v).
  - eapply wpZ_uvcmp; [done..| |done]. rewrite RADIX_val. lia.
  - unfold w64. destruct (Z.ltb_spec v 0).
    + replace (v mod 2 ^ 64) with (v + 2 ^ 64).
      * replace (- (v + 2 ^ 64)) with (- v + (-1) * 2 ^ 64) by lia. rewrite Z.mod_add by lia.
        rewrite Z.mod_small by lia. lia.
      * rewrite <- (Z.mod_small (v + 2 ^ 64) (2 ^ 64)) by lia. replace (v + 2 ^ 64) with (v + 1 * 2 ^ 64) by lia. by rewrite Z.mod_add by lia.
    + rewrite Z.mod_small by lia. lia.
Qed.
Lemma wpZ_compare_value st ζ X a za v (Q : Z -> state -> Prop) :
  RZ st ζ X -> ζ !! a = Some za -> norm za -> - 2 ^ 63 <= v < 2 ^ 63 ->
  (forall st', RZ st' ζ X -> Q (Z.sgn (zval za - v)) st') -> wp (mp_int_compare_value a v) Q st.
Proof.
  intros HZ Ha Na Hv HQ. unfold norm in *. destruct (RZ_s01 _ _ _ _ _ HZ Ha) as [Hma Hsa].
  rewrite !zval_sgn in HQ by done.
  unfold mp_int_compare_value, MP_NEG, MP_ZPOS. wb. eapply wpZ_sign; [done..|].
  destruct (Z.ltb_spec v 0) as [Hlt|Hge]; destruct Hsa as [Hs|Hs]; rewrite Hs in *; simpl.
  - apply wp_ret. specialize (HQ st HZ). rewrite Z.sgn_pos in HQ by lia. done.
  - wb. eapply wpZ_vcmp; [done..|]. intros st' HZ'. apply wp_ret. specialize (HQ st' HZ').
    replace (_ - _) with (- (zm za - Z.abs v)) in HQ by lia. by rewrite Z.sgn_opp in HQ.
  - wb. eapply wpZ_vcmp; [done..|]. intros st' HZ'. apply wp_ret. specialize (HQ st' HZ').
    rewrite Z.mul_1_l in HQ. by rewrite Z.abs_eq by lia.
  - apply wp_ret. specialize (HQ st HZ). rewrite Z.sgn_neg in HQ by lia. done.
Qed.
Lemma wpZ_compare_uvalue st ζ X a za v (Q : Z -> state -> Prop) :
  RZ st ζ X -> ζ !! a = Some za -> norm za -> 0 <= v < RADIX * RADIX ->
  (forall st', RZ st' ζ X -> Q (Z.sgn (zval za - v)) st') -> wp (mp_int_compare_uvalue a v) Q st.
Proof.
  intros HZ Ha Na Hv HQ. unfold norm in *. destruct (RZ_s01 _ _ _ _ _ HZ Ha) as [Hma Hsa].
  rewrite !zval_sgn in HQ by done.
  unfold mp_int_compare_uvalue, MP_NEG. wb. eapply wpZ_sign; [done..|].
  destruct Hsa as [Hs|Hs]; rewrite Hs in *; simpl.
  - eapply wpZ_uvcmp; [done..|]. intros st' HZ'. specialize (HQ st' HZ'). by rewrite Z.mul_1_l in HQ.
  - apply wp_ret. specialize (HQ st HZ). rewrite Z.sgn_neg in HQ by lia. done.
Qed.
