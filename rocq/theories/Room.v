(** Storage never shrinks: rules that follow the size of each digit array. *)
From Coq Require Import ZArith List Lia.
From stdpp Require Import gmap list.
From Verif Require Import Mem Prog Kern Imath Wp MemLem Dig KernLem Rel RelWp RelZ Life Basic Basic2 Mult Divi Powr Spec SpecHist Public.
Local Open Scope Z_scope.

Lemma RZ_room st ζ X o z : RZ st ζ X -> ζ !! o = Some z -> Z.of_nat (zc z) <= room st o.
Proof.
  intros (σ & HR & Hz) Ho. destruct (relz_get _ _ _ _ Hz Ho) as (f & ds & Hf & G). unfold room. rewrite (R_get _ _ _ _ _ HR Hf).
  cbn [alloc mpz_of]. pose proof (g_cap _ _ _ G). lia.
Qed.
(** The state described with the actual sizes. *)
Lemma RZ_sharp st ζ X V : RZ st ζ X -> relv ζ V ->
  exists ζ', RZ st ζ' X /\ relv ζ' V /\ forall o z, ζ' !! o = Some z -> Z.of_nat (zc z) = room st o.
Proof.
  intros (σ & HR & Hz) Hv.
  set (sh := fun (o : oid) (z : zv) => Some (Zv (zs z) (zm z) (match σ !! o with Some f => length (fc f) | None => 0%nat end) (zi z) (zo z))).
  assert (forall o, map_imap sh ζ !! o = match ζ !! o with Some z => sh o z | None => None end) as HL.
  { intros o. rewrite map_lookup_imap. by destruct (ζ !! o). }
  exists (map_imap sh ζ). split_and!.
  - exists σ. split; [done|]. intros o. rewrite HL. specialize (Hz o). destruct (σ !! o) as [f|] eqn:Ef, (ζ !! o) as [z|]; try done.
    unfold sh. rewrite Ef. destruct Hz as [ds [? ? ? ? ? ? ? ?]]. exists ds. constructor; done.
  - intros o. rewrite HL. specialize (Hv o). destruct (ζ !! o) as [z|]; done.
  - intros o z. rewrite HL. specialize (Hz o). destruct (ζ !! o) as [z0|]; [|done]. destruct (σ !! o) as [f|] eqn:Ef; [|done]. unfold sh. rewrite Ef.
    intros [= <-]. cbn [zc]. unfold room. by rewrite (R_get _ _ _ _ _ HR Ef).
Qed.

Definition keepz (ζ ζ' : gmap oid zv) : Prop := forall o z, ζ !! o = Some z -> exists z', ζ' !! o = Some z' /\ (zc z <= zc z')%nat.
Lemma keepz_refl ζ : keepz ζ ζ. Proof. intros o z Ho. eauto. Qed.
Lemma keepz_ins ζ ζ' c zc0 z' : keepz ζ ζ' -> ζ !! c = Some zc0 -> (zc zc0 <= zc z')%nat -> keepz ζ (<[c := z']> ζ').
Proof.
  intros K Hc Hl o z Ho. destruct (decide (c = o)) as [<-|N]; [rewrite lookup_insert; rewrite Hc in Ho; injection Ho as <-; eauto|].
  rewrite lookup_insert_ne by done. by apply K.
Qed.
Lemma keepz_oput ζ ζ' q v : keepz ζ ζ' -> keepz ζ (oput q v ζ').
Proof.
  intros K. unfold oput. destruct q as [q|]; [|done]. destruct (ζ' !! q) as [z1|] eqn:E; [|done]. intros o z Ho. destruct (decide (q = o)) as [<-|N].
  - destruct (K _ _ Ho) as (z' & H1 & H2). rewrite E in H1. injection H1 as <-. rewrite lookup_insert. eexists. split; [done|]. done.
  - rewrite lookup_insert_ne by done. by apply K.
Qed.
Lemma keepz_oupd ζ ζ' q f : keepz ζ ζ' -> (forall z, zc (f z) = zc z) -> keepz ζ (oupd q f ζ').
Proof.
  intros K Hf. unfold oupd. destruct q as [q|]; [|done]. intros o z Ho. destruct (K _ _ Ho) as (z' & H1 & H2). destruct (decide (q = o)) as [<-|N].
  - rewrite lookup_alter, H1. simpl. eexists. split; [done|]. by rewrite Hf.
  - rewrite lookup_alter_ne by done. eauto.
Qed.
Lemma keepz_room st ζ X V st' ζ' X' : relv ζ V -> (forall o z, ζ !! o = Some z -> Z.of_nat (zc z) = room st o) -> RZ st' ζ' X' -> keepz ζ ζ' -> RZ st ζ X -> no_shrink st V st'.
Proof.
  intros Hv Hs HZ' K _ o v Ho. destruct (relv_some _ _ _ _ Hv Ho) as (z & Hz & _). destruct (K _ _ Hz) as (z' & Hz' & Hc).
  rewrite <- (Hs _ _ Hz). pose proof (RZ_room _ _ _ _ _ HZ' Hz'). lia.
Qed.

Lemma by_room {A} (p : prog A) st V W (Q : A -> state -> Prop) : Rep st V W ->
  (forall ζ, RZ st ζ (ctx_of W) -> relv ζ V -> (forall st' ζ' X', RZ st' ζ' X' -> keepz ζ ζ' -> no_shrink st V st') -> wp p Q st) -> calls p st Q.
Proof.
  intros H Hp. apply wp_calls. destruct (Rep_RV _ _ _ H) as (ζ0 & HZ0 & Hv0). destruct (RZ_sharp _ _ _ _ HZ0 Hv0) as (ζ & HZ & Hv & Hs).
  apply (Hp ζ HZ Hv). intros st' ζ' X' HZ' K. by eapply keepz_room.
Qed.
