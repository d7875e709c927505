(** The relation between machine states and abstract heaps of integer objects,
    digit level. *)
From Coq Require Import ZArith List Lia.
From stdpp Require Import gmap list.
From Verif Require Import Mem Prog Kern Wp MemLem Dig KernLem.
Local Open Scope Z_scope.

(** An initialised [mpz_t]: sign, used digits, contents of its digit array, and
    the block holding that array. *)
Record fobj : Type := Fo { fs : Z; fu : Z; fc : list cell; fl : base }.
Definition mpz_of (f : fobj) : mpz :=
  Mpz (Some (fl f, 0)) (Z.of_nat (length (fc f))) (fu f) (fs f).

(** The rest of the state: blocks that no object owns, structures that do not
    hold an initialised integer, and the global variables. *)
Record ctx : Type := Ctx { cmem : memory; craw : gmap oid mpz; cglob : globals }.
Definition with_cmem (X : ctx) (m : memory) : ctx := Ctx m (craw X) (cglob X).
Definition with_craw (X : ctx) (r : gmap oid mpz) : ctx := Ctx (cmem X) r (cglob X).

Definition ok_glob (g : globals) : Prop :=
  0 < default_precision g < 2 ^ 32 - 1 /\ 8 <= multiply_threshold g < 2 ^ 32.

Definition loc_ok (o : oid) (b : base) : Prop :=
  match b with Sng o' => o' = o | _ => True end.

Record R (st : state) (σ : gmap oid fobj) (X : ctx) : Prop := {
  R_objs : forall o, objs st !! o = match σ !! o with Some f => Some (mpz_of f) | None => craw X !! o end;
  R_raw : forall o f, σ !! o = Some f -> craw X !! o = None;
  R_mem : forall o f, σ !! o = Some f -> mem st !! fl f = Some (fc f);
  R_len : forall o f, σ !! o = Some f -> 1 <= Z.of_nat (length (fc f)) <= MAXD;
  R_loc : forall o f, σ !! o = Some f -> loc_ok o (fl f);
  R_inj : forall o1 o2 f1 f2, σ !! o1 = Some f1 -> σ !! o2 = Some f2 -> fl f1 = fl f2 -> o1 = o2;
  R_sng : forall o, is_Some (objs st !! o) <-> is_Some (mem st !! Sng o);
  R_sng1 : forall o l, mem st !! Sng o = Some l -> length l = 1%nat;
  R_ctx : forall b l, cmem X !! b = Some l -> mem st !! b = Some l;
  R_ctx_own : forall b l o f, cmem X !! b = Some l -> σ !! o = Some f -> fl f <> b;
  R_ctx_sng : forall b l o, cmem X !! b = Some l -> b <> Sng o;
  R_all : forall b l, mem st !! b = Some l ->
    (exists o f, σ !! o = Some f /\ fl f = b) \/ (exists o, b = Sng o) \/ is_Some (cmem X !! b);
  R_glob : glob st = cglob X;
  R_ok : ok_glob (cglob X)
}.

Lemma R_get st σ X o f : R st σ X -> σ !! o = Some f -> objs st !! o = Some (mpz_of f).
Proof. intros H Ho. rewrite (R_objs _ _ _ H), Ho. done. Qed.
Lemma R_get_raw st σ X o z : R st σ X -> craw X !! o = Some z -> objs st !! o = Some z.
Proof.
  intros H Ho. rewrite (R_objs _ _ _ H). destruct (σ !! o) as [f|] eqn:E; [|done].
  rewrite (R_raw _ _ _ H _ _ E) in Ho. done.
Qed.
Lemma R_raw_None st σ X o z : R st σ X -> craw X !! o = Some z -> σ !! o = None.
Proof.
  intros H Ho. destruct (σ !! o) as [f|] eqn:E; [|done].
  rewrite (R_raw _ _ _ H _ _ E) in Ho. done.
Qed.
Lemma R_fl_ne st σ X o1 o2 f1 f2 :
  R st σ X -> σ !! o1 = Some f1 -> σ !! o2 = Some f2 -> o1 <> o2 -> fl f1 <> fl f2.
Proof. intros H H1 H2 Hne He. apply Hne. by eapply (R_inj _ _ _ H). Qed.

Ltac Rcase := repeat match goal with
  | H : <[?i := ?x]> ?m !! ?j = Some _ |- _ =>
      apply lookup_insert_Some in H as [[? ?]|[? H]]; subst
  | H : delete ?i ?m !! ?j = Some _ |- _ => apply lookup_delete_Some in H as [? H]
  end.

(** Changing sign and used of an object. *)
Lemma R_setf st σ X o f s u :
  R st σ X -> σ !! o = Some f ->
  R (set_objs st (<[o := mpz_of (Fo s u (fc f) (fl f))]> (objs st)))
    (<[o := Fo s u (fc f) (fl f)]> σ) X.
Proof.
  intros H Ho. pose proof (R_get _ _ _ _ _ H Ho) as Hg. destruct H. constructor; simpl; try done.
  - intros o'. destruct (decide (o = o')) as [->|]; [by rewrite !lookup_insert|].
    by rewrite !lookup_insert_ne.
  - intros o' f' Hf. Rcase; eauto.
  - intros o' f' Hf. Rcase; simpl; eauto.
  - intros o' f' Hf. Rcase; simpl; eauto.
  - intros o' f' Hf. Rcase; simpl; eauto.
  - intros o1 o2 f1 f2 H1 H2 He. Rcase; simpl in *; eauto.
  - intros o'. destruct (decide (o = o')) as [->|].
    + rewrite lookup_insert, <- R_sng0, Hg. split; eauto.
    + by rewrite lookup_insert_ne.
  - intros b l o' f' Hb Hf. Rcase; simpl; eauto.
  - intros b l Hb. destruct (R_all0 _ _ Hb) as [(o' & f' & H1 & H2)|[?|?]]; [|auto|auto].
    left. destruct (decide (o = o')) as [->|].
    + eexists o', _. rewrite lookup_insert. split; [done|]. simpl. congruence.
    + exists o', f'. by rewrite lookup_insert_ne.
Qed.

(** Writing into the array of an object. *)
Lemma R_write st σ X o f off l :
  R st σ X -> σ !! o = Some f ->
  R (set_mem st (wr (mem st) (fl f, off) l))
    (<[o := Fo (fs f) (fu f) (list_inserts (Z.to_nat off) l (fc f)) (fl f)]> σ) X.
Proof.
  intros H Ho. pose proof (R_get _ _ _ _ _ H Ho) as Hg. destruct H. 
  assert (forall b, mem st !! b = None -> wr (mem st) (fl f, off) l !! b = None) as HN.
  { intros b Hb. unfold wr. simpl. destruct (decide (fl f = b)) as [->|]; [by rewrite lookup_alter, Hb|by rewrite lookup_alter_ne]. }
  assert (forall b x, wr (mem st) (fl f, off) l !! b = Some x -> exists y, mem st !! b = Some y /\ length y = length x) as HS.
  { intros b x. unfold wr. simpl. destruct (decide (fl f = b)) as [->|].
    - rewrite lookup_alter. destruct (mem st !! b); simpl; [|done]. intros [= <-]. eexists. split; [done|]. by rewrite inserts_length.
    - rewrite lookup_alter_ne by done. eauto. }
  assert (forall b y, mem st !! b = Some y -> exists x, wr (mem st) (fl f, off) l !! b = Some x /\ length y = length x) as HS'.
  { intros b y Hb. unfold wr. simpl. destruct (decide (fl f = b)) as [->|].
    - rewrite lookup_alter, Hb. eexists. split; [done|]. by rewrite inserts_length.
    - rewrite lookup_alter_ne by done. eauto. }
  constructor; simpl; try done.
  - intros o'. destruct (decide (o = o')) as [->|].
    + rewrite lookup_insert, Hg. unfold mpz_of. simpl. by rewrite inserts_length.
    + by rewrite lookup_insert_ne.
  - intros o' f' Hf. Rcase; eauto.
  - intros o' f' Hf. Rcase; simpl.
    + by apply wr_lookup_eq, (R_mem0 o').
    + rewrite wr_lookup_ne; [eauto|]. simpl. intros He. symmetry in He. eapply R_inj0 in He; [|done|done]. done.
  - intros o' f' Hf. Rcase; simpl; rewrite ?inserts_length; eauto.
  - intros o' f' Hf. Rcase; simpl; eauto.
  - intros o1 o2 f1 f2 H1 H2 He. Rcase; simpl in *; eauto.
  - intros o'. rewrite R_sng0. split; intros [x Hx].
    + apply HS' in Hx as (y & ? & _). eauto.
    + apply HS in Hx as (y & ? & _). eauto.
  - intros o' x Hx. apply HS in Hx as (y & Hy & <-). eauto.
  - intros b x Hb. rewrite wr_lookup_ne; [eauto|]. simpl. eauto.
  - intros b x o' f' Hb Hf. Rcase; simpl; eauto.
  - intros b x Hb. apply HS in Hb as (y & Hb & _). destruct (R_all0 _ _ Hb) as [(o' & f' & H1 & H2)|[?|?]]; [|auto|auto].
    left. destruct (decide (o = o')) as [->|].
    + eexists o', _. rewrite lookup_insert. split; [done|]. simpl. congruence.
    + exists o', f'. by rewrite lookup_insert_ne.
Qed.
Lemma R_writed st σ X o f off l :
  R st σ X -> σ !! o = Some f ->
  R (set_mem st (wrd (mem st) (fl f, off) l))
    (<[o := Fo (fs f) (fu f) (list_inserts (Z.to_nat off) (Some <$> l) (fc f)) (fl f)]> σ) X.
Proof. apply R_write. Qed.

(** Changing a raw structure. *)
Lemma R_set_raw st σ X o z0 z :
  R st σ X -> craw X !! o = Some z0 ->
  R (set_objs st (<[o := z]> (objs st))) σ (with_craw X (<[o := z]> (craw X))).
Proof.
  intros H Ho. pose proof (R_get_raw _ _ _ _ _ H Ho) as Hg. pose proof (R_raw_None _ _ _ _ _ H Ho) as HN.
  destruct H. constructor; simpl; try done.
  - intros o'. destruct (decide (o = o')) as [->|]; [by rewrite !lookup_insert, HN|].
    by rewrite !lookup_insert_ne.
  - intros o' f' Hf. rewrite lookup_insert_ne; [eauto|]. congruence.
  - intros o'. destruct (decide (o = o')) as [->|].
    + rewrite lookup_insert, <- R_sng0, Hg. split; eauto.
    + by rewrite lookup_insert_ne.
Qed.

(** Writing into a block of the context. *)
Lemma R_cwrite st σ X b blk off l :
  R st σ X -> cmem X !! b = Some blk ->
  R (set_mem st (wr (mem st) (b, off) l)) σ
    (with_cmem X (<[b := list_inserts (Z.to_nat off) l blk]> (cmem X))).
Proof.
  intros H Hb. pose proof (R_ctx _ _ _ H _ _ Hb) as Hm. destruct H.
  assert (forall b', b' <> b -> wr (mem st) (b, off) l !! b' = mem st !! b') as Hne.
  { intros. apply wr_lookup_ne. simpl. auto. }
  assert (wr (mem st) (b, off) l !! b = Some (list_inserts (Z.to_nat off) l blk)) as He.
  { by apply (wr_lookup_eq (mem st) (b, off)). }
  constructor; simpl; try done.
  - intros o f Hf. rewrite Hne; eauto.
  - intros o. rewrite Hne; [done|]. intros <-. by eapply R_ctx_sng0.
  - intros o x. rewrite Hne; [eauto|]. intros <-. by eapply R_ctx_sng0.
  - intros b' x Hx. Rcase; [done|]. rewrite Hne; eauto.
  - intros b' x o f Hx Hf. Rcase; eauto.
  - intros b' x o Hx. Rcase; eauto.
  - intros b' x Hx. destruct (decide (b' = b)) as [->|].
    + right; right. rewrite lookup_insert. eauto.
    + rewrite Hne in Hx by done. rewrite lookup_insert_ne by done. eauto.
Qed.

(** Writing into a [single] field that is not in use. *)
Lemma R_swrite st σ X o off l :
  R st σ X -> (forall f, σ !! o = Some f -> fl f <> Sng o) ->
  R (set_mem st (wr (mem st) (Sng o, off) l)) σ X.
Proof.
  intros H Hn. destruct H.
  assert (forall b', b' <> Sng o -> wr (mem st) (Sng o, off) l !! b' = mem st !! b') as Hne.
  { intros. apply wr_lookup_ne. simpl. auto. }
  assert (forall x, wr (mem st) (Sng o, off) l !! Sng o = Some x ->
            exists y, mem st !! Sng o = Some y /\ length y = length x) as HS.
  { intros x. unfold wr. simpl. rewrite lookup_alter. destruct (mem st !! Sng o); simpl; [|done].
    intros [= <-]. eexists. split; [done|]. by rewrite inserts_length. }
  assert (forall o' f, σ !! o' = Some f -> fl f <> Sng o) as Hne'.
  { intros o' f Hf He. pose proof (R_loc0 _ _ Hf) as Hl. rewrite He in Hl. simpl in Hl. subst.
    by eapply Hn. }
  constructor; simpl; try done.
  - intros o' f Hf. rewrite Hne by eauto. eauto.
  - intros o'. rewrite R_sng0. destruct (decide (o = o')) as [<-|].
    + unfold wr. simpl. rewrite lookup_alter. destruct (mem st !! Sng o); simpl; split; eauto.
    + by rewrite Hne by congruence.
  - intros o' x Hx. destruct (decide (o = o')) as [<-|].
    + apply HS in Hx as (y & Hy & <-). eauto.
    + rewrite Hne in Hx by congruence. eauto.
  - intros b x Hx. rewrite Hne by eauto. eauto.
  - intros b x Hx. destruct (decide (b = Sng o)) as [->|]; [eauto|]. rewrite Hne in Hx by done. eauto.
Qed.

(** New and deleted structures. *)
Lemma R_newO st σ X bb z i :
  R st σ X -> fresh_obj st (bb, i) -> let o := (bb, i) in
  σ !! o = None /\ craw X !! o = None /\ R (add_obj st o z) σ (with_craw X (<[o := z]> (craw X))).
Proof.
  intros H [Hf1 Hf2] o. fold o in Hf1, Hf2.
  pose proof (R_objs _ _ _ H o) as Ho. rewrite Hf1 in Ho.
  assert (σ !! o = None) as HN by (by destruct (σ !! o)). rewrite HN in Ho. split; [done|]. split; [done|].
  destruct H. 
  assert (forall b l, mem st !! b = Some l -> b <> Sng o) as Hne by (intros b l ? ->; congruence).
  constructor; simpl; try done.
  - intros o'. destruct (decide (o = o')) as [<-|]; [by rewrite !lookup_insert, HN|].
    by rewrite !lookup_insert_ne.
  - intros o' f Hf. rewrite lookup_insert_ne; [eauto|]. congruence.
  - intros o' f Hf. rewrite lookup_insert_ne; [eauto|]. apply not_eq_sym. eauto.
  - intros o'. destruct (decide (o = o')) as [<-|].
    + rewrite !lookup_insert. split; eauto.
    + rewrite !lookup_insert_ne by congruence. done.
  - intros o' l Hl. Rcase; [done|eauto].
  - intros b l Hb. rewrite lookup_insert_ne; [eauto|]. apply not_eq_sym. eauto.
  - intros b l Hb. Rcase; [eauto|]. eauto.
Qed.
Lemma R_delO st σ X o z :
  R st σ X -> craw X !! o = Some z -> R (del_obj st o) σ (with_craw X (delete o (craw X))).
Proof.
  intros H Ho. pose proof (R_raw_None _ _ _ _ _ H Ho) as HN. destruct H.
  assert (forall o' f, σ !! o' = Some f -> fl f <> Sng o) as Hne.
  { intros o' f Hf He. apply R_loc0 in Hf as Hl. rewrite He in Hl. simpl in Hl. congruence. }
  constructor; simpl; try done.
  - intros o'. destruct (decide (o = o')) as [<-|]; [by rewrite !lookup_delete, HN|].
    by rewrite !lookup_delete_ne.
  - intros o' f Hf. rewrite lookup_delete_ne; [eauto|]. congruence.
  - intros o' f Hf. rewrite lookup_delete_ne; [eauto|]. apply not_eq_sym. eauto.
  - intros o'. destruct (decide (o = o')) as [<-|].
    + rewrite !lookup_delete. split; by intros [].
    + rewrite !lookup_delete_ne by congruence. done.
  - intros o' l Hl. Rcase; eauto.
  - intros b l Hb. rewrite lookup_delete_ne; [eauto|]. apply not_eq_sym. eauto.
  - intros b l Hb. Rcase; eauto.
Qed.

(** New and deleted blocks of the context. *)
Lemma R_newB st σ X b l :
  R st σ X -> mem st !! b = None -> (forall o, b <> Sng o) ->
  cmem X !! b = None /\ R (add_block st b l) σ (with_cmem X (<[b := l]> (cmem X))).
Proof.
  intros H Hb Hs. split.
  { destruct (cmem X !! b) eqn:E; [|done]. apply (R_ctx _ _ _ H) in E. congruence. }
  destruct H. constructor; simpl; try done.
  - intros o f Hf. rewrite lookup_insert_ne; [eauto|]. intros ->. apply R_mem0 in Hf. congruence.
  - intros o. rewrite lookup_insert_ne by done. done.
  - intros o l' Hl. Rcase; [|eauto]. by edestruct Hs.
  - intros b' l' Hl. Rcase; [by rewrite lookup_insert|]. rewrite lookup_insert_ne by done. eauto.
  - intros b' l' o f Hl Hf. Rcase; [|eauto]. apply R_mem0 in Hf. intros He. rewrite He in Hf. congruence.
  - intros b' l' o Hl. Rcase; eauto.
  - intros b' l' Hl. Rcase; [right; right; rewrite lookup_insert; eauto|].
    rewrite lookup_insert_ne by done. eauto.
Qed.
Lemma R_delB st σ X b l :
  R st σ X -> cmem X !! b = Some l -> R (del_block st b) σ (with_cmem X (delete b (cmem X))).
Proof.
  intros H Hb. destruct H. constructor; simpl; try done.
  - intros o f Hf. rewrite lookup_delete_ne; [eauto|]. intros ->. by eapply R_ctx_own0.
  - intros o. rewrite lookup_delete_ne; [done|]. eauto.
  - intros o l' Hl. Rcase; eauto.
  - intros b' l' Hl. Rcase. rewrite lookup_delete_ne by done. eauto.
  - intros b' l' o f Hl Hf. Rcase; eauto.
  - intros b' l' o Hl. Rcase; eauto.
  - intros b' l' Hl. Rcase. rewrite lookup_delete_ne by done. eauto.
Qed.

(** Giving a block of the context to an object; its old block goes to the
    context, unless it is its [single] field. *)
Definition release (o : oid) (f : fobj) (m : memory) : memory :=
  match fl f with Sng _ => m | b => <[b := fc f]> m end.
Lemma R_own st σ X o f b l s u :
  R st σ X -> σ !! o = Some f -> cmem X !! b = Some l -> 1 <= Z.of_nat (length l) <= MAXD ->
  R (set_objs st (<[o := mpz_of (Fo s u l b)]> (objs st))) (<[o := Fo s u l b]> σ)
    (with_cmem X (release o f (delete b (cmem X)))).
Proof.
  intros H Ho Hb Hlen. pose proof (R_get _ _ _ _ _ H Ho) as Hg. destruct H.
  assert (forall b' l', release o f (delete b (cmem X)) !! b' = Some l' ->
     (b' <> b /\ cmem X !! b' = Some l') \/ (b' = fl f /\ l' = fc f /\ forall o, b' <> Sng o)) as Hrel.
  { intros b' l'. unfold release. destruct (fl f) eqn:E; intros Hx; Rcase; auto;
    right; split; auto; split; auto; intros; congruence. }
  assert (fl f <> b) as Hfb by eauto.
  constructor; simpl; try done.
  - intros o'. destruct (decide (o = o')) as [->|]; [by rewrite !lookup_insert|].
    by rewrite !lookup_insert_ne.
  - intros o' f' Hf. Rcase; eauto.
  - intros o' f' Hf. Rcase; simpl; eauto.
  - intros o' f' Hf. Rcase; simpl; eauto.
  - intros o' f' Hf. Rcase; simpl; eauto. unfold loc_ok. destruct b; try done. by eapply R_ctx_sng0 in Hb.
  - intros o1 o2 f1 f2 H1 H2 He. Rcase; simpl in *; eauto.
    + exfalso. by eapply R_ctx_own0.
    + exfalso. by eapply R_ctx_own0.
  - intros o'. destruct (decide (o = o')) as [->|].
    + rewrite lookup_insert, <- R_sng0, Hg. split; eauto.
    + by rewrite lookup_insert_ne.
  - intros b' l' Hx. apply Hrel in Hx as [[? Hx]|(-> & -> & _)]; eauto.
  - intros b' l' o' f' Hx Hf. apply Hrel in Hx as [[? Hx]|(-> & -> & _)]; Rcase; simpl; eauto.
  - intros b' l' o' Hx. apply Hrel in Hx as [[? Hx]|(-> & -> & Hx)]; eauto.
  - intros b' l' Hx. destruct (decide (b' = b)) as [->|Hne].
    { left. eexists o, _. by rewrite lookup_insert. }
    destruct (R_all0 _ _ Hx) as [(o' & f' & H1 & H2)|[?|Hc]]; [|auto|].
    + destruct (decide (o = o')) as [<-|].
      * assert (f' = f) as -> by congruence. destruct (fl f) eqn:E; [right; left; eauto| |];
        right; right; unfold release; rewrite E; subst b'; rewrite lookup_insert; eauto.
      * left. exists o', f'. by rewrite lookup_insert_ne.
    + right; right. unfold release. destruct (fl f) eqn:E; rewrite ?lookup_delete_ne by done; [done| |];
      (destruct (decide (b' = fl f)) as [->|]; [rewrite E, lookup_insert; eauto|]);
      rewrite lookup_insert_ne by congruence; by rewrite lookup_delete_ne.
Qed.

(** A raw structure becomes an object with its [single] field ... *)
Lemma R_init_sng st σ X o z c s u :
  R st σ X -> craw X !! o = Some z -> mem st !! Sng o = Some [c] ->
  R (set_objs st (<[o := mpz_of (Fo s u [c] (Sng o))]> (objs st))) (<[o := Fo s u [c] (Sng o)]> σ)
    (with_craw X (delete o (craw X))).
Proof.
  intros H Ho Hc. pose proof (R_get_raw _ _ _ _ _ H Ho) as Hg. pose proof (R_raw_None _ _ _ _ _ H Ho) as HN.
  destruct H. 
  assert (forall o' f, σ !! o' = Some f -> fl f <> Sng o) as Hne.
  { intros o' f Hf He. apply R_loc0 in Hf as Hl. rewrite He in Hl. simpl in Hl. congruence. }
  constructor; simpl; try done.
  - intros o'. destruct (decide (o = o')) as [->|]; [by rewrite !lookup_insert|].
    rewrite !lookup_insert_ne by done. rewrite lookup_delete_ne by done. done.
  - intros o' f' Hf. Rcase; [apply lookup_delete|]. rewrite lookup_delete_ne by done. eauto.
  - intros o' f' Hf. Rcase; simpl; eauto.
  - intros o' f' Hf. Rcase; simpl; eauto. unfold MAXD. lia.
  - intros o' f' Hf. Rcase; simpl; eauto.
  - intros o1 o2 f1 f2 H1 H2 He. Rcase; simpl in *; eauto.
    + exfalso. by eapply Hne.
    + exfalso. by eapply Hne.
  - intros o'. destruct (decide (o = o')) as [->|].
    + rewrite lookup_insert, <- R_sng0, Hg. split; eauto.
    + by rewrite lookup_insert_ne.
  - intros b' l' o' f' Hx Hf. Rcase; simpl; eauto. apply not_eq_sym. eauto.
  - intros b l Hx. destruct (R_all0 _ _ Hx) as [(o' & f' & H1 & H2)|[?|Hc']]; [|auto|auto].
    left. exists o', f'. split; [|done]. rewrite lookup_insert_ne; [done|congruence].
Qed.
(** ... or with a block of the context. *)
Lemma R_init_blk st σ X o z b l s u :
  R st σ X -> craw X !! o = Some z -> cmem X !! b = Some l -> 1 <= Z.of_nat (length l) <= MAXD ->
  R (set_objs st (<[o := mpz_of (Fo s u l b)]> (objs st))) (<[o := Fo s u l b]> σ)
    (Ctx (delete b (cmem X)) (delete o (craw X)) (cglob X)).
Proof.
  intros H Ho Hb Hlen. pose proof (R_get_raw _ _ _ _ _ H Ho) as Hg. pose proof (R_raw_None _ _ _ _ _ H Ho) as HN.
  destruct H. constructor; simpl; try done.
  - intros o'. destruct (decide (o = o')) as [->|]; [by rewrite !lookup_insert|].
    rewrite !lookup_insert_ne by done. rewrite lookup_delete_ne by done. done.
  - intros o' f' Hf. Rcase; [apply lookup_delete|]. rewrite lookup_delete_ne by done. eauto.
  - intros o' f' Hf. Rcase; simpl; eauto.
  - intros o' f' Hf. Rcase; simpl; eauto.
  - intros o' f' Hf. Rcase; simpl; eauto. unfold loc_ok. destruct b; try done. by eapply R_ctx_sng0 in Hb.
  - intros o1 o2 f1 f2 H1 H2 He. Rcase; simpl in *; eauto.
    + exfalso. by eapply R_ctx_own0.
    + exfalso. by eapply R_ctx_own0.
  - intros o'. destruct (decide (o = o')) as [->|].
    + rewrite lookup_insert, <- R_sng0, Hg. split; eauto.
    + by rewrite lookup_insert_ne.
  - intros b' l' Hx. Rcase. eauto.
  - intros b' l' o' f' Hx Hf. Rcase; simpl; eauto.
  - intros b' l' o' Hx. Rcase. eauto.
  - intros b' l' Hx. destruct (decide (b' = b)) as [->|Hne].
    { left. eexists o, _. by rewrite lookup_insert. }
    destruct (R_all0 _ _ Hx) as [(o' & f' & H1 & H2)|[?|Hc]]; [|auto|].
    + left. exists o', f'. split; [|done]. rewrite lookup_insert_ne; [done|congruence].
    + right; right. by rewrite lookup_delete_ne.
Qed.
(** An object becomes a raw structure again; its block goes to the context. *)
Lemma R_uninit st σ X o f z :
  R st σ X -> σ !! o = Some f ->
  R (set_objs st (<[o := z]> (objs st))) (delete o σ)
    (Ctx (release o f (cmem X)) (<[o := z]> (craw X)) (cglob X)).
Proof.
  intros H Ho. pose proof (R_get _ _ _ _ _ H Ho) as Hg. destruct H.
  assert (forall b' l', release o f (cmem X) !! b' = Some l' ->
     (cmem X !! b' = Some l') \/ (b' = fl f /\ l' = fc f /\ forall o, b' <> Sng o)) as Hrel.
  { intros b' l'. unfold release. destruct (fl f) eqn:E; intros Hx; Rcase; auto;
    right; split; auto; split; auto; intros; congruence. }
  constructor; simpl; try done.
  - intros o'. destruct (decide (o = o')) as [->|]; [by rewrite !lookup_insert, lookup_delete|].
    rewrite !lookup_insert_ne by done. by rewrite lookup_delete_ne.
  - intros o' f' Hf. Rcase. rewrite lookup_insert_ne by done. eauto.
  - intros o' f' Hf. Rcase. eauto.
  - intros o' f' Hf. Rcase. eauto.
  - intros o' f' Hf. Rcase. eauto.
  - intros o1 o2 f1 f2 H1 H2 He. Rcase. eauto.
  - intros o'. destruct (decide (o = o')) as [->|].
    + rewrite lookup_insert, <- R_sng0, Hg. split; eauto.
    + by rewrite lookup_insert_ne.
  - intros b' l' Hx. apply Hrel in Hx as [Hx|(-> & -> & _)]; eauto.
  - intros b' l' o' f' Hx Hf. Rcase. apply Hrel in Hx as [Hx|(-> & -> & _)]; eauto.
  - intros b' l' o' Hx. apply Hrel in Hx as [Hx|(-> & -> & Hx)]; eauto.
  - intros b' l' Hx. destruct (R_all0 _ _ Hx) as [(o' & f' & H1 & H2)|[?|Hc]]; [|auto|].
    + destruct (decide (o = o')) as [<-|].
      * assert (f' = f) as -> by congruence. destruct (fl f) eqn:E; [right; left; eauto| |];
        right; right; unfold release; rewrite E; subst b'; rewrite lookup_insert; eauto.
      * left. exists o', f'. by rewrite lookup_delete_ne.
    + right; right. unfold release. destruct (fl f) as [|n|n] eqn:E; [done| |].
      * destruct (decide (b' = Hp n)) as [->|]; [rewrite lookup_insert; eauto|]. by rewrite lookup_insert_ne by congruence.
      * destruct (decide (b' = Ext n)) as [->|]; [rewrite lookup_insert; eauto|]. by rewrite lookup_insert_ne by congruence.
Qed.

Lemma R_blk_fresh st σ X b : R st σ X -> mem st !! b = None ->
  cmem X !! b = None /\ forall o f, σ !! o = Some f -> fl f <> b.
Proof.
  intros H Hb. split.
  - destruct (cmem X !! b) eqn:E; [|done]. apply (R_ctx _ _ _ H) in E. congruence.
  - intros o f Hf He. apply (R_mem _ _ _ H) in Hf. congruence.
Qed.
Lemma with_cmem_id X : with_cmem X (cmem X) = X. Proof. by destruct X. Qed.
Lemma with_craw_id X : with_craw X (craw X) = X. Proof. by destruct X. Qed.
