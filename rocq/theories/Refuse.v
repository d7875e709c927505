(** The [NDEBUG] build when requests for memory are refused: what a program does
    after a refusal, followed along its text. *)
From Coq Require Import ZArith List Lia.
From stdpp Require Import gmap list.
From Verif Require Import Mem Prog Kern Imath Exec Wp.
Local Open Scope Z_scope.
Local Open Scope prog_scope.
Local Transparent bind.
Local Arguments bind {A B} !p f : simpl nomatch.

(** [pf lax p f L E Φ]: [f] says that a request has been refused; [L] are
    structures and [E] local arrays known to be live.  After a refusal [p] only
    uses those, unless [lax], and ends with [Φ]. *)
Fixpoint pf {A} (lax : bool) (p : prog A) (f : bool) (L : gset oid) (E : gset base) (Φ : bool -> gset oid -> gset base -> A -> Prop) : Prop :=
  let need (c : Prop) : Prop := f = true -> lax = false -> c in
  match p with
  | Ret a => Φ f L E a
  | Peek _ k => need False /\ forall c, pf lax (k c) f L E Φ
  | Poke _ _ k => need False /\ pf lax k f L E Φ
  | GetO o k => need (o ∈ L) /\ forall z, pf lax (k z) f L E Φ
  | SetO o _ k => need (o ∈ L) /\ pf lax k f L E Φ
  | NewO k => forall o, o.1 = false -> pf lax (k o) f ({[o]} ∪ L) E Φ
  | DelO o k => need (o ∈ L /\ o.1 = false) /\ pf lax k f (L ∖ {[o]}) E Φ
  | MallocO k => pf lax (k None) true L E Φ /\ forall o, pf lax (k (Some o)) f L E Φ
  | FreeO o k => need False /\ pf lax k f (L ∖ {[o]}) E Φ
  | Malloc _ k => pf lax (k None) true L E Φ /\ forall p, pf lax (k (Some p)) f L E Φ
  | Realloc _ _ k => need False /\ pf lax (k None) true L E Φ /\ forall p, pf lax (k (Some p)) f L E Φ
  | Free _ k => need False /\ pf lax k f L E Φ
  | NewE _ k => forall p, (exists n, p.1 = Ext n) -> pf lax (k p) f L ({[p.1]} ∪ E) Φ
  | DelE p k => need (p.1 ∈ E) /\ pf lax k f L (E ∖ {[p.1]}) Φ
  | GetG k => forall g, pf lax (k g) f L E Φ
  | SetG _ k => pf lax k f L E Φ
  | Assert (ANull _) b k => (b = false -> f = true) /\ pf lax k f L E Φ
  | Assert ALogic _ k => pf lax k f L E Φ
  | Undef => need False
  | NoFuel => need False
  end.

Lemma pf_mono {A} (lax : bool) (p : prog A) (f : bool) (L : gset oid) (E : gset base) (Φ Ψ : bool -> gset oid -> gset base -> A -> Prop) : pf lax p f L E Φ -> (forall (f : bool) (L : gset oid) (E : gset base) (a : A), Φ f L E a -> Ψ f L E a) -> pf lax p f L E Ψ.
Proof.
  intros H HΦ. revert f L E H. induction p; cbn [pf]; intros f L E0 HH; try (destruct a); intuition (eauto).
Qed.
Lemma pf_bind {A B} (lax : bool) (p : prog A) (q : A -> prog B) (f : bool) (L : gset oid) (E : gset base) (Φ : bool -> gset oid -> gset base -> B -> Prop) : pf lax p f L E (fun f L E a => pf lax (q a) f L E Φ) -> pf lax (bind p q) f L E Φ.
Proof.
  revert f L E. induction p; cbn [pf bind]; intros f L E0 HH; try (destruct a); intuition (eauto).
Qed.

(** Programs that request nothing. *)
Fixpoint quiet {A} (p : prog A) : Prop :=
  match p with
  | Ret a => True
  | Peek _ k => forall c, quiet (k c)
  | Poke _ _ k | SetO _ _ k | Assert ALogic _ k => quiet k
  | GetO o k => forall z, quiet (k z)
  | GetG k => forall g, quiet (k g)
  | Free _ k => quiet k
  | Undef | NoFuel => True
  | _ => False
  end.
Lemma quiet_bind {A B} (p : prog A) (q : A -> prog B) : quiet p -> (forall a, quiet (q a)) -> quiet (bind p q).
Proof. intros Hp Hq. induction p; cbn [quiet bind] in *; try (destruct a); eauto. Qed.
Lemma quiet_pf {A} (lax : bool) (p : prog A) (f : bool) (L : gset oid) (E : gset base) (Φ : bool -> gset oid -> gset base -> A -> Prop) : quiet p -> (f = true -> lax = true) -> (forall a, Φ f L E a) -> pf lax p f L E Φ.
Proof.
  intros Hp Hf HΦ. induction p; cbn [quiet pf] in *; try (destruct a); try done; try split; eauto; try (intros Ef El; rewrite (Hf Ef) in El; discriminate).
Qed.

Definition known (L : gset oid) (E : gset base) (st : state) : Prop :=
  (forall o, o ∈ L -> is_Some (objs st !! o)) /\ (forall b, b ∈ E -> (exists n, b = Ext n) /\ is_Some (mem st !! b)).

Lemma known_store (L : gset oid) (E : gset base) (st : state) p c : known L E st -> known L E (set_mem st (store (mem st) p c)).
Proof.
  intros [H1 H2]. split; [done|]. intros b' Hb'. destruct (H2 _ Hb') as [? [l Hl]]. split; [done|]. simpl. unfold store.
  destruct (decide (p.1 = b')) as [<-|N]; [rewrite lookup_alter, Hl; by eexists|rewrite lookup_alter_ne by done; by eexists].
Qed.
Lemma known_add (L : gset oid) (E : gset base) (st : state) b l : known L E st -> known L E (add_block st b l).
Proof.
  intros [H1 H2]. split; [done|]. intros b' Hb'. destruct (H2 _ Hb') as [? ?]. split; [done|]. simpl. destruct (decide (b = b')) as [<-|N]; [by rewrite lookup_insert|by rewrite lookup_insert_ne].
Qed.
Lemma known_del (L : gset oid) (E : gset base) (st : state) b : known L E st -> (forall n, b <> Ext n) -> known L E (del_block st b).
Proof.
  intros [H1 H2] Hb. split; [done|]. intros b' Hb'. destruct (H2 _ Hb') as [[n ->] ?]. split; [eauto|]. simpl. by rewrite lookup_delete_ne.
Qed.
Lemma known_set (L : gset oid) (E : gset base) (st : state) o z : known L E st -> known L E (set_objs st (<[o := z]> (objs st))).
Proof.
  intros [H1 H2]. split; [|done]. intros o' Ho'. simpl. destruct (decide (o = o')) as [<-|N]; [by rewrite lookup_insert|rewrite lookup_insert_ne by done; eauto].
Qed.
Lemma known_newo (L : gset oid) (E : gset base) (st : state) o z : known L E st -> known L E (add_obj st o z).
Proof.
  intros [H1 H2]. split.
  - intros o' Ho'. simpl. destruct (decide (o = o')) as [<-|N]; [by rewrite lookup_insert|rewrite lookup_insert_ne by done; eauto].
  - intros b' Hb'. destruct (H2 _ Hb') as [[n ->] ?]. split; [eauto|]. simpl. by rewrite lookup_insert_ne.
Qed.
Lemma known_own (L : gset oid) (E : gset base) (st : state) o z : known L E st -> known ({[o]} ∪ L) E (add_obj st o z).
Proof.
  intros H. destruct (known_newo _ _ _ o z H) as [H1 H2]. split; [|done]. intros o' [Ho'|Ho']%elem_of_union; [|eauto].
  apply elem_of_singleton in Ho' as ->. simpl. by rewrite lookup_insert.
Qed.
Lemma known_delo (L : gset oid) (E : gset base) (st : state) o : known L E st -> known (L ∖ {[o]}) E (del_obj st o).
Proof.
  intros [H1 H2]. split.
  - intros o' [Ho' N]%elem_of_difference. rewrite elem_of_singleton in N. simpl. rewrite lookup_delete_ne by done. eauto.
  - intros b' Hb'. destruct (H2 _ Hb') as [[n ->] ?]. split; [eauto|]. simpl. by rewrite lookup_delete_ne.
Qed.
Lemma known_newe (L : gset oid) (E : gset base) (st : state) n l : known L E st -> known L ({[Ext n]} ∪ E) (add_block st (Ext n) l).
Proof.
  intros H. destruct (known_add _ _ _ (Ext n) l H) as [H1 H2]. split; [done|]. intros b' [Hb'|Hb']%elem_of_union; [|eauto].
  apply elem_of_singleton in Hb' as ->. simpl. rewrite lookup_insert. eauto.
Qed.
Lemma known_dele (L : gset oid) (E : gset base) (st : state) b : known L E st -> known L (E ∖ {[b]}) (del_block st b).
Proof.
  intros [H1 H2]. split; [done|]. intros b' [Hb' N]%elem_of_difference. rewrite elem_of_singleton in N. simpl. rewrite lookup_delete_ne by done. eauto.
Qed.
Lemma live_heap_hp st p l : live_heap st p = Some l -> forall n, p.1 <> Ext n.
Proof. unfold live_heap. destruct p as [[|h|] [| |]]; try done. Qed.

(** After a refusal. *)
Lemma pf_failed {A} (p : prog A) (L : gset oid) (E : gset base) (Φ : bool -> gset oid -> gset base -> A -> Prop) orc t st : pf false p true L E Φ -> known L E st ->
  exists a st' t' L' E', run false orc p t st = Done a st' t' /\ Φ true L' E' a.
Proof.
  revert L E t st. induction p; cbn [pf run]; intros L E t st HP HK.
  - by eexists _, _, _, L, E.
  - by destruct HP as [[] _].
  - by destruct HP as [[] _].
  - destruct HP as [HL HP]. destruct (proj1 HK o) as [z Hz]; [by apply HL|]. rewrite Hz. by eapply H.
  - destruct HP as [HL HP]. destruct (proj1 HK o) as [z' Hz]; [by apply HL|]. rewrite Hz. eapply IHp; [done|]. by apply known_set.
  - eapply H; [by apply HP|]. by apply known_own.
  - destruct HP as [HL HP]. destruct HL as [HL HF]; [done..|]. destruct (proj1 HK o) as [z' Hz]; [done|]. rewrite Hz, HF. eapply IHp; [done|]. by apply known_delo.
  - destruct HP as [HN HS]. destruct (grants orc t 0); [eapply H; [apply HS|by apply known_newo]|by eapply H].
  - by destruct HP as [[] _].
  - destruct HP as [HN HS]. destruct (granted orc t n); [eapply H; [apply HS|by apply known_add]|by eapply H].
  - by destruct HP as [[] _].
  - by destruct HP as [[] _].
  - eapply (H (Ext (pick_ext orc t st), 0)); [apply HP; by exists (pick_ext orc t st)|]. by apply known_newe.
  - destruct HP as [HL HP]. destruct (proj2 HK p.1) as [[n Hn] [l Hl]]; [by apply HL|]. rewrite Hl, Hn. eapply IHp; [done|]. rewrite Hn. by apply known_dele.
  - by eapply H.
  - eapply IHp; [done|]. by destruct HK.
  - destruct a; [eapply IHp; [by apply HP|done]|by eapply IHp].
  - by destruct HP.
  - by destruct HP.
Qed.
Lemma pf_failed_lax {A} (p : prog A) (L : gset oid) (E : gset base) (Φ : bool -> gset oid -> gset base -> A -> Prop) orc t st a st' t' : pf true p true L E Φ ->
  run false orc p t st = Done a st' t' -> exists L' E', Φ true L' E' a.
Proof.
  revert L E t st. induction p; cbn [pf run]; intros L E t st HP HK; try done.
  - injection HK as -> _ _. eauto.
  - destruct HP as [_ HP]. destruct (load _ _); [by eapply H|done].
  - destruct HP as [_ HP]. destruct (load _ _); [by eapply IHp|done].
  - destruct HP as [_ HP]. destruct (_ !! _); [by eapply H|done].
  - destruct HP as [_ HP]. destruct (_ !! _); [by eapply IHp|done].
  - eapply H; [|done]. by apply HP.
  - destruct HP as [_ HP]. destruct (_ !! _); [|done]. destruct (o.1); [done|by eapply IHp].
  - destruct HP as [HN HS]. destruct (grants orc t 0); [eapply H; [apply HS|done]|by eapply H].
  - destruct HP as [_ HP]. destruct (_ !! _); [|done]. destruct (o.1); [by eapply IHp|done].
  - destruct HP as [HN HS]. destruct (granted orc t n); [eapply H; [apply HS|done]|by eapply H].
  - destruct HP as [_ [HN HS]]. destruct (live_heap _ _); [|done]. destruct (granted orc t n); [eapply H; [apply HS|done]|by eapply H].
  - destruct HP as [_ HP]. destruct (live_heap _ _); [by eapply IHp|done].
  - eapply (H (Ext (pick_ext orc t st), 0)); [apply HP; by exists (pick_ext orc t st)|done].
  - destruct HP as [_ HP]. destruct (p.1); try done; destruct (_ !! _); try done; by eapply IHp.
  - by eapply H.
  - by eapply IHp.
  - destruct a0; [eapply IHp; [by apply HP|done]|by eapply IHp].
Qed.

(** Before one. *)
Lemma pf_run {A} (p : prog A) (L : gset oid) (E : gset base) (Φ : bool -> gset oid -> gset base -> A -> Prop) orc t st n : pf false p false L E Φ -> known L E st ->
  run true orc p t st = OOM n -> exists a st' t' L' E', run false orc p t st = Done a st' t' /\ Φ true L' E' a.
Proof.
  revert L E t st. induction p; cbn [pf run]; intros L E t st HP HK HO; try done.
  - destruct HP as [_ HP]. destruct (load _ _); [by eapply H|done].
  - destruct HP as [_ HP]. destruct (load (mem st) p) eqn:El; [|done]. eapply IHp; [done| |done]. by apply known_store.
  - destruct HP as [_ HP]. destruct (_ !! _); [by eapply H|done].
  - destruct HP as [_ HP]. destruct (_ !! _); [|done]. eapply IHp; [done| |done]. by apply known_set.
  - eapply H; [by apply HP| |done]. by apply known_own.
  - destruct HP as [_ HP]. destruct (_ !! _); [|done]. destruct (o.1); [done|]. eapply IHp; [done| |done]. by apply known_delo.
  - destruct HP as [HN HS]. destruct (grants orc t 0); [eapply H; [apply HS|by apply known_newo|done]|by eapply pf_failed].
  - destruct HP as [_ HP]. destruct (_ !! _); [|done]. destruct (o.1); [|done]. eapply IHp; [done| |done]. by apply known_delo.
  - destruct HP as [HN HS]. destruct (granted orc t n0); [eapply H; [apply HS|by apply known_add|done]|by eapply pf_failed].
  - destruct HP as [_ [HN HS]]. destruct (live_heap _ _) eqn:El; [|done]. destruct (granted orc t n0); [eapply H; [apply HS| |done]|by eapply pf_failed].
    apply known_add, known_del; [done|]. by eapply live_heap_hp.
  - destruct HP as [_ HP]. destruct (live_heap _ _) eqn:El; [|done]. eapply IHp; [done| |done]. apply known_del; [done|]. by eapply live_heap_hp.
  - eapply (H (Ext (pick_ext orc t st), 0)); [apply HP; by exists (pick_ext orc t st)| |done]. by apply known_newe.
  - destruct HP as [_ HP]. destruct (p.1) eqn:Ep; try done; destruct (_ !! _); try done; eapply IHp; [done| |done]; by apply known_dele.
  - by eapply H.
  - eapply IHp; [done| |done]. by destruct HK.
  - destruct a as [m|].
    + destruct HP as [HB HP]. destruct b; [by eapply IHp|]. by specialize (HB eq_refl).
    + destruct b; [by eapply IHp|done].
Qed.
Lemma pf_run_lax {A} (p : prog A) (L : gset oid) (E : gset base) (Φ : bool -> gset oid -> gset base -> A -> Prop) orc t st n a st' t' : pf true p false L E Φ ->
  run true orc p t st = OOM n -> run false orc p t st = Done a st' t' -> exists L' E', Φ true L' E' a.
Proof.
  revert L E t st. induction p; cbn [pf run]; intros L E t st HP HO HD; try done.
  - destruct HP as [_ HP]. destruct (load _ _); [by eapply H|done].
  - destruct HP as [_ HP]. destruct (load _ _); [by eapply IHp|done].
  - destruct HP as [_ HP]. destruct (_ !! _); [by eapply H|done].
  - destruct HP as [_ HP]. destruct (_ !! _); [by eapply IHp|done].
  - eapply H; [|done..]. by apply HP.
  - destruct HP as [_ HP]. destruct (_ !! _); [|done]. destruct (o.1); [done|by eapply IHp].
  - destruct HP as [HN HS]. destruct (grants orc t 0); [eapply H; [apply HS|done..]|by eapply pf_failed_lax].
  - destruct HP as [_ HP]. destruct (_ !! _); [|done]. destruct (o.1); [by eapply IHp|done].
  - destruct HP as [HN HS]. destruct (granted orc t n0); [eapply H; [apply HS|done..]|by eapply pf_failed_lax].
  - destruct HP as [_ [HN HS]]. destruct (live_heap _ _); [|done]. destruct (granted orc t n0); [eapply H; [apply HS|done..]|by eapply pf_failed_lax].
  - destruct HP as [_ HP]. destruct (live_heap _ _); [by eapply IHp|done].
  - eapply (H (Ext (pick_ext orc t st), 0)); [apply HP; by exists (pick_ext orc t st)|done..].
  - destruct HP as [_ HP]. destruct (p.1); try done; destruct (_ !! _); try done; by eapply IHp.
  - by eapply H.
  - by eapply IHp.
  - destruct a0 as [m|].
    + destruct HP as [HB HP]. destruct b; [by eapply IHp|]. by specialize (HB eq_refl).
    + destruct b; [by eapply IHp|done].
Qed.

(** ** Which functions are quiet *)
Local Transparent Load Store getO setO getG assert.
Create HintDb quiet.
Ltac qt :=
  lazymatch goal with
  | |- forall _, _ => intro; qt
  | |- quiet (bind _ _) => apply quiet_bind; qt
  | |- quiet (if ?b then _ else _) => destruct b; qt
  | |- quiet (match ?x with _ => _ end) => destruct x; qt
  | |- quiet (let x := ?v in @?b x) => cbv zeta; qt
  | |- quiet (Ret _) => exact I
  | |- True => exact I
  | |- quiet Undef => exact I
  | |- quiet NoFuel => exact I
  | |- quiet (Peek _ _) => cbn [quiet]; qt
  | |- quiet (Poke _ _ _) => cbn [quiet]; qt
  | |- quiet (GetO _ _) => cbn [quiet]; qt
  | |- quiet (SetO _ _ _) => cbn [quiet]; qt
  | |- quiet (Free _ _) => cbn [quiet]; qt
  | |- quiet _ => solve [eauto with quiet]
  end.
Lemma q_Load p : quiet (Load p). Proof. unfold Load. qt. Qed.
Lemma q_Store p v : quiet (Store p v). Proof. unfold Store. qt. Qed.
Lemma q_getO o : quiet (getO o). Proof. unfold getO. qt. Qed.
Lemma q_setO o z : quiet (setO o z). Proof. unfold setO. qt. Qed.
Lemma q_getG : quiet getG. Proof. unfold getG. cbn. done. Qed.
Lemma q_assert b : quiet (assert b). Proof. unfold assert. done. Qed.
#[export] Hint Resolve q_Load q_Store q_getO q_setO q_getG q_assert : quiet.
Lemma q_get_used o : quiet (get_used o). Proof. unfold get_used. qt. Qed.
Lemma q_get_sign o : quiet (get_sign o). Proof. unfold get_sign. qt. Qed.
Lemma q_get_alloc o : quiet (get_alloc o). Proof. unfold get_alloc. qt. Qed.
Lemma q_get_digits o : quiet (get_digits o). Proof. unfold get_digits. qt. Qed.
Lemma q_set_used o v : quiet (set_used o v). Proof. unfold set_used. qt. Qed.
Lemma q_set_sign o v : quiet (set_sign o v). Proof. unfold set_sign. qt. Qed.
Lemma q_set_alloc o v : quiet (set_alloc o v). Proof. unfold set_alloc. qt. Qed.
Lemma q_set_digits o v : quiet (set_digits o v). Proof. unfold set_digits. qt. Qed.
#[export] Hint Resolve q_get_used q_get_sign q_get_alloc q_get_digits q_set_used q_set_sign q_set_alloc q_set_digits : quiet.
Lemma q_zero_loop n : forall p, quiet (zero_loop n p). Proof. induction n; cbn [zero_loop]; qt. Qed.
Lemma q_copy_loop n : forall p q, quiet (copy_loop n p q). Proof. induction n; cbn [copy_loop]; qt. Qed.
Lemma q_clamp_loop n : forall p, quiet (clamp_loop n p). Proof. induction n as [|n IH]; [done|]. destruct n; [done|]. intros p. change (quiet (d <- Load p; if d =? 0 then clamp_loop (S n) (p +p (-1)) else Ret (Z.of_nat (S (S n))))). qt. Qed.
Lemma q_uadd1 n : forall a b c w, quiet (uadd_loop1 n a b c w). Proof. induction n; cbn [uadd_loop1]; qt. Qed.
Lemma q_uadd2 n : forall a c w, quiet (uadd_loop2 n a c w). Proof. induction n; cbn [uadd_loop2]; qt. Qed.
Lemma q_usub1 n : forall a b c w, quiet (usub_loop1 n a b c w). Proof. induction n; cbn [usub_loop1]; qt. Qed.
Lemma q_usub2 n : forall a c w, quiet (usub_loop2 n a c w). Proof. induction n; cbn [usub_loop2]; qt. Qed.
Lemma q_cdig n : forall a b, quiet (cdig_loop n a b). Proof. induction n; cbn [cdig_loop]; qt. Qed.
Lemma q_uvpack n : forall uv t d, quiet (uvpack_loop n uv t d). Proof. induction n; cbn [uvpack_loop]; qt. Qed.
Lemma q_move_down n : forall a b, quiet (move_down n a b). Proof. induction n; cbn [move_down]; qt. Qed.
Lemma q_shl n : forall a b c, quiet (shl_loop n a b c). Proof. induction n; cbn [shl_loop]; qt. Qed.
#[export] Hint Resolve q_zero_loop q_copy_loop q_clamp_loop q_uadd1 q_uadd2 q_usub1 q_usub2 q_cdig q_uvpack q_move_down q_shl : quiet.
Lemma q_ZERO p n : quiet (ZERO p n). Proof. unfold ZERO. qt. Qed.
Lemma q_COPY p q n : quiet (COPY p q n). Proof. unfold COPY. qt. Qed.
Lemma q_CLAMP o : quiet (CLAMP o). Proof. unfold CLAMP. qt. Qed.
Lemma q_CMPZ o : quiet (CMPZ o). Proof. unfold CMPZ. qt. Qed.
Lemma q_s_uadd a b c n m : quiet (s_uadd a b c n m). Proof. unfold s_uadd, s_uadd_ord. qt. Qed.
Lemma q_s_usub a b c n m : quiet (s_usub a b c n m). Proof. unfold s_usub. qt. Qed.
#[export] Hint Resolve q_ZERO q_COPY q_CLAMP q_CMPZ q_s_uadd q_s_usub : quiet.
Lemma q_s_ucmp a b : quiet (s_ucmp a b). Proof. unfold s_ucmp, s_cdig. qt. Qed.
Lemma q_s_ufake o v t : quiet (s_ufake o v t). Proof. unfold s_ufake, s_uvpack. qt. Qed.
#[export] Hint Resolve q_s_ucmp q_s_ufake : quiet.
Lemma q_s_fake o v t : quiet (s_fake o v t). Proof. unfold s_fake. qt. Qed.
Lemma q_init o : quiet (mp_int_init o). Proof. unfold mp_int_init. qt. Qed.
Lemma q_zero o : quiet (mp_int_zero o). Proof. unfold mp_int_zero. qt. Qed.
#[export] Hint Resolve q_s_fake q_init q_zero : quiet.

(** ** Functions that report a refusal *)
Lemma pf_q {A B} (lax : bool) (p : prog A) (q : A -> prog B) (L : gset oid) (E : gset base) (Φ : bool -> gset oid -> gset base -> B -> Prop) :
  quiet p -> (forall a, pf lax (q a) false L E Φ) -> pf lax (bind p q) false L E Φ.
Proof. intros Hp Hq. apply pf_bind. by apply quiet_pf. Qed.
Definition rets (L : gset oid) (E : gset base) (f : bool) (L' : gset oid) (E' : gset base) (r : Z) : Prop :=
  L' = L /\ E' = E /\ ((f = false /\ r = MP_OK) \/ (f = true /\ r = MP_MEMORY)).
Definition retb (L : gset oid) (E : gset base) (f : bool) (L' : gset oid) (E' : gset base) (r : bool) : Prop :=
  L' = L /\ E' = E /\ f = negb r.
Ltac sq := apply pf_q; [qt|intros ?].
Ltac fin := by (split; [done|split; [done|auto]]).
Lemma pf_pad (z : oid) (n : Z) (L : gset oid) (E : gset base) : pf false (s_pad z n) false L E (retb L E).
Proof.
  unfold s_pad. sq. destruct (_ <? _); [|by cbn]. cbv zeta. sq. apply pf_bind.
  assert (forall tmp, pf false (match tmp with None => Ret false | Some t => set_digits z (Some t);; set_alloc z (s_round_prec n);; Ret true end) (bool_decide (tmp = None)) L E (retb L E)) as HT.
  { intros [t|]; [|by cbn]. rewrite bool_decide_eq_false_2 by done. sq. sq. by cbn. }
  destruct (ptr_eqb _ _).
  - apply pf_bind. unfold s_alloc. cbn [pf]. split; [split; [done|]|].
    + apply (HT None).
    + intros p. split; [by rewrite bool_decide_eq_true_2 by (by eexists)|]. sq. sq. cbn [pf]. apply (HT (Some p)).
  - unfold s_realloc. cbn [pf]. split; [done|]. split; [split; [done|]|].
    + apply (HT None).
    + intros p. split; [by rewrite bool_decide_eq_true_2 by (by eexists)|]. apply (HT (Some p)).
Qed.
Lemma pf_copy (a c : oid) (L : gset oid) (E : gset base) : pf false (mp_int_copy a c) false L E (rets L E).
Proof.
  unfold mp_int_copy. case_bool_decide; [fin|]. sq. apply pf_bind. eapply pf_mono; [apply pf_pad|]. intros f L' E' ok (-> & -> & ->). destruct ok; cbn [negb]; [|fin].
  repeat sq. fin.
Qed.
Lemma pf_add_mags (a b c : oid) (L : gset oid) (E : gset base) : pf false (add_mags a b c) false L E (rets L E).
Proof.
  unfold add_mags. do 2 sq. cbv zeta. apply pf_bind. eapply pf_mono; [apply pf_pad|]. intros f L' E' ok (-> & -> & ->). destruct ok; cbn [negb]; [|fin].
  do 4 sq. destruct (_ =? _); [repeat sq; fin|]. apply pf_bind. eapply pf_mono; [apply pf_pad|]. intros f L' E' ok (-> & -> & ->). destruct ok; cbn [negb]; [|fin].
  repeat sq. fin.
Qed.
Lemma pf_add (a b c : oid) (L : gset oid) (E : gset base) : pf false (mp_int_add a b c) false L E (rets L E).
Proof.
  unfold mp_int_add. do 2 sq. destruct (_ =? _); [apply pf_add_mags|]. sq. destruct (_ =? _); [sq; fin|]. cbv zeta. sq.
  apply pf_bind. eapply pf_mono; [apply pf_pad|]. intros f L' E' ok (-> & -> & ->). destruct ok; cbn [negb]; [|fin]. repeat sq. fin.
Qed.
Lemma pf_sub (a b c : oid) (L : gset oid) (E : gset base) : pf false (mp_int_sub a b c) false L E (rets L E).
Proof.
  unfold mp_int_sub. do 4 sq. destruct (negb _); [apply pf_add_mags|].
  apply pf_bind. eapply pf_mono; [apply pf_pad|]. intros f L' E' ok (-> & -> & ->). destruct ok; cbn [negb]; [|fin]. cbv zeta. repeat sq. fin.
Qed.
Lemma pf_abs (a c : oid) (L : gset oid) (E : gset base) : pf false (mp_int_abs a c) false L E (rets L E).
Proof.
  unfold mp_int_abs. apply pf_bind. eapply pf_mono; [apply pf_copy|]. intros f L' E' r (-> & -> & [[-> ->]|[-> ->]]); cbn [negb Z.eqb]; [|fin]. sq. fin.
Qed.
Lemma pf_neg (a c : oid) (L : gset oid) (E : gset base) : pf false (mp_int_neg a c) false L E (rets L E).
Proof.
  unfold mp_int_neg. apply pf_bind. eapply pf_mono; [apply pf_copy|]. intros f L' E' r (-> & -> & [[-> ->]|[-> ->]]); cbn [negb Z.eqb]; [|fin]. sq. sq. fin.
Qed.
Lemma pf_qmul (z : oid) (p : Z) (L : gset oid) (E : gset base) : pf false (s_qmul z p) false L E (retb L E).
Proof.
  unfold s_qmul. destruct (_ =? _); [by cbn|]. sq. cbv zeta. sq. apply pf_bind. eapply pf_mono; [apply pf_pad|]. intros f L' E' ok (-> & -> & ->). destruct ok; cbn [negb]; [|by cbn].
  repeat sq. by cbn.
Qed.
Lemma pf_mul_pow2 (a : oid) (p : Z) (c : oid) (L : gset oid) (E : gset base) : pf false (mp_int_mul_pow2 a p c) false L E (rets L E).
Proof.
  unfold mp_int_mul_pow2. sq. apply pf_bind. eapply pf_mono; [apply pf_copy|]. intros f L' E' r (-> & -> & [[-> ->]|[-> ->]]); cbn [negb Z.eqb]; [|fin].
  apply pf_bind. eapply pf_mono; [apply pf_qmul|]. intros f L' E' ok (-> & -> & ->). destruct ok; fin.
Qed.
Lemma pf_init_size (z : oid) (n : Z) (L : gset oid) (E : gset base) : z ∈ L -> pf false (mp_int_init_size z n) false L E (rets L E).
Proof.
  intros Hz. unfold mp_int_init_size. destruct (_ =? _). { unfold mp_int_init. repeat sq. fin. }
  sq. cbv zeta. apply pf_bind. unfold s_alloc. cbn [pf]. split; [split; [done|]|].
  - unfold set_digits, getO, setO. cbn. split; [done|]. intros m. split; [done|]. fin.
  - intros p. split; [by rewrite bool_decide_eq_true_2 by (by eexists)|]. repeat sq. fin.
Qed.
Lemma pf_init_copy (z a : oid) (L : gset oid) (E : gset base) : z ∈ L -> pf false (mp_int_init_copy z a) false L E (rets L E).
Proof.
  intros Hz. unfold mp_int_init_copy. sq. apply pf_bind.
  assert (forall r f L' E', rets L E f L' E' r -> pf false (if negb (r =? MP_OK) then Ret r else set_used z a0;; s <- get_sign a; set_sign z s;; dold <- get_digits a; dz <- get_digits z; COPY dold dz a0;; Ret MP_OK) f L' E' (rets L E)) as HT.
  { intros r f L' E' (-> & -> & [[-> ->]|[-> ->]]); cbn [negb Z.eqb]; [|fin]. cbn [Z.eqb MP_OK negb]. repeat sq. fin. }
  destruct (_ =? _).
  - unfold mp_int_init. repeat sq. fin.
  - sq. eapply pf_mono; [by apply pf_init_size|]. intros f L' E' r Hr. by apply HT.
Qed.
Lemma pf_with_local (body : oid -> ptr -> prog Z) (L : gset oid) (E : gset base) :
  (forall t b L' E', L ⊆ L' -> pf false (body t b) false L' E' (rets L' E')) ->
  pf false (with_local body) false L E (fun f _ _ r => (f = false /\ r = MP_OK) \/ (f = true /\ r = MP_MEMORY)).
Proof.
  intros Hb. unfold with_local. cbn [pf]. intros p [n Hn] o Ho. apply pf_bind. eapply pf_mono; [apply Hb; set_solver|].
  intros f L' E' r (-> & -> & Hr). cbn [pf]. split; [set_solver|]. split; [set_solver|]. done.
Qed.
Lemma rets_or (L : gset oid) (E : gset base) (f : bool) (L' : gset oid) (E' : gset base) (r : Z) : rets L E f L' E' r -> (f = false /\ r = MP_OK) \/ (f = true /\ r = MP_MEMORY).
Proof. by intros (_ & _ & H). Qed.

Lemma q_move_up n : forall a b, quiet (move_up n a b). Proof. induction n; cbn [move_up]; qt. Qed.
Lemma q_shr n : forall a b c, quiet (shr_loop n a b c). Proof. induction n; cbn [shr_loop]; qt. Qed.
Lemma q_fix_zero o : quiet (fix_zero_sign o). Proof. unfold fix_zero_sign. qt. Qed.
#[export] Hint Resolve q_move_up q_shr q_fix_zero : quiet.
Lemma q_qdiv_bits o n : quiet (s_qdiv_bits o n). Proof. unfold s_qdiv_bits. qt. Qed.
#[export] Hint Resolve q_qdiv_bits : quiet.
Lemma q_qdiv o n : quiet (s_qdiv o n). Proof. unfold s_qdiv. qt. Qed.
Lemma q_qmod o n : quiet (s_qmod o n). Proof. unfold s_qmod. qt. Qed.
Lemma q_ddiv_loop n : forall a b w, quiet (ddiv_loop n a b w). Proof. induction n; cbn [ddiv_loop]; qt. Qed.
#[export] Hint Resolve q_qdiv q_qmod q_ddiv_loop : quiet.
Lemma q_ddiv o b : quiet (s_ddiv o b). Proof. unfold s_ddiv. qt. Qed.
Lemma q_dmul_loop n : forall a b w, quiet (dmul_loop n a b w). Proof. induction n; cbn [dmul_loop]; qt. Qed.
Lemma q_dadd_loop n : forall a w, quiet (dadd_loop n a w). Proof. induction n; cbn [dadd_loop]; qt. Qed.
Lemma q_bump o p w : quiet (bump_used o p w). Proof. unfold bump_used. qt. Qed.
#[export] Hint Resolve q_ddiv q_dmul_loop q_dadd_loop q_bump : quiet.
Lemma q_dmul o b : quiet (s_dmul o b). Proof. unfold s_dmul. qt. Qed.
Lemma q_dadd o b : quiet (s_dadd o b). Proof. unfold s_dadd. qt. Qed.
Lemma q_rev n : forall h t, quiet (rev_loop n h t). Proof. induction n; intros h t; cbn [rev_loop]; qt. Qed.
Lemma q_to_string_loop n : forall o r s c, quiet (to_string_loop n o r s c). Proof. induction n; cbn [to_string_loop]; qt. Qed.
#[export] Hint Resolve q_dmul q_dadd q_rev q_to_string_loop : quiet.
Lemma q_read_loop o r s : quiet (read_loop o r s). Proof. induction s; cbn [read_loop]; qt. Qed.
Lemma q_clear o : quiet (mp_int_clear o). Proof. unfold mp_int_clear, s_free. qt. Qed.
#[export] Hint Resolve q_read_loop q_clear : quiet.

Lemma pf_div_pow2 (a : oid) (k : Z) (q r : option oid) (L : gset oid) (E : gset base) : pf false (mp_int_div_pow2 a k q r) false L E (rets L E).
Proof.
  unfold mp_int_div_pow2. sq. apply pf_bind.
  assert (forall o (f : oid -> prog unit), (forall o, quiet (f o)) -> pf false (when o (fun q => res <- mp_int_copy a q; if res =? MP_OK then f q;; Ret MP_OK else Ret res)) false L E (rets L E)) as HW.
  { intros [o|] f Hf; [|fin]. cbn [when]. apply pf_bind. eapply pf_mono; [apply pf_copy|]. intros f' L' E' x (-> & -> & [[-> ->]|[-> ->]]); [|fin]. cbn [Z.eqb MP_OK]. apply pf_q; [apply Hf|intros ?; fin]. }
  eapply pf_mono; [apply (HW q (fun q => s_qdiv q (u32 k))); intros; apply q_qdiv|]. intros f' L' E' x (-> & -> & [[-> ->]|[-> ->]]); [|fin]. cbn [Z.eqb MP_OK negb].
  apply (HW r (fun q => s_qmod q (u32 k))). intros; apply q_qmod.
Qed.
Lemma pf_read_string (z : oid) (r : Z) (s : list Z) (L : gset oid) (E : gset base) : pf false (mp_int_read_string z r s) false L E (fun f _ _ x => f = false \/ x = MP_MEMORY).
Proof.
  unfold mp_int_read_string. apply pf_bind. unfold mp_int_read_cstring. sq. cbv zeta. apply pf_q; [qt|intros s1]. apply pf_bind. eapply pf_mono; [apply pf_pad|]. intros f L' E' ok (-> & -> & ->). destruct ok; cbn [negb]; [|by right].
  repeat sq. by left.
Qed.
Lemma pf_to_string (z : oid) (r : Z) (p : ptr) (limit : Z) (L : gset oid) (E : gset base) : pf false (mp_int_to_string z r p limit) false L E (fun f _ _ x => f = false \/ x = MP_MEMORY).
Proof.
  unfold mp_int_to_string. do 3 sq. destruct (_ =? 0); [repeat sq; by left|]. cbn [pf]. intros o Ho. apply pf_bind. eapply pf_mono; [apply pf_init_copy; set_solver|].
  intros f' L' E' x (-> & -> & [[-> ->]|[-> ->]]); cbn [Z.eqb MP_OK MP_MEMORY negb]; [|cbn [pf]; split; [set_solver|by right]].
  sq. apply pf_q; [qt|intros sl]. cbv zeta. repeat sq. cbn [pf]. split; [done|by left].
Qed.

(** [p] reports refusals: it ends, in a result [MP_MEMORY] or as if nothing had been refused. *)
Lemma reported_any (p : prog Z) (L : gset oid) (E : gset base) st (Q : Z -> state -> Prop) :
  pf false p false L E (fun f _ _ r => f = false \/ r = MP_MEMORY) -> known L E st -> wp p Q st ->
  forall orc t, exists r st' t', run false orc p t st = Done r st' t' /\ (r = MP_MEMORY \/ Q r st').
Proof.
  intros HP HK HW orc t. pose proof (wp_sound p Q st HW orc t) as HS. destruct (run true orc p t st) as [r st' t'|n| | |] eqn:E1; try done.
  - exists r, st', t'. split; [by apply run_nd_agrees|by right].
  - destruct (pf_run _ _ _ _ orc t st n HP HK E1) as (r & st' & t' & L' & E' & Hr & [?| ->]); [done|]. exists MP_MEMORY, st', t'. auto.
Qed.
Lemma reported (p : prog Z) (L : gset oid) (E : gset base) st (Q : Z -> state -> Prop) :
  pf false p false L E (fun f _ _ r => (f = false /\ r = MP_OK) \/ (f = true /\ r = MP_MEMORY)) -> known L E st -> wp p Q st ->
  forall orc t, exists r st' t', run false orc p t st = Done r st' t' /\ (r = MP_MEMORY \/ Q r st').
Proof. intros HP. apply reported_any with (L := L) (E := E). eapply pf_mono; [exact HP|]. intros f ? ? r [[-> _]|[_ ->]]; auto. Qed.
