(** The functions of the library write only their results, their temporaries and
    the digits of both; every other operand is read only, at every moment of the
    call.  One lemma for each function, in the order of [Kern] and [Imath]. *)
From Coq Require Import ZArith List Lia.
From stdpp Require Import gmap list.
From Verif Require Import Mem Prog MemLem Kern Fp Imath Wp Const.
Local Open Scope Z_scope.
Local Open Scope prog_scope.
Local Transparent bind Load Prog.Store getO setO getG assert.
Local Arguments bind {A B} !p f : simpl nomatch.

Definition sub (C C' : oid -> Prop) : Prop := forall o, C o -> C' o.
Lemma sub_refl C : sub C C. Proof. by intros o. Qed.
Lemma sub_trans C1 C2 C3 : sub C1 C2 -> sub C2 C3 -> sub C1 C3. Proof. unfold sub. auto. Qed.

Section fns.
Context (LO : oid -> Prop) (LB : base -> Prop) (HSng : forall o, LO o -> LB (Sng o)).
(** A structure that may be written, with its digits. *)
Definition ow (Cl : oid -> Prop) (o : oid) : Prop := LO o /\ Cl o.
Definition owo (Cl : oid -> Prop) (o : option oid) : Prop := match o with Some o => ow Cl o | None => True end.
Definition wx (C0 Cl : oid -> Prop) {A} (p : prog A) (Ψ : A -> Prop) : Prop := ww LO LB Cl p (fun Cl' a => sub C0 Cl' /\ Ψ a).
Notation wc Cl p Ψ := (wx Cl Cl p Ψ).
Notation Tr := (fun _ => True).

Lemma ow_sub C C' o : sub C C' -> ow C o -> ow C' o. Proof. intros H [? ?]. split; auto. Qed.
Lemma owo_sub C C' o : sub C C' -> owo C o -> owo C' o. Proof. destruct o; [apply ow_sub|done]. Qed.
Lemma wx_bind {A B} C0 Cl (p : prog A) (f : A -> prog B) Ψ Ψ' : wc Cl p Ψ -> (forall a Cl', sub Cl Cl' -> Ψ a -> wx C0 Cl' (f a) Ψ') -> wx C0 Cl (bind p f) Ψ'.
Proof. intros H1 H2. apply ww_bind. eapply ww_mono; [exact H1|]. intros Cl' a [? ?]. by apply H2. Qed.
Lemma wx_tail {A} C0 Cl (p : prog A) Ψ : sub C0 Cl -> wc Cl p Ψ -> wx C0 Cl p Ψ.
Proof. intros H1 H2. eapply ww_mono; [exact H2|]. intros Cl' a [? ?]. split; [by eapply sub_trans|done]. Qed.
Lemma wx_weak {A} C0 Cl (p : prog A) (Ψ Ψ' : A -> Prop) : wx C0 Cl p Ψ -> (forall a, Ψ a -> Ψ' a) -> wx C0 Cl p Ψ'.
Proof. intros H1 H2. eapply ww_mono; [exact H1|]. intros Cl' a [? ?]. split; [done|by apply H2]. Qed.
Lemma wx_ret {A} C0 Cl (a : A) (Ψ : A -> Prop) : sub C0 Cl -> Ψ a -> wx C0 Cl (Ret a) Ψ. Proof. by split. Qed.
Lemma wx_Load Cl p : wc Cl (Load p) Tr.
Proof. intros [v|]; [|done]. split; [apply sub_refl|done]. Qed.
Lemma wx_Peek {A} C0 Cl p (k : cell -> prog A) Ψ : (forall c, wx C0 Cl (k c) Ψ) -> wx C0 Cl (Peek p k) Ψ. Proof. done. Qed.
Lemma wx_Poke {A} C0 Cl p c (k : prog A) Ψ : LB p.1 -> wx C0 Cl k Ψ -> wx C0 Cl (Poke p c k) Ψ. Proof. by split. Qed.
Lemma wx_Store Cl p v : LB p.1 -> wc Cl (Prog.Store p v) Tr. Proof. intros H. split; [done|]. split; [apply sub_refl|done]. Qed.
Lemma wx_getO_own (Cl : oid -> Prop) o : Cl o -> wc Cl (getO o) (wdig LB). Proof. intros H z Hz. split; [apply sub_refl|auto]. Qed.
Lemma wx_getO Cl o : wc Cl (getO o) Tr. Proof. intros z Hz. split; [apply sub_refl|auto]. Qed.
Lemma sub_set (Cl : oid -> Prop) o (P : Prop) : (Cl o -> P) -> sub Cl (fun x => (x <> o /\ Cl x) \/ (x = o /\ P)).
Proof. intros H x Hx. destruct (decide (x = o)) as [->|N]; auto. Qed.
Lemma wx_setO Cl o z : LO o -> wdig LB z -> wc Cl (setO o z) Tr.
Proof. intros H1 H2. split; [done|]. split; [by apply sub_set|done]. Qed.
Lemma wx_setO_new C0 Cl o z : LO o -> wdig LB z -> sub C0 Cl -> ww LO LB Cl (setO o z) (fun Cl' _ => sub C0 Cl' /\ Cl' o).
Proof. intros H1 H2 H3. split; [done|]. split; [eapply sub_trans; [done|by apply sub_set]|auto]. Qed.
Lemma wx_set_digits Cl o p : LO o -> (forall q, p = Some q -> LB q.1) -> wc Cl (set_digits o p) Tr.
Proof. intros H1 H2. eapply wx_bind; [apply wx_getO|]. intros z Cl' Hs _. apply wx_tail; [done|]. by apply wx_setO. Qed.
Lemma wx_keep Cl o (g : mpz -> mpz) : (forall z, digits (g z) = digits z) -> LO o -> wc Cl (z <- getO o; setO o (g z)) Tr.
Proof. intros Hg H1 z Hz. split; [done|]. split; [|done]. apply sub_set. intros Hc q. rewrite Hg. by apply Hz. Qed.
Lemma wx_set_used Cl o n : LO o -> wc Cl (set_used o n) Tr. Proof. by apply (wx_keep Cl o (fun z => Mpz (digits z) (alloc z) n (sign z))). Qed.
Lemma wx_set_alloc Cl o n : LO o -> wc Cl (set_alloc o n) Tr. Proof. by apply (wx_keep Cl o (fun z => Mpz (digits z) n (used z) (sign z))). Qed.
Lemma wx_set_sign Cl o n : LO o -> wc Cl (set_sign o n) Tr. Proof. by apply (wx_keep Cl o (fun z => Mpz (digits z) (alloc z) (used z) n)). Qed.
Lemma wx_get_used Cl o : wc Cl (get_used o) Tr. Proof. intros z Hz. split; [apply sub_refl|auto]. Qed.
Lemma wx_get_alloc Cl o : wc Cl (get_alloc o) Tr. Proof. intros z Hz. split; [apply sub_refl|auto]. Qed.
Lemma wx_get_sign Cl o : wc Cl (get_sign o) Tr. Proof. intros z Hz. split; [apply sub_refl|auto]. Qed.
Lemma wx_get_digits Cl o : wc Cl (get_digits o) Tr. Proof. eapply wx_bind; [apply wx_getO|]. intros z C1 Hs _. destruct (digits z); [by apply wx_ret|done]. Qed.
Lemma wx_get_digits_own (Cl : oid -> Prop) o : Cl o -> wc Cl (get_digits o) (fun p => LB p.1).
Proof. intros H. eapply wx_bind; [by apply wx_getO_own|]. intros z C1 Hs Hz. destruct (digits z) as [p|] eqn:E; [|done]. apply wx_ret; [done|]. by apply Hz. Qed.
Lemma wx_getG Cl : wc Cl getG Tr. Proof. intros g. split; [apply sub_refl|auto]. Qed.
Lemma wx_assert Cl b : wc Cl (assert b) Tr. Proof. intros _. split; [apply sub_refl|auto]. Qed.
Lemma wx_loopc {S R} k : forall Cl (body : S -> prog (S + R)) s, (forall Cl' s, sub Cl Cl' -> wc Cl' (body s) Tr) -> wc Cl (loopc k body s) Tr.
Proof.
  induction k as [|k IH]; intros Cl body s H; cbn [loopc]; [apply H, sub_refl|].
  eapply wx_bind; [by apply IH|]. intros [s'|x] Cl' Hs _; [|by apply wx_ret]. apply wx_tail; [done|]. apply IH. intros Cl2 s2 Hs2. apply H. by eapply sub_trans.
Qed.
Lemma wx_loop {S R} k Cl (body : S -> prog (S + R)) s : (forall Cl' s, sub Cl Cl' -> wc Cl' (body s) Tr) -> wc Cl (loop k body s) Tr.
Proof. intros H. unfold loop. eapply wx_bind; [by apply wx_loopc|]. intros [s'|x] Cl' Hs _; [done|by apply wx_ret]. Qed.

Ltac ups Hs := lazymatch type of Hs with sub ?C ?C' =>
  repeat match goal with
  | H : ow C _ |- _ => apply (ow_sub _ _ _ Hs) in H
  | H : owo C _ |- _ => apply (owo_sub _ _ _ Hs) in H
  | H : sub ?C0 C |- _ => lazymatch H with Hs => fail | _ => apply (fun H => sub_trans _ _ _ H Hs) in H end
  end; clear Hs end.
Ltac sd := lazymatch goal with
  | |- ow _ (if ?b then _ else _) => destruct b; sd
  | |- ow _ (match ?x with _ => _ end) => destruct x; cbn [owo] in *; sd
  | |- LO (if ?b then _ else _) => destruct b; sd
  | |- ow _ _ => assumption
  | |- owo _ None => exact I
  | |- owo _ (Some _) => cbn [owo]; sd
  | |- owo _ _ => assumption
  | |- LO _ => first [assumption | match goal with H : ow _ ?o |- LO ?o => exact (proj1 H) end]
  | |- LB (Sng _) => apply HSng; sd
  | |- LB (fst (padd _ _)) => cbn [padd fst]; sd
  | |- LB (fst (Sng _, _)) => cbn [fst]; sd
  | |- LB _ => first [assumption | cbn [fst snd padd] in *; assumption | match goal with H : wdig LB ?z, E : digits ?z = Some _ |- _ => exact (H _ E) end]
  | |- wdig LB _ => first [assumption | intros ? ?; cbn [digits] in *; simplify_eq; sd | intros ? ?; cbn [digits] in *; eauto]
  | |- forall q, _ = Some q -> LB _ => let q := fresh "q" in let E := fresh "E" in intros q E; first [discriminate E | injection E as <-; sd]
  | |- sub _ _ => first [assumption | apply sub_refl]
  | |- True => exact I
  | |- _ => first [assumption | done]
  end.
Ltac prim := lazymatch goal with
  | |- wx _ _ (Load _) _ => apply wx_Load
  | |- wx _ _ (Prog.Store _ _) _ => apply wx_Store; sd
  | |- wx _ _ (getO _) _ => first [apply wx_getO_own; match goal with H : ow _ ?o |- _ ?o => exact (proj2 H) end | apply wx_getO]
  | |- wx _ _ (get_digits _) _ => first [apply wx_get_digits_own; match goal with H : ow _ ?o |- _ ?o => exact (proj2 H) end | apply wx_get_digits]
  | |- wx _ _ (setO _ _) _ => apply wx_setO; sd
  | |- wx _ _ (set_digits _ _) _ => apply wx_set_digits; sd
  | |- wx _ _ (set_used _ _) _ => apply wx_set_used; sd
  | |- wx _ _ (set_alloc _ _) _ => apply wx_set_alloc; sd
  | |- wx _ _ (set_sign _ _) _ => apply wx_set_sign; sd
  | |- wx _ _ (get_used _) _ => apply wx_get_used
  | |- wx _ _ (get_alloc _) _ => apply wx_get_alloc
  | |- wx _ _ (get_sign _) _ => apply wx_get_sign
  | |- wx _ _ getG _ => apply wx_getG
  | |- wx _ _ (assert _) _ => apply wx_assert
  end.

Lemma wx_NewO {A} C0 Cl (k : oid -> prog A) Ψ : sub C0 Cl -> (forall o, LO o -> ~ C0 o -> wx C0 Cl (k o) Ψ) -> wx C0 Cl (NewO k) Ψ.
Proof. intros Hs H o H1 H2. apply H; auto. Qed.
Lemma wx_DelO {A} C0 Cl o (k : prog A) Ψ : LO o -> ~ C0 o -> sub C0 Cl -> (forall Cl', sub C0 Cl' -> wx C0 Cl' k Ψ) -> wx C0 Cl (DelO o k) Ψ.
Proof. intros H1 H2 Hs H. split; [done|]. apply H. intros x Hx. split; [by intros ->|auto]. Qed.
Lemma wx_NewE {A} C0 Cl n (k : ptr -> prog A) Ψ : (forall p, LB p.1 -> wx C0 Cl (k p) Ψ) -> wx C0 Cl (NewE n k) Ψ. Proof. done. Qed.
Lemma wx_DelE {A} C0 Cl p (k : prog A) Ψ : LB p.1 -> wx C0 Cl k Ψ -> wx C0 Cl (DelE p k) Ψ. Proof. by split. Qed.
Lemma wx_Free {A} C0 Cl p (k : prog A) Ψ : LB p.1 -> wx C0 Cl k Ψ -> wx C0 Cl (Free p k) Ψ. Proof. by split. Qed.
(** Functions that leave [o] with digits that may be written. *)
Definition wi (Cl : oid -> Prop) {A} (p : prog A) (o : oid) : Prop := ww LO LB Cl p (fun Cl' _ => sub Cl Cl' /\ ow Cl' o).
Lemma wx_bind_i {A B} C0 Cl (p : prog A) (f : A -> prog B) o Ψ' : wi Cl p o -> (forall a Cl', sub Cl Cl' -> ow Cl' o -> wx C0 Cl' (f a) Ψ') -> wx C0 Cl (bind p f) Ψ'.
Proof. intros H1 H2. apply ww_bind. eapply ww_mono; [exact H1|]. intros Cl' a [? ?]. by apply H2. Qed.
Lemma wi_bind_i {A B} Cl (p : prog A) (f : A -> prog B) o : wi Cl p o -> (forall a Cl', sub Cl Cl' -> ow Cl' o -> wi Cl' (f a) o) -> wi Cl (bind p f) o.
Proof. intros H1 H2. apply ww_bind. eapply ww_mono; [exact H1|]. intros Cl' a [? ?]. eapply ww_mono; [by apply (H2 a Cl')|]. intros Cl2 b [? ?]. split; [by eapply sub_trans|done]. Qed.
Lemma wi_bind {A B} Cl (p : prog A) (f : A -> prog B) Ψ o : wc Cl p Ψ -> (forall a Cl', sub Cl Cl' -> Ψ a -> wi Cl' (f a) o) -> wi Cl (bind p f) o.
Proof. intros H1 H2. apply ww_bind. eapply ww_mono; [exact H1|]. intros Cl' a [? ?]. eapply ww_mono; [by apply (H2 a Cl')|]. intros Cl2 b [? ?]. split; [by eapply sub_trans|done]. Qed.
Lemma wi_wc {A} Cl (p : prog A) o : wi Cl p o -> wc Cl p Tr.
Proof. intros H. eapply ww_mono; [exact H|]. by intros Cl' a [? _]. Qed.
Lemma wc_wi {A} Cl (p : prog A) o Ψ : ow Cl o -> wc Cl p Ψ -> wi Cl p o.
Proof. intros Ho H. eapply ww_mono; [exact H|]. intros Cl' a [? _]. split; [done|by eapply ow_sub]. Qed.
Lemma wi_set_digits Cl o p : LO o -> (forall q, p = Some q -> LB q.1) -> wi Cl (set_digits o p) o.
Proof. intros H1 H2 z Hz. split; [done|]. split; [by apply sub_set|]. split; [done|]. right. split; [done|exact H2]. Qed.

Create HintDb wc.
Hint Extern 0 (ow _ _) => sd : wc.
Hint Extern 0 (owo _ _) => sd : wc.
Hint Extern 0 (LO _) => sd : wc.
Hint Extern 0 (LB _) => sd : wc.
Ltac call := first [prim | solve [eauto 3 with wc nocore]
  | match goal with IH : forall Cl : oid -> Prop, _ |- _ => solve [eapply IH; sd] end
  | match goal with IH : forall (a : ?A) (Cl : oid -> Prop), _ |- _ => solve [eapply IH; sd] end ].
Ltac settrue := lazymatch goal with |- @wx _ _ ?A _ ?Ψ => try (is_evar Ψ; unify Ψ (fun _ : A => True)) end.
Ltac withrefl := lazymatch goal with
  | |- wx ?C ?C _ _ => lazymatch goal with H : sub C C |- _ => idtac | _ => pose proof (sub_refl C) end
  | _ => idtac end.
Ltac wtemp := fail.
Ltac wfake := fail.
Ltac wufake := fail.
Ltac wcs := cbv beta; withrefl; lazymatch goal with
  | |- wx _ _ (bind ?p _) _ =>
      lazymatch p with
      | set_digits _ _ => eapply wx_bind_i; [apply wi_set_digits; sd | next]
      | mp_int_init _ => eapply wx_bind_i; [solve [eauto 3 with wc nocore] | next]
      | mp_int_init_size _ _ => eapply wx_bind_i; [solve [eauto 3 with wc nocore] | next]
      | mp_int_init_copy _ _ => eapply wx_bind_i; [solve [eauto 3 with wc nocore] | next]
      | _ => eapply wx_bind; [wcs | next]
      end
  | |- wx _ _ (require _ _) _ => unfold require; wcs
  | |- wx _ _ (requireL _ _) _ => unfold requireL; wcs
  | |- wx _ _ (when _ _) _ => unfold when; wcs
  | |- wx _ _ (whenu _ _) _ => unfold whenu; wcs
  | |- wx _ _ null_asserts _ => intros ?; discriminate
  | |- wx _ _ (Ret _) _ => settrue; apply wx_ret; sd
  | |- wx _ _ Undef _ => settrue; exact I
  | |- wx _ _ NoFuel _ => settrue; exact I
  | |- wx _ _ (Peek _ _) _ => settrue; apply wx_Peek; intros ?; wcs
  | |- wx _ _ (Poke _ _ _) _ => settrue; apply wx_Poke; [sd|wcs]
  | |- wx _ _ (NewO _) _ => settrue; apply wx_NewO; [sd|intros ? ? ?; wcs]
  | |- wx _ _ (DelO _ _) _ => settrue; apply wx_DelO; [sd|assumption|sd|intros ? ?; wcs]
  | |- wx _ _ (NewE _ _) _ => settrue; apply wx_NewE; intros ? ?; wcs
  | |- wx _ _ (DelE _ _) _ => settrue; apply wx_DelE; [sd|wcs]
  | |- wx _ _ (Free _ _) _ => settrue; apply wx_Free; [sd|wcs]
  | |- wx _ _ (let _ := _ in _) _ => cbv zeta; wcs
  | |- wx _ _ (if ?b then _ else _) _ => settrue; destruct b; wcs
  | |- wx _ _ (match ?x with _ => _ end) _ => settrue; destruct x eqn:?; cbn [owo] in *; wcs
  | |- wx ?C ?C ?p _ => tl
  | |- wx _ _ _ _ => apply wx_tail; [sd|]; wcs
  end
with next := let Hs := fresh "Hs" in intros ? ? Hs ?; ups Hs; wcs
with tl := lazymatch goal with
  | |- wx _ _ (with_temp _) _ => wtemp; let Hs := fresh "Hs" in intros ? ? Hs ?; ups Hs; wcs
  | |- wx _ _ (with_fake _ _) _ => wfake; let Hs := fresh "Hs" in intros ? ? Hs ?; ups Hs; wcs
  | |- wx _ _ (with_ufake _ _) _ => wufake; let Hs := fresh "Hs" in intros ? ? Hs ?; ups Hs; wcs
  | |- wx _ _ (loop _ _ _) _ => apply wx_loop; let Hs := fresh "Hs" in intros ? ? Hs; ups Hs; wcs
  | |- _ => call
  end.
Lemma wc_zero_loop n : forall Cl p, LB p.1 -> wc Cl (zero_loop n p) (fun _ => True).
Proof. induction n as [|n IH]; intros; cbn [zero_loop]; wcs. Qed.
#[local] Hint Resolve wc_zero_loop : wc.
Lemma wc_ZERO Cl p n : LB p.1 -> wc Cl (ZERO p n) (fun _ => True).
Proof. intros. unfold ZERO. wcs. Qed.
#[local] Hint Resolve wc_ZERO : wc.
Lemma wc_copy_loop n : forall Cl p q, LB q.1 -> wc Cl (copy_loop n p q) (fun _ => True).
Proof. induction n as [|n IH]; intros; cbn [copy_loop]; wcs. Qed.
#[local] Hint Resolve wc_copy_loop : wc.
Lemma wc_COPY Cl p q n : LB q.1 -> wc Cl (COPY p q n) (fun _ => True).
Proof. intros. unfold COPY. wcs. Qed.
#[local] Hint Resolve wc_COPY : wc.
Lemma wc_clamp_loop n : forall Cl p, wc Cl (clamp_loop n p) (fun _ => True).
Proof. induction n as [|n IH]; intros; cbn [clamp_loop]; wcs. Qed.
#[local] Hint Resolve wc_clamp_loop : wc.
Lemma wc_CLAMP Cl z : ow Cl z -> wc Cl (CLAMP z) (fun _ => True).
Proof. intros. unfold CLAMP. wcs. Qed.
#[local] Hint Resolve wc_CLAMP : wc.
Lemma wc_CMPZ Cl z : wc Cl (CMPZ z) (fun _ => True).
Proof. intros. unfold CMPZ. wcs. Qed.
#[local] Hint Resolve wc_CMPZ : wc.
Lemma wc_s_alloc Cl n : wc Cl (s_alloc n) (fun o => forall p, o = Some p -> LB p.1).
Proof. split; [by intros H|]. intros q Hq _. split; [apply sub_refl|]. by intros p [= <-]. Qed.
#[local] Hint Resolve wc_s_alloc : wc.
Lemma wc_s_realloc Cl p n : LB p.1 -> wc Cl (s_realloc p n) (fun o => forall p, o = Some p -> LB p.1).
Proof. intros Hp. split; [done|]. split; [by intros H|]. intros q Hq _. split; [apply sub_refl|]. by intros p' [= <-]. Qed.
#[local] Hint Resolve wc_s_realloc : wc.
Lemma wc_s_free Cl p : LB p.1 -> wc Cl (s_free p) (fun _ => True).
Proof. intros. unfold s_free. wcs. Qed.
#[local] Hint Resolve wc_s_free : wc.
Lemma wc_s_pad Cl z min : ow Cl z -> wc Cl (s_pad z min) Tr.
Proof.
  intros. unfold s_pad. pose proof (sub_refl Cl). eapply wx_bind; [wcs|]. intros za C1 Hs ?. ups Hs. destruct (_ <? _); [|wcs]. cbv zeta. eapply wx_bind; [wcs|]. intros d C2 Hs ?. ups Hs.
  eapply (wx_bind _ _ _ _ (fun o : option ptr => forall p, o = Some p -> LB p.1)).
  - pose proof (sub_refl C2). destruct (ptr_eqb d (Sng z, 0)); [|wcs]. eapply wx_bind; [wcs|]. intros [t|] C3 Hs Ht; ups Hs; cbv beta in Ht; [specialize (Ht t eq_refl)|apply wx_ret; [sd|done]].
    eapply wx_bind; [wcs|]. intros v C4 Hs ?. ups Hs. eapply wx_bind; [wcs|]. intros ? C5 Hs ?. ups Hs. apply wx_ret; [sd|]. by intros ? [= <-].
  - intros [t|] C3 Hs Ht; ups Hs; [specialize (Ht t eq_refl)|]; wcs.
Qed.
#[local] Hint Resolve wc_s_pad : wc.
Lemma wc_GROW Cl z n : ow Cl z -> wc Cl (GROW z n) (fun _ => True).
Proof. intros. unfold GROW. wcs. Qed.
#[local] Hint Resolve wc_GROW : wc.
Lemma wc_uvpack_loop fuel : forall Cl uv t ndig, LB t.1 -> wc Cl (uvpack_loop fuel uv t ndig) (fun _ => True).
Proof. induction fuel as [|fuel IH]; intros; cbn [uvpack_loop]; wcs. Qed.
#[local] Hint Resolve wc_uvpack_loop : wc.
Lemma wc_s_uvpack Cl uv t : LB t.1 -> wc Cl (s_uvpack uv t) (fun _ => True).
Proof. intros. unfold s_uvpack. wcs. Qed.
#[local] Hint Resolve wc_s_uvpack : wc.
Lemma wi_s_ufake Cl z v p : LO z -> LB p.1 -> wi Cl (s_ufake z v p) z.
Proof.
  intros. unfold s_ufake. eapply wi_bind; [wcs|]. intros nd C1 _ _. eapply wi_bind; [wcs|]. intros _ C2 _ _. eapply wi_bind; [wcs|]. intros _ C3 _ _.
  eapply wi_bind; [wcs|]. intros _ C4 _ _. apply wi_set_digits; sd.
Qed.
#[local] Hint Resolve wi_s_ufake : wc.
Lemma wi_s_fake Cl z v p : LO z -> LB p.1 -> wi Cl (s_fake z v p) z.
Proof.
  intros. unfold s_fake. destruct (_ =? _); [done|]. eapply wi_bind_i; [by apply wi_s_ufake|]. intros _ C1 _ Ho. eapply wc_wi; [done|]. wcs.
Qed.
#[local] Hint Resolve wi_s_fake : wc.
Lemma wx_with_local {A} Cl (body : oid -> ptr -> prog A) : (forall t p Cl', sub Cl Cl' -> LO t -> LB p.1 -> wc Cl' (body t p) Tr) -> wc Cl (with_local body) Tr.
Proof.
  intros H. unfold with_local. apply wx_NewE. intros p Hp. apply wx_NewO; [sd|]. intros t Ht Hn. eapply wx_bind; [apply H; [sd|done|done]|].
  intros r Cl' Hs _. apply wx_DelO; [done|done|done|]. intros C2 H2. apply wx_DelE; [done|]. by apply wx_ret.
Qed.

Lemma wx_with_fake {A} Cl v (body : oid -> prog A) : (forall t Cl', sub Cl Cl' -> ow Cl' t -> wc Cl' (body t) Tr) -> wc Cl (with_fake v body) Tr.
Proof.
  intros H. apply wx_with_local. intros t p C1 Hs Ht Hp. eapply wx_bind_i; [by apply wi_s_fake|]. intros _ C2 Hs2 Ho. apply wx_tail; [done|]. apply H; [by eapply sub_trans|done].
Qed.
Ltac wfake ::= apply wx_with_fake.
Lemma wx_with_ufake {A} Cl v (body : oid -> prog A) : (forall t Cl', sub Cl Cl' -> ow Cl' t -> wc Cl' (body t) Tr) -> wc Cl (with_ufake v body) Tr.
Proof.
  intros H. apply wx_with_local. intros t p C1 Hs Ht Hp. eapply wx_bind_i; [by apply wi_s_ufake|]. intros _ C2 Hs2 Ho. apply wx_tail; [done|]. apply H; [by eapply sub_trans|done].
Qed.
Ltac wufake ::= apply wx_with_ufake.
Lemma wc_cdig_loop n : forall Cl dat dbt, wc Cl (cdig_loop n dat dbt) (fun _ => True).
Proof. induction n as [|n IH]; intros; cbn [cdig_loop]; wcs. Qed.
#[local] Hint Resolve wc_cdig_loop : wc.
Lemma wc_s_cdig Cl da db len : wc Cl (s_cdig da db len) (fun _ => True).
Proof. intros. unfold s_cdig. wcs. Qed.
#[local] Hint Resolve wc_s_cdig : wc.
Lemma wc_s_ucmp Cl a b : wc Cl (s_ucmp a b) (fun _ => True).
Proof. intros. unfold s_ucmp. wcs. Qed.
#[local] Hint Resolve wc_s_ucmp : wc.
Lemma wc_s_uvcmp Cl a uv : wc Cl (s_uvcmp a uv) (fun _ => True).
Proof. intros. unfold s_uvcmp. wcs. Qed.
#[local] Hint Resolve wc_s_uvcmp : wc.
Lemma wc_s_vcmp Cl a v : wc Cl (s_vcmp a v) (fun _ => True).
Proof. intros. unfold s_vcmp. wcs. Qed.
#[local] Hint Resolve wc_s_vcmp : wc.
Lemma wc_uadd_loop1 n : forall Cl da db dc w, LB dc.1 -> wc Cl (uadd_loop1 n da db dc w) (fun _ => True).
Proof. induction n as [|n IH]; intros; cbn [uadd_loop1]; wcs. Qed.
#[local] Hint Resolve wc_uadd_loop1 : wc.
Lemma wc_uadd_loop2 n : forall Cl da dc w, LB dc.1 -> wc Cl (uadd_loop2 n da dc w) (fun _ => True).
Proof. induction n as [|n IH]; intros; cbn [uadd_loop2]; wcs. Qed.
#[local] Hint Resolve wc_uadd_loop2 : wc.
Lemma wc_s_uadd_ord Cl da db dc na nb : LB dc.1 -> wc Cl (s_uadd_ord da db dc na nb) (fun _ => True).
Proof. intros. unfold s_uadd_ord. wcs. Qed.
#[local] Hint Resolve wc_s_uadd_ord : wc.
Lemma wc_s_uadd Cl da db dc na nb : LB dc.1 -> wc Cl (s_uadd da db dc na nb) (fun _ => True).
Proof. intros. unfold s_uadd. wcs. Qed.
#[local] Hint Resolve wc_s_uadd : wc.
Lemma wc_usub_loop1 n : forall Cl da db dc w, LB dc.1 -> wc Cl (usub_loop1 n da db dc w) (fun _ => True).
Proof. induction n as [|n IH]; intros; cbn [usub_loop1]; wcs. Qed.
#[local] Hint Resolve wc_usub_loop1 : wc.
Lemma wc_usub_loop2 n : forall Cl da dc w, LB dc.1 -> wc Cl (usub_loop2 n da dc w) (fun _ => True).
Proof. induction n as [|n IH]; intros; cbn [usub_loop2]; wcs. Qed.
#[local] Hint Resolve wc_usub_loop2 : wc.
Lemma wc_s_usub Cl da db dc na nb : LB dc.1 -> wc Cl (s_usub da db dc na nb) (fun _ => True).
Proof. intros. unfold s_usub. wcs. Qed.
#[local] Hint Resolve wc_s_usub : wc.
Lemma wc_umul_inner n : forall Cl da dbt dct w, LB dct.1 -> wc Cl (umul_inner n da dbt dct w) (fun _ => True).
Proof. induction n as [|n IH]; intros; cbn [umul_inner]; wcs. Qed.
#[local] Hint Resolve wc_umul_inner : wc.
Lemma wc_umul_loop n : forall Cl da db dc nb, LB dc.1 -> wc Cl (umul_loop n da db dc nb) (fun _ => True).
Proof. induction n as [|n IH]; intros; cbn [umul_loop]; wcs. Qed.
#[local] Hint Resolve wc_umul_loop : wc.
Lemma wc_s_umul Cl da db dc na nb : LB dc.1 -> wc Cl (s_umul da db dc na nb) (fun _ => True).
Proof. intros. unfold s_umul. wcs. Qed.
#[local] Hint Resolve wc_s_umul : wc.
Lemma wc_kmul fuel : forall Cl da db dc na nb, LB dc.1 -> wc Cl (kmul fuel da db dc na nb) Tr.
Proof.
  induction fuel as [|fuel IH]; intros; cbn [kmul]; [wcs|]. cbv zeta.
  pose proof (sub_refl Cl). destruct (nb >? na).
  all: eapply wx_bind; [wcs|]; intros g C1 Hs ?; ups Hs; destruct (_ && _)%bool; [|wcs]; cbv zeta; eapply wx_bind; [wcs|]; intros [t|] C2 Hs Ht; ups Hs; [specialize (Ht t eq_refl)|]; wcs.
Qed.
#[local] Hint Resolve wc_kmul : wc.
Lemma wc_s_kmul Cl da db dc na nb : LB dc.1 -> wc Cl (s_kmul da db dc na nb) (fun _ => True).
Proof. intros. unfold s_kmul. wcs. Qed.
#[local] Hint Resolve wc_s_kmul : wc.
Lemma wc_usqr_inner n : forall Cl da dat dct w, LB dct.1 -> wc Cl (usqr_inner n da dat dct w) (fun _ => True).
Proof. induction n as [|n IH]; intros; cbn [usqr_inner]; wcs. Qed.
#[local] Hint Resolve wc_usqr_inner : wc.
Lemma wc_usqr_carry fuel : forall Cl dct w, LB dct.1 -> wc Cl (usqr_carry fuel dct w) (fun _ => True).
Proof. induction fuel as [|fuel IH]; intros; cbn [usqr_carry]; wcs. Qed.
#[local] Hint Resolve wc_usqr_carry : wc.
Lemma wc_usqr_loop n : forall Cl da dc, LB dc.1 -> wc Cl (usqr_loop n da dc) (fun _ => True).
Proof. induction n as [|n IH]; intros; cbn [usqr_loop]; wcs. Qed.
#[local] Hint Resolve wc_usqr_loop : wc.
Lemma wc_s_usqr Cl da dc na : LB dc.1 -> wc Cl (s_usqr da dc na) (fun _ => True).
Proof. intros. unfold s_usqr. wcs. Qed.
#[local] Hint Resolve wc_s_usqr : wc.
Lemma wc_dbl_loop n : forall Cl p save, LB p.1 -> wc Cl (dbl_loop n p save) (fun _ => True).
Proof. induction n as [|n IH]; intros; cbn [dbl_loop]; wcs. Qed.
#[local] Hint Resolve wc_dbl_loop : wc.
Lemma wc_ksqr fuel : forall Cl da dc na, LB dc.1 -> wc Cl (ksqr fuel da dc na) Tr.
Proof.
  induction fuel as [|fuel IH]; intros; cbn [ksqr]; [wcs|]. cbv zeta. pose proof (sub_refl Cl).
  all: eapply wx_bind; [wcs|]; intros g C1 Hs ?; ups Hs; destruct (_ && _)%bool; [|wcs]; eapply wx_bind; [wcs|]; intros [t|] C2 Hs Ht; ups Hs; [specialize (Ht t eq_refl)|]; wcs.
Qed.
#[local] Hint Resolve wc_ksqr : wc.
Lemma wc_s_ksqr Cl da dc na : LB dc.1 -> wc Cl (s_ksqr da dc na) (fun _ => True).
Proof. intros. unfold s_ksqr. wcs. Qed.
#[local] Hint Resolve wc_s_ksqr : wc.
Lemma wc_UMUL Cl x y z : ow Cl z -> wc Cl (UMUL x y z) (fun _ => True).
Proof. intros. unfold UMUL. wcs. Qed.
#[local] Hint Resolve wc_UMUL : wc.
Lemma wc_USQR Cl x z : ow Cl z -> wc Cl (USQR x z) (fun _ => True).
Proof. intros. unfold USQR. wcs. Qed.
#[local] Hint Resolve wc_USQR : wc.
Lemma wc_dadd_loop n : forall Cl da w, LB da.1 -> wc Cl (dadd_loop n da w) (fun r => LB r.1.1).
Proof. induction n as [|n IH]; intros; cbn [dadd_loop]; wcs. Qed.
#[local] Hint Resolve wc_dadd_loop : wc.
Lemma wc_bump_used Cl a da w : ow Cl a -> LB da.1 -> wc Cl (bump_used a da w) (fun _ => True).
Proof. intros. unfold bump_used. wcs. Qed.
#[local] Hint Resolve wc_bump_used : wc.
Lemma wc_s_dadd Cl a b : ow Cl a -> wc Cl (s_dadd a b) (fun _ => True).
Proof. intros. unfold s_dadd. wcs. Qed.
#[local] Hint Resolve wc_s_dadd : wc.
Lemma wc_dmul_loop n : forall Cl da b w, LB da.1 -> wc Cl (dmul_loop n da b w) (fun r => LB r.1.1).
Proof. induction n as [|n IH]; intros; cbn [dmul_loop]; wcs. Qed.
#[local] Hint Resolve wc_dmul_loop : wc.
Lemma wc_s_dmul Cl a b : ow Cl a -> wc Cl (s_dmul a b) (fun _ => True).
Proof. intros. unfold s_dmul. wcs. Qed.
#[local] Hint Resolve wc_s_dmul : wc.
Lemma wc_dbmul_loop n : forall Cl da b dc w, LB dc.1 -> wc Cl (dbmul_loop n da b dc w) (fun _ => True).
Proof. induction n as [|n IH]; intros; cbn [dbmul_loop]; wcs. Qed.
#[local] Hint Resolve wc_dbmul_loop : wc.
Lemma wc_s_dbmul Cl da b dc na : LB dc.1 -> wc Cl (s_dbmul da b dc na) (fun _ => True).
Proof. intros. unfold s_dbmul. wcs. Qed.
#[local] Hint Resolve wc_s_dbmul : wc.
Lemma wc_ddiv_loop n : forall Cl da b w, LB da.1 -> wc Cl (ddiv_loop n da b w) (fun _ => True).
Proof. induction n as [|n IH]; intros; cbn [ddiv_loop]; wcs. Qed.
#[local] Hint Resolve wc_ddiv_loop : wc.
Lemma wc_s_ddiv Cl a b : ow Cl a -> wc Cl (s_ddiv a b) (fun _ => True).
Proof. intros. unfold s_ddiv. wcs. Qed.
#[local] Hint Resolve wc_s_ddiv : wc.
Lemma wc_mp_int_zero Cl z : ow Cl z -> wc Cl (mp_int_zero z) (fun _ => True).
Proof. intros. unfold mp_int_zero. wcs. Qed.
#[local] Hint Resolve wc_mp_int_zero : wc.
Lemma wc_move_up n : forall Cl to from, LB to.1 -> wc Cl (move_up n to from) (fun _ => True).
Proof. induction n as [|n IH]; intros; cbn [move_up]; wcs. Qed.
#[local] Hint Resolve wc_move_up : wc.
Lemma wc_shr_loop n : forall Cl dz nbits d, LB dz.1 -> wc Cl (shr_loop n dz nbits d) (fun _ => True).
Proof. induction n as [|n IH]; intros; cbn [shr_loop]; wcs. Qed.
#[local] Hint Resolve wc_shr_loop : wc.
Lemma wc_fix_zero_sign Cl z : ow Cl z -> wc Cl (fix_zero_sign z) (fun _ => True).
Proof. intros. unfold fix_zero_sign. wcs. Qed.
#[local] Hint Resolve wc_fix_zero_sign : wc.
Lemma wc_s_qdiv_bits Cl z nbits : ow Cl z -> wc Cl (s_qdiv_bits z nbits) (fun _ => True).
Proof. intros. unfold s_qdiv_bits. wcs. Qed.
#[local] Hint Resolve wc_s_qdiv_bits : wc.
Lemma wc_s_qdiv Cl z p2 : ow Cl z -> wc Cl (s_qdiv z p2) (fun _ => True).
Proof. intros. unfold s_qdiv. wcs. Qed.
#[local] Hint Resolve wc_s_qdiv : wc.
Lemma wc_s_qmod Cl z p2 : ow Cl z -> wc Cl (s_qmod z p2) (fun _ => True).
Proof. intros. unfold s_qmod. wcs. Qed.
#[local] Hint Resolve wc_s_qmod : wc.
Lemma wc_move_down n : forall Cl to from, LB to.1 -> wc Cl (move_down n to from) (fun _ => True).
Proof. induction n as [|n IH]; intros; cbn [move_down]; wcs. Qed.
#[local] Hint Resolve wc_move_down : wc.
Lemma wc_shl_loop n : forall Cl from rest d, LB from.1 -> wc Cl (shl_loop n from rest d) (fun r => LB r.1.1).
Proof. induction n as [|n IH]; intros; cbn [shl_loop]; wcs. Qed.
#[local] Hint Resolve wc_shl_loop : wc.
Lemma wc_s_qmul Cl z p2 : ow Cl z -> wc Cl (s_qmul z p2) (fun _ => True).
Proof. intros. unfold s_qmul. wcs. Qed.
#[local] Hint Resolve wc_s_qmul : wc.
Lemma wc_qsub_loop n : forall Cl zp w, LB zp.1 -> wc Cl (qsub_loop n zp w) (fun _ => True).
Proof. induction n as [|n IH]; intros; cbn [qsub_loop]; wcs. Qed.
#[local] Hint Resolve wc_qsub_loop : wc.
Lemma wc_s_qsub Cl z p2 : ow Cl z -> wc Cl (s_qsub z p2) (fun _ => True).
Proof. intros. unfold s_qsub. wcs. Qed.
#[local] Hint Resolve wc_s_qsub : wc.
Lemma wc_tz_loop fuel : forall Cl d k, wc Cl (tz_loop fuel d k) (fun _ => True).
Proof. induction fuel as [|fuel IH]; intros; cbn [tz_loop]; wcs. Qed.
#[local] Hint Resolve wc_tz_loop : wc.
Lemma wc_dp2k_loop fuel : forall Cl dp k, wc Cl (dp2k_loop fuel dp k) (fun _ => True).
Proof. induction fuel as [|fuel IH]; intros; cbn [dp2k_loop]; wcs. Qed.
#[local] Hint Resolve wc_dp2k_loop : wc.
Lemma wc_s_dp2k Cl z : wc Cl (s_dp2k z) (fun _ => True).
Proof. intros. unfold s_dp2k. wcs. Qed.
#[local] Hint Resolve wc_s_dp2k : wc.
Lemma wc_isp2_top fuel : forall Cl d k, wc Cl (isp2_top fuel d k) (fun _ => True).
Proof. induction fuel as [|fuel IH]; intros; cbn [isp2_top]; wcs. Qed.
#[local] Hint Resolve wc_isp2_top : wc.
Lemma wc_isp2_loop n : forall Cl dz k, wc Cl (isp2_loop n dz k) (fun _ => True).
Proof. induction n as [|n IH]; intros; cbn [isp2_loop]; wcs. Qed.
#[local] Hint Resolve wc_isp2_loop : wc.
Lemma wc_s_isp2 Cl z : wc Cl (s_isp2 z) (fun _ => True).
Proof. intros. unfold s_isp2. wcs. Qed.
#[local] Hint Resolve wc_s_isp2 : wc.
Lemma wc_s_2expt Cl z k : ow Cl z -> wc Cl (s_2expt z k) (fun _ => True).
Proof. intros. unfold s_2expt. wcs. Qed.
#[local] Hint Resolve wc_s_2expt : wc.
Lemma wc_norm_loop fuel : forall Cl d k, wc Cl (norm_loop fuel d k) (fun _ => True).
Proof. induction fuel as [|fuel IH]; intros; cbn [norm_loop]; wcs. Qed.
#[local] Hint Resolve wc_norm_loop : wc.
Lemma wc_s_norm Cl a b : ow Cl a -> ow Cl b -> wc Cl (s_norm a b) (fun _ => True).
Proof. intros. unfold s_norm. wcs. Qed.
#[local] Hint Resolve wc_s_norm : wc.
Lemma wi_mp_int_init Cl z : LO z -> wi Cl (mp_int_init z) z.
Proof.
  intros. unfold mp_int_init. eapply wi_bind; [wcs|]. intros _ C1 _ _. eapply wi_bind_i; [apply wi_set_digits; sd|]. intros _ C2 _ Ho. eapply wc_wi; [done|]. wcs.
Qed.
#[local] Hint Resolve wi_mp_int_init : wc.
Lemma wc_mp_int_init Cl z : LO z -> wc Cl (mp_int_init z) Tr. Proof. intros. by apply wi_wc with z, wi_mp_int_init. Qed.
#[local] Hint Resolve wc_mp_int_init : wc.
Lemma wc_mp_int_alloc Cl : wc Cl mp_int_alloc Tr.
Proof. split; [by split; [apply sub_refl|]|]. intros o Ho Hn. change (wc Cl (mp_int_init o;; Ret (Some o)) Tr). wcs. Qed.
#[local] Hint Resolve wc_mp_int_alloc : wc.
Lemma wi_mp_int_init_size Cl z n : LO z -> wi Cl (mp_int_init_size z n) z.
Proof.
  intros. unfold mp_int_init_size. destruct (n =? 1); [by apply wi_mp_int_init|]. eapply wi_bind; [wcs|]. intros g C1 _ _. cbv zeta. eapply wi_bind; [wcs|]. intros p C2 _ Hp.
  eapply wi_bind_i; [by apply wi_set_digits|]. intros _ C3 _ Ho. eapply wc_wi; [done|]. destruct p as [p|]; [specialize (Hp p eq_refl)|]; wcs.
Qed.
#[local] Hint Resolve wi_mp_int_init_size : wc.
Lemma wc_mp_int_init_size Cl z n : LO z -> wc Cl (mp_int_init_size z n) Tr. Proof. intros. by apply wi_wc with z, wi_mp_int_init_size. Qed.
#[local] Hint Resolve wc_mp_int_init_size : wc.
Lemma wi_mp_int_init_copy Cl z o : LO z -> wi Cl (mp_int_init_copy z o) z.
Proof.
  intros. unfold mp_int_init_copy. eapply wi_bind; [wcs|]. intros u C1 _ _. eapply wi_bind_i.
  - destruct (u =? 1); [by apply wi_mp_int_init|]. eapply wi_bind; [wcs|]. intros g C2 _ _. by apply wi_mp_int_init_size.
  - intros r C2 _ Ho. eapply wc_wi; [done|]. wcs.
Qed.
#[local] Hint Resolve wi_mp_int_init_copy : wc.
Lemma wc_mp_int_init_copy Cl z o : LO z -> wc Cl (mp_int_init_copy z o) Tr. Proof. intros. by apply wi_wc with z, wi_mp_int_init_copy. Qed.
#[local] Hint Resolve wc_mp_int_init_copy : wc.
Lemma wc_mp_int_init_value Cl z v : LO z -> wc Cl (mp_int_init_value z v) Tr.
Proof. intros. unfold mp_int_init_value. wcs. Qed.
#[local] Hint Resolve wc_mp_int_init_value : wc.
Lemma wc_mp_int_init_uvalue Cl z v : LO z -> wc Cl (mp_int_init_uvalue z v) Tr.
Proof. intros. unfold mp_int_init_uvalue. wcs. Qed.
#[local] Hint Resolve wc_mp_int_init_uvalue : wc.
Lemma wc_mp_int_clear Cl z : ow Cl z -> wc Cl (mp_int_clear z) (fun _ => True).
Proof. intros. unfold mp_int_clear. wcs. Qed.
#[local] Hint Resolve wc_mp_int_clear : wc.
Lemma wc_mp_int_free Cl z : ow Cl z -> ww LO LB Cl (mp_int_free z) (fun _ _ => True).
Proof. intros H. unfold mp_int_free. apply ww_bind. eapply ww_mono; [apply (wc_mp_int_clear Cl z); exact H|]. intros C1 _ _. split; [apply H|done]. Qed.
#[local] Hint Resolve wc_mp_int_free : wc.
Lemma wx_with_temp Cl (f : oid -> prog Z) : (forall t Cl', sub Cl Cl' -> ow Cl' t -> wc Cl' (f t) Tr) -> wc Cl (with_temp f) Tr.
Proof.
  intros H. unfold with_temp. pose proof (sub_refl Cl). apply wx_NewO; [sd|]. intros t Ht Hn. eapply wx_bind_i; [by apply wi_mp_int_init|]. intros _ C1 Hs Ho. eapply wx_bind; [by apply H|].
  intros r C2 Hs2 _. assert (sub Cl C2) by exact (sub_trans _ _ _ Hs Hs2). assert (ow C2 t) by exact (ow_sub _ _ _ Hs2 Ho). wcs.
Qed.
Ltac wtemp ::= apply wx_with_temp.
Lemma wc_mp_int_copy Cl a c : ow Cl c -> wc Cl (mp_int_copy a c) (fun _ => True).
Proof. intros. unfold mp_int_copy. wcs. Qed.
#[local] Hint Resolve wc_mp_int_copy : wc.
Lemma wc_mp_int_set_value Cl z value : ow Cl z -> wc Cl (mp_int_set_value z value) (fun _ => True).
Proof. intros. unfold mp_int_set_value. wcs. Qed.
#[local] Hint Resolve wc_mp_int_set_value : wc.
Lemma wc_mp_int_set_uvalue Cl z uvalue : ow Cl z -> wc Cl (mp_int_set_uvalue z uvalue) (fun _ => True).
Proof. intros. unfold mp_int_set_uvalue. wcs. Qed.
#[local] Hint Resolve wc_mp_int_set_uvalue : wc.
Lemma wc_mp_int_swap Cl a c : ow Cl a -> ow Cl c -> wc Cl (mp_int_swap a c) (fun _ => True).
Proof. intros. unfold mp_int_swap. wcs. Qed.
#[local] Hint Resolve wc_mp_int_swap : wc.
Lemma wc_mp_int_abs Cl a c : ow Cl c -> wc Cl (mp_int_abs a c) (fun _ => True).
Proof. intros. unfold mp_int_abs. wcs. Qed.
#[local] Hint Resolve wc_mp_int_abs : wc.
Lemma wc_mp_int_neg Cl a c : ow Cl c -> wc Cl (mp_int_neg a c) (fun _ => True).
Proof. intros. unfold mp_int_neg. wcs. Qed.
#[local] Hint Resolve wc_mp_int_neg : wc.
Lemma wc_add_mags Cl a b c : ow Cl c -> wc Cl (add_mags a b c) (fun _ => True).
Proof. intros. unfold add_mags. wcs. Qed.
#[local] Hint Resolve wc_add_mags : wc.
Lemma wc_mp_int_add Cl a b c : ow Cl c -> wc Cl (mp_int_add a b c) (fun _ => True).
Proof. intros. unfold mp_int_add. wcs. Qed.
#[local] Hint Resolve wc_mp_int_add : wc.
Lemma wc_mp_int_add_value Cl a value c : ow Cl c -> wc Cl (mp_int_add_value a value c) (fun _ => True).
Proof. intros. unfold mp_int_add_value. wcs. Qed.
#[local] Hint Resolve wc_mp_int_add_value : wc.
Lemma wc_mp_int_sub Cl a b c : ow Cl c -> wc Cl (mp_int_sub a b c) (fun _ => True).
Proof. intros. unfold mp_int_sub. wcs. Qed.
#[local] Hint Resolve wc_mp_int_sub : wc.
Lemma wc_mp_int_sub_value Cl a value c : ow Cl c -> wc Cl (mp_int_sub_value a value c) (fun _ => True).
Proof. intros. unfold mp_int_sub_value. wcs. Qed.
#[local] Hint Resolve wc_mp_int_sub_value : wc.
Lemma wc_mp_int_compare_zero Cl z : wc Cl (mp_int_compare_zero z) (fun _ => True).
Proof. intros. unfold mp_int_compare_zero. wcs. Qed.
#[local] Hint Resolve wc_mp_int_compare_zero : wc.
Lemma wc_out_buffer Cl b c n : ow Cl c -> wc Cl (out_buffer b c n) (fun r => forall p, r.1 = Some p -> LB p.1).
Proof.
  intros. unfold out_buffer. pose proof (sub_refl Cl). destruct b.
  - eapply wx_bind; [wcs|]. intros g C1 Hs ?. ups Hs. cbv zeta. eapply wx_bind; [wcs|]. intros o C2 Hs Ho. ups Hs. apply wx_ret; [sd|done].
  - eapply wx_bind; [wcs|]. intros ok C1 Hs ?. ups Hs. destruct (negb ok); [apply wx_ret; [sd|done]|]. eapply wx_bind; [wcs|]. intros d C2 Hs Hd. ups Hs. apply wx_ret; [sd|]. by intros ? [= <-].
Qed.
#[local] Hint Resolve wc_out_buffer : wc.
Lemma wc_install Cl c out p : ow Cl c -> LB out.1 -> wc Cl (install c out p) (fun _ => True).
Proof. intros. unfold install. wcs. Qed.
#[local] Hint Resolve wc_install : wc.
Lemma wc_mp_int_mul Cl a b c : ow Cl c -> wc Cl (mp_int_mul a b c) (fun _ => True).
Proof. intros. unfold mp_int_mul. wcs. Qed.
#[local] Hint Resolve wc_mp_int_mul : wc.
Lemma wc_mp_int_mul_value Cl a value c : ow Cl c -> wc Cl (mp_int_mul_value a value c) (fun _ => True).
Proof. intros. unfold mp_int_mul_value. wcs. Qed.
#[local] Hint Resolve wc_mp_int_mul_value : wc.
Lemma wc_mp_int_mul_pow2 Cl a p2 c : ow Cl c -> wc Cl (mp_int_mul_pow2 a p2 c) (fun _ => True).
Proof. intros. unfold mp_int_mul_pow2. wcs. Qed.
#[local] Hint Resolve wc_mp_int_mul_pow2 : wc.
Lemma wc_mp_int_sqr Cl a c : ow Cl c -> wc Cl (mp_int_sqr a c) (fun _ => True).
Proof. intros. unfold mp_int_sqr. wcs. Qed.
#[local] Hint Resolve wc_mp_int_sqr : wc.
Lemma wc_knuth_mul Cl v t qhat n : ow Cl t -> wc Cl (knuth_mul v t qhat n) (fun _ => True).
Proof. intros. unfold knuth_mul. wcs. Qed.
#[local] Hint Resolve wc_knuth_mul : wc.
Lemma wc_knuth_step Cl v q t r n j : ow Cl q -> ow Cl t -> ow Cl r -> wc Cl (knuth_step v q t r n j) (fun _ => True).
Proof. intros. unfold knuth_step. wcs. Qed.
#[local] Hint Resolve wc_knuth_step : wc.
Lemma wc_knuth_loop cnt : forall Cl v q t r n, ow Cl q -> ow Cl t -> ow Cl r -> wc Cl (knuth_loop cnt v q t r n) (fun _ => True).
Proof. induction cnt as [|cnt IH]; intros; cbn [knuth_loop]; wcs. Qed.
#[local] Hint Resolve wc_knuth_loop : wc.
Lemma wc_s_udiv_knuth Cl u v : ow Cl u -> ow Cl v -> wc Cl (s_udiv_knuth u v) (fun _ => True).
Proof. intros. unfold s_udiv_knuth. wcs. Qed.
#[local] Hint Resolve wc_s_udiv_knuth : wc.
Lemma wc_resign Cl z s : ow Cl z -> wc Cl (resign z s) (fun _ => True).
Proof. intros. unfold resign. wcs. Qed.
#[local] Hint Resolve wc_resign : wc.
Lemma wc_mp_int_div Cl a b q r : owo Cl q -> owo Cl r -> wc Cl (mp_int_div a b q r) (fun _ => True).
Proof. intros. unfold mp_int_div. wcs. Qed.
#[local] Hint Resolve wc_mp_int_div : wc.
Lemma wc_mp_int_mod Cl a m c : ow Cl c -> wc Cl (mp_int_mod a m c) (fun _ => True).
Proof. intros. unfold mp_int_mod. wcs. Qed.
#[local] Hint Resolve wc_mp_int_mod : wc.
Lemma wc_mp_int_compare Cl a b : wc Cl (mp_int_compare a b) (fun _ => True).
Proof. intros. unfold mp_int_compare. wcs. Qed.
#[local] Hint Resolve wc_mp_int_compare : wc.
Lemma wc_mp_int_compare_unsigned Cl a b : wc Cl (mp_int_compare_unsigned a b) (fun _ => True).
Proof. intros. unfold mp_int_compare_unsigned. wcs. Qed.
#[local] Hint Resolve wc_mp_int_compare_unsigned : wc.
Lemma wc_mp_int_compare_value Cl z value : wc Cl (mp_int_compare_value z value) (fun _ => True).
Proof. intros. unfold mp_int_compare_value. wcs. Qed.
#[local] Hint Resolve wc_mp_int_compare_value : wc.
Lemma wc_mp_int_compare_uvalue Cl z uv : wc Cl (mp_int_compare_uvalue z uv) (fun _ => True).
Proof. intros. unfold mp_int_compare_uvalue. wcs. Qed.
#[local] Hint Resolve wc_mp_int_compare_uvalue : wc.
Lemma wc_to_int_loop n : forall Cl dz uv, wc Cl (to_int_loop n dz uv) (fun _ => True).
Proof. induction n as [|n IH]; intros; cbn [to_int_loop]; wcs. Qed.
#[local] Hint Resolve wc_to_int_loop : wc.
Lemma wc_mp_int_to_int Cl z : wc Cl (mp_int_to_int z) (fun _ => True).
Proof. intros. unfold mp_int_to_int. wcs. Qed.
#[local] Hint Resolve wc_mp_int_to_int : wc.
Lemma wc_to_uint_loop n : forall Cl dz uv, wc Cl (to_uint_loop n dz uv) (fun _ => True).
Proof. induction n as [|n IH]; intros; cbn [to_uint_loop]; wcs. Qed.
#[local] Hint Resolve wc_to_uint_loop : wc.
Lemma wc_mp_int_to_uint Cl z : wc Cl (mp_int_to_uint z) (fun _ => True).
Proof. intros. unfold mp_int_to_uint. wcs. Qed.
#[local] Hint Resolve wc_mp_int_to_uint : wc.
Lemma wc_mp_int_div_value Cl a value q : owo Cl q -> wc Cl (mp_int_div_value a value q) (fun _ => True).
Proof. intros. unfold mp_int_div_value. wcs. Qed.
#[local] Hint Resolve wc_mp_int_div_value : wc.
Lemma wc_mp_int_div_pow2 Cl a p2 q r : owo Cl q -> owo Cl r -> wc Cl (mp_int_div_pow2 a p2 q r) (fun _ => True).
Proof. intros. unfold mp_int_div_pow2. wcs. Qed.
#[local] Hint Resolve wc_mp_int_div_pow2 : wc.
Lemma wc_expt_loop fuel : forall Cl v t c, ow Cl t -> ow Cl c -> wc Cl (expt_loop fuel v t c) (fun _ => True).
Proof. induction fuel as [|fuel IH]; intros; cbn [expt_loop]; wcs. Qed.
#[local] Hint Resolve wc_expt_loop : wc.
Lemma wc_mp_int_expt Cl a b c : ow Cl c -> wc Cl (mp_int_expt a b c) (fun _ => True).
Proof. intros. unfold mp_int_expt. wcs. Qed.
#[local] Hint Resolve wc_mp_int_expt : wc.
Lemma wc_mp_int_expt_value Cl a b c : ow Cl c -> wc Cl (mp_int_expt_value a b c) (fun _ => True).
Proof. intros. unfold mp_int_expt_value. wcs. Qed.
#[local] Hint Resolve wc_mp_int_expt_value : wc.
Lemma wc_expt_bits n : forall Cl d ix b t c, ow Cl t -> ow Cl c -> wc Cl (expt_bits n d ix b t c) (fun _ => True).
Proof. induction n as [|n IH]; intros; cbn [expt_bits]; wcs. Qed.
#[local] Hint Resolve wc_expt_bits : wc.
Lemma wc_expt_digits fuel : forall Cl ix b t c, ow Cl t -> ow Cl c -> wc Cl (expt_digits fuel ix b t c) (fun _ => True).
Proof. induction fuel as [|fuel IH]; intros; cbn [expt_digits]; wcs. Qed.
#[local] Hint Resolve wc_expt_digits : wc.
Lemma wc_mp_int_expt_full Cl a b c : ow Cl c -> wc Cl (mp_int_expt_full a b c) (fun _ => True).
Proof. intros. unfold mp_int_expt_full. wcs. Qed.
#[local] Hint Resolve wc_mp_int_expt_full : wc.
Lemma wc_s_brmu Cl z m : ow Cl z -> wc Cl (s_brmu z m) (fun _ => True).
Proof. intros. unfold s_brmu. wcs. Qed.
#[local] Hint Resolve wc_s_brmu : wc.
Lemma wc_s_reduce Cl x m mu q1 q2 : ow Cl x -> ow Cl q1 -> ow Cl q2 -> wc Cl (s_reduce x m mu q1 q2) (fun _ => True).
Proof. intros. unfold s_reduce. wcs. Qed.
#[local] Hint Resolve wc_s_reduce : wc.
Lemma wc_embar_mul Cl a m mu c t0 t1 t2 : ow Cl c -> ow Cl t0 -> ow Cl t1 -> ow Cl t2 -> wc Cl (embar_mul a m mu c t0 t1 t2) (fun _ => True).
Proof. intros. unfold embar_mul. wcs. Qed.
#[local] Hint Resolve wc_embar_mul : wc.
Lemma wc_embar_bits n : forall Cl d a m mu c t0 t1 t2, ow Cl a -> ow Cl c -> ow Cl t0 -> ow Cl t1 -> ow Cl t2 -> wc Cl (embar_bits n d a m mu c t0 t1 t2) (fun _ => True).
Proof. induction n as [|n IH]; intros; cbn [embar_bits]; wcs. Qed.
#[local] Hint Resolve wc_embar_bits : wc.
Lemma wc_embar_digits n : forall Cl db a m mu c t0 t1 t2, ow Cl a -> ow Cl c -> ow Cl t0 -> ow Cl t1 -> ow Cl t2 -> wc Cl (embar_digits n db a m mu c t0 t1 t2) (fun _ => True).
Proof. induction n as [|n IH]; intros; cbn [embar_digits]; wcs. Qed.
#[local] Hint Resolve wc_embar_digits : wc.
Lemma wc_embar_top fuel : forall Cl d a m mu c t0 t1 t2, ow Cl a -> ow Cl c -> ow Cl t0 -> ow Cl t1 -> ow Cl t2 -> wc Cl (embar_top fuel d a m mu c t0 t1 t2) (fun _ => True).
Proof. induction fuel as [|fuel IH]; intros; cbn [embar_top]; wcs. Qed.
#[local] Hint Resolve wc_embar_top : wc.
Lemma wc_zero_all Cl t : ow Cl t -> wc Cl (zero_all t) (fun _ => True).
Proof. intros. unfold zero_all. wcs. Qed.
#[local] Hint Resolve wc_zero_all : wc.
Lemma wc_s_embar Cl a b m mu c : ow Cl a -> ow Cl c -> wc Cl (s_embar a b m mu c) (fun _ => True).
Proof. intros. unfold s_embar. wcs. Qed.
#[local] Hint Resolve wc_s_embar : wc.
Lemma wc_mp_int_exptmod Cl a b m c : ow Cl c -> wc Cl (mp_int_exptmod a b m c) (fun _ => True).
Proof. intros. unfold mp_int_exptmod. wcs. Qed.
#[local] Hint Resolve wc_mp_int_exptmod : wc.
Lemma wc_mp_int_exptmod_evalue Cl a value m c : ow Cl c -> wc Cl (mp_int_exptmod_evalue a value m c) (fun _ => True).
Proof. intros. unfold mp_int_exptmod_evalue. wcs. Qed.
#[local] Hint Resolve wc_mp_int_exptmod_evalue : wc.
Lemma wc_mp_int_exptmod_bvalue Cl value b m c : ow Cl c -> wc Cl (mp_int_exptmod_bvalue value b m c) (fun _ => True).
Proof. intros. unfold mp_int_exptmod_bvalue. wcs. Qed.
#[local] Hint Resolve wc_mp_int_exptmod_bvalue : wc.
Lemma wc_mp_int_exptmod_known Cl a b m mu c : ow Cl c -> wc Cl (mp_int_exptmod_known a b m mu c) (fun _ => True).
Proof. intros. unfold mp_int_exptmod_known. wcs. Qed.
#[local] Hint Resolve wc_mp_int_exptmod_known : wc.
Lemma wc_mp_int_redux_const Cl m c : ow Cl c -> wc Cl (mp_int_redux_const m c) (fun _ => True).
Proof. intros. unfold mp_int_redux_const. wcs. Qed.
#[local] Hint Resolve wc_mp_int_redux_const : wc.
Lemma wc_mp_int_is_odd Cl z : wc Cl (mp_int_is_odd z) (fun _ => True).
Proof. intros. unfold mp_int_is_odd. wcs. Qed.
#[local] Hint Resolve wc_mp_int_is_odd : wc.
Lemma wc_mp_int_is_even Cl z : wc Cl (mp_int_is_even z) (fun _ => True).
Proof. intros. unfold mp_int_is_even. wcs. Qed.
#[local] Hint Resolve wc_mp_int_is_even : wc.
Lemma wc_gcd_body Cl t0 t1 t2 _u3 : ow Cl t0 -> ow Cl t1 -> ow Cl t2 -> wc Cl (gcd_body t0 t1 t2 _u3) (fun _ => True).
Proof. intros. unfold gcd_body. wcs. Qed.
#[local] Hint Resolve wc_gcd_body : wc.
Lemma wc_mp_int_gcd Cl a b c : ow Cl c -> wc Cl (mp_int_gcd a b c) (fun _ => True).
Proof. intros. unfold mp_int_gcd. wcs. Qed.
#[local] Hint Resolve wc_mp_int_gcd : wc.
Lemma wc_egcd_half Cl u p q ou ov _u5 : ow Cl u -> ow Cl p -> ow Cl q -> wc Cl (egcd_half u p q ou ov _u5) (fun _ => True).
Proof. intros. unfold egcd_half. wcs. Qed.
#[local] Hint Resolve wc_egcd_half : wc.
Lemma wc_egcd_body Cl fuel A B C D u v ou ov k c x y _u13 : ow Cl A -> ow Cl B -> ow Cl C -> ow Cl D -> ow Cl u -> ow Cl v -> ow Cl c -> owo Cl x -> owo Cl y -> wc Cl (egcd_body fuel A B C D u v ou ov k c x y _u13) (fun _ => True).
Proof. intros. unfold egcd_body. wcs. Qed.
#[local] Hint Resolve wc_egcd_body : wc.
Lemma wc_mp_int_egcd Cl a b c x y : ow Cl c -> owo Cl x -> owo Cl y -> wc Cl (mp_int_egcd a b c x y) (fun _ => True).
Proof. intros. unfold mp_int_egcd. wcs. Qed.
#[local] Hint Resolve wc_mp_int_egcd : wc.
Lemma wc_mp_int_invmod Cl a m c : ow Cl c -> wc Cl (mp_int_invmod a m c) (fun _ => True).
Proof. intros. unfold mp_int_invmod. wcs. Qed.
#[local] Hint Resolve wc_mp_int_invmod : wc.
Lemma wc_mp_int_lcm Cl a b c : ow Cl c -> wc Cl (mp_int_lcm a b c) (fun _ => True).
Proof. intros. unfold mp_int_lcm. wcs. Qed.
#[local] Hint Resolve wc_mp_int_lcm : wc.
Lemma wc_mp_int_divisible_value Cl a v : wc Cl (mp_int_divisible_value a v) (fun _ => True).
Proof. intros. unfold mp_int_divisible_value. wcs. Qed.
#[local] Hint Resolve wc_mp_int_divisible_value : wc.
Lemma wc_mp_int_is_pow2 Cl z : wc Cl (mp_int_is_pow2 z) (fun _ => True).
Proof. intros. unfold mp_int_is_pow2. wcs. Qed.
#[local] Hint Resolve wc_mp_int_is_pow2 : wc.
Lemma wc_root_body Cl b t0 t1 t2 t3 t4 _u6 : ow Cl t0 -> ow Cl t1 -> ow Cl t2 -> ow Cl t3 -> ow Cl t4 -> wc Cl (root_body b t0 t1 t2 t3 t4 _u6) (fun _ => True).
Proof. intros. unfold root_body. wcs. Qed.
#[local] Hint Resolve wc_root_body : wc.
Lemma wc_mp_int_root Cl a b c : ow Cl c -> wc Cl (mp_int_root a b c) (fun _ => True).
Proof. intros. unfold mp_int_root. wcs. Qed.
#[local] Hint Resolve wc_mp_int_root : wc.
Lemma wc_to_string_loop n : forall Cl tmp radix str cmp, ow Cl tmp -> LB str.1 -> wc Cl (to_string_loop n tmp radix str cmp) (fun r => LB r.1.1).
Proof. induction n as [|n IH]; intros; cbn [to_string_loop]; wcs. Qed.
#[local] Hint Resolve wc_to_string_loop : wc.
Lemma wc_rev_loop n : forall Cl h t, LB h.1 -> LB t.1 -> wc Cl (rev_loop n h t) (fun _ => True).
Proof. induction n as [|n IH]; intros; cbn [rev_loop]; wcs. Qed.
#[local] Hint Resolve wc_rev_loop : wc.
Lemma wc_mp_int_to_string Cl z radix str limit : LB str.1 -> wc Cl (mp_int_to_string z radix str limit) Tr.
Proof.
  intros. unfold mp_int_to_string. pose proof (sub_refl Cl). eapply wx_bind; [wcs|]. intros ? C1 Hs ?. ups Hs. eapply wx_bind; [wcs|]. intros ? C2 Hs ?. ups Hs.
  eapply wx_bind; [wcs|]. intros cz C3 Hs ?. ups Hs. destruct (cz =? 0); [wcs|]. apply wx_NewO; [sd|]. intros t Ht Hn. eapply wx_bind_i; [by apply wi_mp_int_init_copy|].
  intros r C4 Hs Ho. ups Hs. destruct (negb _); [wcs|]. eapply wx_bind; [wcs|]. intros sz C5 Hs ?. ups Hs.
  eapply (wx_bind _ _ _ _ (fun r => LB r.1.1)).
  - pose proof (sub_refl C5). destruct (sz =? MP_NEG); [|apply wx_ret; [sd|done]]. eapply wx_bind; [wcs|]. intros ? C6 Hs ?. apply wx_ret; [done|]. cbn. done.
  - intros sl C6 Hs Hl. ups Hs. cbv zeta. wcs.
Qed.
#[local] Hint Resolve wc_mp_int_to_string : wc.
Lemma wc_count_loop fuel : forall Cl d nbits, wc Cl (count_loop fuel d nbits) (fun _ => True).
Proof. induction fuel as [|fuel IH]; intros; cbn [count_loop]; wcs. Qed.
#[local] Hint Resolve wc_count_loop : wc.
Lemma wc_mp_int_count_bits Cl z : wc Cl (mp_int_count_bits z) (fun _ => True).
Proof. intros. unfold mp_int_count_bits. wcs. Qed.
#[local] Hint Resolve wc_mp_int_count_bits : wc.
Lemma wc_s_outlen Cl z r : wc Cl (s_outlen z r) (fun _ => True).
Proof. intros. unfold s_outlen. wcs. Qed.
#[local] Hint Resolve wc_s_outlen : wc.
Lemma wc_mp_int_string_len Cl z radix : wc Cl (mp_int_string_len z radix) (fun _ => True).
Proof. intros. unfold mp_int_string_len. wcs. Qed.
#[local] Hint Resolve wc_mp_int_string_len : wc.
Lemma wc_read_loop s : forall Cl z radix, ow Cl z -> wc Cl (read_loop z radix s) (fun _ => True).
Proof. induction s as [|x s IH]; intros; cbn [read_loop]; wcs. Qed.
#[local] Hint Resolve wc_read_loop : wc.
Lemma wc_mp_int_read_cstring Cl z radix s : ow Cl z -> wc Cl (mp_int_read_cstring z radix s) (fun _ => True).
Proof. intros. unfold mp_int_read_cstring. wcs. Qed.
#[local] Hint Resolve wc_mp_int_read_cstring : wc.
Lemma wc_mp_int_read_string Cl z radix s : ow Cl z -> wc Cl (mp_int_read_string z radix s) (fun _ => True).
Proof. intros. unfold mp_int_read_string. wcs. Qed.
#[local] Hint Resolve wc_mp_int_read_string : wc.
Lemma wc_comp2_loop n : forall Cl p s, LB p.1 -> wc Cl (comp2_loop n p s) (fun _ => True).
Proof. induction n as [|n IH]; intros; cbn [comp2_loop]; wcs. Qed.
#[local] Hint Resolve wc_comp2_loop : wc.
Lemma wc_s_2comp Cl buf len : LB buf.1 -> wc Cl (s_2comp buf len) (fun _ => True).
Proof. intros. unfold s_2comp. wcs. Qed.
#[local] Hint Resolve wc_s_2comp : wc.
Lemma wc_tobin_digit i : forall Cl buf pos limit d uz, LB buf.1 -> wc Cl (tobin_digit i buf pos limit d uz) (fun _ => True).
Proof. induction i as [|i IH]; intros; cbn [tobin_digit]; wcs. Qed.
#[local] Hint Resolve wc_tobin_digit : wc.
Lemma wc_tobin_loop uz : forall Cl dz buf pos limit, LB buf.1 -> wc Cl (tobin_loop uz dz buf pos limit) (fun _ => True).
Proof. induction uz as [|uz IH]; intros; cbn [tobin_loop]; wcs. Qed.
#[local] Hint Resolve wc_tobin_loop : wc.
Lemma wc_s_tobin Cl z buf limit pad : LB buf.1 -> wc Cl (s_tobin z buf limit pad) (fun _ => True).
Proof. intros. unfold s_tobin. wcs. Qed.
#[local] Hint Resolve wc_s_tobin : wc.
Lemma wc_mp_int_to_binary Cl z buf limit : LB buf.1 -> wc Cl (mp_int_to_binary z buf limit) (fun _ => True).
Proof. intros. unfold mp_int_to_binary. wcs. Qed.
#[local] Hint Resolve wc_mp_int_to_binary : wc.
Lemma wc_mp_int_to_unsigned Cl z buf limit : LB buf.1 -> wc Cl (mp_int_to_unsigned z buf limit) (fun _ => True).
Proof. intros. unfold mp_int_to_unsigned. wcs. Qed.
#[local] Hint Resolve wc_mp_int_to_unsigned : wc.
Lemma wc_read_bytes n : forall Cl z dz tmp, ow Cl z -> LB dz.1 -> wc Cl (read_bytes n z dz tmp) (fun _ => True).
Proof. induction n as [|n IH]; intros; cbn [read_bytes]; wcs. Qed.
#[local] Hint Resolve wc_read_bytes : wc.
Lemma wc_bytes_need Cl len : wc Cl (bytes_need len) (fun _ => True).
Proof. intros. unfold bytes_need. wcs. Qed.
#[local] Hint Resolve wc_bytes_need : wc.
Lemma wc_mp_int_read_binary Cl z buf len : ow Cl z -> LB buf.1 -> wc Cl (mp_int_read_binary z buf len) (fun _ => True).
Proof. intros. unfold mp_int_read_binary. wcs. Qed.
#[local] Hint Resolve wc_mp_int_read_binary : wc.
Lemma wc_read_ubytes n : forall Cl z tmp, ow Cl z -> wc Cl (read_ubytes n z tmp) (fun _ => True).
Proof. induction n as [|n IH]; intros; cbn [read_ubytes]; wcs. Qed.
#[local] Hint Resolve wc_read_ubytes : wc.
Lemma wc_mp_int_read_unsigned Cl z buf len : ow Cl z -> wc Cl (mp_int_read_unsigned z buf len) (fun _ => True).
Proof. intros. unfold mp_int_read_unsigned. wcs. Qed.
#[local] Hint Resolve wc_mp_int_read_unsigned : wc.
Lemma wc_mp_int_unsigned_len Cl z : wc Cl (mp_int_unsigned_len z) (fun _ => True).
Proof. intros. unfold mp_int_unsigned_len. wcs. Qed.
#[local] Hint Resolve wc_mp_int_unsigned_len : wc.
Lemma wc_mp_int_binary_len Cl z : wc Cl (mp_int_binary_len z) (fun _ => True).
Proof. intros. unfold mp_int_binary_len. wcs. Qed.
#[local] Hint Resolve wc_mp_int_binary_len : wc.
Lemma wc_mp_int_mod_value Cl a value : wc Cl (mp_int_mod_value a value) (fun _ => True).
Proof. intros. unfold mp_int_mod_value. wcs. Qed.
#[local] Hint Resolve wc_mp_int_mod_value : wc.
Lemma wc_mp_int_sqrt Cl a c : ow Cl c -> wc Cl (mp_int_sqrt a c) (fun _ => True).
Proof. intros. unfold mp_int_sqrt. wcs. Qed.
#[local] Hint Resolve wc_mp_int_sqrt : wc.
End fns.
