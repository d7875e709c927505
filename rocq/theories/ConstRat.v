(** The functions on rationals write only their results, their temporaries and the
    digits of both.  One lemma for each function, in the order of [Imrat]. *)
From Coq Require Import ZArith List Lia.
From stdpp Require Import gmap list.
From Verif Require Import Mem Prog MemLem Kern Fp Imath Imrat Wp Const ConstFns.
Local Open Scope Z_scope.
Local Open Scope prog_scope.
Local Transparent bind Load Prog.Store getO setO getG assert.
Local Arguments bind {A B} !p f : simpl nomatch.

Section rats.
Context (LO : oid -> Prop) (LB : base -> Prop) (HSng : forall o, LO o -> LB (Sng o)).
Notation wc Cl p Ψ := (wx LO LB Cl Cl p Ψ).
Notation Tr := (fun _ => True).
(** A rational that may be written. *)
Definition rw (Cl : oid -> Prop) (r : rat) : Prop := ow LO Cl (num r) /\ ow LO Cl (den r).
Lemma rw_sub C C' r : sub C C' -> rw C r -> rw C' r. Proof. intros H [? ?]. split; by eapply ow_sub. Qed.

Ltac ups Hs := lazymatch type of Hs with sub ?C ?C' =>
  repeat match goal with
  | H : ow _ C _ |- _ => apply (ow_sub _ _ _ _ Hs) in H
  | H : owo _ C _ |- _ => apply (owo_sub _ _ _ _ Hs) in H
  | H : rw C _ |- _ => apply (rw_sub _ _ _ Hs) in H
  | H : sub ?C0 C |- _ => lazymatch H with Hs => fail | _ => apply (fun H => sub_trans _ _ _ H Hs) in H end
  end; clear Hs end.
Ltac sd := lazymatch goal with
  | |- ow _ _ (if ?b then _ else _) => destruct b; sd
  | |- ow _ _ _ => first [assumption | match goal with H : rw _ ?r |- _ => first [exact (proj1 H) | exact (proj2 H)] end]
  | |- rw _ _ => first [assumption | split; sd]
  | |- owo _ _ None => exact I
  | |- owo _ _ (Some _) => cbn [owo]; sd
  | |- owo _ _ _ => assumption
  | |- LO _ => first [assumption | match goal with H : ow _ _ ?o |- LO ?o => exact (proj1 H) | H : rw _ ?r |- _ => first [exact (proj1 (proj1 H)) | exact (proj1 (proj2 H))] end]
  | |- LB (Sng _) => apply HSng; sd
  | |- LB (fst (padd _ _)) => cbn [padd fst]; sd
  | |- LB (fst (if ?b then _ else _)) => destruct b; sd
  | |- LB _ => first [assumption | cbn [fst snd padd] in *; assumption]
  | |- sub _ _ => first [assumption | apply sub_refl]
  | |- True => exact I
  | |- _ => first [assumption | done]
  end.
Ltac prim := lazymatch goal with
  | |- wx _ _ _ _ (Load _) _ => apply wx_Load
  | |- wx _ _ _ _ (Prog.Store _ _) _ => apply wx_Store; sd
  | |- wx _ _ _ _ (set_sign _ _) _ => apply wx_set_sign; sd
  | |- wx _ _ _ _ (get_used _) _ => apply wx_get_used
  | |- wx _ _ _ _ (get_sign _) _ => apply wx_get_sign
  | |- wx _ _ _ _ (getO _) _ => apply wx_getO
  | |- wx _ _ _ _ (assert _) _ => apply wx_assert
  end.

Create HintDb wcr.
Hint Extern 0 (ow _ _ _) => sd : wcr.
Hint Extern 0 (owo _ _ _) => sd : wcr.
Hint Extern 0 (rw _ _) => sd : wcr.
Hint Extern 0 (LO _) => sd : wcr.
Hint Extern 0 (LB _) => sd : wcr.
Hint Extern 0 (forall o, LO o -> LB (Sng o)) => exact HSng : wcr.
#[local] Hint Resolve wi_mp_int_init wi_mp_int_init_size wi_mp_int_init_copy wc_mp_int_zero wc_mp_int_init wc_mp_int_init_size wc_mp_int_init_copy wc_mp_int_clear wc_mp_int_copy wc_mp_int_set_value wc_mp_int_set_uvalue wc_mp_int_swap wc_mp_int_abs wc_mp_int_neg wc_mp_int_add wc_mp_int_add_value wc_mp_int_sub wc_mp_int_compare_zero wc_mp_int_mul wc_mp_int_mul_value wc_mp_int_mul_pow2 wc_mp_int_div wc_mp_int_compare wc_mp_int_compare_unsigned wc_mp_int_compare_value wc_mp_int_to_int wc_mp_int_div_value wc_mp_int_expt wc_mp_int_expt_value wc_mp_int_gcd wc_mp_int_divisible_value wc_mp_int_to_string wc_mp_int_string_len wc_mp_int_read_cstring : wcr.
Ltac call := first [prim | solve [eauto 3 with wcr nocore]
  | match goal with IH : forall Cl : oid -> Prop, _ |- _ => solve [eapply IH; sd] end
  | match goal with IH : forall (a : ?A) (Cl : oid -> Prop), _ |- _ => solve [eapply IH; sd] end ].
Ltac settrue := lazymatch goal with |- wx _ _ _ _ (A := ?A) _ ?Ψ => try (is_evar Ψ; unify Ψ (fun _ : A => True)) end.
Ltac withrefl := lazymatch goal with
  | |- wx _ _ ?C ?C _ _ => lazymatch goal with H : sub C C |- _ => idtac | _ => pose proof (sub_refl C) end
  | _ => idtac end.
Ltac winit := fail.
Ltac wcs := cbv beta; withrefl; lazymatch goal with
  | |- wx _ _ _ _ (bind ?p _) _ =>
      lazymatch p with
      | mp_int_init _ => eapply wx_bind_i; [solve [eauto 3 with wcr nocore] | next]
      | mp_int_init_size _ _ => eapply wx_bind_i; [solve [eauto 3 with wcr nocore] | next]
      | mp_int_init_copy _ _ => eapply wx_bind_i; [solve [eauto 3 with wcr nocore] | next]
      | _ => eapply wx_bind; [wcs | next]
      end
  | |- wx _ _ _ _ (require _ _) _ => unfold require; wcs
  | |- wx _ _ _ _ (Ret _) _ => settrue; apply wx_ret; sd
  | |- wx _ _ _ _ Undef _ => settrue; exact I
  | |- wx _ _ _ _ NoFuel _ => settrue; exact I
  | |- wx _ _ _ _ (NewO _) _ => settrue; apply wx_NewO; [sd|intros ? ? ?; wcs]
  | |- wx _ _ _ _ (DelO _ _) _ => settrue; apply wx_DelO; [sd|assumption|sd|intros ? ?; wcs]
  | |- wx _ _ _ _ (let _ := _ in _) _ => cbv zeta; wcs
  | |- wx _ _ _ _ (if ?b then _ else _) _ => settrue; destruct b; wcs
  | |- wx _ _ _ _ (match ?x with _ => _ end) _ => settrue; destruct x eqn:?; wcs
  | |- wx _ _ ?C ?C ?p _ => tl
  | |- wx _ _ _ _ _ _ => apply wx_tail; [sd|]; wcs
  end
with next := let Hs := fresh "Hs" in intros ? ? Hs ?; ups Hs; wcs
with tl := lazymatch goal with
  | |- wx _ _ _ _ (with_init _ _ _ _) _ => winit; [solve [intros; eauto 3 with wcr nocore]|let Hs := fresh "Hs" in intros ? ? Hs ?; ups Hs; wcs]
  | |- wx _ _ _ _ (with_zero _) _ => unfold with_zero; wcs
  | |- wx _ _ _ _ (with_copy _ _) _ => unfold with_copy; wcs
  | |- _ => call
  end.

Lemma wx_with_init {A} Cl (keep : A -> bool) init fail (f : oid -> prog A) :
  (forall t C', LO t -> wi LO LB C' (init t) t) -> (forall t C', sub Cl C' -> ow LO C' t -> wc C' (f t) Tr) -> wc Cl (with_init keep init fail f) Tr.
Proof.
  intros H1 H2. unfold with_init. pose proof (sub_refl Cl). apply wx_NewO; [sd|]. intros t Ht Hn. eapply wx_bind_i; [by apply H1|]. intros r C1 Hs Ho.
  destruct (negb _); [apply wx_DelO; [done|done|done|]; intros C2 H3; by apply wx_ret|]. eapply wx_bind; [by apply H2|].
  intros x C2 Hs2 _. assert (sub Cl C2) by exact (sub_trans _ _ _ Hs Hs2). assert (ow LO C2 t) by exact (ow_sub _ _ _ _ Hs2 Ho). destruct (keep x); wcs.
Qed.
Ltac winit ::= apply wx_with_init.

Lemma wc_s_rat_reduce Cl r : rw Cl r -> wc Cl (s_rat_reduce r) Tr.
Proof. intros. unfold s_rat_reduce. wcs. Qed.
#[local] Hint Resolve wc_s_rat_reduce : wcr.
(** After a success both members have digits that may be written. *)
Definition wir (Cl : oid -> Prop) (p : prog Z) (r : rat) : Prop := ww LO LB Cl p (fun Cl' res => sub Cl Cl' /\ (res = MP_OK -> rw Cl' r)).
Lemma wir_wc Cl p r : wir Cl p r -> wc Cl p Tr.
Proof. intros H. eapply ww_mono; [exact H|]. by intros Cl' a [? _]. Qed.
Lemma wir_two (p q : prog Z) (k : Z -> prog Z) Cl r : LO (num r) -> LO (den r) -> (forall C, wi LO LB C p (num r)) -> (forall C, wi LO LB C q (den r)) -> (forall res C, rw C r -> res = MP_OK -> wc C (k res) Tr) ->
  wir Cl (REQUIRE p;; res <- q; if negb (res =? MP_OK) then mp_int_clear (num r);; Ret res else k res) r.
Proof.
  intros Hn Hd H1 H2 H3. unfold wir, require. apply ww_bind. eapply ww_mono; [apply H1|]. intros C1 a [S1 O1]. cbv beta. destruct (a =? MP_OK) eqn:Ea.
  2:{ split; [done|]. intros ->. by rewrite Z.eqb_refl in Ea. }
  apply ww_bind. eapply ww_mono; [apply H2|]. intros C2 b [S2 O2]. cbv beta. pose proof (sub_trans _ _ _ S1 S2) as S3. pose proof (ow_sub _ _ _ _ S2 O1) as O3. destruct (negb (b =? MP_OK)) eqn:Eb.
  - apply ww_bind. eapply ww_mono; [by apply wc_mp_int_clear|]. intros C3 c [S4 _]. split; [by eapply sub_trans|]. intros ->. by rewrite Z.eqb_refl in Eb.
  - apply Bool.negb_false_iff, Z.eqb_eq in Eb as ->. assert (rw C2 r) as O4 by by split. eapply ww_mono; [by apply (H3 MP_OK C2)|]. intros C3 c [S4 _]. split; [by eapply sub_trans|]. intros _. by eapply rw_sub.
Qed.
Lemma wir_mp_rat_init Cl r : LO (num r) -> LO (den r) -> wir Cl (mp_rat_init r) r.
Proof. intros. apply (wir_two _ _ (fun _ => mp_int_set_value (den r) 1)); [done|done|intros; by apply wi_mp_int_init..|]. intros. wcs. Qed.
Lemma wir_mp_rat_init_size Cl r n d : LO (num r) -> LO (den r) -> wir Cl (mp_rat_init_size r n d) r.
Proof. intros. apply (wir_two _ _ (fun _ => mp_int_set_value (den r) 1)); [done|done|intros; by apply wi_mp_int_init_size..|]. intros. wcs. Qed.
Lemma wir_mp_rat_init_copy Cl r a : LO (num r) -> LO (den r) -> wir Cl (mp_rat_init_copy r a) r.
Proof. intros. apply (wir_two _ _ (fun res => Ret res)); [done|done|intros; by apply wi_mp_int_init_copy..|]. intros. wcs. Qed.
Lemma wc_mp_rat_init Cl r : LO (num r) -> LO (den r) -> wc Cl (mp_rat_init r) Tr. Proof. intros. by eapply wir_wc, wir_mp_rat_init. Qed.
Lemma wc_mp_rat_init_size Cl r n d : LO (num r) -> LO (den r) -> wc Cl (mp_rat_init_size r n d) Tr. Proof. intros. by eapply wir_wc, wir_mp_rat_init_size. Qed.
Lemma wc_mp_rat_init_copy Cl r a : LO (num r) -> LO (den r) -> wc Cl (mp_rat_init_copy r a) Tr. Proof. intros. by eapply wir_wc, wir_mp_rat_init_copy. Qed.
Lemma wc_mp_rat_clear Cl r : rw Cl r -> wc Cl (mp_rat_clear r) Tr.
Proof. intros. unfold mp_rat_clear. wcs. Qed.
#[local] Hint Resolve wc_mp_rat_clear : wcr.
Lemma wc_mp_rat_alloc Cl : wc Cl mp_rat_alloc Tr.
Proof.
  unfold mp_rat_alloc. split; [by split; [apply sub_refl|]|]. intros n Hn N1. split; [split; [done|]; split; [|done]; intros x Hx; split; [by intros ->|done]|]. intros d Hd N2.
  apply ww_bind. eapply ww_mono; [by apply (wir_mp_rat_init Cl (n, d))|]. intros C1 a [S1 O1]. cbv beta. destruct (negb _).
  - split; [done|]. split; [done|]. split; [|done]. intros x Hx. split; [by intros ->|]. split; [by intros ->|auto].
  - by split.
Qed.
Lemma wc_mp_rat_free Cl r : rw Cl r -> ww LO LB Cl (mp_rat_free r) (fun _ _ => True).
Proof.
  intros H. unfold mp_rat_free. apply ww_bind. eapply ww_mono; [apply (wx_getO LO LB Cl (num r))|]. intros C1 z [S1 _]. apply (rw_sub _ _ _ S1) in H. apply ww_bind.
  eapply (ww_mono _ _ _ _ (fun _ _ => True)). { destruct (digits z); [|done]. eapply ww_mono; [by apply (wc_mp_rat_clear C1 r)|done]. }
  intros C2 _ _. split; [apply H|]. split; [apply H|done].
Qed.
Lemma wc_mp_rat_reduce Cl r : rw Cl r -> wc Cl (mp_rat_reduce r) Tr.
Proof. intros. unfold mp_rat_reduce. wcs. Qed.
Lemma wc_mp_rat_set_value Cl r n d : rw Cl r -> wc Cl (mp_rat_set_value r n d) Tr.
Proof. intros. unfold mp_rat_set_value. wcs. Qed.
Lemma wc_mp_rat_set_uvalue Cl r n d : rw Cl r -> wc Cl (mp_rat_set_uvalue r n d) Tr.
Proof. intros. unfold mp_rat_set_uvalue. wcs. Qed.
Lemma wc_mp_rat_numer Cl r z : ow LO Cl z -> wc Cl (mp_rat_numer r z) Tr.
Proof. intros. unfold mp_rat_numer. wcs. Qed.
Lemma wc_mp_rat_denom Cl r z : ow LO Cl z -> wc Cl (mp_rat_denom r z) Tr.
Proof. intros. unfold mp_rat_denom. wcs. Qed.
Lemma wc_mp_rat_sign Cl r : wc Cl (mp_rat_sign r) Tr.
Proof. intros. unfold mp_rat_sign. wcs. Qed.
Lemma wc_mp_rat_copy Cl a c : rw Cl c -> wc Cl (mp_rat_copy a c) Tr.
Proof. intros. unfold mp_rat_copy. wcs. Qed.
#[local] Hint Resolve wc_mp_rat_set_value wc_mp_rat_copy : wcr.
Lemma wc_mp_rat_zero Cl c : rw Cl c -> wc Cl (mp_rat_zero c) Tr.
Proof. intros. unfold mp_rat_zero. wcs. Qed.
Lemma wc_mp_rat_abs Cl a c : rw Cl c -> wc Cl (mp_rat_abs a c) Tr.
Proof. intros. unfold mp_rat_abs. wcs. Qed.
Lemma wc_mp_rat_neg Cl a c : rw Cl c -> wc Cl (mp_rat_neg a c) Tr.
Proof. intros. unfold mp_rat_neg. wcs. Qed.
Lemma wc_mp_rat_compare_zero Cl a : wc Cl (mp_rat_compare_zero a) Tr.
Proof. intros. unfold mp_rat_compare_zero. wcs. Qed.
#[local] Hint Resolve wc_mp_rat_compare_zero : wcr.
Lemma wc_mp_rat_recip Cl a c : rw Cl c -> wc Cl (mp_rat_recip a c) Tr.
Proof. intros. unfold mp_rat_recip. wcs. Qed.
Lemma wc_mp_rat_add Cl a b c : rw Cl c -> wc Cl (mp_rat_add a b c) Tr.
Proof. intros. unfold mp_rat_add, s_rat_combine. wcs. Qed.
Lemma wc_mp_rat_sub Cl a b c : rw Cl c -> wc Cl (mp_rat_sub a b c) Tr.
Proof. intros. unfold mp_rat_sub, s_rat_combine. wcs. Qed.
Lemma wc_mp_rat_mul Cl a b c : rw Cl c -> wc Cl (mp_rat_mul a b c) Tr.
Proof. intros. unfold mp_rat_mul. wcs. Qed.
Lemma wc_mp_rat_div Cl a b c : rw Cl c -> wc Cl (mp_rat_div a b c) Tr.
Proof. intros. unfold mp_rat_div. wcs. Qed.
Lemma wc_mp_rat_add_int Cl a b c : rw Cl c -> wc Cl (mp_rat_add_int a b c) Tr.
Proof. intros. unfold mp_rat_add_int. wcs. Qed.
Lemma wc_mp_rat_sub_int Cl a b c : rw Cl c -> wc Cl (mp_rat_sub_int a b c) Tr.
Proof. intros. unfold mp_rat_sub_int. wcs. Qed.
Lemma wc_mp_rat_mul_int Cl a b c : rw Cl c -> wc Cl (mp_rat_mul_int a b c) Tr.
Proof. intros. unfold mp_rat_mul_int. wcs. Qed.
Lemma wc_mp_rat_div_int Cl a b c : rw Cl c -> wc Cl (mp_rat_div_int a b c) Tr.
Proof. intros. unfold mp_rat_div_int. wcs. Qed.
Lemma wc_mp_rat_expt Cl a k c : rw Cl c -> wc Cl (mp_rat_expt a k c) Tr.
Proof. intros. unfold mp_rat_expt. wcs. Qed.
Lemma wc_mp_rat_compare_unsigned Cl a b : wc Cl (mp_rat_compare_unsigned a b) Tr.
Proof. intros. unfold mp_rat_compare_unsigned. wcs. Qed.
#[local] Hint Resolve wc_mp_rat_compare_unsigned : wcr.
Lemma wc_mp_rat_compare Cl a b : wc Cl (mp_rat_compare a b) Tr.
Proof. intros. unfold mp_rat_compare. wcs. Qed.
#[local] Hint Resolve wc_mp_rat_compare : wcr.
Lemma wc_mp_rat_compare_value Cl a n d : wc Cl (mp_rat_compare_value a n d) Tr.
Proof.
  unfold mp_rat_compare_value. pose proof (sub_refl Cl). apply wx_NewO; [sd|]. intros tn Hn N1. apply wx_NewO; [sd|]. intros td Hd N2. cbv zeta.
  apply ww_bind. eapply ww_mono; [by apply (wir_mp_rat_init Cl (tn, td))|]. intros C1 res [S1 O1]. cbv beta. destruct (negb (res =? MP_OK)) eqn:E.
  - change (wx LO LB Cl C1 (DelO td (DelO tn (Ret INT_MAX))) Tr). wcs.
  - apply Bool.negb_false_iff, Z.eqb_eq in E as ->. specialize (O1 eq_refl). change (wx LO LB Cl C1 (res <- mp_rat_set_value (tn, td) n d; out <- (if negb (res =? MP_OK) then Ret INT_MAX else mp_rat_compare a (tn, td)); mp_rat_clear (tn, td);; DelO td (DelO tn (Ret out))) Tr). wcs.
Qed.
Lemma wc_mp_rat_is_integer Cl a : wc Cl (mp_rat_is_integer a) Tr.
Proof. intros. unfold mp_rat_is_integer. wcs. Qed.
Lemma wc_mp_rat_to_ints Cl a : wc Cl (mp_rat_to_ints a) Tr.
Proof. intros. unfold mp_rat_to_ints. wcs. Qed.
Lemma wc_strlen_loop n : forall Cl p len, wc Cl (strlen_loop n p len) Tr.
Proof. induction n as [|n IH]; intros; cbn [strlen_loop]; wcs. Qed.
#[local] Hint Resolve wc_strlen_loop : wcr.
Lemma wc_memset_loop n : forall Cl p c, LB p.1 -> wc Cl (memset_loop n p c) Tr.
Proof. induction n as [|n IH]; intros; cbn [memset_loop]; wcs. Qed.
#[local] Hint Resolve wc_memset_loop : wcr.
Lemma wc_memset Cl p c n : LB p.1 -> wc Cl (memset p c n) Tr.
Proof. intros. unfold memset. wcs. Qed.
#[local] Hint Resolve wc_memset : wcr.
Lemma wc_mp_rat_to_string Cl a radix s limit : LB s.1 -> wc Cl (mp_rat_to_string a radix s limit) Tr.
Proof. intros. unfold mp_rat_to_string. wcs. Qed.
Lemma wc_lead_loop n : forall Cl t d radix l, ow LO Cl t -> wc Cl (lead_loop n t d radix l) Tr.
Proof. induction n as [|n IH]; intros; cbn [lead_loop]; wcs. Qed.
#[local] Hint Resolve wc_lead_loop : wcr.
Lemma wc_round_up Cl prec t0 t1 : ow LO Cl t0 -> ow LO Cl t1 -> wc Cl (round_up prec t0 t1) Tr.
Proof. intros. unfold round_up. wcs. Qed.
#[local] Hint Resolve wc_round_up : wcr.
Lemma wc_mp_rat_to_decimal Cl a radix prec m s limit : LB s.1 -> wc Cl (mp_rat_to_decimal a radix prec m s limit) Tr.
Proof. intros. unfold mp_rat_to_decimal. wcs. Qed.
Lemma wc_mp_rat_string_len Cl a radix : wc Cl (mp_rat_string_len a radix) Tr.
Proof. intros. unfold mp_rat_string_len. wcs. Qed.
Lemma wc_mp_rat_decimal_len Cl a radix prec : wc Cl (mp_rat_decimal_len a radix prec) Tr.
Proof. intros. unfold mp_rat_decimal_len. wcs. Qed.
Lemma wc_mp_rat_read_cstring Cl c radix s : rw Cl c -> wc Cl (mp_rat_read_cstring c radix s) Tr.
Proof. intros. unfold mp_rat_read_cstring. wcs. Qed.
#[local] Hint Resolve wc_mp_rat_read_cstring : wcr.
Lemma wc_strip_loop n : forall Cl f radix, ow LO Cl f -> wc Cl (strip_loop n f radix) Tr.
Proof. induction n as [|n IH]; intros; cbn [strip_loop]; wcs. Qed.
#[local] Hint Resolve wc_strip_loop : wcr.
Lemma wc_grow_loop n : forall Cl d f radix, ow LO Cl d -> wc Cl (grow_loop n d f radix) Tr.
Proof. induction n as [|n IH]; intros; cbn [grow_loop]; wcs. Qed.
#[local] Hint Resolve wc_grow_loop : wcr.
Lemma wc_shift_loop n : forall Cl d radix, ow LO Cl d -> wc Cl (shift_loop n d radix) Tr.
Proof. induction n as [|n IH]; intros; cbn [shift_loop]; wcs. Qed.
#[local] Hint Resolve wc_shift_loop : wcr.
Lemma wc_mp_rat_read_cdecimal Cl c radix s : rw Cl c -> wc Cl (mp_rat_read_cdecimal c radix s) Tr.
Proof. intros. unfold mp_rat_read_cdecimal. wcs. Qed.
#[local] Hint Resolve wc_mp_rat_read_cdecimal : wcr.
Lemma wc_mp_rat_read_ustring Cl c radix s : rw Cl c -> wc Cl (mp_rat_read_ustring c radix s) Tr.
Proof. intros. unfold mp_rat_read_ustring. wcs. Qed.
End rats.
