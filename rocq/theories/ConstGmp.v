(** The functions of the GMP interface write only their results, their temporaries
    and the digits of both.  One lemma for each function, in the order of [Gmp]. *)
From Coq Require Import ZArith List Lia.
From stdpp Require Import gmap list.
From Verif Require Import Mem Prog MemLem Kern Fp Imath Imrat Gmp Wp Const ConstFns ConstRat.
Local Open Scope Z_scope.
Local Open Scope prog_scope.
Local Transparent bind Load Prog.Store getO setO getG assert.
Local Arguments bind {A B} !p f : simpl nomatch.

Section gmp.
Context (LO : oid -> Prop) (LB : base -> Prop) (HSng : forall o, LO o -> LB (Sng o)).
Notation wc Cl p Ψ := (wx LO LB Cl Cl p Ψ).
Notation Tr := (fun _ => True).
Notation rw := (rw LO).
Ltac ups Hs := lazymatch type of Hs with sub ?C ?C' =>
  repeat match goal with
  | H : ow _ C _ |- _ => apply (ow_sub _ _ _ _ Hs) in H
  | H : owo _ C _ |- _ => apply (owo_sub _ _ _ _ Hs) in H
  | H : rw C _ |- _ => apply (rw_sub _ _ _ _ Hs) in H
  | H : sub ?C0 C |- _ => lazymatch H with Hs => fail | _ => apply (fun H => sub_trans _ _ _ H Hs) in H end
  end; clear Hs end.
Ltac sd := lazymatch goal with
  | |- ow _ _ (if ?b then _ else _) => destruct b; sd
  | |- ow _ _ _ => first [assumption | match goal with H : rw _ ?r |- _ => first [exact (proj1 H) | exact (proj2 H)] end]
  | |- rw _ _ => first [assumption | split; sd]
  | |- owo _ _ None => exact I
  | |- owo _ _ (Some _) => cbn [owo]; sd
  | |- owo _ _ _ => assumption
  | |- LO _ => first [assumption | match goal with H : ow _ _ ?o |- LO ?o => exact (proj1 H) | H : rw _ ?r |- _ => first [exact (proj1 (proj1 H)) | exact (proj1 (proj2 H))] end]
  | |- LB (Sng _) => apply HSng; sd
  | |- LB (fst (padd _ _)) => cbn [padd fst]; sd
  | |- LB (fst (if ?b then _ else _)) => destruct b; sd
  | |- LB _ => first [assumption | cbn [fst snd padd] in *; assumption]
  | |- sub _ _ => first [assumption | apply sub_refl]
  | |- True => exact I
  | |- _ => first [assumption | done]
  end.
Ltac prim := lazymatch goal with
  | |- wx _ _ _ _ (Load _) _ => apply wx_Load
  | |- wx _ _ _ _ (Prog.Store _ _) _ => apply wx_Store; sd
  | |- wx _ _ _ _ (set_sign _ _) _ => apply wx_set_sign; sd
  | |- wx _ _ _ _ (set_used _ _) _ => apply wx_set_used; sd
  | |- wx _ _ _ _ (get_used _) _ => apply wx_get_used
  | |- wx _ _ _ _ (get_digits _) _ => apply wx_get_digits
  | |- wx _ _ _ _ (get_sign _) _ => apply wx_get_sign
  | |- wx _ _ _ _ (getO _) _ => apply wx_getO
  | |- wx _ _ _ _ (assert _) _ => apply wx_assert
  end.

Create HintDb wcg.
Hint Extern 0 (ow _ _ _) => sd : wcg.
Hint Extern 0 (owo _ _ _) => sd : wcg.
Hint Extern 0 (rw _ _) => sd : wcg.
Hint Extern 0 (LO _) => sd : wcg.
Hint Extern 0 (LB _) => sd : wcg.
Hint Extern 0 (forall o, LO o -> LB (Sng o)) => exact HSng : wcg.
#[local] Hint Resolve wi_mp_int_init wi_mp_int_init_size wi_mp_int_init_copy wc_mp_int_zero wc_mp_int_init wc_mp_int_init_size wc_mp_int_init_copy wc_mp_int_clear wc_mp_int_copy wc_mp_int_set_value wc_mp_int_set_uvalue wc_mp_int_swap wc_mp_int_abs wc_mp_int_neg wc_mp_int_add wc_mp_int_add_value wc_mp_int_sub wc_mp_int_compare_zero wc_mp_int_mul wc_mp_int_mul_value wc_mp_int_mul_pow2 wc_mp_int_div wc_mp_int_compare wc_mp_int_compare_unsigned wc_mp_int_compare_value wc_mp_int_to_int wc_mp_int_div_value wc_mp_int_expt wc_mp_int_expt_value wc_mp_int_gcd wc_mp_int_divisible_value wc_mp_int_to_string wc_mp_int_string_len wc_mp_int_read_cstring wc_mp_int_sub_value wc_mp_int_lcm wc_mp_int_expt_full wc_mp_int_to_uint wc_mp_int_read_string wc_mp_int_unsigned_len wc_to_uint_loop wc_CLAMP wc_mp_rat_init wc_mp_rat_clear wc_mp_rat_reduce wc_mp_rat_set_uvalue wc_mp_rat_copy wc_mp_rat_mul wc_mp_rat_compare wc_mp_rat_compare_zero wc_mp_rat_to_string wc_mp_rat_string_len : wcg.
Ltac call := first [prim | solve [eauto 3 with wcg nocore]
  | match goal with IH : forall Cl : oid -> Prop, _ |- _ => solve [eapply IH; sd] end
  | match goal with IH : forall (a : ?A) (Cl : oid -> Prop), _ |- _ => solve [eapply IH; sd] end ].
Ltac settrue := lazymatch goal with |- wx _ _ _ _ (A := ?A) _ ?Ψ => try (is_evar Ψ; unify Ψ (fun _ : A => True)) end.
Ltac withrefl := lazymatch goal with
  | |- wx _ _ ?C ?C _ _ => lazymatch goal with H : sub C C |- _ => idtac | _ => pose proof (sub_refl C) end
  | _ => idtac end.
Ltac winit := fail.
Ltac wcs := cbv beta; withrefl; lazymatch goal with
  | |- wx _ _ _ _ (bind ?p _) _ =>
      lazymatch p with
      | mp_int_init _ => eapply wx_bind_i; [solve [eauto 3 with wcg nocore] | next]
      | mp_int_init_size _ _ => eapply wx_bind_i; [solve [eauto 3 with wcg nocore] | next]
      | mp_int_init_copy _ _ => eapply wx_bind_i; [solve [eauto 3 with wcg nocore] | next]
      | _ => eapply wx_bind; [wcs | next]
      end
  | |- wx _ _ _ _ (Ret _) _ => settrue; apply wx_ret; sd
  | |- wx _ _ _ _ Undef _ => settrue; exact I
  | |- wx _ _ _ _ NoFuel _ => settrue; exact I
  | |- wx _ _ _ _ (NewO _) _ => settrue; apply wx_NewO; [sd|intros ? ? ?; wcs]
  | |- wx _ _ _ _ (DelO _ _) _ => settrue; apply wx_DelO; [sd|assumption|sd|intros ? ?; wcs]
  | |- wx _ _ _ _ (let _ := _ in _) _ => cbv zeta; wcs
  | |- wx _ _ _ _ (if ?b then _ else _) _ => settrue; destruct b; wcs
  | |- wx _ _ _ _ (match ?x with _ => _ end) _ => settrue; destruct x eqn:?; wcs
  | |- wx _ _ ?C ?C ?p _ => tl
  | |- wx _ _ _ _ _ _ => apply wx_tail; [sd|]; wcs
  end
with next := let Hs := fresh "Hs" in intros ? ? Hs ?; ups Hs; wcs
with tl := lazymatch goal with
  | |- wx _ _ _ _ (CHECK _) _ => unfold CHECK; wcs
  | |- wx _ _ _ _ (local_int _ _) _ => winit; [solve [intros; eauto 3 with wcg nocore]|let Hs := fresh "Hs" in intros ? ? Hs ?; ups Hs; wcs]
  | |- _ => call
  end.


Lemma wx_local {A} Cl init (f : oid -> prog A) :
  (forall t C', LO t -> wi LO LB C' (init t) t) -> (forall t C', sub Cl C' -> ow LO C' t -> wc C' (f t) Tr) -> wc Cl (local_int init f) Tr.
Proof.
  intros H1 H2. unfold local_int. pose proof (sub_refl Cl). apply wx_NewO; [sd|]. intros t Ht Hn. eapply wx_bind_i; [by apply H1|]. intros r C1 Hs Ho.
  eapply wx_bind; [by apply H2|]. intros x C2 Hs2 _. assert (sub Cl C2) by exact (sub_trans _ _ _ Hs Hs2). assert (ow LO C2 t) by exact (ow_sub _ _ _ _ Hs2 Ho). wcs.
Qed.
Ltac winit ::= apply wx_local.
Lemma wi_CHECK Cl p t : wi LO LB Cl p t -> wi LO LB Cl (CHECK p) t.
Proof. intros H. unfold CHECK. eapply wi_bind_i; [exact H|]. intros r C1 Hs Ho. eapply wc_wi; [done|]. wcs. Qed.
Lemma wi_init0 t Cl : LO t -> wi LO LB Cl (init0 t) t. Proof. intros. by apply wi_CHECK, wi_mp_int_init. Qed.
Lemma wi_init0' t Cl : LO t -> wi LO LB Cl (mp_int_init t;; Ret tt) t.
Proof. intros. eapply wi_bind_i; [by apply wi_mp_int_init|]. intros r C1 Hs Ho. eapply wc_wi; [done|]. wcs. Qed.
Lemma wi_initc a t Cl : LO t -> wi LO LB Cl (initc a t) t. Proof. intros. by apply wi_CHECK, wi_mp_int_init_copy. Qed.
Lemma wi_inits n t Cl : LO t -> wi LO LB Cl (mp_int_init_size t n;; Ret tt) t.
Proof. intros. eapply wi_bind_i; [by apply wi_mp_int_init_size|]. intros r C1 Hs Ho. eapply wc_wi; [done|]. wcs. Qed.
#[local] Hint Resolve wi_init0 wi_init0' wi_initc wi_inits : wcg.

Lemma wc_mpq_clear Cl x : rw Cl x -> wc Cl (mpq_clear x) Tr.
Proof. intros. unfold mpq_clear. wcs. Qed.
Lemma wc_mpq_cmp Cl a b : wc Cl (mpq_cmp a b) Tr.
Proof. intros. unfold mpq_cmp. wcs. Qed.
Lemma wc_mpq_init Cl x : LO (num x) -> LO (den x) -> wc Cl (mpq_init x) Tr.
Proof. intros. unfold mpq_init. wcs. Qed.
Lemma wc_mpq_mul Cl c a b : rw Cl c -> wc Cl (mpq_mul c a b) Tr.
Proof. intros. unfold mpq_mul. wcs. Qed.
Lemma wc_mpq_set Cl c a : rw Cl c -> wc Cl (mpq_set c a) Tr.
Proof. intros. unfold mpq_set. wcs. Qed.
Lemma wc_mpz_abs Cl c a : ow LO Cl c -> wc Cl (mpz_abs c a) Tr.
Proof. intros. unfold mpz_abs. wcs. Qed.
Lemma wc_mpz_add Cl c a b : ow LO Cl c -> wc Cl (mpz_add c a b) Tr.
Proof. intros. unfold mpz_add. wcs. Qed.
Lemma wc_mpz_clear Cl c : ow LO Cl c -> wc Cl (mpz_clear c) Tr.
Proof. intros. unfold mpz_clear. wcs. Qed.
Lemma wc_mpz_cmp_si Cl a n : wc Cl (mpz_cmp_si a n) Tr.
Proof. intros. unfold mpz_cmp_si. wcs. Qed.
Lemma wc_mpz_cmpabs Cl a b : wc Cl (mpz_cmpabs a b) Tr.
Proof. intros. unfold mpz_cmpabs. wcs. Qed.
Lemma wc_mpz_cmp Cl a b : wc Cl (mpz_cmp a b) Tr.
Proof. intros. unfold mpz_cmp. wcs. Qed.
Lemma wc_mpz_init Cl x : LO x -> wc Cl (mpz_init x) Tr.
Proof. intros. unfold mpz_init. wcs. Qed.
Lemma wc_mpz_mul Cl c a b : ow LO Cl c -> wc Cl (mpz_mul c a b) Tr.
Proof. intros. unfold mpz_mul. wcs. Qed.
Lemma wc_mpz_neg Cl c a : ow LO Cl c -> wc Cl (mpz_neg c a) Tr.
Proof. intros. unfold mpz_neg. wcs. Qed.
Lemma wc_mpz_set_si Cl c n : ow LO Cl c -> wc Cl (mpz_set_si c n) Tr.
Proof. intros. unfold mpz_set_si. wcs. Qed.
Lemma wc_mpz_set Cl c a : ow LO Cl c -> wc Cl (mpz_set c a) Tr.
Proof. intros. unfold mpz_set. wcs. Qed.
Lemma wc_mpz_sub Cl c a b : ow LO Cl c -> wc Cl (mpz_sub c a b) Tr.
Proof. intros. unfold mpz_sub. wcs. Qed.
Lemma wc_mpz_swap Cl a c : ow LO Cl a -> ow LO Cl c -> wc Cl (mpz_swap a c) Tr.
Proof. intros. unfold mpz_swap. wcs. Qed.
Lemma wc_mpq_sgn Cl a : wc Cl (mpq_sgn a) Tr.
Proof. intros. unfold mpq_sgn. wcs. Qed.
Lemma wc_mpz_sgn Cl a : wc Cl (mpz_sgn a) Tr.
Proof. intros. unfold mpz_sgn. wcs. Qed.
Lemma wc_mpq_set_ui Cl c n d : rw Cl c -> wc Cl (mpq_set_ui c n d) Tr.
Proof. intros. unfold mpq_set_ui. wcs. Qed.
Lemma wc_mpz_set_ui Cl c n : ow LO Cl c -> wc Cl (mpz_set_ui c n) Tr.
Proof. intros. unfold mpz_set_ui. wcs. Qed.
Lemma wc_mpq_canonicalize Cl c : rw Cl c -> wc Cl (mpq_canonicalize c) Tr.
Proof. intros. unfold mpq_canonicalize. wcs. Qed.
Lemma wc_mpz_addmul Cl c a b : ow LO Cl c -> wc Cl (mpz_addmul c a b) Tr.
Proof. intros. unfold mpz_addmul. wcs. Qed.
Lemma wc_mpz_divexact Cl c a b : ow LO Cl c -> wc Cl (mpz_divexact c a b) Tr.
Proof. intros. unfold mpz_divexact. wcs. Qed.
Lemma wc_mpz_divisible_p Cl a b : wc Cl (mpz_divisible_p a b) Tr.
Proof. intros. unfold mpz_divisible_p. wcs. Qed.
Lemma wc_mpz_submul Cl c a b : ow LO Cl c -> wc Cl (mpz_submul c a b) Tr.
Proof. intros. unfold mpz_submul. wcs. Qed.
Lemma wc_mpz_gcd Cl c a b : ow LO Cl c -> wc Cl (mpz_gcd c a b) Tr.
Proof. intros. unfold mpz_gcd. wcs. Qed.
Lemma wc_case_loop n : forall Cl radix p, LB p.1 -> wc Cl (case_loop n radix p) Tr.
Proof. induction n as [|n IH]; intros; cbn [case_loop]; wcs. Qed.
#[local] Hint Resolve wc_case_loop : wcg.
Lemma wc_mpz_get_str Cl p k a : LB p.1 -> wc Cl (mpz_get_str p k a) Tr.
Proof. intros. unfold mpz_get_str. wcs. Qed.
#[local] Hint Resolve wc_mpz_get_str : wcg.
Lemma wc_mpq_get_str Cl p k a : LB p.1 -> wc Cl (mpq_get_str p k a) Tr.
Proof. intros. unfold mpq_get_str. wcs. Qed.
#[local] Hint Resolve wc_mpq_get_str : wcg.
Lemma wc_mpz_set_str Cl c s k : ow LO Cl c -> wc Cl (mpz_set_str c s k) Tr.
Proof. intros. unfold mpz_set_str. wcs. Qed.
#[local] Hint Resolve wc_mpz_set_str : wcg.
Lemma wc_mpq_set_str Cl c s k : rw Cl c -> wc Cl (mpq_set_str c s k) Tr.
Proof. intros. unfold mpq_set_str, mp_rat_numer_ref, mp_rat_denom_ref. wcs. Qed.
#[local] Hint Resolve wc_mpq_set_str : wcg.
Lemma wc_get_long_bits Cl a : wc Cl (get_long_bits a) Tr.
Proof. intros. unfold get_long_bits. wcs. Qed.
#[local] Hint Resolve wc_get_long_bits : wcg.
Lemma wc_mpz_get_ui Cl a : wc Cl (mpz_get_ui a) Tr.
Proof. intros. unfold mpz_get_ui. wcs. Qed.
#[local] Hint Resolve wc_mpz_get_ui : wcg.
Lemma wc_mpz_get_si Cl a : wc Cl (mpz_get_si a) Tr.
Proof. intros. unfold mpz_get_si. wcs. Qed.
#[local] Hint Resolve wc_mpz_get_si : wcg.
Lemma wc_mpz_lcm Cl c a b : ow LO Cl c -> wc Cl (mpz_lcm c a b) Tr.
Proof. intros. unfold mpz_lcm. wcs. Qed.
#[local] Hint Resolve wc_mpz_lcm : wcg.
Lemma wc_mpz_mul_2exp Cl c a k : ow LO Cl c -> wc Cl (mpz_mul_2exp c a k) Tr.
Proof. intros. unfold mpz_mul_2exp. wcs. Qed.
#[local] Hint Resolve wc_mpz_mul_2exp : wcg.
Lemma wc_mpz_cdiv_q Cl c a b : ow LO Cl c -> wc Cl (mpz_cdiv_q c a b) Tr.
Proof. intros. unfold mpz_cdiv_q. wcs. Qed.
#[local] Hint Resolve wc_mpz_cdiv_q : wcg.
Lemma wc_mpz_fdiv_q Cl c a b : ow LO Cl c -> wc Cl (mpz_fdiv_q c a b) Tr.
Proof. intros. unfold mpz_fdiv_q. wcs. Qed.
#[local] Hint Resolve wc_mpz_fdiv_q : wcg.
Lemma wc_mpz_fdiv_r Cl c a b : ow LO Cl c -> wc Cl (mpz_fdiv_r c a b) Tr.
Proof. intros. unfold mpz_fdiv_r. wcs. Qed.
#[local] Hint Resolve wc_mpz_fdiv_r : wcg.
Lemma wc_mpz_tdiv_q Cl c a b : ow LO Cl c -> wc Cl (mpz_tdiv_q c a b) Tr.
Proof. intros. unfold mpz_tdiv_q. wcs. Qed.
#[local] Hint Resolve wc_mpz_tdiv_q : wcg.
Lemma wc_export_word n : forall Cl k used endian dst src sb, LB dst.1 -> wc Cl (export_word n k used endian dst src sb) (fun x => LB (fst (fst x)).1).
Proof. induction n as [|n IH]; intros; cbn [export_word]; wcs. Qed.
Lemma wc_export_words n : forall Cl i size used endian wo dst src sb, LB dst.1 -> wc Cl (export_words n i size used endian wo dst src sb) Tr.
Proof. induction n as [|n IH]; intros; cbn [export_words]; [wcs|]. pose proof (sub_refl Cl). eapply wx_bind; [by apply wc_export_word|]. intros x C1 Hs Hx. apply wx_tail; [done|]. by apply IH. Qed.
#[local] Hint Resolve wc_export_words : wcg.
Lemma wc_mpz_export Cl p order size endian nails a : LB p.1 -> wc Cl (mpz_export p order size endian nails a) Tr.
Proof. intros. unfold mpz_export. wcs. Qed.
Lemma wc_gzero_loop n : forall Cl p, LB p.1 -> wc Cl (Gmp.zero_loop n p) Tr.
Proof. induction n as [|n IH]; intros; cbn [Gmp.zero_loop]; wcs. Qed.
Lemma wc_import_word n : forall Cl endian src dst db, LB dst.1 -> wc Cl (import_word n endian src dst db) (fun x => LB (snd (fst x)).1).
Proof.
  induction n as [|n IH]; intros; cbn [import_word]; [wcs|]. pose proof (sub_refl Cl). cbv zeta. assert (LB (if db =? 32 then dst +p 1 else dst).1) as Hd by (by destruct (_ =? _)).
  eapply wx_bind; [wcs|]. intros v C1 Hs _. ups Hs. eapply wx_bind; [wcs|]. intros b C2 Hs _. ups Hs. eapply wx_bind; [by apply wx_Store|]. intros u C3 Hs _. ups Hs. apply wx_tail; [done|]. by apply IH.
Qed.
Lemma wc_import_words n : forall Cl size endian wo src dst db, LB dst.1 -> wc Cl (import_words n size endian wo src dst db) Tr.
Proof. induction n as [|n IH]; intros; cbn [import_words]; [wcs|]. pose proof (sub_refl Cl). eapply wx_bind; [by apply wc_import_word|]. intros x C1 Hs Hx. apply wx_tail; [done|]. by apply IH. Qed.
#[local] Hint Resolve wc_gzero_loop wc_import_words : wcg.
Lemma wc_mpz_import Cl c count order size endian nails p : ow LO Cl c -> wc Cl (mpz_import c count order size endian nails p) Tr.
Proof.
  intros. unfold mpz_import. destruct p as [p|]; [|wcs]. pose proof (sub_refl Cl). destruct (_ =? _); [wcs|]. do 3 (eapply wx_bind; [wcs|]; let Hs := fresh in intros ? ? Hs _; ups Hs). cbv zeta.
  apply wx_tail; [done|]. apply wx_local; [intros; by apply wi_inits|]. intros t C Hs Ht. ups Hs. pose proof (sub_refl C). eapply wx_bind; [apply wx_get_digits_own; apply Ht|]. intros d C1 Hs Hd. ups Hs. wcs.
Qed.
Lemma wc_mpz_sizeinbase Cl a k : wc Cl (mpz_sizeinbase a k) Tr.
Proof. intros. unfold mpz_sizeinbase. wcs. Qed.
End gmp.
