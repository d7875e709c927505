(** The functions of the GMP interface that put a machine integer into a local
    [mpz_t].  Whether the local and the temporary of [mp_int_init_uvalue] are two
    structures shows only in the state, so these are about states. *)
From Coq Require Import ZArith List Lia.
From stdpp Require Import gmap list.
From Verif Require Import Mem Prog MemLem Kern Fp Imath Imrat Gmp Wp Const ConstFns ConstRat ConstGmp.
Local Open Scope Z_scope.
Local Open Scope prog_scope.

Section local.
Context (O : gset oid) (B : gset base).
Notation LO := (fun o => o ∉ O).
Notation LB := (fun b => ~ shared O B b).

Local Transparent wp bind Load Prog.Store getO setO getG assert.
Local Arguments bind {A B} !p f : simpl nomatch.
Local Arguments wp {A} !p Q st.
Lemma wpw_localu {A C} Cl v (f : oid -> prog A) (g : A -> C) Q st : own_ok O B Cl st ->
  (forall t C', sub Cl C' -> ow LO C' t -> wx LO LB C' C' (f t) (fun _ => True)) ->
  wp (x <- local_int (initu v) f; Ret (g x)) Q st -> wpw O B (x <- local_int (initu v) f; Ret (g x)) Q st.
Proof.
  intros HO Hf. unfold local_int, initu, CHECK, mp_int_init_uvalue, with_ufake, with_local. cbn [bind wp wpw]. intros HW z n Hz Hn. set (t := (false, n)) in *.
  intros i Hi HB z2 n2 Hz2 Hn2. set (p := (Ext i, 0)) in *. set (u := (false, n2)) in *.
  pose proof (own_ok_fresh _ _ _ _ _ HO Hz) as [_ Nt]. pose proof (own_ok_newo _ _ _ _ t z HO Hz) as HO1. pose proof (own_ok_add _ _ _ _ (Ext i) (replicate 2 None) HO1) as HO2.
  pose proof (own_ok_fresh _ _ _ _ _ HO2 Hz2) as [_ Nu]. pose proof (own_ok_newo _ _ _ _ u z2 HO2 Hz2) as HO3.
  assert (t <> u) as Ntu. { intros E. destruct Hz2 as [K _]. cbn in K. rewrite <- E, lookup_insert in K. done. }
  eapply wpw_mono; [eapply (ww_wpw _ _ _ Cl (fun _ _ => True) Q); [exact HO3| |by apply HW]|by intros a st' [? _]].
  assert (HS : forall o, LO o -> LB (Sng o)) by done.
  set (Ct := fun x => Cl x \/ x = t). apply ww_bind, ww_bind, ww_bind, ww_bind, ww_bind.
  eapply ww_mono; [apply (wi_s_ufake LO LB); done|]. intros C1 _ [S1 _]. eapply ww_mono; [apply (wi_mp_int_init_copy LO LB); done|]. intros C2 r [S2 [_ O2]].
  cbn [ww]. split; [done|]. split; [done|]. intros _. set (C3 := fun x => x <> u /\ C2 x).
  assert (sub Cl C3) as S3 by (intros x Hx; split; [by intros ->|by apply S2, S1]). assert (ow LO C3 t) as O3 by (split; [done|by split]).
  apply ww_bind. eapply ww_mono; [apply (Hf t C3 S3 O3)|]. intros C4 x [S4 _]. apply ww_bind. eapply ww_mono; [apply (wc_mp_int_clear LO LB); by eapply ow_sub|]. done.
Qed.
(** In front of the rest, a program that only reads. *)
Fixpoint reads_only {A} (p : prog A) : Prop :=
  match p with Ret _ | Undef => True | Peek _ k => forall c, reads_only (k c) | GetO _ k => forall z, reads_only (k z) | _ => False end.
Lemma reads_bind {A C} (p : prog A) (f : A -> prog C) : reads_only p -> (forall a, reads_only (f a)) -> reads_only (bind p f).
Proof. intros H Hf. induction p; cbn [reads_only bind] in *; auto. Qed.
Lemma wpw_reads {A C D} (p : prog A) (f : A -> prog C) (h : C -> prog D) Q st : reads_only p -> (forall a, wp (bind (f a) h) Q st -> wpw O B (bind (f a) h) Q st) ->
  wp (bind (bind p f) h) Q st -> wpw O B (bind (bind p f) h) Q st.
Proof.
  intros HR HF. induction p; cbn [reads_only bind wp wpw] in *; try done; intros HW.
  - by apply HF.
  - destruct (load _ _); [|done]. by apply H.
  - destruct (objs st !! o); [|done]. by apply H.
Qed.
Lemma wpw_pow_ui {C} Cl c a k (g : unit -> C) Q st : own_ok O B Cl st -> ow LO Cl c ->
  wp (x <- mpz_pow_ui c a k; Ret (g x)) Q st -> wpw O B (x <- mpz_pow_ui c a k; Ret (g x)) Q st.
Proof.
  intros HO Hc. unfold mpz_pow_ui.
  assert (HS : forall o, LO o -> LB (Sng o)) by done.
  assert (F1 : forall st', own_ok O B Cl st' -> wp (x <- CHECK (mp_int_set_value c 1); Ret (g x)) Q st' -> wpw O B (x <- CHECK (mp_int_set_value c 1); Ret (g x)) Q st').
  { intros st' HO' HW. eapply wpw_mono; [eapply (ww_wpw _ _ _ Cl (fun _ _ => True) Q); [exact HO'| |exact HW]|by intros ? ? [? _]].
    apply ww_bind. unfold CHECK. apply ww_bind. eapply ww_mono; [by apply (wc_mp_int_set_value LO LB)|]. intros C1 r _. by intros _. }
  assert (F2 : wp (x <- local_int (initu k) (fun temp => CHECK (mp_int_expt_full a temp c)); Ret (g x)) Q st -> wpw O B (x <- local_int (initu k) (fun temp => CHECK (mp_int_expt_full a temp c)); Ret (g x)) Q st).
  { apply (wpw_localu Cl); [done|]. intros t C' Hs Ht. unfold CHECK. eapply wx_bind; [apply (wc_mp_int_expt_full LO LB HS); by eapply ow_sub|]. intros r C1 H1 _. apply wx_tail; [done|]. apply wx_assert. }
  destruct (k =? 0); [|cbn [bind]; exact F2].
  apply wpw_reads.
  - assert (R1 : forall z, reads_only (getO z)) by done. assert (R2 : forall q, reads_only (Load q)) by (intros q []; done).
    apply reads_bind; [|done]. unfold mp_int_compare_zero, get_used, get_digits, get_sign.
    repeat first [done | apply R1 | apply R2 | apply reads_bind; [|intros ?] | case_match].
  - intros [] HW; [by apply F1|by apply F2].
Qed.
Lemma wpw_arith_ui {C} (op : oid -> oid -> oid -> prog Z) Cl c a k (g : unit -> C) Q st : own_ok O B Cl st -> ow LO Cl c ->
  (forall C' t, ow LO C' c -> wx LO LB C' C' (op a t c) (fun _ => True)) ->
  wp (x <- local_int (initu k) (fun t => CHECK (op a t c)); Ret (g x)) Q st -> wpw O B (x <- local_int (initu k) (fun t => CHECK (op a t c)); Ret (g x)) Q st.
Proof.
  intros HO Hc Hop. apply (wpw_localu Cl); [done|]. intros t C' Hs Ht. unfold CHECK. eapply wx_bind; [apply Hop; by eapply ow_sub|]. intros r C1 H1 _. apply wx_tail; [done|]. apply wx_assert.
Qed.
Lemma wpw_fdiv_q_ui {C} Cl c a k (g : Z -> C) Q st : own_ok O B Cl st -> ow LO Cl c ->
  wp (x <- mpz_fdiv_q_ui c a k; Ret (g x)) Q st -> wpw O B (x <- mpz_fdiv_q_ui c a k; Ret (g x)) Q st.
Proof.
  intros HO Hc. assert (HS : forall o, LO o -> LB (Sng o)) by done. apply (wpw_localu Cl); [done|]. intros t C0 Hs0 Ht. apply (ow_sub _ _ _ _ Hs0) in Hc. clear Hs0.
  apply (wx_local LO LB); [intros; by apply wi_init0|]. intros r C1 Hs1 Hr. apply (ow_sub _ _ _ _ Hs1) in Hc.
  apply (wx_local LO LB); [intros; by apply wi_initc|]. intros o C2 Hs2 Ho. apply (ow_sub _ _ _ _ Hs2) in Hc, Hr.
  eapply wx_bind; [by apply (wc_mpz_fdiv_q LO LB HS)|]. intros _ C3 Hs3 _. apply (ow_sub _ _ _ _ Hs3) in Hr. eapply wx_bind; [by apply (wc_mpz_fdiv_r LO LB HS)|]. intros _ C4 Hs4 _.
  pose proof (sub_trans _ _ _ Hs3 Hs4) as Hs5. eapply wx_bind; [by apply (wc_mp_int_to_uint LO LB)|]. intros x C5 Hs6 _. pose proof (sub_trans _ _ _ Hs5 Hs6) as Hs7.
  eapply wx_bind; [apply wx_assert|]. intros _ C6 Hs8 _. pose proof (sub_trans _ _ _ Hs7 Hs8) as Hs9. destruct (snd x); [by apply wx_ret|done].
Qed.
End local.
