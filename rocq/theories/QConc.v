(** One thread with rationals: a fair client, run on its view, writes nothing
    shared.  Then the views are put together again. *)
From Coq Require Import ZArith List Lia QArith.
From stdpp Require Import gmap list.
From Verif Require Import Mem Prog MemLem Kern Fp Imath Imrat Wp Const ConstFns ConstRat Conc Threads Spec SpecBin SpecHist SpecRat SpecDec SpecQHist SpecConc SpecQConc Public Hist QHist ConcFns ConcApi.
Local Open Scope Z_scope.
Local Open Scope prog_scope.
Local Open Scope list_scope.

Definition qmakes (c : qcall) : bool := match c with Int c => makes c | QInit _ | QInitSize _ _ _ | QInitCopy _ _ => true | _ => false end.
Ltac mem := first [apply elem_of_list_here | apply elem_of_list_further, elem_of_list_here].
Create HintDb wqc.
#[local] Hint Resolve wc_mp_rat_init wc_mp_rat_init_size wc_mp_rat_init_copy wc_mp_rat_clear wc_mp_rat_alloc wc_mp_rat_reduce wc_mp_rat_set_value wc_mp_rat_set_uvalue wc_mp_rat_numer wc_mp_rat_denom wc_mp_rat_sign wc_mp_rat_copy wc_mp_rat_zero wc_mp_rat_abs wc_mp_rat_neg wc_mp_rat_compare_zero wc_mp_rat_recip wc_mp_rat_add wc_mp_rat_sub wc_mp_rat_mul wc_mp_rat_div wc_mp_rat_add_int wc_mp_rat_sub_int wc_mp_rat_mul_int wc_mp_rat_div_int wc_mp_rat_expt wc_mp_rat_compare_unsigned wc_mp_rat_compare wc_mp_rat_compare_value wc_mp_rat_is_integer wc_mp_rat_to_ints wc_mp_rat_to_string wc_mp_rat_to_decimal wc_mp_rat_string_len wc_mp_rat_decimal_len wc_mp_rat_read_cstring wc_mp_rat_read_cdecimal wc_mp_rat_read_ustring : wqc.
#[local] Hint Extern 1 => match goal with H : forall o, o ∈ _ -> ?P o |- ?P _ => apply H; cbn [fst snd num den flat_map app]; unfold num, den; mem end : wqc.
#[local] Hint Extern 0 => assumption : wqc.
#[local] Hint Extern 1 (ow _ _ _) => match goal with H : false = false -> _ |- _ => apply (H eq_refl); mem end : wqc.
#[local] Hint Extern 1 (rw _ _ _) => match goal with H : false = false -> _ |- _ => split; unfold num, den; apply (H eq_refl); cbn [flat_map app]; mem end : wqc.
Lemma qcall_ww (LO : oid -> Prop) (LB : base -> Prop) (HS : forall o, LO o -> LB (Sng o)) (Cl : oid -> Prop) c :
  (forall o, o ∈ qchanges c -> LO o) -> (qmakes c = false -> forall o, o ∈ qchanges c -> Cl o) -> (forall b, b ∈ qwritten c -> LB b) -> qtunes c = false ->
  ww LO LB Cl (do_qcall c) (fun _ _ => True).
Proof.
  intros H1 H2 H3 H4.
  assert (Fin : forall {A} (p : prog A) (g : A -> qanswer), wx LO LB Cl Cl p (fun _ => True) -> ww LO LB Cl (r <- p; Ret (g r)) (fun _ _ => True)).
  { intros A p g Hp. apply ww_bind. eapply ww_mono; [exact Hp|]. done. }
  assert (Ho : qmakes c = false -> forall o, o ∈ qchanges c -> ow LO Cl o) by (intros; split; auto).
  destruct c; cbn [do_qcall qmakes qwritten qchanges qoutputs qtunes] in *.
  { apply ww_bind. eapply ww_mono; [apply call_ww; eassumption|done]. }
  all: clear H2.
  all: lazymatch goal with
    | |- ww _ _ _ (bind (mp_rat_free ?o) _) _ => apply ww_bind; eapply ww_mono; [apply wc_mp_rat_free; split; unfold num, den; (apply Ho; [done|cbn [flat_map app]; mem])|done]
    | |- _ => apply Fin; solve [eauto 3 with wqc nocore]
    end.
Qed.
