(** The operators of the calculator of examples/imcalc.c. *)
From Coq Require Import ZArith Znumtheory List Lia String Ascii.
From stdpp Require Import gmap list.
From Verif Require Import Mem Prog Kern Fp Imath Imrat Gmp Wp MemLem Dig KernLem Rel RelWp RelZ Life Basic Basic2 Mult Shift Knuth Divi Powr Spec SpecBin Public Gcd Root Exptmod Buf Text Read Outlen Inlen Bin Rat RatText Gmpr Hist.
From Verif Require Import Rsa Rsamath SpecGalloc Galloc Iprime ExPiR SpecKey ExRsakeyR SpecCalc ExCalc ExCalcR ExCalcX.
Local Open Scope Z_scope.
Local Open Scope prog_scope.
Local Open Scope list_scope.
Local Ltac wb := apply wp_bind.
Local Ltac xb := apply wpx_bind.

Section calc.
Context (V0 : gmap oid Z) (X0 : ctx).
Notation core := (core V0 X0).
Definition INV (inp : list Z) (st : state) (sp : cstate) (a : calc) : Prop :=
  exists V X, RV st V X /\ core V X (cs_elts sp) (cs_mem sp) (stk a) (vars a) /\ cs_radix sp = orad a /\ cs_out sp = shown a /\ cs_in sp = inp /\ (orad a = 0 \/ 2 <= orad a <= 36).
(** What an operator has to fulfil. *)
Definition fine (h : cstate -> prog (Z * cstate)) (a : calc) (E : Z -> calc -> Prop) : Prop :=
  forall inp st sp, INV inp st sp a -> wp (h sp) (fun p st' => exists a', E p.1 a' /\ INV inp st' p.2 a') st.

(** The same, where [m] tells whether structures may be refused. *)
Definition finex (m : bool) (h : cstate -> prog (Z * cstate)) (a : calc) (E : Z -> calc -> Prop) : Prop :=
  forall inp st sp, INV inp st sp a -> wpx m (h sp) (fun p st' => exists a', E p.1 a' /\ INV inp st' p.2 a') st.
Lemma fine_finex m h a (E : Z -> calc -> Prop) : fine h a E -> finex m h a E.
Proof. intros H inp st sp HI. apply wp_wpx. by apply H. Qed.

(** *** Getting at the operands *)
Lemma get1 V X o es ms v vs ws : core V X (o :: es) ms (v :: vs) ws -> V !! o = Some v.
Proof. intros C. exact (core_get _ _ _ _ _ _ _ _ 0 _ _ C eq_refl eq_refl). Qed.
Lemma get2 V X o o' es ms v v' vs ws : core V X (o' :: o :: es) ms (v' :: v :: vs) ws -> V !! o = Some v /\ V !! o' = Some v' /\ o <> o'.
Proof. intros C. split; [exact (core_get _ _ _ _ _ _ _ _ 1 _ _ C eq_refl eq_refl)|]. split; [exact (core_get _ _ _ _ _ _ _ _ 0 _ _ C eq_refl eq_refl)|]. by eapply (core_ne _ _ _ _ _ _ _ _ 1 0 o o' C). Qed.
Lemma set1 V X o es ms v v1 vs ws : core V X (o :: es) ms (v :: vs) ws -> core (<[o := v1]> V) X (o :: es) ms (v1 :: vs) ws.
Proof. intros C. exact (core_set _ _ _ _ _ _ _ _ 0 _ v1 C eq_refl). Qed.
Lemma set2 V X o o' es ms v v' v1 vs ws : core V X (o' :: o :: es) ms (v' :: v :: vs) ws -> core (<[o := v1]> V) X (o' :: o :: es) ms (v' :: v1 :: vs) ws.
Proof. intros C. exact (core_set _ _ _ _ _ _ _ _ 1 _ v1 C eq_refl). Qed.
Lemma set3 V X o o' o'' es ms v v' v'' v1 vs ws : core V X (o'' :: o' :: o :: es) ms (v'' :: v' :: v :: vs) ws -> core (<[o := v1]> V) X (o'' :: o' :: o :: es) ms (v'' :: v' :: v1 :: vs) ws.
Proof. intros C. exact (core_set _ _ _ _ _ _ _ _ 2 _ v1 C eq_refl). Qed.
Lemma wp_pop st V X o es ms inp buf r out v vs ws (Q : Z * cstate -> state -> Prop) :
  RV st V X -> core V X (o :: es) ms (v :: vs) ws -> 
  (forall st' V' X', RV st' V' X' -> core V' X' es ms vs ws -> (forall o', o' <> o -> V' !! o' = V !! o') -> Q (MP_OK, CS es ms inp buf r out) st') -> wp (stack_pop (CS (o :: es) ms inp buf r out)) Q st.
Proof.
  intros HV C HQ. unfold stack_pop. cbn [cs_elts]. wb. eapply wpV_clear; [exact HV|by eapply get1|]. intros st' z Hz HV'. apply wp_ret. eapply HQ; [exact HV'|by eapply core_pop|].
  intros o' No'. by apply lookup_delete_ne.
Qed.

Lemma OK_refl : MP_OK =? MP_OK = true. Proof. done. Qed.
(** Opens an operator on [n] operands. *)
Ltac opn := intros inp st [es ms i buf r out] (V & X & HV & C & Er & Eo & Ei & Rr); cbn [cs_elts cs_mem cs_radix cs_out cs_in stk vars orad shown to print] in *.
Ltac op1 := opn; lazymatch goal with C : ExCalcR.core _ _ _ _ ?es _ _ _ |- _ =>
  pose proof (Forall2_length _ _ _ (c_es _ _ _ _ _ _ _ _ C)); destruct es as [|o1 es]; cbn [length] in *; [exfalso; lia|]; pose proof (get1 _ _ _ _ _ _ _ _ C) as G1 end.
Ltac op2 := op1; lazymatch goal with C : ExCalcR.core _ _ _ _ (_ :: ?es) _ _ _ |- _ => destruct es as [|o2 es]; cbn [length] in *; [exfalso; lia|]; pose proof (get2 _ _ _ _ _ _ _ _ _ _ C) as (G2 & _ & NE) end.
Ltac fin := eexists _, _; split; [eassumption|]; cbn [cs_elts cs_mem cs_radix cs_out cs_in stk vars orad shown to print]; split; [eassumption|]; split; [assumption|]; split; [assumption|]; split; [assumption|]; assumption.
Ltac pop := eapply wp_pop; [eassumption|eassumption|].

Context (mm : bool) (vs : list Z) (ws : list (list Z * Z)) (rad : Z) (sh : list Z).

Lemma f_abs x : fine cf_abs (Calc (x :: vs) ws rad sh) (effect_of mm OAbs (Calc (x :: vs) ws rad sh)).
Proof. op1. unfold cf_abs, with1, stay. cbn [cs_elts]. wb. eapply wpV_abs; [exact HV|exact G1..|]. intros st1 HV1. apply wp_ret. apply (set1 _ _ _ _ _ _ (Z.abs x)) in C. exists (Calc (Z.abs x :: vs) ws rad sh). split; [done|]. fin. Qed.
Lemma f_neg x : fine cf_neg (Calc (x :: vs) ws rad sh) (effect_of mm ONeg (Calc (x :: vs) ws rad sh)).
Proof. op1. unfold cf_neg, with1, stay. cbn [cs_elts]. wb. eapply wpV_neg; [exact HV|exact G1..|]. intros st1 HV1. apply wp_ret. apply (set1 _ _ _ _ _ _ (- x)) in C. exists (Calc (- x :: vs) ws rad sh). split; [done|]. fin. Qed.
Lemma f_sqr x : fine cf_square (Calc (x :: vs) ws rad sh) (effect_of mm OSqr (Calc (x :: vs) ws rad sh)).
Proof. op1. unfold cf_square, with1, stay. cbn [cs_elts]. wb. eapply wpV_sqr; [exact HV|exact G1..|]. intros st1 HV1. apply wp_ret. apply (set1 _ _ _ _ _ _ (x * x)) in C. exists (Calc (x * x :: vs) ws rad sh). split; [done|]. fin. Qed.
Lemma f_inc x : fine cf_inc (Calc (x :: vs) ws rad sh) (effect_of mm OInc (Calc (x :: vs) ws rad sh)).
Proof. op1. unfold cf_inc, with1, stay. cbn [cs_elts]. wb. eapply wpV_add_value; [exact HV|exact G1..|lia|]. intros st1 HV1. apply wp_ret. apply (set1 _ _ _ _ _ _ (x + 1)) in C. exists (Calc (x + 1 :: vs) ws rad sh). split; [done|]. fin. Qed.
Lemma f_dec x : fine cf_dec (Calc (x :: vs) ws rad sh) (effect_of mm ODec (Calc (x :: vs) ws rad sh)).
Proof. op1. unfold cf_dec, with1, stay. cbn [cs_elts]. wb. eapply wpV_sub_value; [exact HV|exact G1..|lia|]. intros st1 HV1. apply wp_ret. apply (set1 _ _ _ _ _ _ (x - 1)) in C. exists (Calc (x - 1 :: vs) ws rad sh). split; [done|]. fin. Qed.

(** Two operands and one result. *)
Lemma f_bin (f : oid -> oid -> prog Z) (g : Z -> Z -> Z) x y (E : Z -> calc -> Prop) : (forall st V X a b (Q : Z -> state -> Prop), RV st V X -> V !! a = Some x -> V !! b = Some y -> (forall st', RV st' (<[a := g x y]> V) X -> Q MP_OK st') -> wp (f a b) Q st) ->
  E MP_OK (Calc (g x y :: vs) ws rad sh) -> fine (fun sp => with2 (fun a b => and_pop sp (f a b)) sp) (Calc (y :: x :: vs) ws rad sh) E.
Proof.
  intros Hf HE. op2. unfold with2, and_pop. cbn [cs_elts]. wb. eapply Hf; [exact HV|exact G2|exact G1|]. intros st1 HV1. rewrite OK_refl. apply (set2 _ _ _ _ _ _ _ _ (g x y)) in C. 
  wb. pop. intros st2 V2 X2 HV2 C2 _. apply wp_ret. exists (Calc (g x y :: vs) ws rad sh). split; [done|]. fin.
Qed.
Lemma f_add x y : fine cf_add (Calc (y :: x :: vs) ws rad sh) (effect_of mm OAdd (Calc (y :: x :: vs) ws rad sh)).
Proof. apply (f_bin (fun a b => mp_int_add a b a) Z.add); [|done]. intros. by eapply wpV_add. Qed.
Lemma f_sub x y : fine cf_sub (Calc (y :: x :: vs) ws rad sh) (effect_of mm OSub (Calc (y :: x :: vs) ws rad sh)).
Proof. apply (f_bin (fun a b => mp_int_sub a b a) Z.sub); [|done]. intros. by eapply wpV_sub. Qed.
Lemma f_mul x y : fine cf_mul (Calc (y :: x :: vs) ws rad sh) (effect_of mm OMul (Calc (y :: x :: vs) ws rad sh)).
Proof. apply (f_bin (fun a b => mp_int_mul a b a) Z.mul); [|done]. intros. by eapply wpV_mul. Qed.

Lemma f_divmod x y : fine cf_divmod (Calc (y :: x :: vs) ws rad sh) (effect_of mm ODivmod (Calc (y :: x :: vs) ws rad sh)).
Proof.
  op2. unfold cf_divmod, with2, stay. cbn [cs_elts]. wb. eapply (wpV_div _ _ _ o2 o1 (Some o2) (Some o1) x y); [exact HV|done|done|by intros [=]|by exists x|by exists y| |].
  - intros ->. apply wp_ret. exists (Calc (0 :: x :: vs) ws rad sh). split; [by left|]. fin.
  - intros Hy st1 HV1. apply wp_ret. cbn [assign] in HV1. apply (set2 _ _ _ _ _ _ _ _ (Z.quot x y)) in C. apply (set1 _ _ _ _ _ _ (Z.rem x y)) in C. exists (Calc (Z.rem x y :: Z.quot x y :: vs) ws rad sh). split; [by right|]. fin.
Qed.
Lemma f_div x y : fine cf_div (Calc (y :: x :: vs) ws rad sh) (effect_of mm ODiv (Calc (y :: x :: vs) ws rad sh)).
Proof.
  op2. unfold cf_div, with2, and_pop. cbn [cs_elts]. wb. eapply (wpV_div _ _ _ o2 o1 (Some o2) None x y); [exact HV|done|done|done|by exists x|done| |].
  - intros ->. apply wp_ret. exists (Calc (0 :: x :: vs) ws rad sh). split; [by left|]. fin.
  - intros Hy st1 HV1. rewrite OK_refl. cbn [assign] in HV1. apply (set2 _ _ _ _ _ _ _ _ (Z.quot x y)) in C. wb. pop. intros st2 V2 X2 HV2 C2 _. apply wp_ret. exists (Calc (Z.quot x y :: vs) ws rad sh). split; [by right|]. fin.
Qed.
Lemma f_mod x y : fine cf_mod (Calc (y :: x :: vs) ws rad sh) (effect_of mm OMod (Calc (y :: x :: vs) ws rad sh)).
Proof.
  op2. unfold cf_mod, with2, and_pop. cbn [cs_elts]. wb. eapply (wpV_mod _ _ _ o2 o1 o2 x y x); [exact HV|done|done|done| |].
  - intros -> st1 HV1. apply wp_ret. exists (Calc (0 :: x :: vs) ws rad sh). split; [by left|]. fin.
  - intros Hy st1 HV1. rewrite OK_refl. apply (set2 _ _ _ _ _ _ _ _ (mod_val x y)) in C. wb. pop. intros st2 V2 X2 HV2 C2 _. apply wp_ret. exists (Calc (mod_val x y :: vs) ws rad sh). split; [|fin].
    right. split; [done|]. split; [done|]. exists (mod_val x y). split; [|split; [|done]]; unfold mod_val.
    + intros P. pose proof (Z.quot_rem' x y) as Q. pose proof (Z.rem_bound_abs x y ltac:(lia)) as B. rewrite (Z.abs_eq y) in B by lia. destruct (Z.ltb_spec (Z.rem x y) 0); [apply (Z.mod_unique _ _ (Z.quot x y - 1))|apply (Z.mod_unique _ _ (Z.quot x y))]; lia.
    + pose proof (Z.quot_rem' x y) as Q. destruct (Z.ltb_spec (Z.rem x y) 0); [exists (Z.quot x y - 1)|exists (Z.quot x y)]; lia.
Qed.

Lemma f_expt x y : allowed OExpt (Calc (y :: x :: vs) ws rad sh) -> fine cf_expt (Calc (y :: x :: vs) ws rad sh) (effect_of mm OExpt (Calc (y :: x :: vs) ws rad sh)).
Proof.
  intros [A1 A2]. op2. unfold cf_expt, with2. cbn [cs_elts]. wb. eapply (wpV_to_int _ _ _ o1 y); [exact HV|done|done| |].
  - intros F st1 HV1. cbn [MP_OK]. wb. pop. intros st2 V2 X2 HV2 C2 HK. wb. assert (V2 !! o2 = Some x) as G2' by (by rewrite HK). eapply (wpV_expt _ _ _ o2 y o2 x x); [exact HV2|done|done| |].
    + intros Hy. apply wp_ret. exists (Calc (x :: vs) ws rad sh). split; [right; left; done|]. fin.
    + intros Hy st3 HV3. apply wp_ret. assert (y < 2 ^ 32) by (destruct A2 as [|A2]; [done|]; exfalso; apply A2; exact F). rewrite Z.mod_small in HV3 by lia. apply (set1 _ _ _ _ _ _ (x ^ y)) in C2.
      exists (Calc (x ^ y :: vs) ws rad sh). split; [right; right; done|]. fin.
  - intros F st1 HV1. apply wp_ret. exists (Calc (y :: x :: vs) ws rad sh). split; [left; unfold fits; split; [lia|done]|]. fin.
Qed.
Lemma f_exptmod x y m : allowed OExptmod (Calc (m :: y :: x :: vs) ws rad sh) -> fine cf_exptmod (Calc (m :: y :: x :: vs) ws rad sh) (effect_of mm OExptmod (Calc (m :: y :: x :: vs) ws rad sh)).
Proof.
  intros A. cbn in A. op2. destruct es as [|o3 es]; cbn [length] in *; [exfalso; lia|]. unfold cf_exptmod, with3. cbn [cs_elts].
  pose proof (core_get _ _ _ _ _ _ _ _ 2 _ _ C eq_refl eq_refl) as G3. wb. eapply (wpV_exptmod _ _ _ o3 o2 o1 o3 x y m x); [exact HV|done|done|done|done|done| | |].
  - intros E. apply wp_ret. exists (Calc (m :: y :: x :: vs) ws rad sh). split; [by left|]. fin.
  - intros E Hy. apply wp_ret. exists (Calc (m :: y :: x :: vs) ws rad sh). split; [right; by left|]. fin.
  - intros E Hy st1 HV1. rewrite OK_refl. apply (set3 _ _ _ _ _ _ _ _ _ _ (emval x y m)) in C. wb. pop. intros st2 V2 X2 HV2 C2 _. wb. cbn [snd]. pop. intros st3 V3 X3 HV3 C3 _. apply wp_ret.
    exists (Calc (emval x y m :: vs) ws rad sh). split; [right; right; split; [lia|done]|]. fin.
Qed.
Lemma f_invmod x m : fine cf_invmod (Calc (m :: x :: vs) ws rad sh) (effect_of mm OInv (Calc (m :: x :: vs) ws rad sh)).
Proof.
  op2. unfold cf_invmod, with2. cbn [cs_elts]. wb. eapply (wpV_invmod _ _ _ o2 o1 o2 x m x); [exact HV|done|done|done| | |].
  - intros E. wb. pop. intros st2 V2 X2 HV2 C2 _. apply wp_ret. exists (Calc (x :: vs) ws rad sh). split; [by left|]. fin.
  - intros E1 E2 E3 st1 HV1. wb. pop. intros st2 V2 X2 HV2 C2 _. apply wp_ret. exists (Calc (x :: vs) ws rad sh). split; [right; by left|]. fin.
  - intros E1 E2 E3 st1 z Hz Bz Bm HV1. apply (set2 _ _ _ _ _ _ _ _ z) in C. wb. pop. intros st2 V2 X2 HV2 C2 _. apply wp_ret. exists (Calc (z :: vs) ws rad sh). split; [|fin].
    right; right. split; [done|]. split; [done|]. split; [done|]. exists z. split; [done|]. split; [|done]. destruct (Z.eq_dec z m) as [E|E]; [right; by apply Bm|left; lia].
Qed.
Lemma f_gcd x y : fine cf_gcd (Calc (y :: x :: vs) ws rad sh) (effect_of mm OGcd (Calc (y :: x :: vs) ws rad sh)).
Proof.
  op2. unfold cf_gcd, with2, and_pop. cbn [cs_elts]. wb. eapply (wpV_gcd _ _ _ o2 o1 o2 x y x); [exact HV|done|done|done| |].
  - intros E1 E2. apply wp_ret. exists (Calc (y :: x :: vs) ws rad sh). split; [by left|]. fin.
  - intros E st1 HV1. rewrite OK_refl. apply (set2 _ _ _ _ _ _ _ _ (Z.gcd x y)) in C. wb. pop. intros st2 V2 X2 HV2 C2 _. apply wp_ret. exists (Calc (Z.gcd x y :: vs) ws rad sh). split; [by right|]. fin.
Qed.
Lemma f_xgcd x y : finex mm cf_xgcd (Calc (y :: x :: vs) ws rad sh) (effect_of mm OXgcd (Calc (y :: x :: vs) ws rad sh)).
Proof.
  op2. unfold cf_xgcd, with2. cbn [cs_elts]. xb. eapply wpx_alloc; [exact HV| |].
  - intros Em. apply wpx_ret. exists (Calc (y :: x :: vs) ws rad sh). split; [by left|]. fin.
  - intros t st1 Ht Ft _ HV1. apply wp_wpx. pose proof (core_push _ _ _ _ _ _ _ _ t 0 C Ft Ht) as C1.
    assert (t <> o1 /\ t <> o2) as [N1 N2] by (split; intros ->; congruence).
    assert (forall st' V' u v, RV st' V' X -> V' = <[o2 := Z.gcd x y]> (<[o1 := u]> (<[t := v]> (<[t := 0]> V))) -> (x <> 0 \/ y <> 0) -> u * Z.abs x + v * Z.abs y = Z.gcd x y ->
      wp (if negb (MP_OK =? MP_OK) then mp_int_free t;; Ret (MP_OK, CS (o1 :: o2 :: es) ms i buf r out) else stack_push (CS (o1 :: o2 :: es) ms i buf r out) t) (fun p st2 => exists a', effect_of mm OXgcd (Calc (y :: x :: vs) ws rad sh) p.1 a' /\ INV inp st2 p.2 a') st') as Hend.
    { intros st' V' u v HV' -> Hn HB. cbn [negb]. apply wp_ret. exists (Calc (v :: u :: Z.gcd x y :: vs) ws rad sh). split; [right; right; split; [done|]; split; [done|]; by exists u, v|].
      apply (set1 _ _ _ _ _ _ v) in C1. apply (set2 _ _ _ _ _ _ _ _ u) in C1. apply (set3 _ _ _ _ _ _ _ _ _ _ (Z.gcd x y)) in C1. fin. }
    wb. eapply (wpV_egcd _ _ _ o2 o1 o2 (Some o1) (Some t) x y x); [exact HV1|rewrite lookup_insert_ne by done; done|rewrite lookup_insert_ne by done; done|rewrite lookup_insert_ne by done; done|exists y; by rewrite lookup_insert_ne|exists 0; apply lookup_insert|left; by eexists|intros _; split; by eexists| | | |].
    + intros E1 E2. change (MP_UNDEF =? MP_OK) with false. cbn [negb]. wb. eapply wpV_free; [exact HV1|apply lookup_insert|done|]. intros st2 HV2. rewrite delete_insert in HV2 by done. apply wp_ret.
      exists (Calc (y :: x :: vs) ws rad sh). split; [right; by left|]. fin.
    + intros E1 E2 st2 HV2. cbn [assign] in HV2. subst x. eapply (Hend _ _ 0 1); [exact HV2| |by right|change (Z.gcd 0 y) with (Z.abs y); lia]. change (Z.gcd 0 y) with (Z.abs y). mapeq.
    + intros E1 E2 st2 HV2. cbn [assign] in HV2. subst y. eapply (Hend _ _ 1 0); [exact HV2| |by left|rewrite Z.gcd_0_r; lia]. rewrite Z.gcd_0_r. mapeq.
    + intros E1 E2 st2 u v HB HV2. cbn [assign] in HV2. eapply (Hend _ _ u v); [exact HV2| |by left|exact HB]. mapeq.
Qed.
Lemma f_sqrt x : fine cf_sqrt (Calc (x :: vs) ws rad sh) (effect_of mm OSqrt (Calc (x :: vs) ws rad sh)).
Proof.
  op1. unfold cf_sqrt, with1, stay, mp_int_sqrt. cbn [cs_elts]. wb. eapply (wpV_root _ _ _ o1 o1 2 x x); [exact HV|done|done|lia| |].
  - intros Hx _. apply wp_ret. exists (Calc (x :: vs) ws rad sh). split; [by left|]. fin.
  - intros Hx st1 z Hz B HV1. apply wp_ret. assert (0 <= x) as Px by (destruct Hx as [|Hx]; [done|by cbn in Hx]). apply (set1 _ _ _ _ _ _ (Z.sgn x * z)) in C. exists (Calc (Z.sgn x * z :: vs) ws rad sh). split; [|fin].
    right. split; [done|]. split; [done|]. do 3 f_equal. rewrite Z.abs_eq in B by done. rewrite !Z.pow_2_r in B. assert (z = Z.sqrt x) as ->. { symmetry. apply Z.sqrt_unique. unfold Z.succ. exact B. }
    destruct (Z.eq_dec x 0) as [->|N]; [done|]. rewrite Z.sgn_pos, Z.mul_1_l by lia. done.
Qed.
Lemma f_root x y : allowed ORoot (Calc (y :: x :: vs) ws rad sh) -> fine cf_root (Calc (y :: x :: vs) ws rad sh) (effect_of mm ORoot (Calc (y :: x :: vs) ws rad sh)).
Proof.
  intros [A1 A2]. op2. unfold cf_root, with2. cbn [cs_elts]. wb. eapply (wpV_to_int _ _ _ o1 y); [exact HV|done|done| |].
  - intros F st1 HV1. cbn [MP_OK]. wb. pop. intros st2 V2 X2 HV2 C2 HK. wb. assert (V2 !! o2 = Some x) as G2' by (by rewrite HK). eapply (wpV_root _ _ _ o2 o2 y x x); [exact HV2|done|done| | |].
    + destruct A2 as [|A2]; [done|]. exfalso. apply A2. exact F.
    + intros Hx Hy. apply wp_ret. exists (Calc (x :: vs) ws rad sh). split; [right; left; done|]. fin.
    + intros Hx st3 z Hz Bz HV3. apply wp_ret. apply (set1 _ _ _ _ _ _ (Z.sgn x * z)) in C2. exists (Calc (Z.sgn x * z :: vs) ws rad sh). split; [|fin]. right; right. split; [done|]. split; [done|]. split; [done|]. by exists z.
  - intros F st1 HV1. apply wp_ret. exists (Calc (y :: x :: vs) ws rad sh). split; [left; unfold fits; split; [lia|done]|]. fin.
Qed.
Lemma f_cmp (test : Z -> bool) x y (E : Z -> calc -> Prop) : E MP_OK (Calc (truth (test (Z.sgn (x - y))) :: vs) ws rad sh) -> fine (cf_cmp test) (Calc (y :: x :: vs) ws rad sh) E.
Proof.
  intros HE. op2. unfold cf_cmp, with2. cbn [cs_elts]. wb. eapply (wpV_compare _ _ _ o2 o1 x y); [exact HV|done|done|]. set (z := if test (Z.sgn (x - y)) then 1 else 0). assert (0 <= z <= 1) as Bz by (unfold z; destruct (test _); lia).
  wb. eapply (wpV_set_value _ _ _ o2 z x); [exact HV|done|lia|]. intros st1 HV1. apply (set2 _ _ _ _ _ _ _ _ z) in C. wb. pop. intros st2 V2 X2 HV2 C2 _. apply wp_ret. exists (Calc (z :: vs) ws rad sh). split; [done|]. fin.
Qed.
Lemma sgn_cases (x y : Z) : (x < y /\ Z.sgn (x - y) = -1) \/ (x = y /\ Z.sgn (x - y) = 0) \/ (y < x /\ Z.sgn (x - y) = 1).
Proof. destruct (Z.lt_trichotomy x y) as [H|[H|H]]; [left; rewrite Z.sgn_neg by lia; done|right; left; subst; rewrite Z.sub_diag; done|right; right; rewrite Z.sgn_pos by lia; done]. Qed.
Ltac cmps x y := apply f_cmp; split; [done|]; unfold to; cbn [vars orad shown]; do 2 f_equal; destruct (sgn_cases x y) as [[H ->]|[[H ->]|[H ->]]];
  repeat match goal with |- context [Z.ltb ?p ?q] => destruct (Z.ltb_spec p q) | |- context [Z.leb ?p ?q] => destruct (Z.leb_spec p q) | |- context [Z.eqb ?p ?q] => destruct (Z.eqb_spec p q) end; done || (exfalso; lia).
Lemma f_lt x y : fine (cf_cmp (fun c => c <? 0)) (Calc (y :: x :: vs) ws rad sh) (effect_of mm OLt (Calc (y :: x :: vs) ws rad sh)). Proof. cmps x y. Qed.
Lemma f_gt x y : fine (cf_cmp (fun c => 0 <? c)) (Calc (y :: x :: vs) ws rad sh) (effect_of mm OGt (Calc (y :: x :: vs) ws rad sh)). Proof. cmps x y. Qed.
Lemma f_le x y : fine (cf_cmp (fun c => c <=? 0)) (Calc (y :: x :: vs) ws rad sh) (effect_of mm OLe (Calc (y :: x :: vs) ws rad sh)). Proof. cmps x y. Qed.
Lemma f_ge x y : fine (cf_cmp (fun c => 0 <=? c)) (Calc (y :: x :: vs) ws rad sh) (effect_of mm OGe (Calc (y :: x :: vs) ws rad sh)). Proof. cmps x y. Qed.
Lemma f_eq x y : fine (cf_cmp (fun c => c =? 0)) (Calc (y :: x :: vs) ws rad sh) (effect_of mm OEq (Calc (y :: x :: vs) ws rad sh)). Proof. cmps x y. Qed.
Lemma f_ne x y : fine (cf_cmp (fun c => negb (c =? 0))) (Calc (y :: x :: vs) ws rad sh) (effect_of mm ONe (Calc (y :: x :: vs) ws rad sh)). Proof. cmps x y. Qed.

(** *** The factorial *)
Lemma f_fact x : fine cf_fact (Calc (x :: vs) ws rad sh) (effect_of mm OFact (Calc (x :: vs) ws rad sh)).
Proof.
  op1. unfold cf_fact, with1, stay. cbn [cs_elts]. wb. eapply (wpV_compare_zero _ _ _ o1 x); [exact HV|done|].
  destruct (Z.ltb_spec (Z.sgn x) 0) as [L|L].
  { apply wp_ret. exists (Calc (x :: vs) ws rad sh). split; [left; split; [lia|done]|]. fin. }
  assert (0 <= x) as Px by lia. wb.
  apply wp_NewO. intros z iz Fz. destruct (RV_newO st V X false z _ HV Fz) as (H1 & H2 & H3). set (t := (false, iz)) in *.
  assert (t <> o1) as N1 by (intros ->; congruence).
  wb. eapply wpV_init_value; [exact H3|cbn [craw with_craw]; apply lookup_insert|lia|]. intros st1 _ HV1.
  assert (RV st1 (<[t := 1]> V) X) as HV1'. { unfold with_craw in HV1. cbn [craw cmem cglob] in HV1. rewrite delete_insert in HV1 by done. destruct X; exact HV1. } clear HV1.
  wb. eapply wpV_used; [exact HV1'|rewrite lookup_insert_ne by done; exact G1|]. intros n _ _ _ Hn. rewrite Z.abs_eq in Hn by done.
  wb. eapply (wp_loop_n _ _ (fun n _ st => exists v, RV st (<[o1 := n]> (<[t := v]> V)) X /\ 0 <= n /\ v * factorial (Z.to_nat n) = factorial (Z.to_nat x)) _ x).
  - exists 1. split; [|split; [done|lia]]. rewrite insert_commute, (insert_id V o1 x) by done. exact HV1'.
  - rewrite Z2Nat.id by lia. exact Hn.
  - intros n1 [] st2 (v & HV2 & Pn & Ev). unfold fact_body. wb. eapply (wpV_compare_value _ _ _ o1 n1 1); [exact HV2|apply lookup_insert|lia|]. intros st3 HV3.
    destruct (Z.ltb_spec 0 (Z.sgn (n1 - 1))) as [G|G].
    + apply Z.sgn_pos_iff in G. wb. eapply (wpV_mul _ _ _ t o1 t v n1 v); [exact HV3|look..|]. intros st4 HV4. rewrite OK_refl. cbn [negb].
      wb. eapply (wpV_sub_value _ _ _ o1 1 o1 n1 n1); [exact HV4|look|look|lia|]. intros st5 HV5. rewrite OK_refl. cbn [negb]. apply wp_ret. exists (n1 - 1). split; [lia|]. exists (v * n1). split; [|split; [lia|]].
      * replace (<[o1:=n1 - 1]> (<[t:=v * n1]> V)) with (<[o1:=n1 - 1]> (<[t:=v * n1]> (<[o1:=n1]> (<[t:=v]> V)))); [exact HV5|mapeq].
      * rewrite <- Ev. replace (Z.to_nat n1) with (S (Z.to_nat (n1 - 1))) by lia. cbn [factorial]. replace (Z.of_nat (S (Z.to_nat (n1 - 1)))) with n1 by lia. ring.
    + assert (n1 <= 1) as Ln by (destruct (Z.le_gt_cases n1 1); [done|]; rewrite Z.sgn_pos in G by lia; lia).
      wb. eapply (wpV_copy _ _ _ t o1 v n1); [exact HV3|look|look|]. intros st4 HV4. apply wp_ret.
      assert (v = factorial (Z.to_nat x)) as -> by (rewrite <- Ev; assert (n1 = 0 \/ n1 = 1) as [-> | ->] by lia; [change (factorial (Z.to_nat 0)) with 1|change (factorial (Z.to_nat 1)) with 1]; lia). set (y := factorial (Z.to_nat x)) in *.
      wb. eapply (wpV_clear _ _ _ t y); [exact HV4|look|]. intros st5 z5 _ HV5.
      eapply wp_DelO; [eapply RV_rawobj; [exact HV5|cbn [craw with_craw]; apply lookup_insert]|done|]. apply wp_ret. apply wp_ret.
      eapply RV_delO in HV5; [|cbn [craw with_craw]; apply lookup_insert]. unfold with_craw in HV5. cbn [craw cmem cglob] in HV5. rewrite !delete_insert in HV5 by done.
      assert (RV (del_obj st5 t) (<[o1 := y]> V) X) as HV6. { replace (<[o1 := y]> V) with (delete t (<[o1:=y]> (<[o1:=n1]> (<[t:=y]> V)))); [destruct X; exact HV5|mapeq]. }
      apply (set1 _ _ _ _ _ _ y) in C. exists (Calc (y :: vs) ws rad sh). split; [by right|]. fin.
Qed.

(** *** Printing *)
Lemma nibble_hex d : 0 <= d < 16 -> hex_digit d = nibble d.
Proof. intros H. assert (exists n, d = Z.of_nat n /\ (n < 16)%nat) as (n & -> & L) by (exists (Z.to_nat d); lia). do 16 (destruct n as [|n]; [done|]). lia. Qed.
Lemma hex2_nib c : is_byte c -> hex2 c = [nibble (c / 16); nibble (c mod 16)].
Proof. intros [H1 H2]. unfold hex2. rewrite !nibble_hex; [done|apply Z.mod_pos_bound; lia|]. split; [apply Z.div_pos; lia|apply Z.div_lt_upper_bound; lia]. Qed.
Lemma dump_cons c d l : dump (c :: d :: l) = [nibble (c / 16); nibble (c mod 16)] ++ [46] ++ dump (d :: l).
Proof. reflexivity. Qed.
Lemma wpV_print_bytes V X b l bs : forall st (off : nat) (Q : list Z -> state -> Prop), RV st V X -> cmem X !! b = Some l -> holds l off bs -> Forall is_byte bs -> Q (dump bs) st -> wp (print_bytes (length bs) (b, Z.of_nat off)) Q st.
Proof.
  induction bs as [|c bs IH]; intros st off Q HV Hb Hh HB HQ; [by apply wp_ret|]. apply Forall_cons in HB as [Bc HB]. apply holds_cons in Hh as [Hc Hh].
  destruct bs as [|d bs].
  - cbn [length print_bytes]. wb. eapply wpV_loadb; [exact HV|exact Hb|lia|rewrite Nat2Z.id; exact Hc|]. apply wp_ret. rewrite hex2_nib by done. exact HQ.
  - cbn [length] in *. cbn [print_bytes]. wb. eapply wpV_loadb; [exact HV|exact Hb|lia|rewrite Nat2Z.id; exact Hc|]. wb. rewrite padd_1. eapply (IH st (S off)); [exact HV|exact Hb|exact Hh|exact HB|]. apply wp_ret. rewrite hex2_nib by done. exact HQ.
Qed.
Lemma wpV_print st V X o v r (Q : list Z -> state -> Prop) : RV st V X -> V !! o = Some v -> (r = 0 \/ 2 <= r <= 36) -> printable r v ->
  (forall s st', displays r v s -> RV st' V X -> Q s st') -> wp (print_value r o) Q st.
Proof.
  intros HV Ho Hr Hpr HQ. unfold print_value. destruct (Z.eqb_spec r 0) as [E|E].
  - pose proof (signed_bitlen v) as Hn. set (n := Z.to_nat (bitlen v / 8 + 1)) in *. clearbody n. destruct (size_small _ _ _ _ _ n HV Ho ltac:(by left)) as [N1 _].
    wb. eapply wpV_binary_len; [exact HV|exact Ho|exact Hn|]. apply wp_Malloc; [right; apply wp_ret; apply HQ; [by left|exact HV]|]. intros [_ HM] i Fi.
    destruct (RV_newB st V X i (blank (Z.of_nat n)) Fi HV) as [C1 HV1]. set (st1 := add_block _ _ _) in *. clearbody st1.
    assert (length (blank (Z.of_nat n)) = n) as Lb by (unfold blank; rewrite replicate_length; lia).
    wb. change (Hp i, 0) with (Hp i, Z.of_nat 0). eapply (wpV_to_binary _ _ _ o v (Hp i) (blank (Z.of_nat n)) 0 n n); [exact HV1|exact Ho|apply setb_lookup|lia|lia|exact Hn|]. intros st2 HV2. rewrite setb_setb in HV2. rewrite Nat.min_id in HV2.
    wb. rewrite Nat2Z.id. replace (print_bytes n) with (print_bytes (length (be_bytes n v))) by (by rewrite be_bytes_length). eapply wpV_print_bytes; [exact HV2|apply setb_lookup| |apply be_bytes_byte|].
    { intros j c Hj. apply overwrite_lookup; [exact Hj|]. pose proof (be_bytes_length n v) as Lbb. lia. }
    eapply wp_Free; [unfold live_heap; cbn; eapply RV_mem; [exact HV2|apply setb_lookup]|]. apply wp_ret. apply HQ; [right; left; split; [done|]; by exists n|].
    cbn [fst]. pose proof (RV_delB _ _ _ _ _ HV2 (setb_lookup _ _ _)) as HV4. by rewrite setb_del in HV4.
  - assert (2 <= r <= 36) as Hr' by lia. assert (1 <= bitlen v <= enough_bits r) as HB.
    { pose proof (bitlen_max _ _ _ _ _ HV Ho) as BM. destruct Hpr as [?|[->|Hpr]]; [done|exact BM|]. apply bitlen_le in Hpr; [|done]. pose proof (enough_bits_20000 r Hr'). lia. }
    destruct (outlen_enough (bitlen v) r Hr' HB) as [E1 E2]. set (N := outlen (bitlen v) r) in *. destruct (numeral_exists r v ltac:(lia)) as [s Hs].
    pose proof (bitlen_pow v) as BP. pose proof (numeral_len_le r v s N ltac:(lia) Hs ltac:(lia) E2) as HL. clear BP E1 HB Hpr.
    wb. eapply wpV_string_len; [exact HV|exact Ho|exact Hr'|]. fold N. set (len := N + 1 + (if v <? 0 then 1 else 0)). assert (Z.of_nat (length s) < len /\ 2 <= len) as [L1 L2] by (unfold len; destruct (v <? 0); lia). clearbody len.
    apply wp_Malloc; [right; apply wp_ret; apply HQ; [by left|exact HV]|]. intros [_ HM] i Fi.
    destruct (RV_newB st V X i (blank len) Fi HV) as [C1 HV1]. set (st1 := add_block _ _ _) in *. clearbody st1.
    assert (length (blank len) = Z.to_nat len) as Lb by (apply replicate_length).
    wb. change (Hp i, 0) with (Hp i, Z.of_nat 0). eapply (wpV_to_string _ _ _ o v r (Hp i) 0 (blank len) len s); [exact HV1|exact Ho|apply setb_lookup|exact Hr'|exact L2|exact Hs|lia| |lia]. intros st2 _ HV2. rewrite setb_setb in HV2.
    wb. eapply (wpV_cstring V (Hp i) (overwrite 0 (s ++ [0]) (blank len)) s); [exact HV2|apply setb_lookup| |by eapply (numeral_no_nul r)|lia|].
    { intros j c Hj. apply overwrite_lookup; [exact Hj|lia]. }
    eapply wp_Free; [unfold live_heap; cbn; eapply RV_mem; [exact HV2|apply setb_lookup]|]. apply wp_ret. apply HQ; [right; right; split; [done|]; by exists s|].
    cbn [fst]. pose proof (RV_delB _ _ _ _ _ HV2 (setb_lookup _ _ _)) as HV4. by rewrite setb_del in HV4.
Qed.
Lemma decimal_ds fuel : forall n, 0 <= n < Z.of_nat fuel -> exists ds, decimal fuel n = map digit_char ds /\ Forall (fun d => 0 <= d < 10) ds /\ horner 10 ds = n /\ ds <> [] /\ (head ds = Some 0 -> ds = [0]).
Proof.
  induction fuel as [|f IH]; intros n Hn; [lia|]. cbn [decimal]. pose proof (Z.mod_pos_bound n 10 ltac:(lia)) as Bm. pose proof (Z.div_mod n 10 ltac:(lia)) as Dm.
  assert (48 + n mod 10 = digit_char (n mod 10)) as Ed by (unfold digit_char; destruct (Z.ltb_spec (n mod 10) 10); [done|lia]).
  destruct (Z.ltb_spec n 10) as [L|L].
  - exists [n mod 10]. cbn [app map]. rewrite Ed. split; [done|]. split; [by apply Forall_singleton|]. split; [cbn; rewrite Z.mod_small by lia; done|]. split; [done|]. cbn. intros [= E]. by rewrite E.
  - destruct (IH (n / 10)) as (ds & E & F & Hh & Nn & Hz); [lia|]. exists (ds ++ [n mod 10]). rewrite E, map_app, Ed. split; [done|]. split; [apply Forall_app; split; [done|by apply Forall_singleton]|]. rewrite horner_snoc, Hh. split; [lia|]. split; [by destruct ds|].
    destruct ds as [|d ds]; [done|]. intros H. cbn in H. apply Hz in H. rewrite H in Hh. cbn in Hh. lia.
Qed.
Lemma pad2_spec n : exists d, numeral 10 (Z.of_nat n) d /\ pad2 n = (if (length d <? 2)%nat then [32] else []) ++ d.
Proof.
  destruct (decimal_ds (S n) (Z.of_nat n)) as (ds & E & F & Hh & Nn & Hz); [lia|]. exists (decimal (S n) (Z.of_nat n)).
  assert (numeral 10 (Z.of_nat n) (decimal (S n) (Z.of_nat n))) as HN. { exists ds. rewrite E. destruct (Z.ltb_spec (Z.of_nat n) 0); [lia|]. split; [done|]. split; [rewrite Z.abs_eq by lia; done|]. done. }
  split; [done|]. unfold pad2. destruct (Nat.ltb_spec n 10) as [L|L].
  - pose proof (numeral_len_le 10 _ _ 1 ltac:(lia) HN ltac:(lia) ltac:(lia)) as HL. destruct (Z.ltb_spec (Z.of_nat n) 0); [lia|]. destruct (Nat.ltb_spec (length (decimal (S n) (Z.of_nat n))) 2); [done|lia].
  - pose proof (numeral_len_ge 10 _ _ 1 ltac:(lia) HN ltac:(lia) ltac:(lia)) as HL. destruct (Z.ltb_spec (Z.of_nat n) 0); [lia|]. destruct (Nat.ltb_spec (length (decimal (S n) (Z.of_nat n))) 2); [lia|done].
Qed.
Lemma f_pprint x : allowed OShowDrop (Calc (x :: vs) ws rad sh) -> fine cf_pprint (Calc (x :: vs) ws rad sh) (effect_of mm OShowDrop (Calc (x :: vs) ws rad sh)).
Proof.
  intros A. cbn in A. op1. unfold cf_pprint, with1. cbn [cs_elts cs_radix]. wb. rewrite Er. eapply wpV_print; [exact HV|exact G1|exact Rr|exact A|]. intros s st1 Hs HV1. wb. unfold put_out. cbn [cs_elts cs_mem cs_in cs_buf cs_radix cs_out].
  pop. intros st2 V2 X2 HV2 C2 _. apply wp_ret. exists (Calc vs ws rad (sh ++ s)). split; [split; [done|]; by exists s|]. rewrite Eo. eexists _, _. done.
Qed.
Lemma f_print x : allowed OShow (Calc (x :: vs) ws rad sh) -> fine cf_print (Calc (x :: vs) ws rad sh) (effect_of mm OShow (Calc (x :: vs) ws rad sh)).
Proof.
  intros A. cbn in A. op1. unfold cf_print, with1. cbn [cs_elts cs_radix]. wb. rewrite Er. eapply wpV_print; [exact HV|exact G1|exact Rr|exact A|]. intros s st1 Hs HV1. apply wp_ret.
  exists (Calc (x :: vs) ws rad (sh ++ s)). split; [split; [done|]; by exists s|]. unfold put_out. cbn [cs_elts cs_mem cs_in cs_buf cs_radix cs_out]. rewrite Eo. eexists _, _. done.
Qed.
Lemma wpV_print_stack V X r es : (r = 0 \/ 2 <= r <= 36) -> forall l i st (Q : list Z -> state -> Prop), RV st V X -> Forall2 (fun o v => V !! o = Some v) es l -> Forall (printable r) l ->
  (forall s st', stack_lines r i l s -> RV st' V X -> Q s st') -> wp (print_stack r i es) Q st.
Proof.
  intros Hr. induction es as [|o es IH]; intros l i st Q HV HF HP HQ.
  - apply Forall2_nil_inv_l in HF as ->. apply wp_ret. by apply HQ.
  - apply Forall2_cons_inv_l in HF as (v & l' & Ho & HF & ->). apply Forall_cons in HP as [Pv HP]. cbn [print_stack]. wb. eapply wpV_print; [exact HV|exact Ho|exact Hr|exact Pv|]. intros s st1 Hs HV1.
    wb. eapply (IH l' (S i)); [exact HV1|exact HF|exact HP|]. intros s' st2 Hs' HV2. apply wp_ret. apply HQ; [|exact HV2]. destruct (pad2_spec i) as (d & Hd & ->). cbn [stack_lines]. exists d, s, s'. split; [done|]. split; [done|]. split; [done|]. by rewrite <- app_assoc.
Qed.
Lemma f_pstack : allowed OShowStack (Calc vs ws rad sh) -> fine cf_pstack (Calc vs ws rad sh) (effect_of mm OShowStack (Calc vs ws rad sh)).
Proof.
  intros A. cbn in A. opn. unfold cf_pstack. cbn [cs_elts cs_radix]. unfold put_out. cbn [cs_elts cs_mem cs_in cs_buf cs_radix cs_out]. rewrite Er, Eo. destruct es as [|o es].
  - pose proof (c_es _ _ _ _ _ _ _ _ C) as F. apply Forall2_nil_inv_l in F. subst vs. apply wp_ret. eexists (Calc [] ws rad _). split; [split; [done|]; cbn [print stk vars orad shown]; reflexivity|]. eexists _, _. done.
  - pose proof (c_es _ _ _ _ _ _ _ _ C) as F. assert (vs <> []) as Nv by (intros ->; by apply Forall2_nil_inv_r in F).
    wb. eapply wpV_print_stack; [exact Rr|exact HV|exact F|exact A|]. intros s st1 Hs HV1. apply wp_ret. exists (Calc vs ws rad (sh ++ s)). split; [|eexists _, _; done].
    unfold effect_of. cbn [stk]. destruct vs as [|v l] eqn:Ev; [done|]. split; [done|]. by exists s.
Qed.
Lemma wp_clear_all ms l : forall es st V X (Q : unit -> state -> Prop), RV st V X -> forall us, core V X es ms us l -> (forall st' V' X', RV st' V' X' -> core V' X' [] ms [] l -> Q tt st') -> wp (clear_all es) Q st.
Proof.
  induction es as [|o es IH]; intros st V X Q HV us C HQ.
  - pose proof (c_es _ _ _ _ _ _ _ _ C) as F. apply Forall2_nil_inv_l in F. subst us. apply wp_ret. by eapply HQ.
  - pose proof (c_es _ _ _ _ _ _ _ _ C) as F. apply Forall2_cons_inv_l in F as (v & us' & _ & _ & ->). cbn [clear_all]. wb. eapply wpV_clear; [exact HV|by eapply get1|]. intros st1 z Hz HV1.
    eapply IH; [exact HV1|by eapply core_pop|exact HQ].
Qed.
Lemma wp_free_all es us : forall ms st V X (Q : unit -> state -> Prop), RV st V X -> forall l, core V X es ms us l -> (forall st' V', RV st' V' X -> core V' X es [] us [] -> Q tt st') -> wp (free_all ms) Q st.
Proof.
  induction ms as [|[n o] ms IH]; intros st V X Q HV l C HQ.
  - pose proof (c_ms _ _ _ _ _ _ _ _ C) as F. apply Forall2_nil_inv_l in F. subst l. apply wp_ret. by eapply HQ.
  - pose proof (c_ms _ _ _ _ _ _ _ _ C) as F. apply Forall2_cons_inv_l in F as (v & l' & _ & _ & ->). cbn [free_all]. destruct (core_drop_var _ _ _ _ _ [] n o ms us [] v l' C eq_refl) as (Ho & HVo & _ & _ & C').
    wb. eapply wpV_free; [exact HV|exact HVo|exact Ho|]. intros st1 HV1. eapply IH; [exact HV1|exact C'|exact HQ].
Qed.
Lemma f_clstk : fine cf_clstk (Calc vs ws rad sh) (effect_of mm OClear (Calc vs ws rad sh)).
Proof.
  opn. unfold cf_clstk, stack_flush. cbn [cs_elts]. wb. wb. eapply wp_clear_all; [exact HV|exact C|]. intros st1 V1 X1 HV1 C1. apply wp_ret. apply wp_ret. exists (Calc [] ws rad sh). split; [|fin]. unfold effect_of. destruct vs; done.
Qed.
Lemma f_pop x : fine cf_pop (Calc (x :: vs) ws rad sh) (effect_of mm ODrop (Calc (x :: vs) ws rad sh)).
Proof. op1. unfold cf_pop. pop. intros st2 V2 X2 HV2 C2 _. exists (Calc vs ws rad sh). split; [done|]. fin. Qed.
Lemma wp_dup st V X es ms i buf r out us l o v (Q : Z * cstate -> state -> Prop) : RV st V X -> core V X es ms us l -> V !! o = Some v -> 
  (mm = true -> Q (MP_MEMORY, CS es ms i buf r out) st) -> (forall st' V' t, RV st' V' X -> core V' X (t :: es) ms (v :: us) l -> Q (MP_OK, CS (t :: es) ms i buf r out) st') -> wpx mm (dup (CS es ms i buf r out) o) Q st.
Proof.
  intros HV C Ho HQ0 HQ. unfold dup. xb. eapply wpx_alloc; [exact HV|intros Em; apply wpx_ret; by apply HQ0|]. intros t st1 Ht Ft _ HV1. assert (t <> o) as N by (intros ->; congruence).
  apply wp_wpx. wb. eapply (wpV_copy _ _ _ o t v 0); [exact HV1|rewrite lookup_insert_ne by done; done|apply lookup_insert|]. intros st2 HV2. rewrite OK_refl. cbn [negb]. apply wp_ret. eapply HQ; [exact HV2|]. rewrite insert_insert. by apply core_push.
Qed.
Lemma f_dup x : finex mm cf_dup (Calc (x :: vs) ws rad sh) (effect_of mm ODup (Calc (x :: vs) ws rad sh)).
Proof.
  op1. unfold cf_dup, with1. cbn [cs_elts]. eapply wp_dup; [exact HV|exact C|exact G1| |].
  - intros Em. exists (Calc (x :: vs) ws rad sh). split; [by left|]. fin.
  - intros st1 V1 t HV1 C1. exists (Calc (x :: x :: vs) ws rad sh). split; [by right|]. fin.
Qed.
Lemma wp_copy_loop X ms i buf r out us l (N : nat) (Q : Z * cstate -> state -> Prop) : (1 <= N <= length us)%nat -> forall m es st V, (m <= N)%nat -> RV st V X -> core V X es ms (drop m (take N us) ++ us) l ->
  (forall j es' st' V', mm = true -> (1 <= j <= N)%nat -> RV st' V' X -> core V' X es' ms (drop j (take N us) ++ us) l -> Q (MP_MEMORY, CS es' ms i buf r out) st') ->
  (forall es' st' V', RV st' V' X -> core V' X es' ms (take N us ++ us) l -> Q (MP_OK, CS es' ms i buf r out) st') ->
  wpx mm (copy_loop m N (CS es ms i buf r out)) Q st.
Proof.
  intros HN. induction m as [|m IH]; intros es st V Hm HV C HF HQ.
  - apply wpx_ret. eapply HQ; [exact HV|exact C].
  - cbn [copy_loop cs_elts]. destruct (lookup_lt_is_Some_2 us m ltac:(lia)) as [v Hv].
    assert ((drop (S m) (take N us) ++ us) !! (N - 1)%nat = Some v) as Hl. { rewrite lookup_app_r by (rewrite drop_length, take_length; lia). rewrite drop_length, take_length. replace (N - 1 - (N `min` length us - S m))%nat with m by lia. done. }
    destruct (Forall2_lookup_r _ _ _ _ _ (c_es _ _ _ _ _ _ _ _ C) Hl) as (o & Ho & Hov). rewrite Ho. xb. eapply wp_dup; [exact HV|exact C|exact Hov| |].
    + intros Em. cbn [fst]. change (MP_MEMORY =? MP_OK) with false. cbn [negb]. apply wpx_ret. eapply (HF (S m)); [done|lia|exact HV|exact C].
    + intros st1 V1 t HV1 C1. cbn [fst snd]. rewrite OK_refl. cbn [negb]. eapply IH; [lia|exact HV1| |exact HF|exact HQ].
      rewrite (drop_S (take N us) v m) by (rewrite lookup_take by lia; exact Hv). exact C1.
Qed.
Lemma f_copy n : allowed OCopy (Calc (n :: vs) ws rad sh) -> finex mm cf_copy (Calc (n :: vs) ws rad sh) (effect_of mm OCopy (Calc (n :: vs) ws rad sh)).
Proof.
  intros A. cbn in A. op1. unfold cf_copy, with1. cbn [cs_elts]. xb. apply wp_wpx. eapply (wpV_to_int _ _ _ o1 n); [exact HV|exact G1|exact A| |].
  - intros F st1 HV1. cbn [MP_OK]. destruct ((n <? 1) || (Z.of_nat (length (o1 :: es)) <=? n))%bool eqn:EB.
    + apply wpx_ret. exists (Calc (n :: vs) ws rad sh). split; [|fin]. left. split; [|done]. right. cbn [length] in EB. apply orb_true_iff in EB as [E|E]; [left; by apply Z.ltb_lt|right; apply Z.leb_le in E; lia].
    + cbn [length] in EB. apply orb_false_iff in EB as [E1 E2]. apply Z.ltb_ge in E1. apply Z.leb_gt in E2. xb. apply wp_wpx. pop. intros st2 V2 X2 HV2 C2 _. cbn [snd].
      eapply (wp_copy_loop X2 ms i buf r out vs ws (Z.to_nat n)); [lia|done|exact HV2| | |].
      * rewrite drop_ge by (rewrite take_length; lia). exact C2.
      * intros j es' st3 V3 Em Hj HV3 C3. exists (Calc (drop j (take (Z.to_nat n) vs) ++ vs) ws rad sh). split; [|fin]. right; right. split; [lia|]. split; [done|]. split; [done|]. by exists j.
      * intros es' st3 V3 HV3 C3. exists (Calc (take (Z.to_nat n) vs ++ vs) ws rad sh). split; [|fin]. right; left. split; [lia|]. done.
  - intros F st1 HV1. apply wpx_ret. exists (Calc (n :: vs) ws rad sh). split; [|fin]. left. split; [left; unfold fits; lia|done].
Qed.
Lemma f_swap x y : fine cf_swap (Calc (y :: x :: vs) ws rad sh) (effect_of mm OSwap (Calc (y :: x :: vs) ws rad sh)).
Proof.
  op2. unfold cf_swap. cbn [cs_elts]. apply wp_ret. exists (Calc (x :: y :: vs) ws rad sh). split; [done|].
  assert (core V X (o2 :: o1 :: es) ms (x :: y :: vs) ws) as C'. { eapply core_perm; [exact C|solve_Permutation|]. pose proof (c_es _ _ _ _ _ _ _ _ C) as F. apply Forall2_cons in F as [F1 F]. apply Forall2_cons in F as [F2 F]. by repeat constructor. }
  fin.
Qed.
Lemma f_rot c b a : fine cf_rot (Calc (c :: b :: a :: vs) ws rad sh) (effect_of mm ORot (Calc (c :: b :: a :: vs) ws rad sh)).
Proof.
  op2. destruct es as [|o3 es]; cbn [length] in *; [exfalso; lia|]. unfold cf_rot. cbn [cs_elts]. apply wp_ret. exists (Calc (a :: c :: b :: vs) ws rad sh). split; [done|].
  assert (core V X (o3 :: o1 :: o2 :: es) ms (a :: c :: b :: vs) ws) as C'. { eapply core_perm; [exact C|solve_Permutation|]. pose proof (c_es _ _ _ _ _ _ _ _ C) as F. apply Forall2_cons in F as [F1 F]. apply Forall2_cons in F as [F2 F]. apply Forall2_cons in F as [F3 F]. by repeat constructor. }
  fin.
Qed.
Lemma f_pick n : allowed OPick (Calc (n :: vs) ws rad sh) -> fine cf_pick (Calc (n :: vs) ws rad sh) (effect_of mm OPick (Calc (n :: vs) ws rad sh)).
Proof.
  intros A. cbn in A. op1. unfold cf_pick, with1. cbn [cs_elts]. wb. eapply (wpV_to_int _ _ _ o1 n); [exact HV|exact G1|exact A| |].
  - intros F st1 HV1. cbn [MP_OK]. destruct ((n <? 0) || (Z.of_nat (length (o1 :: es)) - 1 <=? n))%bool eqn:EB.
    + apply wp_ret. exists (Calc (n :: vs) ws rad sh). split; [|fin]. left. split; [|done]. right. cbn [length] in EB. apply orb_true_iff in EB as [E|E]; [left; by apply Z.ltb_lt|right; apply Z.leb_le in E; lia].
    + cbn [length] in EB. apply orb_false_iff in EB as [E1 E2]. apply Z.ltb_ge in E1. apply Z.leb_gt in E2. change (1 + Z.to_nat n)%nat with (S (Z.to_nat n)).
      destruct (lookup_lt_is_Some_2 vs (Z.to_nat n) ltac:(lia)) as [v Hv]. destruct (Forall2_lookup_r _ _ _ _ _ (c_es _ _ _ _ _ _ _ _ C) (Hv : (n :: vs) !! S (Z.to_nat n) = Some v)) as (o & Ho & Hov).
      rewrite Ho. unfold stay. wb. eapply (wpV_copy _ _ _ o o1 v n); [exact HV1|exact Hov|exact G1|]. intros st2 HV2. apply wp_ret. apply (set1 _ _ _ _ _ _ v) in C.
      exists (Calc (v :: vs) ws rad sh). split; [|fin]. right. split; [lia|]. split; [done|]. unfold to. cbn [vars orad shown]. do 2 f_equal. symmetry. apply nth_lookup_Some. exact Hv.
  - intros F st1 HV1. apply wp_ret. exists (Calc (n :: vs) ws rad sh). split; [|fin]. left. split; [left; unfold fits; lia|done].
Qed.
Lemma f_setr x : allowed OOut (Calc (x :: vs) ws rad sh) -> fine cf_setr (Calc (x :: vs) ws rad sh) (effect_of mm OOut (Calc (x :: vs) ws rad sh)).
Proof.
  intros A. cbn in A. op1. unfold cf_setr, with1. cbn [cs_elts]. wb. eapply (wpV_to_int _ _ _ o1 x); [exact HV|exact G1|exact A| |].
  - intros F st1 HV1. cbn [MP_OK]. destruct ((x <? 2) || (36 <? x))%bool eqn:EB.
    + apply wp_ret. exists (Calc (x :: vs) ws rad sh). split; [|fin]. left. split; [|done]. right. apply orb_true_iff in EB as [E|E]; [left; by apply Z.ltb_lt|right; by apply Z.ltb_lt].
    + apply orb_false_iff in EB as [E1 E2]. apply Z.ltb_ge in E1. apply Z.ltb_ge in E2. wb. unfold set_radix. cbn [cs_elts cs_mem cs_in cs_buf cs_out]. pop. intros st2 V2 X2 HV2 C2 _. apply wp_ret.
      exists (Calc vs ws x sh). split; [right; done|]. eexists _, _. split; [exact HV2|]. split; [exact C2|]. split; [done|]. split; [done|]. split; [done|]. right. cbn. lia.
  - intros F st1 HV1. apply wp_ret. exists (Calc (x :: vs) ws rad sh). split; [|fin]. left. split; [left; unfold fits; lia|done].
Qed.
Lemma f_setbin : fine cf_setbin (Calc vs ws rad sh) (effect_of mm OBin (Calc vs ws rad sh)).
Proof.
  opn. apply wp_ret. exists (Calc vs ws 0 sh). split; [unfold effect_of; destruct vs; done|]. eexists _, _. split; [exact HV|]. split; [exact C|]. split; [done|]. split; [done|]. split; [done|]. by left.
Qed.
Lemma f_help : fine cf_help (Calc vs ws rad sh) (effect_of mm OHelp (Calc vs ws rad sh)).
Proof. opn. apply wp_ret. exists (Calc vs ws rad sh). split; [unfold effect_of; destruct vs; done|]. fin. Qed.
Lemma f_cmem : fine cf_cmem (Calc vs ws rad sh) (effect_of mm OForget (Calc vs ws rad sh)).
Proof.
  opn. unfold cf_cmem, mem_clear. cbn [cs_mem]. wb. eapply wp_free_all; [exact HV|exact C|]. intros st1 V1 HV1 C1. apply wp_ret. exists (Calc vs [] rad sh). split; [unfold effect_of; destruct vs; done|]. fin.
Qed.
Lemma replicate_repeat (n : nat) (x : Z) : replicate n x = repeat x n. Proof. induction n as [|n IH]; cbn; [done|by rewrite IH]. Qed.
Lemma wpV_print_mem V X r w ms : (r = 0 \/ 2 <= r <= 36) -> forall l st (Q : list Z -> state -> Prop), RV st V X -> Forall2 (fun p q => p.1 = q.1 /\ V !! p.2 = Some q.2) ms l -> Forall (fun p => printable r (snd p)) l ->
  (forall s st', var_lines r w l s -> RV st' V X -> Q s st') -> wp (print_mem r w ms) Q st.
Proof.
  intros Hr. induction ms as [|[n o] ms IH]; intros l st Q HV HF HP HQ.
  - apply Forall2_nil_inv_l in HF as ->. apply wp_ret. by apply HQ.
  - apply Forall2_cons_inv_l in HF as ([n' v] & l' & [En Ho] & HF & ->). cbn [fst snd] in *. subst n'. apply Forall_cons in HP as [Pv HP]. cbn [print_mem]. wb. eapply wpV_print; [exact HV|exact Ho|exact Hr|exact Pv|]. intros s st1 Hs HV1.
    wb. eapply IH; [exact HV1|exact HF|exact HP|]. intros s' st2 Hs' HV2. apply wp_ret. apply HQ; [|exact HV2]. cbn [var_lines]. exists s, s'. split; [done|]. split; [done|]. by rewrite replicate_repeat.
Qed.
Lemma f_pmem : allowed OShowVars (Calc vs ws rad sh) -> fine cf_pmem (Calc vs ws rad sh) (effect_of mm OShowVars (Calc vs ws rad sh)).
Proof.
  intros A. cbn [allowed stk vars orad] in A. assert (Forall (fun p => printable rad p.2) ws) as A' by (destruct vs; exact A). clear A. opn. unfold cf_pmem. cbn [cs_mem cs_radix]. unfold put_out. cbn [cs_elts cs_mem cs_in cs_buf cs_radix cs_out]. rewrite Er, Eo.
  assert (forall r s', effect_of mm OShowVars (Calc vs ws rad sh) r s' <-> r = MP_OK /\ match ws with [] => s' = print (chars "<memory empty>" ++ [10]) (Calc vs ws rad sh) | m => exists t, var_lines rad (name_width m) m t /\ s' = print t (Calc vs ws rad sh) end) as HE by (intros; unfold effect_of; destruct vs, ws; reflexivity).
  pose proof (c_ms _ _ _ _ _ _ _ _ C) as F. destruct ms as [|p ms].
  - apply Forall2_nil_inv_l in F. subst ws. apply wp_ret. eexists (Calc vs [] rad _). split; [apply HE; split; [done|]; reflexivity|]. eexists _, _. done.
  - assert (ws <> []) as Nw by (intros ->; by apply Forall2_nil_inv_r in F). wb. eapply wpV_print_mem; [exact Rr|exact HV|exact F|exact A'|]. intros s st1 Hs HV1. apply wp_ret. exists (Calc vs ws rad (sh ++ s)). split; [|eexists _, _; done].
    apply HE. split; [done|]. assert (foldr Nat.max 0%nat (map (fun p => length p.1) (p :: ms)) + 1 = name_width ws)%nat as Ew.
    { unfold name_width. rewrite Nat.add_1_r. f_equal. unfold list_max. clear - F. induction F as [|q q' l l' [E _] F IH]; [done|]. cbn [map foldr fold_right]. rewrite E. f_equal. exact IH. }
    rewrite Ew in Hs. destruct ws as [|q l]; [done|]. by exists s.
Qed.
End calc.
