(** Properties of the calculator of examples/imcalc.c (C62).  The specification is
    the stack machine of SpecCalc. *)
From Coq Require Import ZArith List Lia String.
From stdpp Require Import gmap list.
From Verif Require Import Mem Prog Kern Imath ExCalc Exec Wp Spec SpecBin SpecCalc Public Concrete PExhaust ExCalcR ExCalcX ExCalcM ExCalcL.
Local Open Scope Z_scope.
Local Open Scope list_scope.

(** ** C62 *)
(** What a run of the program leaves: the exit code and the output are those of a
    run of the machine; all integers and all memory of the caller are as before,
    and no digits are leaked.  The structures of operands that were taken off the
    stack stay behind, cleared. *)
Definition calculated (m : bool) (cs : list cmd) (V : gmap oid Z) (W : world) (p : Z * list Z) (st' : state) : Prop :=
  exists k s, runs m cs MP_OK start k s /\ p = (if k =? MP_OK then 0 else 1, shown s) /\
  exists W', Rep st' V W' /\ bufs W' = bufs W /\ tunables W' = tunables W /\ blanks W ⊆ blanks W' /\
    forall o z, blanks W' !! o = Some z -> blanks W !! o = Some z \/ digits z = None.
Lemma calculated_of m cs st V W p : (exists k a, runs m cs MP_OK start k a /\ p = (if k =? MP_OK then 0 else 1, shown a) /\ exists X', RV st V X' /\ ctx_ok (ctx_of W) X') -> calculated m cs V W p st.
Proof.
  intros (k & a & HR & -> & X' & HV & (C1 & C2 & C3 & C4)). exists k, a. split; [done|]. split; [done|]. exists (world_of X'). split; [by apply RV_Rep|]. cbn. done.
Qed.
(** Without commands that set a variable, whatever requests are refused; [true]: a
    command that needs a new integer may fail for lack of memory. *)
Theorem C62_machine st V W cs txt :
  Rep st V W -> written cs txt -> workable true cs start -> (forall n, ~ In (Save n) cs) ->
  calls (imcalc_main txt) st (calculated true cs V W).
Proof.
  intros H HW HK HS orc t. pose proof (Rep_RV _ _ _ H) as HV.
  pose proof (wpx_main true st V (ctx_of W) cs txt HV HW HK ltac:(intros _ [n Hn]; by apply (HS n))) as Hx. apply wpx_sound with (orc := orc) (t := t) in Hx; [|done].
  unfold ends_in in Hx. destruct (run true orc (imcalc_main txt) t st); try done. by apply calculated_of.
Qed.
(** With them, if no request for a structure is refused.  Then no command reports
    a lack of memory. *)
Theorem C62_machine_variables st V W cs txt orc t :
  Rep st V W -> written cs txt -> workable false cs start -> (forall t, grants orc t 0 = true) ->
  match run true orc (imcalc_main txt) t st with
  | Done p st' _ => calculated false cs V W p st'
  | OOM n => exists t', (t <= t')%nat /\ granted orc t' n = false
  | AssertFail | UB | OutOfFuel => False
  end.
Proof.
  intros H HW HK HG. pose proof (Rep_RV _ _ _ H) as HV.
  pose proof (wpx_main false st V (ctx_of W) cs txt HV HW HK ltac:(done)) as Hx. apply wpx_sound with (orc := orc) (t := t) in Hx; [|done].
  unfold ends_in in Hx. destruct (run true orc (imcalc_main txt) t st); try done. by apply calculated_of.
Qed.

(** *** A session with both *)
Definition outcome_of (orc : oracle) (txt : list Z) : option (Z * list Z * nat) :=
  match run true orc (imcalc_main txt) 0 st0 with Done p st' _ => Some (p, size (objs st')) | _ => None end.
Definition exT : list Z := chars "-12 4 * >> x #xFF x + ; x dup - .".
Definition exC : list cmd := [Number (-12); Number 4; Do OMul; Save (chars "x"); Number 255; Word (chars "x"); Do OAdd; Do OShow; Word (chars "x"); Do ODup; Do OSub; Do OShowDrop].
Lemma one w c cs s : spelling c w -> Z.of_nat (length w) < 16384 -> written cs s -> s = [] \/ (exists b s', s = b :: s' /\ is_space b) -> written (c :: cs) (w ++ s).
Proof. intros. by apply (written_cmd [] c w cs s). Qed.
Lemma next w c cs s : spelling c w -> Z.of_nat (length w) < 16384 -> written cs s -> s = [] \/ (exists b s', s = b :: s' /\ is_space b) -> written (c :: cs) ([32] ++ w ++ s).
Proof. intros. apply (written_cmd [32] c w cs s); try done. repeat constructor. Qed.
Local Ltac fits_in := first [right; eexists 32, _; split; [reflexivity|by constructor]|by left].
Local Ltac num p r sg body ds := exists p, r, sg, (chars body), ds; split; [first [by left|right; tauto]|]; split; [first [by left|by right]|]; split; [done|]; split; [repeat constructor|]; done.
Local Ltac oper n := exists n; split; [vm_compute; tauto|reflexivity].
Lemma exT_written : written exC exT.
Proof.
  unfold exC. 
  apply (one (chars "-12")); [num (@nil Z) 10 (chars "-") "12"%string [1; 2]|done| |fits_in].
  apply (next (chars "4")); [num (@nil Z) 10 (@nil Z) "4"%string [4]|done| |fits_in].
  apply (next (chars "*")); [oper "*"%string|done| |fits_in].
  apply (next (chars ">> x")); [exists [32]; split; [done|]; split; [repeat constructor|]; split; [by apply name_wordb_ok|done]|done| |fits_in].
  apply (next (chars "#xFF")); [num (chars "#x") 16 (@nil Z) "FF"%string [15; 15]|done| |fits_in].
  apply (next (chars "x")); [split; [done|]; split; [by apply name_wordb_ok|by vm_compute; tauto || (intros I; vm_compute in I; repeat destruct I as [I|I]; done)]|done| |fits_in].
  apply (next (chars "+")); [oper "+"%string|done| |fits_in].
  apply (next (chars ";")); [oper ";"%string|done| |fits_in].
  apply (next (chars "x")); [split; [done|]; split; [by apply name_wordb_ok|by intros I; vm_compute in I; repeat destruct I as [I|I]]|done| |fits_in].
  apply (next (chars "dup")); [oper "dup"%string|done| |fits_in].
  apply (next (chars "-")); [oper "-"%string|done| |fits_in].
  apply (next (chars ".")); [oper "."%string|done| |fits_in]. by constructor.
Qed.

Lemma exC_workable : workable false exC start.
Proof.
  Local Ltac push := split; [exact I|]; intros r s [[-> ->]|(? & _)]; [|done]; cbn [to stk vars orad shown start].
  Local Ltac doo t := split; [intros _; t|]; intros r s; cbn [does effect_of stk vars orad shown to length arity Nat.ltb Nat.leb]; intros (k & -> & -> & ->); cbn [to stk vars orad shown].
  unfold exC. push. push. doo ltac:(exact I).
  split; [done|]. intros r s (x & l & E & -> & ->). cbn [stk] in E. injection E as <- <-. cbn [vars orad shown]. push.
  split; [exact I|]. intros r s. cbn [does vars]. match goal with |- context [get_var ?a ?b] => let v := eval vm_compute in (get_var a b) in change (get_var a b) with v end. intros [[-> ->]|(? & _)]; [|done]. cbn [to stk vars orad shown]. doo ltac:(exact I).
  split; [intros _; right; by left|]. intros r s (k & -> & -> & t & _ & ->). cbn [print stk vars orad shown].
  split; [exact I|]. intros r s. cbn [does vars]. match goal with |- context [get_var ?a ?b] => let v := eval vm_compute in (get_var a b) in change (get_var a b) with v end. intros [[-> ->]|(? & _)]; [|done]. cbn [to stk vars orad shown].
  split; [intros _; exact I|]. intros r s (k & -> & [(? & _)|[-> ->]]); [done|]. cbn [to stk vars orad shown]. doo ltac:(exact I).
  split; [intros _; right; by left|]. done.
Qed.
Example C62_machine_variables_ex : Rep st0 ∅ world0 /\ written exC exT /\ workable false exC start /\ (forall t, grants orc_yes t 0 = true) /\
  outcome_of orc_yes exT = Some (0, chars "207" ++ [10] ++ chars "0" ++ [10], 6%nat).
Proof. split; [apply Rep_empty|]. split; [apply exT_written|]. split; [apply exC_workable|]. split; [done|]. by vm_compute. Qed.
Print Assumptions C62_machine_variables.

(** *** Without variables *)
Definition exT2 : list Z := chars "6 7 MUL .".
Definition exC2 : list cmd := [Number 6; Number 7; Do OMul; Do OShowDrop].
Lemma exT2_written : written exC2 exT2.
Proof.
  apply (one (chars "6")); [num (@nil Z) 10 (@nil Z) "6"%string [6]|done| |fits_in].
  apply (next (chars "7")); [num (@nil Z) 10 (@nil Z) "7"%string [7]|done| |fits_in].
  apply (next (chars "MUL")); [oper "mul"%string|done| |fits_in].
  apply (next (chars ".")); [oper "."%string|done| |fits_in]. by constructor.
Qed.
Lemma exC2_workable : workable true exC2 start.
Proof.
  unfold exC2. split; [exact I|]. intros r1 s1 [[-> ->]|(_ & -> & ->)]; cbn [start to stk vars orad shown]; (split; [exact I|]); intros r2 s2 [[-> ->]|(_ & -> & ->)]; cbn [start to stk vars orad shown];
  (split; [intros _; exact I|]); intros r3 s3; cbn [does effect_of stk vars orad shown to length arity Nat.ltb Nat.leb]; [intros (k & -> & -> & ->)|intros [-> ->]..]; cbn [to stk vars orad shown];
  (split; [intros _; cbn; first [exact I|right; by left]|done]).
Qed.
Example C62_machine_ex : Rep st0 ∅ world0 /\ written exC2 exT2 /\ workable true exC2 start /\ (forall n, ~ In (Save n) exC2) /\
  outcome_of orc_yes exT2 = Some (0, chars "42" ++ [10], 2%nat) /\ outcome_of (orc_but 0) exT2 = Some (0, chars "7" ++ [10], 1%nat).
Proof. split; [apply Rep_empty|]. split; [apply exT2_written|]. split; [apply exC2_workable|]. split; [intros n I; repeat destruct I as [I|I]; done|]. split; by vm_compute. Qed.
Print Assumptions C62_machine.

(** *** Expressions *)
(** Any expression in postfix notation, followed by a full stop: its value is
    printed (or that there was no memory to print it), and the exit code is 0. *)
Inductive expr := Num (v : Z) | Neg (e : expr) | Plus (e f : expr) | Minus (e f : expr) | Times (e f : expr).
Fixpoint evaluate (e : expr) : Z :=
  match e with Num v => v | Neg e => - evaluate e | Plus e f => evaluate e + evaluate f | Minus e f => evaluate e - evaluate f | Times e f => evaluate e * evaluate f end.
Fixpoint postfix (e : expr) : list cmd :=
  match e with
  | Num v => [Number v] | Neg e => postfix e ++ [Do ONeg]
  | Plus e f => postfix e ++ postfix f ++ [Do OAdd] | Minus e f => postfix e ++ postfix f ++ [Do OSub] | Times e f => postfix e ++ postfix f ++ [Do OMul]
  end.
Lemma runs_postfix e : forall rest k s k' s', runs false (postfix e ++ rest) k s k' s' -> runs false rest MP_OK (to (evaluate e :: stk s) s) k' s'.
Proof.
  induction e as [v|e IHe|e IHe f IHf|e IHe f IHf|e IHe f IHf]; intros rest k s k' s' HR; cbn [postfix evaluate] in *; rewrite <- ?app_assoc in HR.
  - cbn [app] in HR. inversion HR as [|? ? ? ? r s1 ? ? D R]; subst. destruct D as [[-> ->]|(? & _)]; [exact R|done].
  - apply IHe in HR. inversion HR as [|? ? ? ? r s1 ? ? D R]; subst. destruct s. cbn in D. destruct D as (k1 & -> & -> & ->). exact R.
  - apply IHe, IHf in HR. inversion HR as [|? ? ? ? r s1 ? ? D R]; subst. destruct s. cbn in D. destruct D as (k1 & -> & -> & ->). exact R.
  - apply IHe, IHf in HR. inversion HR as [|? ? ? ? r s1 ? ? D R]; subst. destruct s. cbn in D. destruct D as (k1 & -> & -> & ->). exact R.
  - apply IHe, IHf in HR. inversion HR as [|? ? ? ? r s1 ? ? D R]; subst. destruct s. cbn in D. destruct D as (k1 & -> & -> & ->). exact R.
Qed.
Lemma workable_postfix e : forall rest s, workable false rest (to (evaluate e :: stk s) s) -> workable false (postfix e ++ rest) s.
Proof.
  induction e as [v|e IHe|e IHe f IHf|e IHe f IHf|e IHe f IHf]; intros rest s HW; cbn [postfix evaluate] in *; rewrite <- ?app_assoc.
  - split; [exact I|]. intros r s1 [[-> ->]|(? & _)]; [exact HW|done].
  - apply IHe. split; [intros _; exact I|]. intros r s1 D. destruct s. cbn in D. destruct D as (k1 & -> & -> & ->). exact HW.
  - apply IHe, IHf. split; [intros _; exact I|]. intros r s1 D. destruct s. cbn in D. destruct D as (k1 & -> & -> & ->). exact HW.
  - apply IHe, IHf. split; [intros _; exact I|]. intros r s1 D. destruct s. cbn in D. destruct D as (k1 & -> & -> & ->). exact HW.
  - apply IHe, IHf. split; [intros _; exact I|]. intros r s1 D. destruct s. cbn in D. destruct D as (k1 & -> & -> & ->). exact HW.
Qed.
Theorem C62_expression st V W e txt orc t :
  Rep st V W -> written (postfix e ++ [Do OShowDrop]) txt -> (forall t, grants orc t 0 = true) ->
  match run true orc (imcalc_main txt) t st with
  | Done p _ _ => p = (0, chars "<insufficient memory to print>" ++ [10]) \/ exists s, numeral 10 (evaluate e) s /\ p = (0, s ++ [10])
  | OOM n => exists t', (t <= t')%nat /\ granted orc t' n = false
  | AssertFail | UB | OutOfFuel => False
  end.
Proof.
  intros H HW HG. pose proof (C62_machine_variables st V W _ txt orc t H HW) as HM. specialize (HM ltac:(apply workable_postfix; split; [intros _; right; by left|done]) HG).
  destruct (run true orc (imcalc_main txt) t st) as [p st' t'| | | |]; try done. destruct HM as (k & s & HR & -> & _). apply runs_postfix in HR.
  inversion HR as [|? ? ? ? r s1 ? ? D R]; subst. inversion R; subst. cbn in D. destruct D as (k1 & -> & -> & w & D & ->). cbn [default shown print to start app].
  destruct D as [->|[[D _]|(_ & w' & Hw & ->)]]; [by left|done|right; by exists w'].
Qed.
Example C62_expression_ex : written (postfix (Times (Num 6) (Num 7)) ++ [Do OShowDrop]) exT2. Proof. exact exT2_written. Qed.
Print Assumptions C62_expression.

(** *** What goes wrong *)
(** The structures of operands taken off the stack are never released. *)
Theorem C62_structures_refuted : exists cs txt st' t', written cs txt /\ workable false cs start /\
  run true orc_yes (imcalc_main txt) 0 st0 = Done (0, []) st' t' /\ objs st0 = ∅ /\ objs st' <> ∅.
Proof.
  exists [Number 1; Do ODrop], (chars "1 $").
  assert (match run true orc_yes (imcalc_main (chars "1 $")) 0 st0 with Done p st' _ => p = (0, []) /\ size (objs st') = 1%nat | _ => False end) as E by (by vm_compute).
  destruct (run true orc_yes (imcalc_main (chars "1 $")) 0 st0) as [p st' t'| | | |]; try done. destruct E as [-> E]. exists st', t'. split.
  { apply (one (chars "1")); [num (@nil Z) 10 (@nil Z) "1"%string [1]|done| |fits_in]. apply (next (chars "$")); [oper "$"%string|done| |fits_in]. by constructor. }
  split; [|split; [done|]; split; [done|]; intros E'; by rewrite E', map_size_empty in E].
  split; [exact I|]. intros r s [[-> ->]|(? & _)]; [|done]. split; [intros _; exact I|done].
Qed.
Print Assumptions C62_structures_refuted.
(** The exit code is that of the last operation: after a division by zero the
    program ends with code 0. *)
Theorem C62_exit_code_refuted : exists cs txt, written cs txt /\ In (Do ODiv) cs /\ (forall k s, runs false (firstn 3 cs) MP_OK start k s -> k = MP_UNDEF) /\
  outcome_of orc_yes txt = Some (0, chars "5" ++ [10], 3%nat).
Proof.
  exists [Number 1; Number 0; Do ODiv; Number 5; Do OShowDrop], (chars "1 0 // 5 ."). split; [|split; [cbn; tauto|]; split; [|by vm_compute]].
  - apply (one (chars "1")); [num (@nil Z) 10 (@nil Z) "1"%string [1]|done| |fits_in]. apply (next (chars "0")); [num (@nil Z) 10 (@nil Z) "0"%string [0]|done| |fits_in].
    apply (next (chars "//")); [oper "//"%string|done| |fits_in]. apply (next (chars "5")); [num (@nil Z) 10 (@nil Z) "5"%string [5]|done| |fits_in]. apply (next (chars ".")); [oper "."%string|done| |fits_in]. by constructor.
  - intros k s HR. cbn [firstn] in HR. inversion HR as [|? ? ? ? r1 s1 ? ? D1 R1]; subst. destruct D1 as [[-> ->]|(? & _)]; [|done]. inversion R1 as [|? ? ? ? r2 s2 ? ? D2 R2]; subst. destruct D2 as [[-> ->]|(? & _)]; [|done].
    inversion R2 as [|? ? ? ? r3 s3 ? ? D3 R3]; subst. cbn in D3. destruct D3 as (k3 & -> & [(_ & -> & ->)|(? & _)]); [|done]. by inversion R3.
Qed.
Print Assumptions C62_exit_code_refuted.
(** The power with exponent 2^32 is 1. *)
Theorem C62_power_refuted : exists txt, written [Number 2; Number (2 ^ 32); Do OExpt; Do OShowDrop] txt /\ outcome_of orc_yes txt = Some (0, chars "1" ++ [10], 2%nat).
Proof.
  exists (chars "2 #x100000000 ^ ."). split; [|by vm_compute].
  apply (one (chars "2")); [num (@nil Z) 10 (@nil Z) "2"%string [2]|done| |fits_in]. apply (next (chars "#x100000000")); [num (chars "#x") 16 (@nil Z) "100000000"%string [1; 0; 0; 0; 0; 0; 0; 0; 0]|done| |fits_in].
  apply (next (chars "^")); [oper "^"%string|done| |fits_in]. apply (next (chars ".")); [oper "."%string|done| |fits_in]. by constructor.
Qed.
Print Assumptions C62_power_refuted.
(** A power modulo -7 that is not reduced: 3^5 gives 19. *)
Theorem C62_negative_modulus_refuted : exists txt, written [Number 3; Number 5; Number (-7); Do OExptmod; Do OShowDrop] txt /\ outcome_of orc_yes txt = Some (0, chars "19" ++ [10], 3%nat).
Proof.
  exists (chars "3 5 -7 emod ."). split; [|by vm_compute].
  apply (one (chars "3")); [num (@nil Z) 10 (@nil Z) "3"%string [3]|done| |fits_in]. apply (next (chars "5")); [num (@nil Z) 10 (@nil Z) "5"%string [5]|done| |fits_in]. apply (next (chars "-7")); [num (@nil Z) 10 (chars "-") "7"%string [7]|done| |fits_in].
  apply (next (chars "emod")); [oper "emod"%string|done| |fits_in]. apply (next (chars ".")); [oper "."%string|done| |fits_in]. by constructor.
Qed.
Print Assumptions C62_negative_modulus_refuted.
(** Input that ends the program: the root of order 0, and picking the element
    -2^63, where the conversion to a C integer is undefined. *)
Theorem C62_crashes_refuted : exists txt txt', written [Number 8; Number 0; Do ORoot] txt /\ run true orc_yes (imcalc_main txt) 0 st0 = AssertFail /\
  written [Number 7; Number (- 2 ^ 63); Do OPick] txt' /\ run true orc_yes (imcalc_main txt') 0 st0 = UB.
Proof.
  exists (chars "8 0 root"), (chars "7 #x-8000000000000000 pick"). split; [|split; [by vm_compute|]; split; [|by vm_compute]].
  - apply (one (chars "8")); [num (@nil Z) 10 (@nil Z) "8"%string [8]|done| |fits_in]. apply (next (chars "0")); [num (@nil Z) 10 (@nil Z) "0"%string [0]|done| |fits_in]. apply (next (chars "root")); [oper "root"%string|done| |fits_in]. by constructor.
  - apply (one (chars "7")); [num (@nil Z) 10 (@nil Z) "7"%string [7]|done| |fits_in].
    apply (next (chars "#x-8000000000000000")); [num (chars "#x") 16 (chars "-") "8000000000000000"%string [8; 0; 0; 0; 0; 0; 0; 0; 0; 0; 0; 0; 0; 0; 0; 0]|done| |fits_in]. apply (next (chars "pick")); [oper "pick"%string|done| |fits_in]. by constructor.
Qed.
Print Assumptions C62_crashes_refuted.
(** Setting a variable when its structure is refused fails an assertion: the
    condition of [C62_machine] on the commands is needed. *)
Theorem C62_save_refused_refuted : exists cs txt orc, written cs txt /\ workable false cs start /\ run true orc (imcalc_main txt) 0 st0 = AssertFail.
Proof.
  exists [Number 5; Save (chars "a")], (chars "5 >> a"), (orc_but 2). split; [|split; [|by vm_compute]].
  - apply (one (chars "5")); [num (@nil Z) 10 (@nil Z) "5"%string [5]|done| |fits_in].
    apply (next (chars ">> a")); [exists [32]; split; [done|]; split; [repeat constructor|]; split; [by apply name_wordb_ok|done]|done| |fits_in]. by constructor.
  - split; [exact I|]. intros r s [[-> ->]|(? & _)]; [|done]. split; [done|]. intros r s _. exact I.
Qed.
Print Assumptions C62_save_refused_refuted.
(** Names end before a digit: ">> a1" sets a and pushes 1. *)
Theorem C62_names_refuted : outcome_of orc_yes (chars "5 >> a1 ?") = Some (0, chars " 0: 1" ++ [10], 2%nat).
Proof. by vm_compute. Qed.
Print Assumptions C62_names_refuted.
