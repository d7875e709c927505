(** The main loop of the calculator of examples/imcalc.c, continued. *)
From Coq Require Import ZArith Znumtheory List Lia String Ascii.
From stdpp Require Import gmap list.
From Verif Require Import Mem Prog Kern Fp Imath Imrat Gmp Wp MemLem Dig KernLem Rel RelWp RelZ Life Basic Basic2 Mult Shift Knuth Divi Powr Spec SpecBin Public Gcd Root Exptmod Buf Text Read Outlen Inlen Bin Rat RatText Gmpr Hist.
From Verif Require Import Rsa Rsamath SpecGalloc Galloc Iprime ExPiR SpecKey ExRsakeyR SpecCalc ExCalc ExCalcR ExCalcX ExCalcH ExCalcM.
Local Open Scope Z_scope.
Local Open Scope prog_scope.
Local Open Scope list_scope.
Local Ltac wb := apply wp_bind.
Local Ltac xb := apply wpx_bind.

Local Ltac fin := eexists _, _; split; [eassumption|]; cbn [cs_elts cs_mem cs_radix cs_out cs_in stk vars orad shown to print]; split; [eassumption|]; split; [assumption|]; split; [assumption|]; split; [first [assumption|reflexivity]|]; assumption.

Section calc.
Context (V0 : gmap oid Z) (X0 : ctx).
Notation core := (core V0 X0).
Notation INV := (INV V0 X0).
Notation finex := (finex V0 X0).
Context (mm : bool).

(** *** Numbers *)
Lemma number_head r c d body ds : Forall2 (fun c d => digit_of c = Some d /\ d < r) (c :: body) (d :: ds) -> ~ is_space c /\ c <> 43 /\ c <> 45 /\ c <> 35.
Proof. intros H. apply Forall2_cons in H as [[Hc _] _]. apply digit_of_cases in Hc. unfold is_space. lia. Qed.
Lemma wp_number st V X es ms vs ws w v (Q : Z * option oid -> state -> Prop) : number_word w v -> Z.of_nat (length w) < BUFFER_SIZE -> RV st V X -> core V X es ms vs ws ->
  (mm = true -> Q (MP_MEMORY, None) st) -> (forall st' V' t, RV st' V' X -> core V' X (t :: es) ms (v :: vs) ws -> Q (MP_OK, Some t) st') -> wpx mm (read_number w) Q st.
Proof.
  intros (p & r & sg & body & ds & Hp & Hsg & Nb & HB & -> & ->) HL HV C HQ0 HQ.
  assert (forall r, 2 <= r <= 36 -> Forall2 (fun c d => digit_of c = Some d /\ d < r) body ds -> Z.of_nat (length (sg ++ body)) < BUFFER_SIZE ->
    wpx mm (value <- mp_int_alloc;
        match value with
        | None => Ret (MP_MEMORY, None)
        | Some value => res <- mp_int_read_string value r (sg ++ body); if negb (res =? MP_OK) then mp_int_free value;; Ret (res, None) else Ret (res, Some value)
        end) (fun q st' => (mm = true /\ q = (MP_MEMORY, None) /\ st' = st) \/ exists t V', q = (MP_OK, Some t) /\ RV st' V' X /\ core V' X (t :: es) ms ((if decide (sg = []) then horner r ds else - horner r ds) :: vs) ws) st) as Hread.
  { clear HQ0 HQ HL HB Hp. intros r' Hr HB HL. xb. eapply wpx_alloc; [exact HV|intros Em; apply wpx_ret; by left|]. intros t st1 Ht Ft _ HV1.
    replace (sg ++ body) with ([] ++ sg ++ body ++ []) by (by rewrite app_nil_r).
    apply wp_wpx. wb. eapply wpV_read_string; [exact HV1|apply lookup_insert|exact Hr|constructor|destruct Hsg as [-> | ->]; auto|exact HB|done| |rewrite app_nil_r; unfold BUFFER_SIZE in *; cbn [app]; lia|].
    - intros -> c. rewrite app_nil_r. destruct body as [|b body]; [done|]. destruct ds as [|d ds]; [by apply Forall2_cons_nil_inv in HB|]. intros [= <-]. destruct (number_head _ _ _ _ _ HB) as (? & ? & ? & ?). done.
    - intros st2 HV2. rewrite insert_insert in HV2. cbn [negb]. rewrite OK_refl. apply wp_ret. right. exists t. eexists. split; [done|]. split; [exact HV2|].
      replace (if decide (sg = []) then horner r' ds else - horner r' ds) with (if decide (sg = [45]) then - horner r' ds else horner r' ds); [by apply core_push|].
      destruct Hsg as [-> | ->]; done. }
  assert (forall r, wpx mm (value <- mp_int_alloc;
        match value with
        | None => Ret (MP_MEMORY, None)
        | Some value => res <- mp_int_read_string value r (sg ++ body); if negb (res =? MP_OK) then mp_int_free value;; Ret (res, None) else Ret (res, Some value)
        end) (fun q st' => (mm = true /\ q = (MP_MEMORY, None) /\ st' = st) \/ exists t V', q = (MP_OK, Some t) /\ RV st' V' X /\ core V' X (t :: es) ms ((if decide (sg = []) then horner r ds else - horner r ds) :: vs) ws) st ->
      (forall st' V' t, RV st' V' X -> core V' X (t :: es) ms ((if decide (sg = []) then horner r ds else - horner r ds) :: vs) ws -> Q (MP_OK, Some t) st') ->
      wpx mm (value <- mp_int_alloc;
        match value with
        | None => Ret (MP_MEMORY, None)
        | Some value => res <- mp_int_read_string value r (sg ++ body); if negb (res =? MP_OK) then mp_int_free value;; Ret (res, None) else Ret (res, Some value)
        end) Q st) as Hgo.
  { clear HQ. intros r' Hw HQ. eapply wpx_mono; [exact Hw|]. intros q st' [(Em & -> & ->)|(t & V' & -> & HV' & C')]; [by apply HQ0|by eapply HQ]. }
  destruct (mark_cases _ _ Hp) as [[-> ->]|(c & -> & Hc)].
  - cbn [app] in *. assert (exists c l, sg ++ body = c :: l /\ c <> 35) as (c & l & E & Nc).
    { destruct Hsg as [-> | ->]; [|by exists 45, body]. destruct body as [|b body]; [done|]. destruct ds as [|d ds]; [by apply Forall2_cons_nil_inv in HB|]. destruct (number_head _ _ _ _ _ HB) as (? & ? & ? & ?). by exists b, body. }
    specialize (Hgo 10 (Hread 10 ltac:(lia) HB HL) HQ). unfold read_number. rewrite E in *. clear - Nc Hgo.
    repeat (case_match; try exact Hgo; try done).
  - assert (Z.of_nat (length (sg ++ body)) < BUFFER_SIZE) as HL' by (cbn [app length] in HL; lia). specialize (Hgo r (Hread r ltac:(lia) HB HL') HQ). unfold read_number. cbn [app].
    destruct Hc as [[[-> | ->] ->]|[[[-> | ->] ->]|[[[-> | ->] ->]|[[-> | ->] ->]]]]; exact Hgo.
Qed.

(** *** Variables *)
Lemma find_var (V : gmap oid Z) (ms : list (list Z * oid)) (ws : list (list Z * Z)) n : Forall2 (fun p q => p.1 = q.1 /\ V !! p.2 = Some q.2) ms ws ->
  match find_name n ms with
  | Some (l, o, r) => ms = l ++ (n, o) :: r /\ exists lw v rw, ws = lw ++ (n, v) :: rw /\ length l = length lw /\ V !! o = Some v /\ get_var n ws = Some v /\ forall x, set_var n x ws = lw ++ (n, x) :: rw
  | None => get_var n ws = None /\ (forall x, set_var n x ws = ws ++ [(n, x)]) /\ n ∉ map fst ms
  end.
Proof.
  intros H. induction H as [|[k o] [k' v] ms ws [E Ho] H IH]; cbn [find_name get_var set_var fst snd map] in *.
  - split; [done|]. split; [done|]. apply not_elem_of_nil.
  - subst k'. case_bool_decide as D.
    + subst k. split; [done|]. exists [], v, ws. rewrite decide_True by done. split; [done|]. split; [done|]. split; [done|]. split; [done|]. intros x. by rewrite decide_True.
    + rewrite decide_False by done. destruct (find_name n ms) as [[[l o'] r]|].
      * destruct IH as (-> & lw & w & rw & -> & L & Hw & Hg & Hs). split; [done|]. exists ((k, v) :: lw), w, rw. split; [done|]. split; [cbn; lia|]. split; [done|]. split; [done|]. intros x. rewrite decide_False by done. by rewrite Hs.
      * destruct IH as (Hg & Hs & Hn). split; [done|]. split; [intros x; rewrite decide_False by done; by rewrite Hs|]. apply not_elem_of_cons. done.
Qed.
Lemma found_var (V : gmap oid Z) (ms : list (list Z * oid)) (ws : list (list Z * Z)) n : Forall2 (fun p q => p.1 = q.1 /\ V !! p.2 = Some q.2) ms ws -> bool_decide (n ∈ map fst ms) = bool_decide (is_Some (get_var n ws)).
Proof.
  intros H. pose proof (find_var _ _ _ n H) as F. apply bool_decide_ext. destruct (find_name n ms) as [[[l o] r]|].
  - destruct F as (-> & lw & v & rw & -> & _ & _ & -> & _). rewrite map_app. split; [by eexists|]. intros _. apply elem_of_app. right. left.
  - destruct F as (-> & _ & Hn). split; [done|]. by intros [? [=]].
Qed.

(** A variable is fetched. *)
Lemma wp_qrecall inp st sp a (Q : Z * cstate -> state -> Prop) : INV inp st sp a ->
  (match get_var (cs_buf sp) (vars a) with
   | Some v => forall st' sp', INV inp st' sp' (to (v :: stk a) a) -> Q (MP_OK, sp') st'
   | None => forall st' sp', INV inp st' sp' a -> Q (MP_UNDEF, sp') st'
   end) -> (mm = true -> forall st' sp', INV inp st' sp' a -> Q (MP_MEMORY, sp') st') -> wpx mm (cf_qrecall sp) Q st.
Proof.
  destruct a as [us l rad sh]. destruct sp as [es ms i buf r out]. intros (V & X & HV & C & Er & Eo & Ei & Rr) HQ HQm. cbn [cs_elts cs_mem cs_radix cs_out cs_in cs_buf stk vars orad shown to print] in *.
  unfold cf_qrecall. xb. eapply wpx_alloc; [exact HV|intros Em; apply wpx_ret; apply (HQm Em); fin|]. intros t st1 Ht Ft _ HV1. apply wp_wpx. unfold mem_recall. cbn [cs_buf cs_mem].
  pose proof (find_var V ms l buf (c_ms _ _ _ _ _ _ _ _ C)) as F. destruct (find_name buf ms) as [[[ml o] mr]|].
  - destruct F as (_ & _ & v & _ & _ & _ & Ho & Hg & _). rewrite Hg in HQ. assert (t <> o) as N by (intros ->; congruence).
    wb. eapply (wpV_copy _ _ _ o t v 0); [exact HV1|rewrite lookup_insert_ne by done; done|apply lookup_insert|]. intros st2 HV2. rewrite OK_refl. cbn [negb]. unfold stack_push. apply wp_ret. apply HQ. rewrite insert_insert in HV2.
    pose proof (core_push _ _ _ _ _ _ _ _ t v C Ft Ht) as C2. unfold set_elts. cbn [cs_elts cs_mem cs_radix cs_out cs_in cs_buf]. fin.
  - destruct F as (Hg & _). rewrite Hg in HQ. wb. apply wp_ret. change (negb (MP_UNDEF =? MP_OK)) with true. cbn iota. wb. eapply wpV_free; [exact HV1|apply lookup_insert|exact Ht|]. intros st2 HV2. apply wp_ret. apply HQ. rewrite delete_insert in HV2 by done. fin.
Qed.

(** A variable is set, when structures are granted. *)
Lemma wpx_store inp1 inp st sp n x us l rad sh (Q : Z * cstate -> state -> Prop) : INV inp1 st sp (Calc (x :: us) l rad sh) -> (exists buf, next_token BUFFER_SIZE inp1 = (t_symbol, n, inp) /\ buf = n) ->
  (forall st' sp', INV inp st' sp' (Calc us (set_var n x l) rad sh) -> Q (MP_OK, sp') st') -> wpx false (cf_store sp) Q st.
Proof.
  destruct sp as [es ms i buf r out]. intros (V & X & HV & C & Er & Eo & Ei & Rr) (_ & Et & _) HQ. cbn [cs_elts cs_mem cs_radix cs_out cs_in cs_buf stk vars orad shown to print] in *. subst i.
  unfold cf_store. cbn [cs_in]. rewrite Et. unfold set_token. cbn [cs_elts cs_mem cs_radix cs_out cs_in cs_buf]. pose proof (Forall2_length _ _ _ (c_es _ _ _ _ _ _ _ _ C)). destruct es as [|o1 es]; [done|]. unfold with1. cbn [cs_elts].
  pose proof (get1 _ _ _ _ _ _ _ _ _ _ C) as G1.
  assert (forall ml mr lw rw st1 V1, RV st1 V1 X -> core V1 X (o1 :: es) (ml ++ mr) (x :: us) (lw ++ rw) -> length ml = length lw -> set_var n x l = lw ++ (n, x) :: rw ->
    wpx false (new <- mp_int_alloc;
      Assert ALogic (bool_decide (is_Some new)) (match new with
      | Some o => res <- mp_int_copy o1 o; Ret (res, set_mem (CS (o1 :: es) ms inp n r out) (ml ++ (n, o) :: mr))
      | None => Undef
      end)) (fun p st' => wpx false (if negb (fst p =? MP_OK) then Ret p else stack_pop (snd p)) Q st') st1) as Hfill.
  { intros ml mr lw rw st1 V1 HV1 C1 L Es. xb. eapply wpx_alloc; [exact HV1|done|]. intros t st2 Ht Ft _ HV2. apply wpx_assert; [done|]. pose proof (get1 _ _ _ _ _ _ _ _ _ _ C1) as G. assert (t <> o1) as N by (intros ->; congruence).
    xb. apply wp_wpx. eapply (wpV_copy _ _ _ o1 t x 0); [exact HV2|rewrite lookup_insert_ne by done; done|apply lookup_insert|]. intros st3 HV3. rewrite insert_insert in HV3. apply wpx_ret. cbn [fst snd]. rewrite OK_refl. cbn [negb]. apply wp_wpx.
    unfold set_mem. cbn [cs_elts cs_mem cs_radix cs_out cs_in cs_buf]. pose proof (core_add_var _ _ _ _ _ ml n t mr _ lw x rw C1 L Ft Ht) as C3. eapply wp_pop; [exact HV3|exact C3|]. intros st4 V4 X4 HV4 C4 _. apply HQ. rewrite Es. fin. }
  unfold mem_insert. cbn [cs_mem]. pose proof (find_var V ms l n (c_ms _ _ _ _ _ _ _ _ C)) as F. destruct (find_name n ms) as [[[ml o] mr]|].
  - destruct F as (-> & lw & v & rw & -> & L & Ho & _ & Es). destruct (core_drop_var _ _ _ _ _ ml n o mr _ lw (n, v) rw C L) as (Bo & _ & _ & _ & C1). xb. xb. apply wp_wpx. eapply wpV_free; [exact HV|exact Ho|exact Bo|]. intros st1 HV1. eapply Hfill; [exact HV1|exact C1|exact L|apply Es].
  - destruct F as (_ & Es & _). xb. eapply (Hfill ms [] l []); [exact HV|by rewrite !app_nil_r| |apply Es]. eapply Forall2_length. exact (c_ms _ _ _ _ _ _ _ _ C).
Qed.

(** *** Operators *)
Lemma handler_fine o a : (arity o <= length (stk a))%nat -> allowed o a -> finex mm (handler_of o) a (effect_of mm o a).
Proof.
  destruct a as [us l rad sh]. cbn [stk]. intros L A. unfold arity in L.
  destruct o.
  all: try (destruct us as [|? us]; [exfalso; cbn [length] in L; lia|]); try (destruct us as [|? us]; [exfalso; cbn [length] in L; lia|]); try (destruct us as [|? us]; [exfalso; cbn [length] in L; lia|]).
  all: first [apply f_xgcd|apply f_dup|by apply f_copy|apply fine_finex; first [apply f_abs|apply f_neg|apply f_add|apply f_sub|apply f_mul|apply f_divmod|apply f_div|apply f_mod|by apply f_expt|by apply f_exptmod|apply f_sqr|apply f_invmod|apply f_gcd|apply f_sqrt|by apply f_root
    |apply f_lt|apply f_gt|apply f_le|apply f_ge|apply f_eq|apply f_ne|apply f_inc|apply f_dec|apply f_fact|by apply f_pprint|by apply f_print|by apply f_pstack|apply f_clstk|apply f_pop|apply f_swap|apply f_rot|by apply f_pick
    |by apply f_setr|apply f_setbin|apply f_help|apply f_cmem|by apply f_pmem]].
Qed.

(** *** The loop *)
Definition saves (cs : list cmd) : Prop := exists n, In (Save n) cs.
Lemma INV_token inp st sp a rest buf : INV inp st sp a -> INV rest st (set_token sp rest buf) a.
Proof. destruct sp. intros (V & X & HV & C & Er & Eo & Ei & Rr). exists V, X. cbn in *. done. Qed.
Lemma INV_in inp st sp a : INV inp st sp a -> cs_in sp = inp. Proof. by intros (V & X & _ & _ & _ & _ & ? & _). Qed.
Lemma INV_len inp st sp a : INV inp st sp a -> length (cs_elts sp) = length (stk a).
Proof. intros (V & X & _ & C & _). eapply Forall2_length. exact (c_es _ _ _ _ _ _ _ _ C). Qed.
Lemma INV_found inp st sp a n : INV inp st sp a -> bool_decide (n ∈ map fst (cs_mem sp)) = bool_decide (is_Some (get_var n (vars a))).
Proof. intros (V & X & _ & C & _). by eapply found_var, c_ms. Qed.
Lemma ends_app sp s : sp <> [] -> Forall is_space sp -> ends (sp ++ s).
Proof. intros N F. destruct sp as [|b sp]; [done|]. apply Forall_cons in F as [Hb _]. right. by exists b, (sp ++ s). Qed.

Definition after (cs : list cmd) (res : Z) (a : calc) (p : Z * cstate) (st' : state) : Prop := exists a', runs mm cs res a p.1 a' /\ INV [] st' p.2 a'.
Lemma run_ok cs txt : written cs txt -> (mm = true -> ~ saves cs) -> forall n res st sp a, (length txt < n)%nat -> INV txt st sp a -> workable mm cs a -> wpx mm (run_loop n res sp) (after cs res a) st.
Proof.
  intros HW. induction HW as [spc Hsp|spc c w cs txt Hsp Hw HL HW IH He]; intros Hs n res st sp a Hn HI HK.
  { destruct n as [|n]; [lia|]. cbn [run_loop]. rewrite (INV_in _ _ _ _ HI), token_end by done. apply wpx_ret. exists a. split; [constructor|]. by eapply INV_token. }
  destruct HK as [HP HK]. assert (mm = true -> ~ saves cs) as Hs'. { intros E [m Hm]. apply (Hs E). exists m. by right. }
  (* what remains after a command *)
  assert (forall k (p : Z * cstate) st' a', (length txt < k)%nat -> INV txt st' p.2 a' -> forall r, does mm c a r a' -> p.1 = default res r -> wpx mm (run_loop k p.1 p.2) (after (c :: cs) res a) st') as Hgo.
  { intros k p st' a' Hk HI' r Hd Ep. eapply wpx_mono; [apply (IH Hs' k p.1 st' p.2 a' Hk HI' (HK _ _ Hd))|]. intros q st'' (a'' & HR & HI''). exists a''. split; [|done]. eapply runs_cons; [exact Hd|]. by rewrite <- Ep. }
  assert (exists c0 w0, w = c0 :: w0) as (c0 & w0 & Ew).
  { destruct w as [|c0 w0]; [|by eauto]. destruct c as [v|o|m|m|m]; cbn [spelling] in Hw.
    - destruct Hw as (p & r & sg & body & ds & _ & _ & Nb & _ & E & _). symmetry in E. apply app_eq_nil in E as [_ E]. by apply app_eq_nil in E as [_ ->].
    - pose proof (op_name_word o [] Hw) as (N & _). done.
    - by destruct Hw as (? & _ & _ & _ & ?).
    - by destruct Hw as (? & _ & _ & _ & ?).
    - destruct Hw as (<- & (N & _) & _). done. }
  destruct n as [|n]; [lia|]. assert (length txt < n)%nat as Hn'. { rewrite !app_length, Ew in Hn. cbn [length] in Hn. lia. } clear Ew c0 w0 Hn.
  cbn [run_loop]. rewrite (INV_in _ _ _ _ HI). destruct c as [v|o|m|m|m]; cbn [spelling] in Hw.
  - (* a number *)
    rewrite (token_number spc w v txt) by done. set (sp1 := set_token sp txt w). pose proof (INV_token _ _ _ _ txt w HI) as HI1. fold sp1 in HI1.
    destruct sp1 as [es ms i buf r out]. destruct HI1 as (V & X & HV & C & Er & Eo & Ei & Rr). cbn [cs_elts cs_mem cs_radix cs_out cs_in] in *.
    xb. eapply wp_number; [exact Hw|exact HL|exact HV|exact C| |].
    + intros Em. eapply (Hgo n (MP_MEMORY, CS es ms i buf r out) st a Hn'); [fin|by right|done].
    + intros st1 V1 t HV1 C1. cbn [MP_OK]. unfold stack_push, set_elts. cbn [cs_elts cs_mem cs_radix cs_out cs_in cs_buf]. xb. apply wpx_ret. cbn [fst snd]. rewrite OK_refl. cbn [negb].
      eapply (Hgo n (MP_OK, CS (t :: es) ms i buf r out) st1 (to (v :: stk a) a) Hn'); [fin|by left|done].
  - (* an operator *)
    rewrite (token_symbol spc w txt) by (try done; by eapply op_name_word). pose proof (INV_token _ _ _ _ txt w HI) as HI1. set (sp1 := set_token sp txt w) in *.
    unfold find_command. change (cs_buf sp1) with w. rewrite (find_op_name o w Hw). rewrite (INV_len _ _ _ _ HI1). destruct (Nat.ltb_spec (length (stk a)) (arity o)) as [Hl|Hl].
    + apply (Hgo n (res, sp1) st a Hn' HI1 None); [|done]. cbn [does]. destruct (Nat.ltb_spec (length (stk a)) (arity o)); [done|lia].
    + xb. eapply wpx_mono; [exact (handler_fine o a Hl (HP Hl) _ _ _ HI1)|]. intros p st' (a' & HE & HI'). apply (Hgo n p st' a' Hn' HI' (Some p.1)); [|done]. cbn [does]. destruct (Nat.ltb_spec (length (stk a)) (arity o)); [lia|]. by eexists.
  - (* saving *)
    destruct Hw as (sp2 & N2 & H2 & Hm & ->). destruct mm eqn:Emm; [exfalso; apply Hs; [done|]; exists m; by left|]. rewrite !app_length in HL.
    rewrite <- !app_assoc. rewrite (token_symbol spc (chars ">>") (sp2 ++ m ++ txt)); [|done|by apply name_wordb_ok|by apply ends_app|done].
    pose proof (INV_token _ _ _ _ (sp2 ++ m ++ txt) (chars ">>") HI) as HI1. set (sp1 := set_token sp (sp2 ++ m ++ txt) (chars ">>")) in *.
    unfold find_command. change (cs_buf sp1) with (chars ">>"). rewrite find_op_save by done. rewrite (INV_len _ _ _ _ HI1). destruct a as [[|x us] l rad sh]; [by destruct HP|]. cbn [stk length Nat.ltb Nat.leb].
    xb. eapply wpx_store; [exact HI1|exists m; split; [|done]; apply token_symbol; try done; unfold BUFFER_SIZE in *; lia|]. intros st' sp' HI'.
    apply (Hgo n (MP_OK, sp') st' (Calc us (set_var m x l) rad sh) Hn' HI' (Some MP_OK)); [|done]. exists x, us. done.
  - (* recalling *)
    destruct Hw as (sp2 & N2 & H2 & Hm & ->). rewrite !app_length in HL.
    rewrite <- !app_assoc. rewrite (token_symbol spc (chars "<<") (sp2 ++ m ++ txt)); [|done|by apply name_wordb_ok|by apply ends_app|done].
    pose proof (INV_token _ _ _ _ (sp2 ++ m ++ txt) (chars "<<") HI) as HI1. set (sp1 := set_token sp (sp2 ++ m ++ txt) (chars "<<")) in *.
    unfold find_command. change (cs_buf sp1) with (chars "<<"). rewrite find_op_recall by done. cbn [Nat.ltb Nat.leb]. 
    xb. unfold cf_recall. rewrite (INV_in _ _ _ _ HI1), (token_symbol sp2 m txt); [|done..|unfold BUFFER_SIZE in *; lia].
    pose proof (INV_token _ _ _ _ txt m HI1) as HI2. set (sp3 := set_token sp1 txt m) in *. eapply wp_qrecall; [exact HI2|..].
    + change (cs_buf sp3) with m. destruct (get_var m (vars a)) as [v|] eqn:Eg; intros st' sp' HI'.
      * apply (Hgo n (MP_OK, sp') st' _ Hn' HI' (Some MP_OK)); [|done]. cbn [does]. rewrite Eg. by left.
      * apply (Hgo n (MP_UNDEF, sp') st' _ Hn' HI' (Some MP_UNDEF)); [|done]. cbn [does]. rewrite Eg. split; [by left|done].
    + intros Em st' sp' HI'. apply (Hgo n (MP_MEMORY, sp') st' _ Hn' HI' (Some MP_MEMORY)); [|done]. cbn [does]. destruct (get_var m (vars a)) as [v|]; [by right|]. split; [by right|done].
  - (* a word *)
    destruct Hw as (-> & Hm & Hno). rewrite (token_symbol spc m txt) by done. pose proof (INV_token _ _ _ _ txt m HI) as HI1. set (sp1 := set_token sp txt m) in *.
    unfold find_command. change (cs_buf sp1) with m. rewrite (find_op_none m Hno). rewrite (INV_found _ _ _ _ m HI1). destruct (get_var m (vars a)) as [v|] eqn:Eg.
    + rewrite bool_decide_eq_true_2 by (by eexists). cbn [Nat.ltb Nat.leb]. xb. eapply wp_qrecall; [exact HI1|..].
      * change (cs_buf sp1) with m. rewrite Eg. intros st' sp' HI'. apply (Hgo n (MP_OK, sp') st' _ Hn' HI' (Some MP_OK)); [|done]. cbn [does]. rewrite Eg. by left.
      * intros Em st' sp' HI'. apply (Hgo n (MP_MEMORY, sp') st' _ Hn' HI' (Some MP_MEMORY)); [|done]. cbn [does]. rewrite Eg. by right.
    + rewrite bool_decide_eq_false_2 by (by intros [? [=]]). apply (Hgo n (res, sp1) st a Hn' HI1 None); [|done]. cbn [does]. by rewrite Eg.
Qed.
End calc.

Theorem wpx_main s st V X cs txt : RV st V X -> written cs txt -> workable s cs start -> (s = true -> ~ saves cs) ->
  wpx s (imcalc_main txt) (fun p st' => exists k a, runs s cs MP_OK start k a /\ p = (if k =? MP_OK then 0 else 1, shown a) /\ exists X', RV st' V X' /\ ctx_ok X X') st.
Proof.
  intros HV HW HK Hs. unfold imcalc_main. xb. unfold run_file. cbn [cs_in]. eapply wpx_mono; [eapply (run_ok V X s cs txt HW Hs (S (length txt)) MP_OK st _ start); [lia| |exact HK]|].
  - exists V, X. split; [exact HV|]. cbn [cs_elts cs_mem cs_radix cs_out cs_in stk vars orad shown start]. split; [|split; [done|]; split; [done|]; split; [done|]; lia].
    split; cbn [app map]; try constructor; try done. + intros o I. by apply elem_of_nil in I. + split; [done|]. split; [done|]. by left.
  - intros [k sp] st1 (a & HR & (V1 & X1 & HV1 & C1 & _ & Eo & _)). cbn [fst snd] in *. unfold state_clear. apply wp_wpx. wb. wb.
    assert (core V X V1 X1 (rev (cs_elts sp)) (cs_mem sp) (rev (stk a)) (vars a)) as C2.
    { eapply core_perm; [exact C1|apply Permutation_rev|]. rewrite <- !reverse_rev || idtac. pose proof (c_es _ _ _ _ _ _ _ _ C1) as F. clear - F. induction F; cbn [rev]; [done|]. apply Forall2_app; [done|]. by constructor. }
    eapply wp_clear_all; [exact HV1|exact C2|]. intros st2 V2 X2 HV2 C3. eapply wp_free_all; [exact HV2|exact C3|]. intros st3 V3 HV3 C4. apply wp_ret. exists k, a. split; [done|]. rewrite Eo. split; [done|].
    exists X2. assert (V3 = V) as <-. { apply map_eq. intros o. apply (c_out _ _ _ _ _ _ _ _ C4). apply not_elem_of_nil. } split; [done|]. exact (c_ctx _ _ _ _ _ _ _ _ C4).
Qed.
