(** One thread: a fair client, run on its view, writes nothing shared. *)
From Coq Require Import ZArith List Lia.
From stdpp Require Import gmap list.
From Verif Require Import Mem Prog MemLem Kern Fp Imath Wp Const ConstFns Conc Threads Spec SpecBin SpecHist SpecConc Public Hist.
Local Open Scope Z_scope.
Local Open Scope prog_scope.

(** [wpw] keeps what is shared. *)
Lemma wpw_keeps O B {A : Type} (p : prog A) Q st : alive O B st -> wpw O B p Q st -> wpw O B p (fun a st' => Q a st' /\ keeps O B st st') st.
Proof.
  assert (forall (p : prog A) st st0, keeps O B st0 st -> alive O B st -> wpw O B p Q st -> wpw O B p (fun a st' => Q a st' /\ keeps O B st0 st') st) as H; [|intros; by apply H; [apply keeps_refl|..]].
  clear. assert (KM : forall st m, (forall b, shared O B b -> m !! b = mem st !! b) -> keeps O B st (set_mem st m)) by (intros; by split_and!).
  assert (KA : forall st b l, ~ shared O B b -> keeps O B st (add_block st b l)) by (intros; apply KM; intros; apply lookup_insert_ne; by intros <-).
  assert (KD : forall st b, ~ shared O B b -> keeps O B st (del_block st b)) by (intros; apply KM; intros; apply lookup_delete_ne; by intros <-).
  assert (KS : forall st q c, ~ shared O B q.1 -> keeps O B st (set_mem st (Mem.store (mem st) q c))) by (intros; apply KM; intros; apply lookup_alter_ne; by intros <-).
  assert (KO : forall st o z, o ∉ O -> keeps O B st (set_objs st (<[o := z]> (objs st)))) by (intros; split_and!; [intros; apply lookup_insert_ne; by intros <-|done|done]).
  assert (KN : forall st o z, o ∉ O -> keeps O B st (add_obj st o z)) by (intros; split_and!; [intros; apply lookup_insert_ne; by intros <-|intros; apply lookup_insert_ne; by intros <-|done]).
  assert (KX : forall st o, o ∉ O -> keeps O B st (del_obj st o)) by (intros; split_and!; [intros; apply lookup_delete_ne; by intros <-|intros; apply lookup_delete_ne; by intros <-|done]).
  assert (G : forall (p : prog A) st st0 st1, (forall st st0, keeps O B st0 st -> alive O B st -> wpw O B p Q st -> wpw O B p (fun a st' => Q a st' /\ keeps O B st0 st') st) ->
     keeps O B st0 st -> alive O B st -> keeps O B st st1 -> wpw O B p Q st1 -> wpw O B p (fun a st' => Q a st' /\ keeps O B st0 st') st1).
  { intros p st st0 st1 IH K0 Ha K1 Hw. apply IH; [by eapply keeps_trans|by eapply alive_keeps|done]. }
  intros p. induction p; cbn [wpw]; intros st st0 K0 Ha Hw; repeat case_match; try done.
  - auto.
  - destruct Hw as [Hn Hw]. split; [done|]. eapply G; eauto.
  - auto.
  - destruct Hw as [Hn Hw]. split; [done|]. eapply G; eauto.
  - intros z n Hf Hn. eapply (G (k (false, n))); eauto.
  - destruct Hw as (Hn & Hb & Hw). split_and!; [done|done|]. eapply G; eauto.
  - destruct Hw as [Hw1 Hw2]. split; [auto|]. intros z n Hf Hn. eapply (G (k (Some (true, n)))); eauto.
  - destruct Hw as (Hn & Hb & Hw). split_and!; [done|done|]. eapply G; eauto.
  - destruct Hw as [Hw1 Hw2]. split; [destruct Hw1; [by left|right; auto]|]. intros Hb i Hi Hn. eapply (G (k (Some (Hp i, 0)))); eauto.
  - destruct Hw as (Hs & Hw1 & Hw2). split; [done|]. split; [destruct Hw1; [by left|right; auto]|]. intros Hb i Hi Hn. eapply (G (k (Some (Hp i, 0)))); eauto using keeps_trans.
  - destruct Hw as [Hn Hw]. split; [done|]. eapply G; eauto.
  - intros i Hi Hn. eapply (G (k (Ext i, 0))); eauto.
  - destruct Hw as [Hn Hw]. split; [done|]. eapply G; eauto.
  - auto.
  - destruct Hw as [Hb Hw]. split; [done|]. auto.
Qed.

(** ** Calls *)
Definition makes (c : call) : bool := match c with Init _ | InitSize _ _ | InitCopy _ _ | InitValue _ _ | InitUvalue _ _ => true | _ => false end.
Create HintDb wcc.
#[local] Hint Resolve wc_mp_int_zero wc_mp_int_init wc_mp_int_alloc wc_mp_int_init_size wc_mp_int_init_copy wc_mp_int_init_value wc_mp_int_init_uvalue wc_mp_int_clear wc_mp_int_copy wc_mp_int_set_value wc_mp_int_set_uvalue wc_mp_int_swap wc_mp_int_abs wc_mp_int_neg wc_mp_int_add wc_mp_int_add_value wc_mp_int_sub wc_mp_int_sub_value wc_mp_int_compare_zero wc_mp_int_mul wc_mp_int_mul_value wc_mp_int_mul_pow2 wc_mp_int_sqr wc_mp_int_div wc_mp_int_mod wc_mp_int_compare wc_mp_int_compare_unsigned wc_mp_int_compare_value wc_mp_int_compare_uvalue wc_mp_int_to_int wc_mp_int_to_uint wc_mp_int_div_value wc_mp_int_div_pow2 wc_mp_int_expt wc_mp_int_expt_value wc_mp_int_expt_full wc_mp_int_exptmod wc_mp_int_exptmod_evalue wc_mp_int_exptmod_bvalue wc_mp_int_exptmod_known wc_mp_int_redux_const wc_mp_int_is_odd wc_mp_int_is_even wc_mp_int_gcd wc_mp_int_egcd wc_mp_int_invmod wc_mp_int_lcm wc_mp_int_divisible_value wc_mp_int_is_pow2 wc_mp_int_root wc_mp_int_to_string wc_mp_int_count_bits wc_mp_int_string_len wc_mp_int_read_cstring wc_mp_int_read_string wc_mp_int_to_binary wc_mp_int_to_unsigned wc_mp_int_read_binary wc_mp_int_read_unsigned wc_mp_int_unsigned_len wc_mp_int_binary_len wc_mp_int_mod_value wc_mp_int_sqrt : wcc.
#[local] Hint Extern 1 => match goal with H : forall o, o ∈ _ -> ?P o |- ?P _ => apply H; cbn [fst]; set_solver end : wcc.
#[local] Hint Extern 0 => assumption : wcc.
#[local] Hint Extern 1 (ow _ _ _) => match goal with H : false = false -> _ |- _ => apply (H eq_refl); set_solver end : wcc.
#[local] Hint Extern 1 (owo _ _ _) => match goal with H : forall q, false = false -> _ |- _ => apply (H _ eq_refl); set_solver end : wcc.
Lemma call_ww (LO : oid -> Prop) (LB : base -> Prop) (HS : forall o, LO o -> LB (Sng o)) (Cl : oid -> Prop) c :
  (forall o, o ∈ outputs c -> LO o) -> (makes c = false -> forall o, o ∈ outputs c -> Cl o) -> (forall b, b ∈ written c -> LB b) -> tunes c = false ->
  ww LO LB Cl (do_call c) (fun _ _ => True).
Proof.
  intros H1 H2 H3 H4.
  assert (Fin : forall {A} (p : prog A) (g : A -> answer), wx LO LB Cl Cl p (fun _ => True) -> ww LO LB Cl (r <- p; Ret (g r)) (fun _ _ => True)).
  { intros A p g Hp. apply ww_bind. eapply ww_mono; [exact Hp|]. done. }
  assert (Ho : makes c = false -> forall o, o ∈ outputs c -> ow LO Cl o) by (intros; split; auto).
  assert (Hoo : forall q, makes c = false -> (forall o, o ∈ out_opt q -> o ∈ outputs c) -> owo LO Cl q) by (intros [q|] Hm Hq; [apply Ho; [done|apply Hq; set_solver]|done]).
  clear H2. destruct c; cbn [do_call makes written outputs tunes] in *; try discriminate H4.
  all: lazymatch goal with
    | |- ww _ _ _ (bind (mp_int_free ?o) _) _ => apply ww_bind; eapply ww_mono; [apply wc_mp_int_free; apply Ho; [done|set_solver]|done]
    | |- _ => apply Fin; solve [eauto 3 with wcc nocore]
    end.
Qed.

(** ** A thread *)
Definition tinv (I : gset oid) (Bt B : gset base) (v : state) (T : store) : Prop :=
  shows v T /\ (forall o, o ∈ I -> is_Some (ints T !! o)) /\ (forall b, b ∈ Bt -> is_Some (text T !! b)) /\
  (forall b, b ∈ B -> b ∈ Bt \/ exists o, o ∈ I /\ block_of v o = Some b).
Definition clean (I : gset oid) (T : store) (o : oid) : Prop := o ∉ I /\ (has T o \/ raws T !! o = Some true).

Lemma holds_block st o b v : holds st o b v -> block_of st o = Some b.
Proof. intros (al & us & sg & ds & rs & H & _). unfold block_of. by rewrite H. Qed.
Lemma holds_mem st o b v : holds st o b v -> is_Some (objs st !! o) /\ is_Some (mem st !! b).
Proof. intros (al & us & sg & ds & rs & H & H2 & _). rewrite H, H2. eauto. Qed.
Lemma block_obj st o z q : objs st !! o = Some z -> digits z = Some q -> block_of st o = Some q.1.
Proof. intros H1 H2. unfold block_of. by rewrite H1, H2. Qed.

Lemma tinv_alive I Bt B v T : tinv I Bt B v T -> alive I B v.
Proof.
  intros ((W & HR & Ht & _) & H1 & H2 & H3). assert (Hobj : forall o, o ∈ I -> is_Some (objs v !! o)).
  { intros o Ho. destruct (H1 o Ho) as [x Hx]. destruct (rep_holds _ _ _ HR _ _ Hx) as (b & Hb & _). apply (holds_mem _ _ _ _ Hb). }
  split; [done|]. intros b Hb. assert (Hsng : forall o, o ∈ I -> is_Some (mem v !! Sng o)). { intros o Ho. destruct (rep_sng _ _ _ HR _ (Hobj _ Ho)) as [c Hc]. eauto. }
  assert (HB : b ∈ B -> is_Some (mem v !! b)).
  { intros HB. destruct (H3 b HB) as [Hbt|(o & Ho & Hbo)].
    - destruct (H2 b Hbt) as [l Hl]. exists l. apply (rep_bufs _ _ _ HR). by rewrite Ht.
    - destruct (H1 o Ho) as [x Hx]. destruct (rep_holds _ _ _ HR _ _ Hx) as (b' & Hb' & _). rewrite (holds_block _ _ _ _ Hb') in Hbo. injection Hbo as ->. apply (holds_mem _ _ _ _ Hb'). }
  destruct b; simpl in Hb; auto.
Qed.
Lemma tinv_shared_block I Bt B v T o x b : tinv I Bt B v T -> ints T !! o = Some x -> block_of v o = Some b -> shared I B b -> o ∈ I.
Proof.
  intros ((W & HR & Ht & _) & H1 & H2 & H3) Ho Hb Hs. destruct (rep_holds _ _ _ HR _ _ Ho) as (b' & Hb' & Hloc). rewrite (holds_block _ _ _ _ Hb') in Hb. injection Hb as ->.
  destruct Hloc as [->|[n ->]]; [done|]. simpl in Hs. destruct (H3 _ Hs) as [Hbt|(o' & Ho' & Hbo')].
  - destruct (H2 _ Hbt) as [l Hl]. destruct (rep_bufs_apart _ _ _ HR (Hp n) l o x) as [N _]; [by rewrite Ht|done|]. by rewrite (holds_block _ _ _ _ Hb') in N.
  - destruct (H1 _ Ho') as [x' Hx']. by rewrite (rep_apart _ _ _ HR o o' x x') by (try done; by rewrite (holds_block _ _ _ _ Hb')).
Qed.
Lemma tinv_shared_text I Bt B v T b : tinv I Bt B v T -> is_Some (text T !! b) -> shared I B b -> b ∈ Bt.
Proof.
  intros ((W & HR & Ht & _) & H1 & H2 & H3) [l Hb] Hs. rewrite <- Ht in Hb. assert (HB : b ∈ B) by (destruct b; [by destruct (rep_bufs_sng _ _ _ HR _ _ o Hb)|done|done]).
  destruct (H3 b HB) as [|(o & Ho & Hbo)]; [done|]. destruct (H1 o Ho) as [x Hx]. by destruct (rep_bufs_apart _ _ _ HR _ _ _ _ Hb Hx) as [N _].
Qed.
Lemma tinv_own I Bt B v T : tinv I Bt B v T -> own_ok I B (clean I T) v.
Proof.
  intros H. destruct (tinv_alive _ _ _ _ _ H) as [A1 A2]. split; [|by split]. intros o [No Ho]. destruct H as ((W & HR & Ht & Hr1 & Hr2 & Hd) & H1 & H2 & H3).
  destruct Ho as [[x Hx]|Hx].
  - destruct (rep_holds _ _ _ HR _ _ Hx) as (b & Hb & Hloc). destruct (holds_mem _ _ _ _ Hb) as [[z Hz] _]. exists z. split; [done|]. intros q Hq Hs. apply No.
    eapply (tinv_shared_block I Bt B v T); [split; [by exists W|by split_and!]|done|by eapply block_obj|done].
  - destruct (blanks W !! o) as [z|] eqn:E; [|apply Hr1 in E; congruence]. exists z. split; [|intros q Hq; by rewrite (Hr2 _ _ Hx E) in Hq].
    rewrite (rep_others _ _ _ HR); [done|]. destruct (ints T !! o) eqn:E2; [|done]. by rewrite (rep_blanks _ _ _ HR _ _ E2) in E.
Qed.
Lemma tinv_keeps I Bt B v T v' T' : tinv I Bt B v T -> keeps I B v v' -> shows v' T' -> (forall o, o ∈ I -> is_Some (ints T' !! o)) -> (forall b, b ∈ Bt -> is_Some (text T' !! b)) -> tinv I Bt B v' T'.
Proof.
  intros (_ & _ & _ & H3) (K1 & _ & _) HS H1 H2. split_and!; [done..|]. intros b Hb. destruct (H3 b Hb) as [|(o & Ho & Hbo)]; [by left|]. right. exists o. split; [done|].
  unfold block_of in *. by rewrite K1.
Qed.

Lemma legal_outputs c T : legal c T -> makes c = false -> forall o, o ∈ outputs c -> has T o \/ raws T !! o = Some true.
Proof.
  assert (Hopt : forall q o, has_opt T q -> o ∈ out_opt q -> has T o) by (intros [q|] o Hq Ho; simpl in *; [set_solver|set_solver]).
  intros HL Hm o Ho. destruct c; cbn [legal makes outputs] in *; try discriminate Hm; repeat match goal with H : _ /\ _ |- _ => destruct H end;
    rewrite ?elem_of_cons, ?elem_of_app, ?elem_of_nil in Ho; naive_solver.
Qed.
Lemma effect_keeps_text c S r S' b l : effect c S r S' -> text S !! b = Some l -> b ∉ written c -> text S' !! b = Some l.
Proof.
  intros He Hb N. destruct c; cbn [effect written] in *; repeat match goal with
   | H : if ?b then _ else _ |- _ => destruct b
   | H : _ /\ _ |- _ => destruct H
   | H : _ \/ _ |- _ => destruct H
   | H : exists _, _ |- _ => destruct H
   end; subst S'; try done; cbn [text put_text]; rewrite lookup_insert_ne; try done; set_solver.
Qed.

Lemma legal_written c T b : legal c T -> b ∈ written c -> is_Some (text T !! b).
Proof.
  intros HL Hb. destruct c; cbn [written legal] in *; try (by apply elem_of_nil in Hb); apply elem_of_list_singleton in Hb as ->; destruct HL as (_ & HL); repeat match goal with H : _ /\ _ |- _ => destruct H | H : exists _, _ |- _ => destruct H end; eauto.
Qed.
Lemma call_shared I Bt B c v T : tinv I Bt B v T -> legal c T -> spares I Bt c ->
  wpw I B (do_call c) (fun r v' => exists T', effect c T r T' /\ tinv I Bt B v' T') v.
Proof.
  intros HT HL (P1 & P2 & P3). eapply wpw_mono.
  - apply wpw_keeps; [by eapply tinv_alive|]. eapply ww_wpw; [by eapply tinv_own| |].
    + apply (call_ww (fun o => o ∉ I) (fun b => ~ shared I B b)); [done|done| | |done].
      * intros Hm o Ho. split; [by apply P1|]. by eapply legal_outputs.
      * intros b Hb Hs. apply (P2 b Hb). destruct HT as ((W & HR & Ht & Hr) & H1 & H2 & H3). eapply (tinv_shared_text I Bt B v T); [split; [by exists W|by split_and!]| |done].
        by eapply legal_written.
    + eapply (one_call c v T (fun r v' => exists T', effect c T r T' /\ shows v' T')); [by apply shows_SH, HT|done|]. intros r T' v' He Hs. exists T'. split; [done|by apply shows_SH].
  - intros r v' [[(T' & He & Hs) _] HK]. exists T'. split; [done|]. eapply tinv_keeps; [exact HT|done|done| |].
    + intros o Ho. destruct HT as (_ & H1 & _). destruct (H1 o Ho) as [x Hx]. exists x. eapply effect_frame; [done|done|]. intros Hc. by apply (P1 o Hc).
    + intros b Hb. destruct HT as (_ & _ & H2 & _). destruct (H2 b Hb) as [x Hx]. exists x. eapply effect_keeps_text; [done|done|]. intros Hc. by apply (P2 b Hc).
Qed.

Theorem drive_shared I Bt B k v T : tinv I Bt B v T -> fair I Bt k T ->
  wpw I B (drive k) (fun h v' => exists T', history k T h T' /\ tinv I Bt B v' T') v.
Proof.
  revert v T. induction k as [|c k IH]; intros v T HT HF; cbn [drive].
  - exists T. split; [constructor|done].
  - destruct HF as (HL & HP & HF). apply wpw_bind. eapply wpw_mono; [by apply call_shared|]. intros r v' (T' & He & HT'). apply wpw_bind.
    eapply wpw_mono; [by apply IH, HF|]. intros h v2 (T2 & Hh & HT2). exists T2. split; [by econstructor|done].
Qed.
