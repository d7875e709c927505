(** Weakest preconditions for the asserting build, and their soundness with
    respect to [run]. *)
From Coq Require Import ZArith List Lia.
From stdpp Require Import gmap list.
From Verif Require Import Mem Prog MemLem Kern.
Local Open Scope Z_scope.

(** The program is at a failing [assert(out != NULL)] for a request of [n] digits. *)
Definition at_null {A} (n : Z) (p : prog A) : Prop :=
  match p with Assert (ANull n') false _ => n' = n | _ => False end.

Fixpoint wp {A} (p : prog A) (Q : A -> state -> Prop) (st : state) : Prop :=
  match p with
  | Ret a => Q a st
  | Peek p k =>
      match load (mem st) p with Some c => wp (k c) Q st | None => False end
  | Poke p c k =>
      match load (mem st) p with
      | Some _ => wp k Q (set_mem st (store (mem st) p c))
      | None => False
      end
  | GetO o k => match objs st !! o with Some z => wp (k z) Q st | None => False end
  | SetO o z k =>
      match objs st !! o with
      | Some _ => wp k Q (set_objs st (<[o := z]> (objs st)))
      | None => False
      end
  | NewO k => forall z n, let o := (false, n) in fresh_obj st o -> wp (k o) Q (add_obj st o z)
  | DelO o k =>
      match objs st !! o with
      | Some _ => o.1 = false /\ wp k Q (del_obj st o)
      | None => False
      end
  | MallocO k =>
      wp (k None) Q st /\
      (forall z n, let o := (true, n) in fresh_obj st o -> wp (k (Some o)) Q (add_obj st o z))
  | FreeO o k =>
      match objs st !! o with
      | Some _ => o.1 = true /\ wp k Q (del_obj st o)
      | None => False
      end
  | Malloc n k =>
      (at_null n (k None) \/ wp (k None) Q st) /\
      (0 <= n <= MAXD ->
       forall i, let b := Hp i in mem st !! b = None ->
       wp (k (Some (b, 0))) Q (add_block st b (blank n)))
  | Realloc p n k =>
      match live_heap st p with
      | Some l =>
          (at_null n (k None) \/ wp (k None) Q st) /\
          (0 <= n <= MAXD ->
           forall i, let b := Hp i in mem (del_block st p.1) !! b = None ->
           wp (k (Some (b, 0))) Q (add_block (del_block st p.1) b (resize_cells l n)))
      | None => False
      end
  | Free p k =>
      match live_heap st p with
      | Some _ => wp k Q (del_block st p.1)
      | None => False
      end
  | NewE n k =>
      forall i, let b := Ext i in mem st !! b = None ->
      wp (k (b, 0)) Q (add_block st b (replicate n None))
  | DelE p k =>
      match p.1, mem st !! p.1 with
      | Ext _, Some _ => wp k Q (del_block st p.1)
      | _, _ => False
      end
  | GetG k => wp (k (glob st)) Q st
  | SetG g k => wp k Q (set_glob st g)
  | Assert a b k => b = true /\ wp k Q st
  | Undef => False
  | NoFuel => False
  end.

(** The run ends normally with [Q], or aborts in [assert(out != NULL)] because
    the environment refused an allocation; no other assertion fails, and nothing
    undefined happens. *)
Definition ends_in {A} (orc : oracle) (t : nat) (Q : A -> state -> Prop) (r : outcome A) : Prop :=
  match r with
  | Done a st _ => Q a st
  | OOM n => exists t', (t <= t')%nat /\ granted orc t' n = false
  | AssertFail | UB | OutOfFuel => False
  end.

Lemma at_null_run {A} (p : prog A) n orc t st : at_null n p -> run true orc p t st = OOM n.
Proof. destruct p as [| | | | | | | | | | | | | | | |[] []| |]; try done. by intros ->. Qed.
Lemma at_null_bind {A B} n (p : prog A) (f : A -> prog B) : at_null n p -> at_null n (bind p f).
Proof. by destruct p as [| | | | | | | | | | | | | | | |[] []| |]. Qed.
Lemma at_null_none {A} n (k : prog A) : at_null n (Assert (ANull n) (bool_decide (is_Some (None : option ptr))) k).
Proof. by rewrite bool_decide_eq_false_2 by (by intros [? ?]). Qed.
Lemma ends_in_later {A} orc t (Q : A -> state -> Prop) r : ends_in orc (S t) Q r -> ends_in orc t Q r.
Proof. destruct r; simpl; try done. intros (t' & ? & ?). exists t'. split; [lia|done]. Qed.

Theorem wp_sound {A} (p : prog A) Q st :
  wp p Q st -> forall orc t, ends_in orc t Q (run true orc p t st).
Proof.
  revert st. induction p as [a|p k IH|p c k IH|o k IH|o z k IH|k IH|o k IH|k IH|o k IH
    |n k IH|p n k IH|p k IH|n k IH|p k IH|k IH|g k IH|a b k IH| |]; simpl; intros st Hw orc t;
    try done; repeat case_match; try done; simpl in *; try naive_solver.
  - apply ends_in_later, IH, Hw, pick_obj_fresh.
  - apply ends_in_later, IH, Hw, pick_obj_fresh.
  - apply ends_in_later, IH, Hw.
  - destruct Hw as [_ Hw]. apply ends_in_later, IH, Hw; [|apply pick_hp_fresh]. unfold granted in *.
    rewrite !andb_true_iff, !Z.leb_le in *. lia.
  - destruct Hw as [[Hw|Hw] _]; [|eauto using ends_in_later]. rewrite (at_null_run _ _ orc (S t) st Hw). simpl. by exists t.
  - destruct Hw as [_ Hw]. apply ends_in_later, IH, Hw; [|apply pick_hp_fresh]. unfold granted in *.
    rewrite !andb_true_iff, !Z.leb_le in *. lia.
  - destruct Hw as [[Hw|Hw] _]; [|eauto using ends_in_later]. rewrite (at_null_run _ _ orc (S t) st Hw). simpl. by exists t.
  - apply IH, Hw, pick_ext_fresh.
Qed.

Lemma wp_mono {A} (p : prog A) (Q Q' : A -> state -> Prop) st :
  wp p Q st -> (forall a st', Q a st' -> Q' a st') -> wp p Q' st.
Proof.
  intros Hw HQ. revert st Hw.
  induction p; simpl; intros st Hw; repeat case_match; try naive_solver.
Qed.

Lemma wp_bind {A B} (p : prog A) (f : A -> prog B) Q st :
  wp p (fun a st' => wp (f a) Q st') st -> wp (bind p f) Q st.
Proof.
  revert st. induction p; simpl; intros st Hw; repeat case_match; try naive_solver.
  all: destruct Hw as [[Hw|Hw] Hw2]; (split; [|by auto]); [left; by apply at_null_bind|right; by auto].
Qed.

Lemma wp_conj {A} (p : prog A) (Q Q' : A -> state -> Prop) st :
  wp p Q st -> wp p Q' st -> wp p (fun a st' => Q a st' /\ Q' a st') st.
Proof.
  revert st. induction p; simpl; intros st H1 H2; repeat case_match; try naive_solver.
Qed.

Lemma wp_ret {A} (a : A) (Q : A -> state -> Prop) st : Q a st -> wp (Ret a) Q st.
Proof. done. Qed.

Lemma wp_assert b (Q : unit -> state -> Prop) st : b = true -> Q tt st -> wp (assert b) Q st.
Proof. by intros. Qed.

Lemma wp_load p v (Q : Z -> state -> Prop) st :
  load (mem st) p = Some (Some v) -> Q v st -> wp (Load p) Q st.
Proof. intros H ?. simpl. by rewrite H. Qed.

Lemma wp_store p v c (Q : unit -> state -> Prop) st :
  load (mem st) p = Some c -> Q tt (set_mem st (store (mem st) p (Some v))) ->
  wp (Store p v) Q st.
Proof. intros H ?. simpl. by rewrite H. Qed.

Lemma wp_getO o z (Q : mpz -> state -> Prop) st :
  objs st !! o = Some z -> Q z st -> wp (getO o) Q st.
Proof. intros H ?. simpl. by rewrite H. Qed.

(** Loop rule: invariant [I] with a measure below 2^k. *)
Lemma wp_loopc {S R} (k : nat) (body : S -> prog (S + R)) (I : S -> state -> Prop)
    (mu : S -> state -> Z) (Q : R -> state -> Prop) :
  (forall s st, I s st ->
    wp (body s) (fun r st' => match r with
                              | inl s' => I s' st' /\ 0 <= mu s' st' < mu s st
                              | inr x => Q x st'
                              end) st) ->
  forall s st, I s st ->
  wp (loopc k body s) (fun r st' => match r with
                                    | inl s' => I s' st' /\ 0 <= mu s' st' /\ mu s' st' + 2 ^ Z.of_nat k <= mu s st
                                    | inr x => Q x st'
                                    end) st.
Proof.
  intros Hb. induction k as [|k IH]; intros s st Hs.
  - simpl loopc. eapply wp_mono; [apply Hb, Hs|]. intros [s'|x] st'; [|done].
    change (2 ^ Z.of_nat 0) with 1. intuition lia.
  - simpl loopc. apply wp_bind. eapply wp_mono; [apply IH, Hs|].
    intros [s'|x] st'; [|done]. intros (HI & Hm & Hlt).
    eapply wp_mono; [apply IH, HI|]. intros [s''|x] st''; [|done].
    rewrite Nat2Z.inj_succ, Z.pow_succ_r by lia. intuition lia.
Qed.

Lemma wp_loop {S R} (k : nat) (body : S -> prog (S + R)) (I : S -> state -> Prop)
    (mu : S -> state -> Z) (Q : R -> state -> Prop) s st :
  I s st -> mu s st < 2 ^ Z.of_nat k ->
  (forall s st, I s st ->
    wp (body s) (fun r st' => match r with
                              | inl s' => I s' st' /\ 0 <= mu s' st' < mu s st
                              | inr x => Q x st'
                              end) st) ->
  wp (loop k body s) Q st.
Proof.
  intros Hs Hm Hb. unfold loop. apply wp_bind.
  eapply wp_mono; [eapply (wp_loopc k body I mu Q); eauto|].
  intros [s'|x] st'; simpl; [|done]. intros (HI & H0 & Hl). lia.
Qed.

(** Rules for the primitive effects. *)
Section prims.
  Context {A : Type} (Q : A -> state -> Prop) (st : state).
  Lemma wp_Peek p c k : load (mem st) p = Some c -> wp (k c) Q st -> wp (Peek p k) Q st.
  Proof. intros H ?. simpl. by rewrite H. Qed.
  Lemma wp_Poke p c0 c k : load (mem st) p = Some c0 ->
    wp k Q (set_mem st (store (mem st) p c)) -> wp (Poke p c k) Q st.
  Proof. intros H ?. simpl. by rewrite H. Qed.
  Lemma wp_GetO o z k : objs st !! o = Some z -> wp (k z) Q st -> wp (GetO o k) Q st.
  Proof. intros H ?. simpl. by rewrite H. Qed.
  Lemma wp_SetO o z0 z k : objs st !! o = Some z0 ->
    wp k Q (set_objs st (<[o := z]> (objs st))) -> wp (SetO o z k) Q st.
  Proof. intros H ?. simpl. by rewrite H. Qed.
  Lemma wp_NewO k : (forall z n, fresh_obj st (false, n) -> wp (k (false, n)) Q (add_obj st (false, n) z)) ->
    wp (NewO k) Q st.
  Proof. intros ?. done. Qed.
  Lemma wp_DelO o z k : objs st !! o = Some z -> o.1 = false -> wp k Q (del_obj st o) ->
    wp (DelO o k) Q st.
  Proof. intros H ??. simpl. by rewrite H. Qed.
  Lemma wp_MallocO k : wp (k None) Q st ->
    (forall z n, fresh_obj st (true, n) -> wp (k (Some (true, n))) Q (add_obj st (true, n) z)) ->
    wp (MallocO k) Q st.
  Proof. intros ??. done. Qed.
  Lemma wp_FreeO o z k : objs st !! o = Some z -> o.1 = true -> wp k Q (del_obj st o) ->
    wp (FreeO o k) Q st.
  Proof. intros H ??. simpl. by rewrite H. Qed.
  Lemma wp_Malloc n k : at_null n (k None) \/ wp (k None) Q st ->
    (0 <= n <= MAXD -> forall i, mem st !! Hp i = None ->
       wp (k (Some (Hp i, 0))) Q (add_block st (Hp i) (blank n))) ->
    wp (Malloc n k) Q st.
  Proof. intros ??. done. Qed.
  Lemma wp_Realloc p l n k : live_heap st p = Some l -> at_null n (k None) \/ wp (k None) Q st ->
    (0 <= n <= MAXD -> forall i, mem (del_block st p.1) !! Hp i = None ->
       wp (k (Some (Hp i, 0))) Q (add_block (del_block st p.1) (Hp i) (resize_cells l n))) ->
    wp (Realloc p n k) Q st.
  Proof. intros H ??. simpl. by rewrite H. Qed.
  Lemma wp_Free p l k : live_heap st p = Some l -> wp k Q (del_block st p.1) -> wp (Free p k) Q st.
  Proof. intros H ?. simpl. by rewrite H. Qed.
  Lemma wp_NewE n k :
    (forall i, mem st !! Ext i = None -> wp (k (Ext i, 0)) Q (add_block st (Ext i) (replicate n None))) ->
    wp (NewE n k) Q st.
  Proof. done. Qed.
  Lemma wp_DelE n z l k : mem st !! Ext n = Some l -> wp k Q (del_block st (Ext n)) ->
    wp (DelE (Ext n, z) k) Q st.
  Proof. intros H ?. simpl. by rewrite H. Qed.
  Lemma wp_GetG k : wp (k (glob st)) Q st -> wp (GetG k) Q st.
  Proof. done. Qed.
  Lemma wp_SetG g k : wp k Q (set_glob st g) -> wp (SetG g k) Q st.
  Proof. done. Qed.
  Lemma wp_AssertN n b k : b = true -> wp k Q st -> wp (Assert (ANull n) b k) Q st.
  Proof. done. Qed.
  Lemma wp_Assert b k : b = true -> wp k Q st -> wp (Assert ALogic b k) Q st.
  Proof. done. Qed.
End prims.

Lemma wp_setO o z0 z (Q : unit -> state -> Prop) st :
  objs st !! o = Some z0 -> Q tt (set_objs st (<[o := z]> (objs st))) -> wp (setO o z) Q st.
Proof. intros H ?. unfold setO. eapply wp_SetO; [done|]. done. Qed.
Lemma wp_getG (Q : globals -> state -> Prop) st : Q (glob st) st -> wp getG Q st.
Proof. done. Qed.

Global Arguments wp : simpl never.
Global Arguments bind : simpl never.
Global Arguments Load : simpl never.
Global Arguments Store : simpl never.
Global Arguments getO : simpl never.
Global Arguments setO : simpl never.

(** ** Assertions do not change results *)
Theorem run_nd_agrees {A} (p : prog A) orc t st a st' t' :
  run true orc p t st = Done a st' t' -> run false orc p t st = Done a st' t'.
Proof.
  revert t st. induction p; simpl; intros t st0 Hr; repeat case_match; try done; eauto.
Qed.

Global Opaque wp bind Load Store getO setO getG assert.
Global Arguments w64 : simpl never.
Global Arguments u32 : simpl never.
Global Arguments UPPER_HALF : simpl never.
Global Arguments LOWER_HALF : simpl never.
Global Arguments HIGH_BIT_SET : simpl never.
Global Arguments ADD_WILL_OVERFLOW : simpl never.
Global Arguments Z.mul : simpl never.
Global Arguments Z.add : simpl never.
Global Arguments Z.sub : simpl never.
Global Arguments Z.opp : simpl never.
Global Arguments Z.pow : simpl never.
Global Arguments Z.div : simpl never.
Global Arguments Z.modulo : simpl never.
Global Arguments Z.of_nat : simpl never.
Global Arguments Z.to_nat : simpl never.
Global Arguments Z.shiftl : simpl never.
Global Arguments Z.shiftr : simpl never.
Global Arguments Z.lor : simpl never.
Global Arguments Z.land : simpl never.
Global Arguments Z.eqb : simpl never.
Global Arguments Z.ltb : simpl never.
Global Arguments Z.leb : simpl never.
Global Arguments Z.gtb : simpl never.
Global Arguments Z.geb : simpl never.
