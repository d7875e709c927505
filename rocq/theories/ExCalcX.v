(** Weakest preconditions for environments that grant structures. *)
From Coq Require Import ZArith Znumtheory List Lia String Ascii.
From stdpp Require Import gmap list.
From Verif Require Import Mem Prog Kern Fp Imath Imrat Gmp Wp MemLem Dig KernLem Rel RelWp RelZ Life Basic Basic2 Mult Shift Knuth Divi Powr Spec SpecBin Public Gcd Root Exptmod Buf Text Read Outlen Inlen Bin Rat RatText Gmpr Hist.
From Verif Require Import Rsa Rsamath SpecGalloc Galloc Iprime ExPiR SpecKey ExRsakeyR.
Local Open Scope Z_scope.
Local Open Scope prog_scope.
Local Open Scope list_scope.
Local Ltac wb := apply wp_bind.

(** ** Structures that are granted *)
Definition grants_structs (orc : oracle) : Prop := forall t, grants orc t 0 = true.
(** [wp], and with [s = false] only for oracles that never refuse a structure. *)
Fixpoint wpx {A} (s : bool) (p : prog A) (Q : A -> state -> Prop) (st : state) : Prop :=
  match p with
  | MallocO k => (s = true -> wpx s (k None) Q st) /\ (forall z n, let o := (true, n) in fresh_obj st o -> wpx s (k (Some o)) Q (add_obj st o z))
  | Ret a => Q a st
  | Peek p k => match load (mem st) p with Some c => wpx s (k c) Q st | None => False end
  | Poke p c k => match load (mem st) p with Some _ => wpx s k Q (Mem.set_mem st (store (mem st) p c)) | None => False end
  | GetO o k => match objs st !! o with Some z => wpx s (k z) Q st | None => False end
  | SetO o z k => match objs st !! o with Some _ => wpx s k Q (set_objs st (<[o := z]> (objs st))) | None => False end
  | NewO k => forall z n, let o := (false, n) in fresh_obj st o -> wpx s (k o) Q (add_obj st o z)
  | DelO o k => match objs st !! o with Some _ => o.1 = false /\ wpx s k Q (del_obj st o) | None => False end
  | FreeO o k => match objs st !! o with Some _ => o.1 = true /\ wpx s k Q (del_obj st o) | None => False end
  | Malloc n k => (at_null n (k None) \/ wpx s (k None) Q st) /\
      (0 <= n <= MAXD -> forall i, let b := Hp i in mem st !! b = None -> wpx s (k (Some (b, 0))) Q (add_block st b (blank n)))
  | Realloc p n k => match live_heap st p with
      | Some l => (at_null n (k None) \/ wpx s (k None) Q st) /\
          (0 <= n <= MAXD -> forall i, let b := Hp i in mem (del_block st p.1) !! b = None -> wpx s (k (Some (b, 0))) Q (add_block (del_block st p.1) b (resize_cells l n)))
      | None => False
      end
  | Free p k => match live_heap st p with Some _ => wpx s k Q (del_block st p.1) | None => False end
  | NewE n k => forall i, let b := Ext i in mem st !! b = None -> wpx s (k (b, 0)) Q (add_block st b (replicate n None))
  | DelE p k => match p.1, mem st !! p.1 with Ext _, Some _ => wpx s k Q (del_block st p.1) | _, _ => False end
  | GetG k => wpx s (k (glob st)) Q st
  | SetG g k => wpx s k Q (set_glob st g)
  | Assert a b k => b = true /\ wpx s k Q st
  | Undef => False
  | NoFuel => False
  end.
Local Transparent wp bind.
Local Arguments bind {A B} !p f : simpl nomatch.
Local Arguments wp {A} !p Q st.
Theorem wpx_sound {A} s (p : prog A) Q st : wpx s p Q st -> forall orc t, (s = false -> grants_structs orc) -> ends_in orc t Q (run true orc p t st).
Proof.
  revert st. induction p as [a|p k IH|p c k IH|o k IH|o z k IH|k IH|o k IH|k IH|o k IH
    |n k IH|p n k IH|p k IH|n k IH|p k IH|k IH|g k IH|a b k IH| |]; cbn [wpx run]; intros st Hw orc t HG;
    try done; repeat case_match; try done; try (by apply IH); try (by apply IH; [apply Hw|done]); try (by destruct Hw as [Hw ?]; subst; try discriminate Hw; try congruence).
  - apply ends_in_later, IH; [|done]. apply Hw, pick_obj_fresh.
  - apply ends_in_later, IH; [|done]. apply Hw, pick_obj_fresh.
  - apply ends_in_later, IH; [|done]. apply Hw. destruct s; [done|]. rewrite HG in H; done.
  - destruct Hw as [_ Hw]. apply ends_in_later, IH; [|done]. apply Hw; [|apply pick_hp_fresh]. unfold granted in *. rewrite !andb_true_iff, !Z.leb_le in *. lia.
  - destruct Hw as [[Hw|Hw] _]; [|eauto using ends_in_later]. rewrite (at_null_run _ _ orc (S t) st Hw). cbn. by exists t.
  - destruct Hw as [_ Hw]. apply ends_in_later, IH; [|done]. apply Hw; [|apply pick_hp_fresh]. unfold granted in *. rewrite !andb_true_iff, !Z.leb_le in *. lia.
  - destruct Hw as [[Hw|Hw] _]; [|eauto using ends_in_later]. rewrite (at_null_run _ _ orc (S t) st Hw). cbn. by exists t.
  - apply IH; [|done]. apply Hw, pick_ext_fresh.
Qed.
Lemma wpx_bind {A B} s (p : prog A) (f : A -> prog B) Q st : wpx s p (fun a st' => wpx s (f a) Q st') st -> wpx s (bind p f) Q st.
Proof.
  revert st. induction p; cbn [wpx bind]; intros st Hw; repeat case_match; try naive_solver.
  all: first [destruct Hw as [[Hw|Hw] Hw2]; (split; [|by auto]); [left; by apply at_null_bind|right; by auto]|destruct Hw as [Hw1 Hw2]; split; [intros E; by apply H, Hw1|intros z n o F; by apply H, Hw2]].
Qed.
Lemma wpx_mono {A} s (p : prog A) (Q Q' : A -> state -> Prop) st : wpx s p Q st -> (forall a st', Q a st' -> Q' a st') -> wpx s p Q' st.
Proof. intros Hw HQ. revert st Hw. induction p; cbn [wpx]; intros st Hw; repeat case_match; try naive_solver. Qed.
Lemma wp_wpx {A} s (p : prog A) Q st : wp p Q st -> wpx s p Q st.
Proof. revert st. induction p; cbn [wp wpx]; intros st Hw; repeat case_match; try naive_solver. Qed.
Lemma wpx_ret {A} s (a : A) (Q : A -> state -> Prop) st : Q a st -> wpx s (Ret a) Q st. Proof. done. Qed.
Global Opaque wp bind wpx.

Local Transparent wpx.
Lemma wpx_alloc st V X s (Q : option oid -> state -> Prop) : RV st V X -> (s = true -> Q None st) ->
  (forall o st', o.1 = true -> V !! o = None -> craw X !! o = None -> RV st' (<[o := 0]> V) X -> Q (Some o) st') -> wpx s mp_int_alloc Q st.
Proof.
  intros (ζ & HZ & Hv) HQ0 HQ. unfold mp_int_alloc. cbn [wpx]. split; [exact HQ0|]. intros z iz Fz. destruct (RZ_newO st ζ X true z _ HZ Fz) as (H1 & H2 & H3). set (t := (true, iz)) in *. apply wp_wpx.
  wb. eapply wpZ_init; [exact H3|simpl; apply lookup_insert|]. intros st1 _ HZ1. simpl in HZ1. rewrite delete_insert in HZ1 by done. apply wp_ret. apply HQ; [done|by eapply relv_none'|done|]. eexists. split; [destruct X; exact HZ1|]. by apply relv_ins.
Qed.
Lemma wpx_assert s {A} a b (k : prog A) Q st : b = true -> wpx s k Q st -> wpx s (Assert a b k) Q st.
Proof. intros -> H. by split. Qed.
Local Opaque wpx.
