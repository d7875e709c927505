(** Operands are only read: a program that may write only some structures and
    blocks.  [ww] checks this by following the pointers; [wpw] is [wp] with the
    check built in, and without changes to the tunables. *)
From Coq Require Import ZArith List Lia.
From stdpp Require Import gmap list.
From Verif Require Import Mem Prog MemLem Kern Wp.
Local Open Scope Z_scope.
Local Open Scope prog_scope.
Local Transparent wp bind.
Local Arguments bind {A B} !p f : simpl nomatch.
Local Arguments wp {A} !p Q st.

(** What is shared, and hence not to be written: the structures [O] (with their
    one-digit buffers) and the blocks [B]. *)
Definition shared (O : gset oid) (B : gset base) (b : base) : Prop :=
  match b with Sng o => o ∈ O | _ => b ∈ B end.

Fixpoint wpw (O : gset oid) (B : gset base) {A} (p : prog A) (Q : A -> state -> Prop) (st : state) : Prop :=
  match p with
  | Ret a => Q a st
  | Peek p k => match load (mem st) p with Some c => wpw O B (k c) Q st | None => False end
  | Poke p c k =>
      match load (mem st) p with
      | Some _ => ~ shared O B p.1 /\ wpw O B k Q (set_mem st (store (mem st) p c))
      | None => False
      end
  | GetO o k => match objs st !! o with Some z => wpw O B (k z) Q st | None => False end
  | SetO o z k =>
      match objs st !! o with
      | Some _ => o ∉ O /\ wpw O B k Q (set_objs st (<[o := z]> (objs st)))
      | None => False
      end
  | NewO k => forall z n, let o := (false, n) in fresh_obj st o -> o ∉ O -> wpw O B (k o) Q (add_obj st o z)
  | DelO o k =>
      match objs st !! o with
      | Some _ => o ∉ O /\ o.1 = false /\ wpw O B k Q (del_obj st o)
      | None => False
      end
  | MallocO k =>
      wpw O B (k None) Q st /\
      (forall z n, let o := (true, n) in fresh_obj st o -> o ∉ O -> wpw O B (k (Some o)) Q (add_obj st o z))
  | FreeO o k =>
      match objs st !! o with
      | Some _ => o ∉ O /\ o.1 = true /\ wpw O B k Q (del_obj st o)
      | None => False
      end
  | Malloc n k =>
      (at_null n (k None) \/ wpw O B (k None) Q st) /\
      (0 <= n <= MAXD -> forall i, let b := Hp i in mem st !! b = None -> ~ shared O B b ->
       wpw O B (k (Some (b, 0))) Q (add_block st b (blank n)))
  | Realloc p n k =>
      match live_heap st p with
      | Some l =>
          ~ shared O B p.1 /\
          (at_null n (k None) \/ wpw O B (k None) Q st) /\
          (0 <= n <= MAXD -> forall i, let b := Hp i in mem (del_block st p.1) !! b = None -> ~ shared O B b ->
           wpw O B (k (Some (b, 0))) Q (add_block (del_block st p.1) b (resize_cells l n)))
      | None => False
      end
  | Free p k =>
      match live_heap st p with
      | Some _ => ~ shared O B p.1 /\ wpw O B k Q (del_block st p.1)
      | None => False
      end
  | NewE n k =>
      forall i, let b := Ext i in mem st !! b = None -> ~ shared O B b ->
      wpw O B (k (b, 0)) Q (add_block st b (replicate n None))
  | DelE p k =>
      match p.1, mem st !! p.1 with
      | Ext _, Some _ => ~ shared O B p.1 /\ wpw O B k Q (del_block st p.1)
      | _, _ => False
      end
  | GetG k => wpw O B (k (glob st)) Q st
  | SetG g k => False
  | Assert a b k => b = true /\ wpw O B k Q st
  | Undef => False
  | NoFuel => False
  end.

Lemma wpw_mono O B {A} (p : prog A) (Q Q' : A -> state -> Prop) st :
  wpw O B p Q st -> (forall a st', Q a st' -> Q' a st') -> wpw O B p Q' st.
Proof.
  intros Hw HQ. revert st Hw.
  induction p; cbn [wpw]; intros st Hw; repeat case_match; try naive_solver.
Qed.
Lemma wpw_bind O B {A C} (p : prog A) (f : A -> prog C) Q st :
  wpw O B p (fun a st' => wpw O B (f a) Q st') st -> wpw O B (bind p f) Q st.
Proof.
  revert st. induction p; cbn [wpw bind]; intros st Hw; repeat case_match; try naive_solver.
  all: first [destruct Hw as [[Hw|Hw] Hw2]; (split; [|by auto]); [left; by apply at_null_bind|right; by auto]
    |destruct Hw as [Hs [[Hw|Hw] Hw2]]; (split; [done|]; split; [|by auto]); [left; by apply at_null_bind|right; by auto]].
Qed.

(** ** The check *)
Section check.
Context (LO : oid -> Prop) (LB : base -> Prop).
Definition wdig (z : mpz) : Prop := forall q, digits z = Some q -> LB q.1.
(** [Cl]: structures whose digits may be written. *)
Fixpoint ww {A} (Cl : oid -> Prop) (p : prog A) (Φ : (oid -> Prop) -> A -> Prop) : Prop :=
  match p with
  | Ret a => Φ Cl a
  | Peek _ k => forall c, ww Cl (k c) Φ
  | Poke q _ k => LB q.1 /\ ww Cl k Φ
  | GetO o k => forall z, (Cl o -> wdig z) -> ww Cl (k z) Φ
  | SetO o z k => LO o /\ ww (fun x => (x <> o /\ Cl x) \/ (x = o /\ wdig z)) k Φ
  | NewO k => forall o, LO o -> ~ Cl o -> ww Cl (k o) Φ
  | DelO o k | FreeO o k => LO o /\ ww (fun x => x <> o /\ Cl x) k Φ
  | MallocO k => ww Cl (k None) Φ /\ forall o, LO o -> ~ Cl o -> ww Cl (k (Some o)) Φ
  | Malloc n k => ww Cl (k None) Φ /\ forall q, LB q.1 -> ww Cl (k (Some q)) Φ
  | Realloc p n k => LB p.1 /\ ww Cl (k None) Φ /\ forall q, LB q.1 -> ww Cl (k (Some q)) Φ
  | Free p k | DelE p k => LB p.1 /\ ww Cl k Φ
  | NewE n k => forall q, LB q.1 -> ww Cl (k q) Φ
  | GetG k => forall g, ww Cl (k g) Φ
  | SetG _ _ => False
  | Assert a b k => b = true -> ww Cl k Φ
  | Undef | NoFuel => True
  end.
Lemma ww_mono {A} Cl (p : prog A) (Φ Φ' : (oid -> Prop) -> A -> Prop) : ww Cl p Φ -> (forall Cl' a, Φ Cl' a -> Φ' Cl' a) -> ww Cl p Φ'.
Proof. intros H HΦ. revert Cl H. induction p; intros Cl; cbn [ww]; try naive_solver. Qed.
Lemma ww_bind {A C} Cl (p : prog A) (f : A -> prog C) Φ : ww Cl p (fun Cl' a => ww Cl' (f a) Φ) -> ww Cl (bind p f) Φ.
Proof. revert Cl. induction p; intros Cl; cbn [ww bind]; try naive_solver. Qed.
End check.

(** A checked program writes nothing shared. *)
Definition own_ok (O : gset oid) (B : gset base) (Cl : oid -> Prop) (st : state) : Prop :=
  (forall o, Cl o -> exists z, objs st !! o = Some z /\ wdig (fun b => ~ shared O B b) z) /\
  (forall o, o ∈ O -> is_Some (objs st !! o)) /\ (forall b, shared O B b -> is_Some (mem st !! b)).
Lemma own_ok_block O B Cl st m : own_ok O B Cl st -> (forall b, shared O B b -> is_Some (m !! b)) -> own_ok O B Cl (set_mem st m).
Proof. by intros (H1 & H2 & H3) Hm. Qed.
Lemma own_ok_del O B Cl st b : own_ok O B Cl st -> ~ shared O B b -> own_ok O B Cl (del_block st b).
Proof. intros H Hb. apply own_ok_block; [done|]. intros b' Hb'. rewrite lookup_delete_ne by (by intros ->). by apply H. Qed.
Lemma own_ok_add O B Cl st b l : own_ok O B Cl st -> own_ok O B Cl (add_block st b l).
Proof.
  intros H. apply own_ok_block; [done|]. intros b' Hb'. destruct (decide (b = b')) as [->|N]; [by rewrite lookup_insert|rewrite lookup_insert_ne by done]. by apply H.
Qed.
Lemma own_ok_newo O B Cl st o z : own_ok O B Cl st -> fresh_obj st o -> own_ok O B Cl (add_obj st o z).
Proof.
  intros (H1 & H2 & H3) [F1 F2]. split_and!; simpl.
  - intros o' Ho'. destruct (H1 _ Ho') as (z' & Hz & Hd). exists z'. split; [|done]. rewrite lookup_insert_ne; [done|]. intros ->. congruence.
  - intros o' Ho'. destruct (decide (o = o')) as [->|N]; [by rewrite lookup_insert|rewrite lookup_insert_ne by done]. by apply H2.
  - intros b' Hb'. destruct (decide (Sng o = b')) as [->|N]; [by rewrite lookup_insert|rewrite lookup_insert_ne by done]. by apply H3.
Qed.
Lemma own_ok_delo O B Cl st o : own_ok O B Cl st -> o ∉ O -> own_ok O B (fun x => x <> o /\ Cl x) (del_obj st o).
Proof.
  intros (H1 & H2 & H3) F. split_and!; simpl.
  - intros o' [N Ho']. destruct (H1 _ Ho') as (z' & Hz & Hd). exists z'. split; [|done]. by rewrite lookup_delete_ne by done.
  - intros o' Ho'. rewrite lookup_delete_ne by (by intros ->). by apply H2.
  - intros b' Hb'. rewrite lookup_delete_ne; [by apply H3|]. intros <-. done.
Qed.
Lemma own_ok_fresh O B Cl st o : own_ok O B Cl st -> fresh_obj st o -> o ∉ O /\ ~ Cl o.
Proof.
  intros (H1 & H2 & H3) [F1 F2]. split; intros Ho.
  - destruct (H2 _ Ho). congruence.
  - destruct (H1 _ Ho) as (? & ? & _). congruence.
Qed.
Lemma ww_wpw {A} O B (p : prog A) Cl Φ Q st : own_ok O B Cl st -> ww (fun o => o ∉ O) (fun b => ~ shared O B b) Cl p Φ -> wp p Q st ->
  wpw O B p (fun a st' => Q a st' /\ exists Cl', own_ok O B Cl' st' /\ Φ Cl' a) st.
Proof.
  revert Cl st. induction p as [a|p k IH|p c k IH|o k IH|o z k IH|k IH|o k IH|k IH|o k IH
    |n k IH|p n k IH|p k IH|n k IH|p k IH|k IH|g k IH|a b k IH| |]; intros Cl st HI; cbn [ww wp wpw]; intros HW HP.
  - eauto.
  - destruct (load _ _); [|done]. eauto.
  - destruct HW as [H1 H2]. destruct (load _ _) eqn:El; [|done]. split; [done|]. eapply IH; [|done..]. apply own_ok_block; [done|].
    intros b' Hb'. unfold store. rewrite lookup_alter_ne by (by intros <-). by apply HI.
  - destruct (objs st !! o) eqn:E; [|done]. apply (IH _ Cl); [done| |done]. apply HW. intros Ho. destruct HI as [H1 _]. destruct (H1 _ Ho) as (z1 & Hz1 & Hd1). rewrite E in Hz1. by injection Hz1 as ->.
  - destruct HW as [Ho HW]. destruct (objs st !! o) eqn:E; [|done]. split; [done|]. eapply IH; [|done..].
    destruct HI as (H1 & H2 & H3). split_and!; simpl; [|intros o' Ho'; destruct (decide (o = o')) as [->|N]; [by rewrite lookup_insert|rewrite lookup_insert_ne by done; by apply H2]|done].
    intros o' [[N Ho']|[-> Hz]]; [rewrite lookup_insert_ne by done; by apply H1|rewrite lookup_insert; eauto].
  - intros z n Hf _. destruct (own_ok_fresh _ _ _ _ _ HI Hf) as [F1 F2]. apply (IH _ Cl); [by apply own_ok_newo|by apply HW|by apply HP].
  - destruct HW as [Ho HW]. destruct (objs st !! o) eqn:E; [|done]. destruct HP as [H1 HP]. split; [done|]. split; [done|]. eapply IH; [|done..]. by apply own_ok_delo.
  - destruct HW as [W1 W2], HP as [P1 P2]. split; [by eapply IH|]. intros z n Hf _. destruct (own_ok_fresh _ _ _ _ _ HI Hf) as [F1 F2]. apply (IH _ Cl); [by apply own_ok_newo|by apply W2|by apply P2].
  - destruct HW as [Ho HW]. destruct (objs st !! o) eqn:E; [|done]. destruct HP as [H1 HP]. split; [done|]. split; [done|]. eapply IH; [|done..]. by apply own_ok_delo.
  - destruct HW as [W1 W2], HP as [P1 P2]. split; [destruct P1 as [P1|P1]; [by left|right; by eapply IH]|]. intros Hn i Hi Hs. apply (IH _ Cl); [by apply own_ok_add|by apply W2|by apply P2].
  - destruct HW as (W0 & W1 & W2). destruct (live_heap _ _); [|done]. destruct HP as [P1 P2]. split; [done|]. split; [destruct P1 as [P1|P1]; [by left|right; by eapply IH]|].
    intros Hn i Hi Hs. apply (IH _ Cl); [by apply own_ok_add, own_ok_del|by apply W2|by apply P2].
  - destruct HW as [W0 HW]. destruct (live_heap _ _); [|done]. split; [done|]. eapply IH; [|done..]. by apply own_ok_del.
  - intros i Hi Hs. apply (IH _ Cl); [by apply own_ok_add|by apply HW|by apply HP].
  - destruct HW as [W0 HW]. repeat case_match; try done. split; [done|]. eapply IH; [|done..]. by apply own_ok_del.
  - by eapply IH.
  - done.
  - destruct HP as [-> HP]. split; [done|]. eapply IH; eauto.
  - done.
  - done.
Qed.
