(** The build with [DEBUG=1] follows the default build, but for lost blocks. *)
From Coq Require Import ZArith List Lia.
From stdpp Require Import gmap list.
From Verif Require Import Mem Prog MemLem Debug Wp Spec SpecDebug.
Local Open Scope Z_scope.
Local Transparent wp bind.
Local Arguments wp {A} !p Q st.

Lemma at_null_debug {A} (p : prog A) n orc t st : at_null n p -> run_debug orc p t st = OOM n.
Proof. destruct p as [| | | | | | | | | | | | | | | |[] []| |]; try done. by intros ->. Qed.
Lemma lost_refl st : with_lost st st. Proof. split_and!; try done. intros b l H1 H2. congruence. Qed.
Section lost.
Context (st sd : state) (HL : with_lost st sd).
Lemma lost_free b : mem sd !! b = None -> mem st !! b = None.
Proof. intros H. destruct (mem st !! b) eqn:E; [|done]. apply HL in E. congruence. Qed.
Lemma lost_load p c : load (mem st) p = Some c -> load (mem sd) p = Some c.
Proof. unfold load. destruct (Z.ltb _ _); [done|]. destruct (mem st !! p.1) as [l|] eqn:E; [|done]. by rewrite (proj1 (proj2 (proj2 HL)) _ _ E). Qed.
Lemma lost_ins b l : with_lost (add_block st b l) (add_block sd b l).
Proof.
  destruct HL as (H1 & H2 & H3 & H4). split_and!; try done; simpl; intros b' l'.
  - destruct (decide (b = b')) as [->|N]; [by rewrite !lookup_insert|]. rewrite !lookup_insert_ne by done. apply H3.
  - destruct (decide (b = b')) as [->|N]; [by rewrite !lookup_insert|]. rewrite !lookup_insert_ne by done. apply H4.
Qed.
Lemma lost_del b : with_lost (del_block st b) (del_block sd b).
Proof.
  destruct HL as (H1 & H2 & H3 & H4). split_and!; try done; simpl; intros b' l'.
  - destruct (decide (b = b')) as [->|N]; [by rewrite !lookup_delete|]. rewrite !lookup_delete_ne by done. apply H3.
  - destruct (decide (b = b')) as [->|N]; [by rewrite !lookup_delete|]. rewrite !lookup_delete_ne by done. apply H4.
Qed.
Lemma lost_grow b n l : mem sd !! Hp n = None -> with_lost (add_block (del_block st (Hp b)) (Hp n) l) (add_block sd (Hp n) l).
Proof.
  intros Hn. destruct HL as (H1 & H2 & H3 & H4). split_and!; try done; simpl; intros b' l'.
  - destruct (decide (Hp n = b')) as [<-|N]; [by rewrite !lookup_insert|]. rewrite !lookup_insert_ne by done. intros [_ H]%lookup_delete_Some. by apply H3.
  - destruct (decide (Hp n = b')) as [<-|N]; [by rewrite !lookup_insert|]. rewrite !lookup_insert_ne by done. intros H. rewrite lookup_delete_None. intros [<-|K]; [by exists b|by eapply H4].
Qed.
Lemma lost_store p c : with_lost (set_mem st (store (mem st) p c)) (set_mem sd (store (mem sd) p c)).
Proof.
  destruct HL as (H1 & H2 & H3 & H4). split_and!; try done; simpl; unfold store; intros b' l'.
  - destruct (decide (p.1 = b')) as [<-|N]; [|rewrite !lookup_alter_ne by done; apply H3]. rewrite !lookup_alter. intros (x & E & ->)%fmap_Some. by rewrite (H3 _ _ E).
  - destruct (decide (p.1 = b')) as [<-|N]; [|rewrite !lookup_alter_ne by done; apply H4]. rewrite !lookup_alter. intros (x & E & ->)%fmap_Some K. apply fmap_None in K. by eapply H4.
Qed.
Lemma lost_objs m : with_lost (set_objs st m) (set_objs sd m). Proof. destruct HL as (H1 & H2 & H3 & H4). by split_and!. Qed.
Lemma lost_glob g : with_lost (set_glob st g) (set_glob sd g). Proof. destruct HL as (H1 & H2 & H3 & H4). by split_and!. Qed.
Lemma lost_addo o z : with_lost (add_obj st o z) (add_obj sd o z).
Proof. destruct (lost_ins (Sng o) [None]) as (_ & _ & H3 & H4). destruct HL as (H1 & H2 & _). split_and!; try done; simpl; by rewrite H1. Qed.
Lemma lost_delo o : with_lost (del_obj st o) (del_obj sd o).
Proof. destruct (lost_del (Sng o)) as (_ & _ & H3 & H4). destruct HL as (H1 & H2 & _). split_and!; try done; simpl; by rewrite H1. Qed.
Lemma lost_fresh o : fresh_obj sd o -> fresh_obj st o.
Proof. intros [F1 F2]. split; [|by apply lost_free]. by rewrite <- (proj1 HL). Qed.
Lemma lost_live p l : live_heap st p = Some l -> live_heap sd p = Some l.
Proof. unfold live_heap. destruct p as [[] []]; try done. apply HL. Qed.
End lost.

Definition ends_debug {A} (orc : oracle) (t : nat) (Q : A -> state -> Prop) (r : outcome A) : Prop :=
  match r with Done a st' _ => exists st, Q a st /\ with_lost st st' | OOM n => exists t', (t <= t')%nat /\ granted orc t' n = false | _ => False end.
Lemma ends_debug_later {A} orc t (Q : A -> state -> Prop) r : ends_debug orc (S t) Q r -> ends_debug orc t Q r.
Proof. destruct r; simpl; try done. intros (t' & ? & ?). exists t'. split; [lia|done]. Qed.
Theorem wp_debug {A} (p : prog A) Q st sd : wp p Q st -> with_lost st sd -> forall orc t, ends_debug orc t Q (run_debug orc p t sd).
Proof.
  revert st sd. induction p as [a|p k IH|p c k IH|o k IH|o z k IH|k IH|o k IH|k IH|o k IH
    |n k IH|p n k IH|p k IH|n k IH|p k IH|k IH|g k IH|a b k IH| |]; cbn [wp run_debug]; intros st sd Hw HL orc t; try done.
  - by exists st.
  - destruct (load (mem st) p) as [c|] eqn:E; [|done]. rewrite (lost_load _ _ HL _ _ E). by eapply IH.
  - destruct (load (mem st) p) as [c0|] eqn:E; [|done]. rewrite (lost_load _ _ HL _ _ E). eapply IH; [exact Hw|by apply lost_store].
  - rewrite (proj1 HL). destruct (objs st !! o); [|done]. by eapply IH.
  - rewrite (proj1 HL). destruct (objs st !! o); [|done]. eapply IH; [exact Hw|by apply lost_objs].
  - apply ends_debug_later. eapply IH; [apply Hw; eapply lost_fresh; [exact HL|apply pick_obj_fresh]|by apply lost_addo].
  - rewrite (proj1 HL). destruct (objs st !! o); [|done]. destruct Hw as [-> Hw]. eapply IH; [exact Hw|by apply lost_delo].
  - destruct Hw as [Hw1 Hw2]. destruct (grants orc t 0); apply ends_debug_later.
    + eapply IH; [apply Hw2; eapply lost_fresh; [exact HL|apply pick_obj_fresh]|by apply lost_addo].
    + by eapply IH.
  - rewrite (proj1 HL). destruct (objs st !! o); [|done]. destruct Hw as [-> Hw]. eapply IH; [exact Hw|by apply lost_delo].
  - destruct Hw as [Hw1 Hw2]. destruct (granted orc t n) eqn:G.
    + apply ends_debug_later. eapply IH; [apply Hw2; [unfold granted in G; rewrite !andb_true_iff, !Z.leb_le in G; lia|eapply lost_free; [exact HL|apply pick_hp_fresh]]|by apply lost_ins].
    + destruct Hw1 as [Hw|Hw]; [|apply ends_debug_later; by eapply IH]. rewrite (at_null_debug _ _ orc (S t) sd Hw). simpl. by exists t.
  - destruct (live_heap st p) as [l|] eqn:E; [|done]. rewrite (lost_live _ _ HL _ _ E). destruct Hw as [Hw1 Hw2]. destruct (granted orc t n) eqn:G.
    + assert (exists b, p = (Hp b, 0)) as [b ->] by (unfold live_heap in E; destruct p as [[] []]; try done; by eexists).
      apply ends_debug_later. eapply IH; [|apply (lost_grow _ _ HL b); apply pick_hp_fresh]. apply Hw2; [unfold granted in G; rewrite !andb_true_iff, !Z.leb_le in G; lia|].
      simpl. rewrite lookup_delete_None. right. eapply lost_free; [exact HL|apply pick_hp_fresh].
    + destruct Hw1 as [Hw|Hw]; [|apply ends_debug_later; by eapply IH]. rewrite (at_null_debug _ _ orc (S t) sd Hw). simpl. by exists t.
  - destruct (live_heap st p) as [l|] eqn:E; [|done]. rewrite (lost_live _ _ HL _ _ E). eapply IH; [exact Hw|by apply lost_del].
  - eapply IH; [apply Hw; eapply lost_free; [exact HL|apply pick_ext_fresh]|by apply lost_ins].
  - destruct p as [b i]. simpl in *. destruct b; try done. destruct (mem st !! _) eqn:E; [|done]. rewrite (proj1 (proj2 (proj2 HL)) _ _ E). eapply IH; [exact Hw|by apply lost_del].
  - rewrite (proj1 (proj2 HL)). by eapply IH.
  - eapply IH; [exact Hw|by apply lost_glob].
  - destruct Hw as [-> Hw]. by eapply IH.
Qed.
Lemma wp_calls_debug {A} (p : prog A) st sd (Q : A -> state -> Prop) : wp p Q st -> with_lost st sd -> calls_debug p sd (fun a sd' => exists st', Q a st' /\ with_lost st' sd').
Proof. intros Hw HL orc t. pose proof (wp_debug p Q st sd Hw HL orc t) as H. by destruct (run_debug orc p t sd). Qed.
