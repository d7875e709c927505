(** Programs that run side by side.  Each thread is proved on its own view of the
    memory (its own structures and blocks, and the shared ones); a step of one
    thread leaves the views of the others as they are. *)
From Coq Require Import ZArith List Lia.
From stdpp Require Import gmap list.
From Verif Require Import Mem Prog MemLem Kern Wp Conc Const.
Local Open Scope Z_scope.
Local Transparent wp bind.

(** [st] consists of [v] and, apart from it, [F]. *)
Record splits (st v F : state) : Prop := {
  sp_o : objs st = objs v ∪ objs F; sp_od : objs v ##ₘ objs F;
  sp_m : mem st = mem v ∪ mem F; sp_md : mem v ##ₘ mem F;
  sp_g : glob st = glob v }.
Definition paired (v : state) : Prop := forall o, is_Some (objs v !! o) <-> is_Some (mem v !! Sng o).
Definition keeps (O : gset oid) (B : gset base) (v v' : state) : Prop :=
  (forall o, o ∈ O -> objs v' !! o = objs v !! o) /\ (forall b, shared O B b -> mem v' !! b = mem v !! b) /\ glob v' = glob v.
Definition alive (O : gset oid) (B : gset base) (v : state) : Prop :=
  (forall o, o ∈ O -> is_Some (objs v !! o)) /\ (forall b, shared O B b -> is_Some (mem v !! b)).

Lemma keeps_refl O B v : keeps O B v v. Proof. by split_and!. Qed.
Lemma keeps_trans O B v1 v2 v3 : keeps O B v1 v2 -> keeps O B v2 v3 -> keeps O B v1 v3.
Proof. intros (A1 & A2 & A3) (B1 & B2 & B3). split_and!; intros; [rewrite B1 by done; auto|rewrite B2 by done; auto|congruence]. Qed.
Lemma alive_keeps O B v v' : alive O B v -> keeps O B v v' -> alive O B v'.
Proof. intros [H1 H2] (K1 & K2 & _). split; intros; [rewrite K1 by done; auto|rewrite K2 by done; auto]. Qed.

Lemma sp_load st v F q c : splits st v F -> load (mem v) q = Some c -> load (mem st) q = Some c.
Proof.
  intros [_ _ Hm _ _]. unfold load. rewrite Hm. destruct (_ <? _); [done|]. destruct (mem v !! q.1) as [l|] eqn:E; [|done]. by rewrite (lookup_union_Some_l _ _ _ _ E).
Qed.
Lemma sp_obj st v F o z : splits st v F -> objs v !! o = Some z -> objs st !! o = Some z.
Proof. intros [Ho _ _ _ _] H. rewrite Ho. by apply lookup_union_Some_l. Qed.
Lemma sp_mem st v F b l : splits st v F -> mem v !! b = Some l -> mem st !! b = Some l.
Proof. intros [_ _ Hm _ _] H. rewrite Hm. by apply lookup_union_Some_l. Qed.
Lemma sp_obj_None st v F o : splits st v F -> objs st !! o = None -> objs v !! o = None /\ objs F !! o = None.
Proof. intros [Ho _ _ _ _] H. rewrite Ho in H. by apply lookup_union_None in H. Qed.
Lemma sp_mem_None st v F o : splits st v F -> mem st !! o = None -> mem v !! o = None /\ mem F !! o = None.
Proof. intros [_ _ Ho _ _] H. rewrite Ho in H. by apply lookup_union_None in H. Qed.

Lemma union_alter {K V} `{Countable K} (m1 m2 : gmap K V) f k x : m1 !! k = Some x -> alter f k (m1 ∪ m2) = alter f k m1 ∪ m2.
Proof.
  intros E. apply map_eq. intros k'. rewrite lookup_union. destruct (decide (k = k')) as [<-|N].
  - rewrite !lookup_alter, lookup_union, E. simpl. by destruct (m2 !! k).
  - by rewrite !lookup_alter_ne, lookup_union by done.
Qed.
Lemma union_delete {K V} `{Countable K} (m1 m2 : gmap K V) k x : m1 ##ₘ m2 -> m1 !! k = Some x -> delete k (m1 ∪ m2) = delete k m1 ∪ m2.
Proof. intros D E. rewrite delete_union. f_equal. apply delete_notin. by eapply map_disjoint_Some_l. Qed.
Lemma disj_alter {K V} `{Countable K} (m1 m2 : gmap K V) f k : m1 ##ₘ m2 -> alter f k m1 ##ₘ m2.
Proof.
  intros D. apply map_disjoint_spec. intros i x y Hx Hy. apply lookup_alter_Some in Hx as [(<- & x' & Hx & _)|[_ Hx]]; by eapply (map_disjoint_spec m1 m2).
Qed.

Lemma sp_store st v F q c0 c : splits st v F -> load (mem v) q = Some c0 -> splits (set_mem st (store (mem st) q c)) (set_mem v (store (mem v) q c)) F.
Proof.
  intros [H1 H2 H3 H4 H5] Hl. unfold load in Hl. destruct (_ <? _); [done|]. destruct (mem v !! q.1) as [l|] eqn:E; [|done]. constructor; simpl; try done.
  - rewrite H3. by eapply union_alter.
  - by apply disj_alter.
Qed.
Lemma sp_seto st v F o z0 z : splits st v F -> objs v !! o = Some z0 -> splits (set_objs st (<[o := z]> (objs st))) (set_objs v (<[o := z]> (objs v))) F.
Proof.
  intros [H1 H2 H3 H4 H5] Hl. constructor; simpl; try done.
  - by rewrite H1, insert_union_l.
  - apply map_disjoint_insert_l. split; [|done]. by eapply map_disjoint_Some_l.
Qed.
Lemma sp_addo st v F o z : splits st v F -> fresh_obj st o -> splits (add_obj st o z) (add_obj v o z) F.
Proof.
  intros Hs [F1 F2]. destruct (sp_obj_None _ _ _ _ Hs F1) as [Fa Fb], (sp_mem_None _ _ _ _ Hs F2) as [Fc Fd]. destruct Hs as [H1 H2 H3 H4 H5]. constructor; simpl; try done.
  - by rewrite H1, insert_union_l.
  - by apply map_disjoint_insert_l.
  - by rewrite H3, insert_union_l.
  - by apply map_disjoint_insert_l.
Qed.
Lemma sp_delo st v F o z : splits st v F -> paired v -> objs v !! o = Some z -> splits (del_obj st o) (del_obj v o) F.
Proof.
  intros [H1 H2 H3 H4 H5] Hp Ho. destruct (proj1 (Hp o) (ex_intro _ z Ho)) as [l Hl]. constructor; simpl; try done.
  - rewrite H1. by eapply union_delete.
  - by apply map_disjoint_delete_l.
  - rewrite H3. by eapply union_delete.
  - by apply map_disjoint_delete_l.
Qed.
Lemma sp_addb st v F b l : splits st v F -> mem st !! b = None -> splits (add_block st b l) (add_block v b l) F.
Proof.
  intros Hs F2. destruct (sp_mem_None _ _ _ _ Hs F2) as [Fc Fd]. destruct Hs as [H1 H2 H3 H4 H5]. constructor; simpl; try done.
  - by rewrite H3, insert_union_l.
  - by apply map_disjoint_insert_l.
Qed.
Lemma sp_delb st v F b l : splits st v F -> mem v !! b = Some l -> splits (del_block st b) (del_block v b) F.
Proof.
  intros [H1 H2 H3 H4 H5] Hl. constructor; simpl; try done.
  - rewrite H3. by eapply union_delete.
  - by apply map_disjoint_delete_l.
Qed.

Lemma pr_store v q c : paired v -> paired (set_mem v (store (mem v) q c)).
Proof.
  intros H o. simpl. rewrite (H o). unfold store. destruct (decide (q.1 = Sng o)) as [->|N].
  - rewrite lookup_alter, fmap_is_Some. done.
  - by rewrite lookup_alter_ne.
Qed.
Lemma pr_seto v o z0 z : paired v -> objs v !! o = Some z0 -> paired (set_objs v (<[o := z]> (objs v))).
Proof.
  intros H E o'. simpl. rewrite <- (H o'). destruct (decide (o = o')) as [<-|N]; [rewrite lookup_insert, E; split; eauto|by rewrite lookup_insert_ne].
Qed.
Lemma pr_addo v o z : paired v -> paired (add_obj v o z).
Proof.
  intros H o'. simpl. destruct (decide (o = o')) as [<-|N]; [rewrite !lookup_insert; split; eauto|]. rewrite !lookup_insert_ne by congruence. apply H.
Qed.
Lemma pr_delo v o : paired v -> paired (del_obj v o).
Proof.
  intros H o'. simpl. destruct (decide (o = o')) as [<-|N]; [rewrite !lookup_delete; split; by intros []|]. rewrite !lookup_delete_ne by congruence. apply H.
Qed.
Lemma pr_addb v b l : paired v -> (forall o, b <> Sng o) -> paired (add_block v b l).
Proof. intros H N o. simpl. by rewrite lookup_insert_ne. Qed.
Lemma pr_delb v b : paired v -> (forall o, b <> Sng o) -> paired (del_block v b).
Proof. intros H N o. simpl. by rewrite lookup_delete_ne. Qed.

Lemma live_heap_hp st p l : live_heap st p = Some l -> exists i, p = (Hp i, 0) /\ mem st !! Hp i = Some l.
Proof. unfold live_heap. intros H. repeat case_match; simplify_eq; eauto. Qed.

(** One step of a thread that is proved on its view [v], taken in [st]. *)
Lemma frame_step O B {A} (p : prog A) Q st v F p' st' :
  splits st v F -> paired v -> alive O B v -> wpw O B p Q v -> step p st p' st' ->
  exists v', splits st' v' F /\ paired v' /\ keeps O B v v' /\ (wpw O B p' Q v' \/ aborts p').
Proof.
  intros Hs Hpr [Ha1 Ha2] Hw Hstep. destruct Hstep; cbn [wpw] in Hw.
  - destruct (load (mem v) q) as [c1|] eqn:E; [|done]. rewrite (sp_load _ _ _ _ _ Hs E) in H. simplify_eq. exists v. split_and!; auto using keeps_refl.
  - destruct (load (mem v) q) as [c1|] eqn:E; [|done]. destruct Hw as [Hn Hw]. exists (set_mem v (store (mem v) q c)). split_and!; [by eapply sp_store|by apply pr_store| |by left].
    split_and!; [done| |done]. intros b Hb. simpl. unfold store. apply lookup_alter_ne. by intros <-.
  - destruct (objs v !! o) as [z1|] eqn:E; [|done]. rewrite (sp_obj _ _ _ _ _ Hs E) in H. simplify_eq. exists v. split_and!; auto using keeps_refl.
  - destruct (objs v !! o) as [z1|] eqn:E; [|done]. destruct Hw as [Hn Hw]. exists (set_objs v (<[o := z]> (objs v))). split_and!; [by eapply sp_seto|by eapply pr_seto| |by left].
    split_and!; [|done|done]. intros b Hb. simpl. apply lookup_insert_ne. by intros <-.
  - assert (Hf : fresh_obj v (false, n)) by (split; [by apply (sp_obj_None _ _ _ _ Hs)|by apply (sp_mem_None _ _ _ _ Hs)]).
    assert (Hn : (false, n) ∉ O) by (intros Hn; destruct (Ha1 _ Hn); destruct Hf; congruence).
    exists (add_obj v (false, n) z). split_and!; [by apply sp_addo|by apply pr_addo| |left; by apply Hw].
    split_and!; [intros b Hb; simpl; apply lookup_insert_ne; by intros <-|intros b Hb; simpl; apply lookup_insert_ne; by intros <-|done].
  - destruct (objs v !! o) as [z1|] eqn:E; [|done]. destruct Hw as (Hn & _ & Hw). exists (del_obj v o). split_and!; [by eapply sp_delo|by apply pr_delo| |by left].
    split_and!; [intros b Hb; simpl; apply lookup_delete_ne; by intros <-|intros b Hb; simpl; apply lookup_delete_ne; by intros <-|done].
  - exists v. destruct Hw. split_and!; auto using keeps_refl.
  - assert (Hf : fresh_obj v (true, n)) by (split; [by apply (sp_obj_None _ _ _ _ Hs)|by apply (sp_mem_None _ _ _ _ Hs)]).
    assert (Hn : (true, n) ∉ O) by (intros Hn; destruct (Ha1 _ Hn); destruct Hf; congruence).
    exists (add_obj v (true, n) z). split_and!; [by apply sp_addo|by apply pr_addo| |left; by apply Hw].
    split_and!; [intros b Hb; simpl; apply lookup_insert_ne; by intros <-|intros b Hb; simpl; apply lookup_insert_ne; by intros <-|done].
  - destruct (objs v !! o) as [z1|] eqn:E; [|done]. destruct Hw as (Hn & _ & Hw). exists (del_obj v o). split_and!; [by eapply sp_delo|by apply pr_delo| |by left].
    split_and!; [intros b Hb; simpl; apply lookup_delete_ne; by intros <-|intros b Hb; simpl; apply lookup_delete_ne; by intros <-|done].
  - exists v. destruct Hw as [[Hw|Hw] _]; split_and!; auto using keeps_refl. right. unfold at_null in Hw. unfold aborts. by repeat case_match.
  - assert (Hf : mem v !! Hp i = None) by (by apply (sp_mem_None _ _ _ _ Hs)).
    assert (Hn : ~ shared O B (Hp i)) by (intros Hn; destruct (Ha2 _ Hn); congruence).
    exists (add_block v (Hp i) (blank n)). split_and!; [by apply sp_addb|by apply pr_addb| |left; by apply Hw].
    split_and!; [done|intros b Hb; simpl; apply lookup_insert_ne; by intros <-|done].
  - destruct (live_heap v p) as [l1|] eqn:E; [|done]. exists v. destruct Hw as [_ [[Hw|Hw] _]]; split_and!; auto using keeps_refl. right. unfold at_null in Hw. unfold aborts. by repeat case_match.
  - destruct (live_heap v p) as [l1|] eqn:E; [|done]. destruct Hw as (Hn & _ & Hw). destruct (live_heap_hp _ _ _ E) as (j & -> & Hj). cbn in H. rewrite (sp_mem _ _ _ _ _ Hs Hj) in H. injection H as <-. cbn [fst] in *.
    assert (Hs2 := sp_delb _ _ _ _ _ Hs Hj). assert (Hf : mem (del_block v (Hp j)) !! Hp i = None) by (by apply (sp_mem_None _ _ _ _ Hs2)).
    assert (Hi : ~ shared O B (Hp i)). { intros Hi. destruct (Ha2 _ Hi) as [x Hx]. destruct (decide (j = i)) as [->|N]; [done|]. simpl in Hf. rewrite lookup_delete_ne in Hf by congruence. congruence. }
    exists (add_block (del_block v (Hp j)) (Hp i) (resize_cells l1 n)). split_and!; [by apply sp_addb|apply pr_addb; [by apply pr_delb|done]| |left; by apply Hw].
    split_and!; [done|intros b Hb; simpl; rewrite lookup_insert_ne by (by intros <-); apply lookup_delete_ne; by intros <-|done].
  - destruct (live_heap v p) as [l1|] eqn:E; [|done]. destruct Hw as (Hn & Hw). destruct (live_heap_hp _ _ _ E) as (j & -> & Hj). exists (del_block v (Hp j)).
    split_and!; [by eapply sp_delb|by apply pr_delb| |by left]. split_and!; [done|intros b Hb; simpl; apply lookup_delete_ne; by intros <-|done].
  - assert (Hf : mem v !! Ext i = None) by (by apply (sp_mem_None _ _ _ _ Hs)).
    assert (Hn : ~ shared O B (Ext i)) by (intros Hn; destruct (Ha2 _ Hn); congruence).
    exists (add_block v (Ext i) (replicate n None)). split_and!; [by apply sp_addb|by apply pr_addb| |left; by apply Hw].
    split_and!; [done|intros b Hb; simpl; apply lookup_insert_ne; by intros <-|done].
  - cbn [fst] in Hw. destruct (mem v !! Ext i) as [l1|] eqn:E; [|done]. destruct Hw as (Hn & Hw). exists (del_block v (Ext i)).
    split_and!; [by eapply sp_delb|by apply pr_delb| |by left]. split_and!; [done|intros b Hb; simpl; apply lookup_delete_ne; by intros <-|done].
  - exists v. rewrite (sp_g _ _ _ Hs). split_and!; auto using keeps_refl.
  - done.
  - exists v. destruct Hw. split_and!; auto using keeps_refl.
Qed.

(** A proved thread is never stuck. *)
Lemma proved_not_wrong O B {A} (p : prog A) Q st v F : splits st v F -> wpw O B p Q v -> ~ wrong p st.
Proof.
  intros Hs Hw (H1 & H2 & H3). destruct p; cbn [wpw] in Hw.
  - by apply H1.
  - destruct (load (mem v) p) eqn:E; [|done]. eapply H3, step_peek. by eapply sp_load.
  - destruct (load (mem v) p) eqn:E; [|done]. eapply H3, step_poke. by eapply sp_load.
  - destruct (objs v !! o) eqn:E; [|done]. eapply H3, step_geto. by eapply sp_obj.
  - destruct (objs v !! o) eqn:E; [|done]. eapply H3, step_seto. by eapply sp_obj.
  - destruct (new_obj_fresh st false) as [F1 F2]. eapply H3, (step_newo _ (Mpz None 0 0 0)); [exact F1|exact F2].
  - destruct (objs v !! o) eqn:E; [|done]. eapply H3, step_delo; [by eapply sp_obj|]. apply Hw.
  - eapply H3, step_malloco_no.
  - destruct (objs v !! o) eqn:E; [|done]. eapply H3, step_freeo; [by eapply sp_obj|]. apply Hw.
  - eapply H3, step_malloc_no.
  - destruct (live_heap v p) eqn:E; [|done]. destruct (live_heap_hp _ _ _ E) as (j & -> & Hj). eapply H3, step_realloc_no. simpl. by eapply sp_mem.
  - destruct (live_heap v p) eqn:E; [|done]. destruct (live_heap_hp _ _ _ E) as (j & -> & Hj). eapply H3, step_free. simpl. by eapply sp_mem.
  - eapply H3, step_newe. apply new_ext_fresh.
  - destruct p as [b x]. cbn [fst] in Hw. destruct b; [done|done|]. destruct (mem v !! Ext _) eqn:E; [|done]. eapply H3, step_dele. by eapply sp_mem.
  - eapply H3, step_getg.
  - done.
  - destruct Hw as [-> _]. eapply H3, step_assert.
  - done.
  - done.
Qed.

(** The views of the threads: they make up the state, and overlap only in what is
    shared. *)
Record conf (O : gset oid) (B : gset base) (vs : list state) (st : state) : Prop := {
  cf_o : forall i v, vs !! i = Some v -> objs v ⊆ objs st;
  cf_m : forall i v, vs !! i = Some v -> mem v ⊆ mem st;
  cf_g : forall i v, vs !! i = Some v -> glob v = glob st;
  cf_pair : forall i v, vs !! i = Some v -> paired v;
  cf_alive : forall i v, vs !! i = Some v -> alive O B v;
  cf_od : forall i j v w o, vs !! i = Some v -> vs !! j = Some w -> i <> j -> is_Some (objs v !! o) -> is_Some (objs w !! o) -> o ∈ O;
  cf_md : forall i j v w b, vs !! i = Some v -> vs !! j = Some w -> i <> j -> is_Some (mem v !! b) -> is_Some (mem w !! b) -> shared O B b;
  cf_oc : forall o, is_Some (objs st !! o) -> exists i v, vs !! i = Some v /\ is_Some (objs v !! o);
  cf_mc : forall b, is_Some (mem st !! b) -> exists i v, vs !! i = Some v /\ is_Some (mem v !! b)
}.

Definition rest (st v : state) : state := State (objs st ∖ objs v) (mem st ∖ mem v) (glob st).
Lemma conf_splits O B vs st i v : conf O B vs st -> vs !! i = Some v -> splits st v (rest st v).
Proof.
  intros H Hi. constructor; simpl.
  - symmetry. apply map_difference_union. by apply (cf_o _ _ _ _ H i).
  - apply map_disjoint_difference_r. by apply (cf_o _ _ _ _ H i).
  - symmetry. apply map_difference_union. by apply (cf_m _ _ _ _ H i).
  - apply map_disjoint_difference_r. by apply (cf_m _ _ _ _ H i).
  - symmetry. by apply (cf_g _ _ _ _ H i).
Qed.

Lemma agree_shared {K V} `{Countable K} (m1 m2 m : gmap K V) k x y : m1 ⊆ m -> m2 ⊆ m -> m1 !! k = Some x -> m2 !! k = Some y -> x = y.
Proof. intros H1 H2 E1 E2. eapply lookup_weaken in E1, E2; [|done..]. congruence. Qed.

Lemma conf_step O B vs st i v v' st' : conf O B vs st -> vs !! i = Some v -> splits st' v' (rest st v) -> paired v' -> keeps O B v v' ->
  conf O B (<[i := v']> vs) st'.
Proof.
  intros C Hi [S1 S2 S3 S4 S5] Hp (K1 & K2 & K3).
  assert (Hlt : (i < length vs)%nat) by (by eapply lookup_lt_Some).
  assert (Hlook : forall j w, <[i := v']> vs !! j = Some w -> (j = i /\ w = v') \/ (j <> i /\ vs !! j = Some w)).
  { intros j w. destruct (decide (i = j)) as [<-|N]; [rewrite list_lookup_insert by done|rewrite list_lookup_insert_ne by done]; naive_solver. }
  assert (Ho : forall j w o z, j <> i -> vs !! j = Some w -> objs w !! o = Some z -> objs st' !! o = Some z).
  { intros j w o z N Hj Hz. rewrite S1. assert (Hst : objs st !! o = Some z) by (by eapply lookup_weaken, (cf_o _ _ _ _ C j)).
    destruct (objs v !! o) as [z'|] eqn:E.
    - assert (o ∈ O) by (eapply (cf_od _ _ _ _ C j i); [done|done|done|by eexists|by eexists]). apply lookup_union_Some_l. rewrite K1 by done. rewrite E. f_equal.
      eapply agree_shared; [apply (cf_o _ _ _ _ C i v Hi)|apply (cf_o _ _ _ _ C j w Hj)|done|done].
    - apply lookup_union_Some_raw. right. split; [|apply lookup_difference_Some; done].
      assert (Hr : (objs (rest st v)) !! o = Some z) by (apply lookup_difference_Some; done). by eapply map_disjoint_Some_r. }
  assert (Hm : forall j w o z, j <> i -> vs !! j = Some w -> mem w !! o = Some z -> mem st' !! o = Some z).
  { intros j w o z N Hj Hz. rewrite S3. assert (Hst : mem st !! o = Some z) by (by eapply lookup_weaken, (cf_m _ _ _ _ C j)).
    destruct (mem v !! o) as [z'|] eqn:E.
    - assert (shared O B o) by (eapply (cf_md _ _ _ _ C j i); [done|done|done|by eexists|by eexists]). apply lookup_union_Some_l. rewrite K2 by done. rewrite E. f_equal.
      eapply agree_shared; [apply (cf_m _ _ _ _ C i v Hi)|apply (cf_m _ _ _ _ C j w Hj)|done|done].
    - assert (Hr : (mem (rest st v)) !! o = Some z) by (apply lookup_difference_Some; done).
      apply lookup_union_Some_raw. right. split; [|done]. by eapply map_disjoint_Some_r. }
  assert (Do : forall j w o, j <> i -> vs !! j = Some w -> is_Some (objs v' !! o) -> is_Some (objs w !! o) -> o ∈ O).
  { intros j w o N Hj [x Hx] [y Hy]. destruct (objs v !! o) as [z'|] eqn:E; [eapply (cf_od _ _ _ _ C j i); [done|done|done|by eexists|by eexists]|].
    assert (Hr : (objs (rest st v)) !! o = Some y) by (apply lookup_difference_Some; split; [by eapply lookup_weaken, (cf_o _ _ _ _ C j)|done]).
    rewrite (map_disjoint_Some_r _ _ _ _ S2 Hr) in Hx. done. }
  assert (Dm : forall j w o, j <> i -> vs !! j = Some w -> is_Some (mem v' !! o) -> is_Some (mem w !! o) -> shared O B o).
  { intros j w o N Hj [x Hx] [y Hy]. destruct (mem v !! o) as [z'|] eqn:E; [eapply (cf_md _ _ _ _ C j i); [done|done|done|by eexists|by eexists]|].
    assert (Hr : (mem (rest st v)) !! o = Some y) by (apply lookup_difference_Some; split; [by eapply lookup_weaken, (cf_m _ _ _ _ C j)|done]).
    rewrite (map_disjoint_Some_r _ _ _ _ S4 Hr) in Hx. done. }
  assert (Hg : glob st' = glob st) by (rewrite S5, K3; by apply (cf_g _ _ _ _ C i)).
  constructor.
  - intros j w Hj. apply Hlook in Hj as [[-> ->]|[N Hj]]; [rewrite S1; apply map_union_subseteq_l|]. apply map_subseteq_spec. intros o z. by apply (Ho j).
  - intros j w Hj. apply Hlook in Hj as [[-> ->]|[N Hj]]; [rewrite S3; apply map_union_subseteq_l|]. apply map_subseteq_spec. intros o z. by apply (Hm j).
  - intros j w Hj. apply Hlook in Hj as [[-> ->]|[N Hj]]; [done|]. rewrite Hg. by apply (cf_g _ _ _ _ C j).
  - intros j w Hj. apply Hlook in Hj as [[-> ->]|[N Hj]]; [done|]. by apply (cf_pair _ _ _ _ C j).
  - intros j w Hj. apply Hlook in Hj as [[-> ->]|[N Hj]]; [|by apply (cf_alive _ _ _ _ C j)]. eapply alive_keeps; [by apply (cf_alive _ _ _ _ C i)|]. by split_and!.
  - intros j1 j2 w1 w2 o Hj1 Hj2 N H1 H2. apply Hlook in Hj1 as [[-> ->]|[N1 Hj1]], Hj2 as [[-> ->]|[N2 Hj2]]; [done| | |]; [by eapply (Do j2)|by eapply (Do j1)|]. by eapply (cf_od _ _ _ _ C j1 j2).
  - intros j1 j2 w1 w2 o Hj1 Hj2 N H1 H2. apply Hlook in Hj1 as [[-> ->]|[N1 Hj1]], Hj2 as [[-> ->]|[N2 Hj2]]; [done| | |]; [by eapply (Dm j2)|by eapply (Dm j1)|]. by eapply (cf_md _ _ _ _ C j1 j2).
  - intros o [z Hz]. rewrite S1 in Hz. apply lookup_union_Some_raw in Hz as [Hz|[_ Hz]]; [exists i, v'; rewrite list_lookup_insert by done; eauto|].
    apply lookup_difference_Some in Hz as [Hz Hv]. destruct (cf_oc _ _ _ _ C o (ex_intro _ z Hz)) as (j & w & Hj & [x Hx]). destruct (decide (j = i)) as [->|N]; [congruence|].
    exists j, w. rewrite list_lookup_insert_ne by done. eauto.
  - intros o [z Hz]. rewrite S3 in Hz. apply lookup_union_Some_raw in Hz as [Hz|[_ Hz]]; [exists i, v'; rewrite list_lookup_insert by done; eauto|].
    apply lookup_difference_Some in Hz as [Hz Hv]. destruct (cf_mc _ _ _ _ C o (ex_intro _ z Hz)) as (j & w & Hj & [x Hx]). destruct (decide (j = i)) as [->|N]; [congruence|].
    exists j, w. rewrite list_lookup_insert_ne by done. eauto.
Qed.

Definition proved {A : Type} (O : gset oid) (B : gset base) (Q : nat -> A -> state -> Prop) (ps : list (prog A)) (vs : list state) : Prop :=
  length ps = length vs /\ forall i p v, ps !! i = Some p -> vs !! i = Some v -> wpw O B p (Q i) v \/ aborts p.

Lemma aborts_stuck {A} (p p' : prog A) st st' : aborts p -> step p st p' st' -> False.
Proof. intros Ha Hs. destruct Hs; try done. simpl in Ha. by destruct a. Qed.

Lemma threads_step O B {A : Type} (Q : nat -> A -> state -> Prop) ps vs st i p p' st' : conf O B vs st -> proved O B Q ps vs -> ps !! i = Some p -> step p st p' st' ->
  exists vs', conf O B vs' st' /\ proved O B Q (<[i := p']> ps) vs'.
Proof.
  intros C [Hl Hp] Hi Hs. destruct (lookup_lt_is_Some_2 vs i) as [v Hv]; [rewrite <- Hl; by eapply lookup_lt_Some|].
  destruct (Hp i p v Hi Hv) as [Hw|Ha]; [|by destruct (aborts_stuck _ _ _ _ Ha Hs)].
  destruct (frame_step O B p (Q i) st v (rest st v) p' st') as (v' & K1 & K2 & K3 & K4); [by eapply conf_splits|by eapply cf_pair|by eapply cf_alive|done|done|].
  exists (<[i := v']> vs). split; [by eapply conf_step|]. split; [by rewrite !insert_length|]. intros j q w. destruct (decide (i = j)) as [<-|N].
  - rewrite !list_lookup_insert by (by eapply lookup_lt_Some). by intros [= <-] [= <-].
  - rewrite !list_lookup_insert_ne by done. apply Hp.
Qed.
Lemma threads_run O B {A : Type} (Q : nat -> A -> state -> Prop) ps st ps' st' : interleaves ps st ps' st' -> forall vs, conf O B vs st -> proved O B Q ps vs ->
  exists vs', conf O B vs' st' /\ proved O B Q ps' vs'.
Proof.
  intros H. induction H as [|ps st i p p' st1 ps' st' Hi Hs _ IH]; intros vs C P; [eauto|].
  destruct (threads_step _ _ _ _ _ _ _ _ _ _ C P Hi Hs) as (vs' & C' & P'). by eapply IH.
Qed.
Lemma threads_not_wrong O B {A : Type} (Q : nat -> A -> state -> Prop) ps vs st i p : conf O B vs st -> proved O B Q ps vs -> ps !! i = Some p -> ~ wrong p st.
Proof.
  intros C [Hl Hp] Hi. destruct (lookup_lt_is_Some_2 vs i) as [v Hv]; [rewrite <- Hl; by eapply lookup_lt_Some|].
  destruct (Hp i p v Hi Hv) as [Hw|Ha]; [by eapply proved_not_wrong; [eapply conf_splits|]|]. by intros (_ & N & _).
Qed.

Definition in_view (O : gset oid) (B : gset base) (v : state) (x : thing) (w : bool) : Prop :=
  match x with
  | Structure o => is_Some (objs v !! o) /\ (w = true -> o ∉ O)
  | Block b => is_Some (mem v !! b) /\ (w = true -> ~ shared O B b)
  | Tunables => w = false
  end.
Lemma in_view_of O B v b w l : paired v -> mem v !! b = Some l -> (w = true -> ~ shared O B b) -> in_view O B v (thing_of b) w.
Proof. intros Hp Hb Hw. destruct b as [o| |]; simpl; [|eauto..]. split; [apply Hp; eauto|done]. Qed.
Lemma load_block m q c : load m q = Some c -> exists l, m !! q.1 = Some l.
Proof. unfold load. destruct (_ <? _); [done|]. destruct (m !! q.1); [eauto|done]. Qed.
Lemma touch_ok O B {A} (p : prog A) Q v x w : paired v -> wpw O B p Q v -> touches p = Some (x, w) -> in_view O B v x w.
Proof.
  intros Hpr Hw Ht. destruct p; cbn [wpw touches] in *; simplify_eq.
  - destruct (load (mem v) p) eqn:E; [|done]. destruct (load_block _ _ _ E). by eapply in_view_of.
  - destruct (load (mem v) p) eqn:E; [|done]. destruct (load_block _ _ _ E). eapply in_view_of; [done|done|]. intros _. apply Hw.
  - destruct (objs v !! o) eqn:E; [|done]. simpl. rewrite E. split; [eauto|done].
  - destruct (objs v !! o) eqn:E; [|done]. simpl. rewrite E. split; [eauto|]. intros _. apply Hw.
  - destruct (objs v !! o) eqn:E; [|done]. simpl. rewrite E. split; [eauto|]. intros _. apply Hw.
  - destruct (objs v !! o) eqn:E; [|done]. simpl. rewrite E. split; [eauto|]. intros _. apply Hw.
  - destruct (live_heap v p) eqn:E; [|done]. destruct (live_heap_hp _ _ _ E) as (j & -> & Hj). eapply in_view_of; [done|done|]. intros _. apply Hw.
  - destruct (live_heap v p) eqn:E; [|done]. destruct (live_heap_hp _ _ _ E) as (j & -> & Hj). eapply in_view_of; [done|done|]. intros _. apply Hw.
  - destruct p as [b y]. cbn [fst] in *. destruct b; [done|done|]. destruct (mem v !! Ext _) eqn:E; [|done]. eapply in_view_of; [done|done|]. intros _. apply Hw.
  - done.
  - done.
Qed.
Lemma threads_no_race O B {A : Type} (Q : nat -> A -> state -> Prop) ps vs st i j p q : conf O B vs st -> proved O B Q ps vs -> i <> j -> ps !! i = Some p -> ps !! j = Some q -> ~ races p q.
Proof.
  intros C [Hl Hp] N Hi Hj (x & w & w' & T1 & T2 & W).
  destruct (lookup_lt_is_Some_2 vs i) as [v Hv]; [rewrite <- Hl; by eapply lookup_lt_Some|].
  destruct (lookup_lt_is_Some_2 vs j) as [v' Hv']; [rewrite <- Hl; by eapply lookup_lt_Some|].
  destruct (Hp i p v Hi Hv) as [Hw|Ha]; [|destruct p; try done; by destruct a].
  destruct (Hp j q v' Hj Hv') as [Hw'|Ha]; [|destruct q; try done; by destruct a].
  assert (V1 := touch_ok _ _ _ _ _ _ _ (cf_pair _ _ _ _ C _ _ Hv) Hw T1). assert (V2 := touch_ok _ _ _ _ _ _ _ (cf_pair _ _ _ _ C _ _ Hv') Hw' T2).
  destruct x as [o|b|]; simpl in V1, V2.
  - destruct V1 as [V1 V1'], V2 as [V2 V2']. assert (o ∈ O) by (by eapply (cf_od _ _ _ _ C i j)). destruct w; [by apply V1'|]. destruct w'; [by apply V2'|done].
  - destruct V1 as [V1 V1'], V2 as [V2 V2']. assert (shared O B b) by (by eapply (cf_md _ _ _ _ C i j)). destruct w; [by apply V1'|]. destruct w'; [by apply V2'|done].
  - by subst.
Qed.

(** Every step makes a program smaller: no schedule goes on for ever. *)
Definition next {A} (q p : prog A) : Prop := exists st st', step p st q st'.
Lemma next_acc {A} (p : prog A) : Acc next p.
Proof. induction p; constructor; intros q (st & st' & Hs); inversion Hs; subst; eauto. Qed.
Definition turn {A} (c' c : list (prog A) * state) : Prop :=
  exists i p p', c.1 !! i = Some p /\ step p c.2 p' c'.2 /\ c'.1 = <[i := p']> c.1.
Inductive lnext {A} : list (prog A) -> list (prog A) -> Prop := lnext_intro i p p' ps : ps !! i = Some p -> next p' p -> lnext (<[i := p']> ps) ps.
Lemma lnext_acc {A} (ps : list (prog A)) : Acc lnext ps.
Proof.
  induction ps as [|p ps IH]; [constructor; intros qs Hq; inversion Hq; subst; done|].
  assert (Hp := next_acc p). revert ps IH. induction Hp as [p _ IHp]. intros ps IH. induction IH as [ps HA IHps].
  constructor. intros qs Hq. inversion Hq as [i p0 p' ps0 Hi Hn E1 E2]. subst. destruct i as [|i]; simpl in *.
  - simplify_eq. apply IHp; [done|]. by constructor.
  - apply IHps. by econstructor.
Qed.
Lemma turn_acc {A} (c : list (prog A) * state) : Acc turn c.
Proof.
  destruct c as [ps st]. assert (H := lnext_acc ps). revert st. induction H as [ps _ IH]. intros st. constructor. intros [qs st'] (i & p & p' & Hi & Hs & E). simpl in *. subst.
  apply IH. econstructor; [done|]. by exists st, st'.
Qed.
