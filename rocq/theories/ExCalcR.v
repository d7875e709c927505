(** The calculator of examples/imcalc.c carries out the machine of SpecCalc. *)
From Coq Require Import ZArith Znumtheory List Lia String Ascii.
From stdpp Require Import gmap list.
From Verif Require Import Mem Prog Kern Fp Imath Imrat Gmp Wp MemLem Dig KernLem Rel RelWp RelZ Life Basic Basic2 Mult Shift Knuth Divi Powr Spec SpecBin Public Gcd Root Exptmod Buf Text Read Outlen Inlen Bin Rat RatText Gmpr.
From Verif Require Import SpecGalloc Galloc Iprime ExPiR SpecKey ExRsakeyR SpecCalc ExCalc.
Local Open Scope Z_scope.
Local Open Scope prog_scope.
Local Open Scope list_scope.
Local Ltac wb := apply wp_bind.

Section calc.
Context (V0 : gmap oid Z) (X0 : ctx).

(** The context differs from that at the start by integers without digits. *)
Definition ctx_ok (X : ctx) : Prop :=
  cmem X = cmem X0 /\ cglob X = cglob X0 /\ craw X0 ⊆ craw X /\ forall o z, craw X !! o = Some z -> craw X0 !! o = Some z \/ digits z = None.
Record core (V : gmap oid Z) (X : ctx) (es : list oid) (ms : list (list Z * oid)) (vs : list Z) (ws : list (list Z * Z)) : Prop := Core {
  c_dup : NoDup (es ++ map snd ms);
  c_heap : Forall (fun o : oid => o.1 = true) (es ++ map snd ms);
  c_es : Forall2 (fun o v => V !! o = Some v) es vs;
  c_ms : Forall2 (fun p q => p.1 = q.1 /\ V !! p.2 = Some q.2) ms ws;
  c_out : forall o, o ∉ es ++ map snd ms -> V !! o = V0 !! o;
  c_new : forall o, o ∈ es ++ map snd ms -> V0 !! o = None;
  c_ctx : ctx_ok X
}.

Lemma core_live V X es ms vs ws o : core V X es ms vs ws -> o ∈ es ++ map snd ms -> is_Some (V !! o).
Proof.
  intros C. rewrite elem_of_app. intros [H|H].
  - apply elem_of_list_lookup in H as [i Hi]. destruct (Forall2_lookup_l _ _ _ _ _ (c_es _ _ _ _ _ _ C) Hi) as (v & _ & E). by exists v.
  - apply elem_of_list_In, in_map_iff in H as (p & <- & Hp). apply elem_of_list_In, elem_of_list_lookup in Hp as [i Hi]. destruct (Forall2_lookup_l _ _ _ _ _ (c_ms _ _ _ _ _ _ C) Hi) as (v & _ & _ & E). by exists v.2.
Qed.
Lemma core_get V X es ms vs ws i o v : core V X es ms vs ws -> es !! i = Some o -> vs !! i = Some v -> V !! o = Some v.
Proof. intros C Ho Hv. pose proof (Forall2_lookup_lr _ _ _ _ _ _ (c_es _ _ _ _ _ _ C) Ho Hv) as H. exact H. Qed.
Lemma core_ne V X es ms vs ws i j o o' : core V X es ms vs ws -> es !! i = Some o -> es !! j = Some o' -> i <> j -> o <> o'.
Proof. intros C Ho Ho' N ->. pose proof (c_dup _ _ _ _ _ _ C) as H. apply NoDup_app in H as [H _]. apply N. by eapply NoDup_lookup. Qed.
Lemma core_heap V X es ms vs ws i o : core V X es ms vs ws -> es !! i = Some o -> o.1 = true.
Proof. intros C Ho. pose proof (c_heap _ _ _ _ _ _ C) as H. apply Forall_app in H as [H _]. by eapply Forall_lookup in H. Qed.

Lemma core_set V X es ms vs ws i o v : core V X es ms vs ws -> es !! i = Some o -> core (<[o := v]> V) X es ms (<[i := v]> vs) ws.
Proof.
  intros [D H E M O N C] Ho. assert (o ∈ es ++ map snd ms) as Io by (apply elem_of_app; left; by eapply elem_of_list_lookup_2). split; try done.
  - apply Forall2_same_length_lookup_2; [rewrite insert_length; by eapply Forall2_length|]. intros j o' v' Ho' Hv'. destruct (decide (i = j)) as [->|Nj].
    + assert (o' = o) as -> by congruence. rewrite list_lookup_insert in Hv' by (rewrite <- (Forall2_length _ _ _ E); by eapply lookup_lt_Some). rewrite lookup_insert. congruence.
    + rewrite list_lookup_insert_ne in Hv' by done. rewrite lookup_insert_ne; [by eapply (Forall2_lookup_lr _ _ _ _ _ _ E)|]. intros <-. apply Nj. apply NoDup_app in D as [D _]. by eapply NoDup_lookup.
  - eapply Forall2_impl; [|]. 2:{ intros p q Hpq. exact Hpq. } apply Forall2_same_length_lookup_2; [by eapply Forall2_length|]. intros j p q Hp Hq. pose proof (Forall2_lookup_lr _ _ _ _ _ _ M Hp Hq) as [E1 E2]. split; [done|].
    rewrite lookup_insert_ne; [done|]. intros E3. apply NoDup_app in D as (_ & D & _). apply (D o); [by eapply elem_of_list_lookup_2|]. rewrite E3. apply elem_of_list_In, in_map, elem_of_list_In. by eapply elem_of_list_lookup_2.
  - intros o' No'. rewrite lookup_insert_ne; [by apply O|]. intros <-. by apply No'.
Qed.
Lemma core_pop st V X o es ms v vs ws z : RV st V X -> core V X (o :: es) ms (v :: vs) ws -> digits z = None ->
  core (delete o V) (with_craw X (<[o := z]> (craw X))) es ms vs ws.
Proof.
  intros HV [D H E M O N C] Hz. cbn [app] in *. apply NoDup_cons in D as [No D]. apply Forall_cons in H as [_ H]. apply Forall2_cons in E as [Eo E].
  assert (forall o', o' ∈ es ++ map snd ms -> delete o V !! o' = V !! o') as Hk. { intros o' Ho'. apply lookup_delete_ne. intros <-. done. }
  split; try done.
  - apply Forall2_same_length_lookup_2; [by eapply Forall2_length|]. intros j o' v' Ho' Hv'. rewrite Hk; [by eapply (Forall2_lookup_lr _ _ _ _ _ _ E)|]. apply elem_of_app. left. by eapply elem_of_list_lookup_2.
  - apply Forall2_same_length_lookup_2; [by eapply Forall2_length|]. intros j p q Hp Hq. pose proof (Forall2_lookup_lr _ _ _ _ _ _ M Hp Hq) as [E1 E2]. split; [done|]. rewrite Hk; [done|].
    apply elem_of_app. right. apply elem_of_list_In, in_map, elem_of_list_In. by eapply elem_of_list_lookup_2.
  - intros o' No'. destruct (decide (o = o')) as [<-|Ne]; [rewrite lookup_delete; symmetry; apply N; left|]. rewrite lookup_delete_ne by done. apply O. intros I. apply elem_of_cons in I as [?|?]; done.
  - intros o' Io'. apply N. by right.
  - destruct C as (C1 & C2 & C3 & C4). split; [done|]. split; [done|]. pose proof (RV_not_raw _ _ _ _ _ HV Eo) as Ro. split.
    + cbn [craw with_craw]. etrans; [exact C3|]. by apply insert_subseteq.
    + cbn [craw with_craw]. intros o' z' Ho'. destruct (decide (o = o')) as [<-|Ne]; [rewrite lookup_insert in Ho'; injection Ho' as <-; by right|]. rewrite lookup_insert_ne in Ho' by done. by apply C4.
Qed.
Lemma core_push V X es ms vs ws o v : core V X es ms vs ws -> V !! o = None -> o.1 = true -> core (<[o := v]> V) X (o :: es) ms (v :: vs) ws.
Proof.
  intros C Fo Ho. assert (o ∉ es ++ map snd ms) as No. { intros I. apply (core_live _ _ _ _ _ _ _ C) in I as [? E]. congruence. } destruct C as [D H E M O N C].
  assert (forall o', o' ∈ es ++ map snd ms -> <[o := v]> V !! o' = V !! o') as Hk. { intros o' Ho'. apply lookup_insert_ne. intros <-. done. }
  split; cbn [app]; try done.
  - apply NoDup_cons. done.
  - apply Forall_cons. done.
  - apply Forall2_cons. split; [apply lookup_insert|]. apply Forall2_same_length_lookup_2; [by eapply Forall2_length|]. intros j o' v' Ho' Hv'. rewrite Hk; [by eapply (Forall2_lookup_lr _ _ _ _ _ _ E)|]. apply elem_of_app. left. by eapply elem_of_list_lookup_2.
  - apply Forall2_same_length_lookup_2; [by eapply Forall2_length|]. intros j p q Hp Hq. pose proof (Forall2_lookup_lr _ _ _ _ _ _ M Hp Hq) as [E1 E2]. split; [done|]. rewrite Hk; [done|].
    apply elem_of_app. right. apply elem_of_list_In, in_map, elem_of_list_In. by eapply elem_of_list_lookup_2.
  - intros o' No'. apply not_elem_of_cons in No' as [Ne No']. rewrite lookup_insert_ne by done. by apply O.
  - intros o' Io'. apply elem_of_cons in Io' as [->|Io']; [|by apply N]. rewrite <- O; done.
Qed.
Lemma core_perm V X es es' ms vs vs' ws : core V X es ms vs ws -> es ≡ₚ es' -> Forall2 (fun o v => V !! o = Some v) es' vs' -> core V X es' ms vs' ws.
Proof. intros [D H E M O N C] P F. split; try done; [by rewrite <- P|by rewrite <- P|intros o; rewrite <- P; apply O|intros o; rewrite <- P; apply N]. Qed.
(** The variable at one place is freed. *)
Lemma core_drop_var V X es l n o r vs lw nv rw : core V X es (l ++ (n, o) :: r) vs (lw ++ nv :: rw) -> length l = length lw ->
  o.1 = true /\ V !! o = Some nv.2 /\ n = nv.1 /\ o ∉ es ++ map snd (l ++ r) /\ core (delete o V) X es (l ++ r) vs (lw ++ rw).
Proof.
  intros [D H E M O N C] L. apply Forall2_app_inv in M as [M1 M2]; [|done]. apply Forall2_cons in M2 as [[Mn Mo] M2]. cbn [fst snd] in *.
  rewrite map_app in *. cbn [map snd] in *.
  assert (es ++ map snd l ++ o :: map snd r ≡ₚ o :: es ++ map snd l ++ map snd r) as P by solve_Permutation.
  rewrite P in D, H. apply NoDup_cons in D as [No D]. apply Forall_cons in H as [Ho H].
  assert (forall o', o' ∈ es ++ map snd l ++ map snd r -> delete o V !! o' = V !! o') as Hk. { intros o' Ho'. apply lookup_delete_ne. intros <-. done. }
  assert (forall a b, Forall2 (fun p q => p.1 = q.1 /\ V !! p.2 = Some q.2) a b -> (forall o', o' ∈ map snd a -> o' ∈ es ++ map snd l ++ map snd r) -> Forall2 (fun (p : list Z * oid) (q : list Z * Z) => p.1 = q.1 /\ delete o V !! p.2 = Some q.2) a b) as HF.
  { intros a b F S. apply Forall2_same_length_lookup_2; [by eapply Forall2_length|]. intros j p q Hp Hq. pose proof (Forall2_lookup_lr _ _ _ _ _ _ F Hp Hq) as [E1 E2]. split; [done|]. rewrite Hk; [done|].
    apply S. apply elem_of_list_In, in_map, elem_of_list_In. by eapply elem_of_list_lookup_2. }
  split; [done|]. split; [done|]. split; [done|]. split; [done|]. split; rewrite ?map_app; try done.
  - apply Forall2_same_length_lookup_2; [by eapply Forall2_length|]. intros j o' v' Ho' Hv'. rewrite Hk; [by eapply (Forall2_lookup_lr _ _ _ _ _ _ E)|]. apply elem_of_app. left. by eapply elem_of_list_lookup_2.
  - apply Forall2_app; apply HF; try done; intros o' I; rewrite !elem_of_app; auto.
  - intros o' No'. destruct (decide (o = o')) as [<-|Ne]; [rewrite lookup_delete; symmetry; apply N; rewrite P; left|]. rewrite lookup_delete_ne by done. apply O. rewrite P. intros I. apply elem_of_cons in I as [?|?]; done.
  - intros o' Io'. apply N. rewrite P. by right.
Qed.
Lemma core_add_var V X es l n o r vs lw v rw : core V X es (l ++ r) vs (lw ++ rw) -> length l = length lw -> V !! o = None -> o.1 = true ->
  core (<[o := v]> V) X es (l ++ (n, o) :: r) vs (lw ++ (n, v) :: rw).
Proof.
  intros C L Fo Ho. assert (o ∉ es ++ map snd (l ++ r)) as No. { intros I. apply (core_live _ _ _ _ _ _ _ C) in I as [? E]. congruence. } destruct C as [D H E M O N C].
  rewrite map_app in *. assert (es ++ map snd (l ++ (n, o) :: r) ≡ₚ o :: es ++ map snd l ++ map snd r) as P by (rewrite map_app; cbn [map snd]; solve_Permutation).
  assert (forall o', o' ∈ es ++ map snd l ++ map snd r -> <[o := v]> V !! o' = V !! o') as Hk. { intros o' Ho'. apply lookup_insert_ne. intros <-. done. }
  assert (forall a b, Forall2 (fun p q => p.1 = q.1 /\ V !! p.2 = Some q.2) a b -> (forall o', o' ∈ map snd a -> o' ∈ es ++ map snd l ++ map snd r) -> Forall2 (fun (p : list Z * oid) (q : list Z * Z) => p.1 = q.1 /\ <[o := v]> V !! p.2 = Some q.2) a b) as HF.
  { intros a b F S. apply Forall2_same_length_lookup_2; [by eapply Forall2_length|]. intros j p q Hp Hq. pose proof (Forall2_lookup_lr _ _ _ _ _ _ F Hp Hq) as [E1 E2]. split; [done|]. rewrite Hk; [done|].
    apply S. apply elem_of_list_In, in_map, elem_of_list_In. by eapply elem_of_list_lookup_2. }
  split; try done.
  - rewrite P. apply NoDup_cons. done.
  - rewrite P. apply Forall_cons. done.
  - apply Forall2_same_length_lookup_2; [by eapply Forall2_length|]. intros j o' v' Ho' Hv'. rewrite Hk; [by eapply (Forall2_lookup_lr _ _ _ _ _ _ E)|]. apply elem_of_app. left. by eapply elem_of_list_lookup_2.
  - apply Forall2_app_inv in M as [M1 M2]; [|done]. apply Forall2_app; [|apply Forall2_cons; split; [split; [done|apply lookup_insert]|]]; apply HF; try done; intros o' I; rewrite !elem_of_app; auto.
  - intros o' No'. rewrite P in No'. apply not_elem_of_cons in No' as [Ne No']. rewrite lookup_insert_ne by done. by apply O.
  - intros o' Io'. rewrite P in Io'. apply elem_of_cons in Io' as [->|Io']; [|by apply N]. rewrite <- O; done.
Qed.
End calc.
