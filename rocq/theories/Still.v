From Coq Require Import ZArith List Lia.
From stdpp Require Import gmap list.
From Verif Require Import Mem Prog Kern Imath Exec Wp RelZ Basic Basic2 Mult Divi Powr Spec SpecHist Public Concrete Hist Room Refuse.
Local Open Scope Z_scope.
Local Open Scope prog_scope.

Definition still {A} (t : nat) (o : outcome A) : Prop := match o with Done _ _ t' => t' = t | OOM _ => False | _ => True end.
Lemma quiet_run {A} dbg orc (p : prog A) t : forall st, quiet p -> still t (run dbg orc p t st).
Proof.
  induction p; intros st; cbn [quiet run]; try done; try (destruct a; try done); intros Hq;
    repeat match goal with |- context [match ?x with _ => _ end] => destruct x end; try done;
    match goal with IH : _ |- _ => by apply IH end.
Qed.
Local Transparent getO bind.
Local Arguments bind {A B} !p f : simpl nomatch.
Lemma copy_fit dbg orc t st a c ma mc : a <> c -> objs st !! a = Some ma -> objs st !! c = Some mc -> used ma <= alloc mc ->
  exists p, quiet p /\ run dbg orc (mp_int_copy a c) t st = run dbg orc p t st.
Proof.
  intros Hn Ha Hc Hu. exists (da <- get_digits a; dc <- get_digits c; COPY da dc (used ma);; set_used c (used ma);; s <- get_sign a; set_sign c s;; Ret MP_OK).
  split; [qt|]. unfold mp_int_copy. rewrite bool_decide_eq_false_2 by done. unfold get_used at 1, getO at 1. cbn [bind run]. rewrite Ha.
  unfold s_pad, get_alloc at 1, getO at 1. cbn [bind run]. rewrite Hc.
  assert (forall (X Y : Type) (x : X) (f : X -> prog Y), bind (Ret x) f = f x) as BR by done. rewrite BR, (proj2 (Z.ltb_ge (alloc mc) (used ma)) Hu), BR. done.
Qed.

Lemma fits st V W a c va vc : Rep st V W -> V !! a = Some va -> V !! c = Some vc -> Z.abs va < 2 ^ (32 * room st c) ->
  exists ma mc, objs st !! a = Some ma /\ objs st !! c = Some mc /\ used ma <= alloc mc.
Proof.
  intros HR Ha Hc Hl. destruct (rep_holds _ _ _ HR _ _ Ha) as (b & (al & us & sg & ds & rest & Ho & _ & _ & _ & Hu & H1 & Hd & Hn & Hv) & _).
  destruct (rep_holds _ _ _ HR _ _ Hc) as (b' & (al' & us' & sg' & ds' & rest' & Ho' & _ & Hal & _ & Hu' & H1' & _) & _).
  eexists _, _. split; [done|]. split; [done|]. cbn [used alloc]. unfold room in Hl. rewrite Ho' in Hl. cbn [alloc] in Hl.
  assert (Z.abs va = Dig.val ds) as E. { pose proof (Dig.val_bounds ds Hd). rewrite digits_value_val in Hv. destruct Hv as [[_ ->]|[_ [-> _]]]; lia. }
  pose proof (Dig.canon_len ds (Z.to_nat al')) as HC. assert (Dig.canon ds) as Hcan by (apply canon_iff; [done|split; [lia|by rewrite <- Hu]]).
  specialize (HC Hcan). rewrite E in Hl. assert (Dig.val ds < Dig.Bn (Z.to_nat al')) as Hl'. { rewrite Dig.Bn_pow2. replace (32 * Z.of_nat (Z.to_nat al')) with (32 * al') by lia. done. }
  specialize (HC Hl'). lia.
Qed.
Lemma copy_still st V W a c va vc : Rep st V W -> V !! a = Some va -> V !! c = Some vc -> Z.abs va < 2 ^ (32 * room st c) ->
  forall dbg orc t, exists st', run dbg orc (mp_int_copy a c) t st = Done MP_OK st' t /\ Rep st' (<[c := va]> V) W.
Proof.
  intros HR Ha Hc Hl dbg orc t. assert (still t (run true orc (mp_int_copy a c) t st)) as HS.
  { destruct (decide (a = c)) as [->|Hn]; [unfold mp_int_copy; by rewrite bool_decide_eq_true_2|].
    destruct (fits _ _ _ _ _ _ _ HR Ha Hc Hl) as (ma & mc & Hma & Hmc & Hu). destruct (copy_fit true orc t st _ _ _ _ Hn Hma Hmc Hu) as (p & Hq & ->). by apply quiet_run. }
  assert (wp (mp_int_copy a c) (fun r st' => r = MP_OK /\ Rep st' (<[c := va]> V) W) st) as HW.
  { eapply wpV_copy; [by apply Rep_RV|done..|]. intros st' H'. split; [done|by apply RV_done]. }
  pose proof (wp_sound _ _ _ HW orc t) as HD. destruct (run true orc (mp_int_copy a c) t st) as [r st' t'|n| | |] eqn:E; try done.
  cbn in HS, HD. subst t'. destruct HD as [-> HD]. exists st'. split; [|done]. destruct dbg; [done|by apply run_nd_agrees].
Qed.
