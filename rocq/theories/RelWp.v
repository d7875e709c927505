(** Rules for the operations on integer objects, digit level. *)
From Coq Require Import ZArith List Lia.
From stdpp Require Import gmap list.
From Verif Require Import Mem Prog Kern Imath Wp MemLem Dig KernLem KernMul KernKar Rel.
Local Open Scope Z_scope.

(** ** Fields *)
Lemma wp_get_used o z (Q : Z -> state -> Prop) st :
  objs st !! o = Some z -> Q (used z) st -> wp (get_used o) Q st.
Proof. intros. unfold get_used. wb. eapply wp_getO; [done|]. by apply wp_ret. Qed.
Lemma wp_get_sign o z (Q : Z -> state -> Prop) st :
  objs st !! o = Some z -> Q (sign z) st -> wp (get_sign o) Q st.
Proof. intros. unfold get_sign. wb. eapply wp_getO; [done|]. by apply wp_ret. Qed.
Lemma wp_get_alloc o z (Q : Z -> state -> Prop) st :
  objs st !! o = Some z -> Q (alloc z) st -> wp (get_alloc o) Q st.
Proof. intros. unfold get_alloc. wb. eapply wp_getO; [done|]. by apply wp_ret. Qed.
Lemma wp_get_digits o z p (Q : ptr -> state -> Prop) st :
  objs st !! o = Some z -> digits z = Some p -> Q p st -> wp (get_digits o) Q st.
Proof. intros ? Hp ?. unfold get_digits. wb. eapply wp_getO; [done|]. rewrite Hp. by apply wp_ret. Qed.
Lemma wp_set_used o z n (Q : unit -> state -> Prop) st :
  objs st !! o = Some z -> Q tt (set_objs st (<[o := Mpz (digits z) (alloc z) n (sign z)]> (objs st))) ->
  wp (set_used o n) Q st.
Proof. intros. unfold set_used. wb. eapply wp_getO; [done|]. by eapply wp_setO. Qed.
Lemma wp_set_sign o z n (Q : unit -> state -> Prop) st :
  objs st !! o = Some z -> Q tt (set_objs st (<[o := Mpz (digits z) (alloc z) (used z) n]> (objs st))) ->
  wp (set_sign o n) Q st.
Proof. intros. unfold set_sign. wb. eapply wp_getO; [done|]. by eapply wp_setO. Qed.
Lemma wp_set_alloc o z n (Q : unit -> state -> Prop) st :
  objs st !! o = Some z -> Q tt (set_objs st (<[o := Mpz (digits z) n (used z) (sign z)]> (objs st))) ->
  wp (set_alloc o n) Q st.
Proof. intros. unfold set_alloc. wb. eapply wp_getO; [done|]. by eapply wp_setO. Qed.
Lemma wp_set_digits o z n (Q : unit -> state -> Prop) st :
  objs st !! o = Some z -> Q tt (set_objs st (<[o := Mpz n (alloc z) (used z) (sign z)]> (objs st))) ->
  wp (set_digits o n) Q st.
Proof. intros. unfold set_digits. wb. eapply wp_getO; [done|]. by eapply wp_setO. Qed.

Lemma set_objs_set_objs st a b : set_objs (set_objs st a) b = set_objs st b.
Proof. done. Qed.
Lemma objs_set_objs st a : objs (set_objs st a) = a. Proof. done. Qed.
Lemma mem_set_objs st a : mem (set_objs st a) = mem st. Proof. done. Qed.
Lemma objs_set_mem st a : objs (set_mem st a) = objs st. Proof. done. Qed.

Section R.
  Context (st : state) (σ : gmap oid fobj) (X : ctx) (HR : R st σ X) (o : oid) (f : fobj)
          (Ho : σ !! o = Some f).
  Lemma wpR_used (Q : Z -> state -> Prop) : Q (fu f) st -> wp (get_used o) Q st.
  Proof. intros. eapply wp_get_used; [by eapply R_get|]. done. Qed.
  Lemma wpR_sign (Q : Z -> state -> Prop) : Q (fs f) st -> wp (get_sign o) Q st.
  Proof. intros. eapply wp_get_sign; [by eapply R_get|]. done. Qed.
  Lemma wpR_alloc (Q : Z -> state -> Prop) : Q (Z.of_nat (length (fc f))) st -> wp (get_alloc o) Q st.
  Proof. intros. eapply wp_get_alloc; [by eapply R_get|]. done. Qed.
  Lemma wpR_digits (Q : ptr -> state -> Prop) : Q (fl f, 0) st -> wp (get_digits o) Q st.
  Proof. intros. eapply wp_get_digits; [by eapply R_get| |]; done. Qed.
  Lemma wpR_set_used n (Q : unit -> state -> Prop) :
    (forall st', R st' (<[o := Fo (fs f) n (fc f) (fl f)]> σ) X -> Q tt st') -> wp (set_used o n) Q st.
  Proof.
    intros H. eapply wp_set_used; [by eapply R_get|]. apply H. by apply (R_setf _ _ _ _ _ (fs f) n).
  Qed.
  Lemma wpR_set_sign s (Q : unit -> state -> Prop) :
    (forall st', R st' (<[o := Fo s (fu f) (fc f) (fl f)]> σ) X -> Q tt st') -> wp (set_sign o s) Q st.
  Proof.
    intros H. eapply wp_set_sign; [by eapply R_get|]. apply H. by apply (R_setf _ _ _ _ _ s (fu f)).
  Qed.
End R.

(** ** Arrays of objects *)
Lemma R_carr st σ X o f l1 l l2 : R st σ X -> σ !! o = Some f -> fc f = l1 ++ l ++ l2 ->
  carr (mem st) (fl f, Z.of_nat (length l1)) l.
Proof. intros HR Ho Hf. eapply carr_blk; [by eapply R_mem|done]. Qed.
Lemma R_darr st σ X o f ds rest : R st σ X -> σ !! o = Some f -> fc f = (Some <$> ds) ++ rest ->
  darr (mem st) (fl f, 0) ds.
Proof. intros HR Ho Hf. by apply (R_carr st σ X o f [] (Some <$> ds) rest). Qed.
Lemma R_valid st σ X o f n k : R st σ X -> σ !! o = Some f -> 0 <= n ->
  (Z.to_nat n + k <= length (fc f))%nat -> valid (mem st) (fl f, n) k.
Proof.
  intros HR Ho Hn Hk i Hi. rewrite (load_blk _ _ (fc f)); [|by eapply R_mem|simpl; lia].
  simpl. apply lookup_lt_is_Some. lia.
Qed.
Lemma R_load st σ X o f i c : R st σ X -> σ !! o = Some f -> fc f !! i = Some c ->
  load (mem st) ((fl f, 0) +p Z.of_nat i) = Some c.
Proof.
  intros HR Ho Hi. rewrite (load_blk _ _ (fc f)); [|by eapply R_mem|simpl; lia].
  simpl. rewrite <- Hi. f_equal. lia.
Qed.
Lemma R_load0 st σ X o f c : R st σ X -> σ !! o = Some f -> fc f !! 0%nat = Some c ->
  load (mem st) (fl f, 0) = Some c.
Proof. intros. by apply (R_load st σ X o f 0). Qed.

(** ** s_pad *)
Definition owned (f : fobj) : Prop := match fl f with Ext _ => False | _ => True end.

Lemma round_prec n : 0 <= n < RADIX - 1 -> n <= s_round_prec n <= n + 1.
Proof.
  intros H. unfold s_round_prec. rewrite (u32_id (n + 1)) by lia.
  pose proof (Z.div_mod (n + 1) 2 ltac:(lia)) as E. pose proof (Z.mod_pos_bound (n + 1) 2 ltac:(lia)).
  rewrite u32_id; [lia|]. split; [lia|].
  assert (RADIX mod 2 = 0) by (rewrite RADIX_val; reflexivity).
  pose proof (Z.div_mod RADIX 2 ltac:(lia)). lia.
Qed.

Lemma blank_len n : length (blank n) = Z.to_nat n.
Proof. apply replicate_length. Qed.
Lemma resize_grow l n : Z.of_nat (length l) <= n ->
  resize_cells l n = l ++ replicate (Z.to_nat n - length l) None.
Proof.
  intros H. unfold resize_cells, blank. rewrite take_ge.
  - f_equal. f_equal. lia.
  - rewrite app_length, replicate_length. lia.
Qed.

(** The digits of an object on the heap move to another block. *)
Lemma R_move st σ X o f h i cells : R st σ X -> σ !! o = Some f -> fl f = Hp h -> mem st !! Hp i = None -> 1 <= Z.of_nat (length cells) <= MAXD ->
  R (set_objs (del_block (add_block st (Hp i) cells) (Hp h)) (<[o := mpz_of (Fo (fs f) (fu f) cells (Hp i))]> (objs st)))
    (<[o := Fo (fs f) (fu f) cells (Hp i)]> σ) X.
Proof.
  intros HR Ho Hh Hi Hlen.
  assert (Hp i <> fl f) as Hbf. { intros He. rewrite He in Hi. erewrite (R_mem _ _ _ HR) in Hi by done. done. }
  destruct (R_newB st σ X (Hp i) cells HR) as [Hc HR1]; [done|done|].
  eapply (R_own _ _ _ o f (Hp i) cells (fs f) (fu f)) in HR1; [|done|simpl; apply lookup_insert|done].
  eapply (R_delB _ _ _ (fl f) (fc f)) in HR1.
  2:{ simpl. unfold release. rewrite Hh. apply lookup_insert. }
  unfold release in HR1. rewrite Hh in HR1. simpl in HR1. rewrite <- Hh in HR1.
  unfold with_cmem in HR1. simpl in HR1. rewrite delete_insert in HR1.
  2:{ rewrite delete_insert by done. destruct (cmem X !! fl f) eqn:E; [|done].
      exfalso. by eapply (R_ctx_own _ _ _ HR). }
  rewrite delete_insert in HR1 by done. rewrite Hh in HR1. destruct X; simpl in *. exact HR1.
Qed.
(** [realloc] may leave the block where it is. *)
Lemma R_realloc st σ X o f h i cells : R st σ X -> σ !! o = Some f -> fl f = Hp h -> mem (del_block st (Hp h)) !! Hp i = None -> 1 <= Z.of_nat (length cells) <= MAXD ->
  R (set_objs (add_block (del_block st (Hp h)) (Hp i) cells) (<[o := mpz_of (Fo (fs f) (fu f) cells (Hp i))]> (objs st)))
    (<[o := Fo (fs f) (fu f) cells (Hp i)]> σ) X.
Proof.
  intros HR Ho Hh Hi Hlen. simpl in Hi. set (j := new_hp (<[Hp i := cells]> (mem st))).
  pose proof (new_hp_fresh (<[Hp i := cells]> (mem st))) as Hj. fold j in Hj.
  assert (j <> i) as Nji by (intros E; rewrite E, lookup_insert in Hj; done). rewrite lookup_insert_ne in Hj by congruence.
  assert (j <> h) as Njh. { intros E. rewrite E, <- Hh in Hj. erewrite (R_mem _ _ _ HR) in Hj by done. done. }
  pose proof (R_move _ _ _ _ _ _ j cells HR Ho Hh Hj Hlen) as HR1.
  eapply (R_move _ _ _ o _ j i cells) in HR1; [|apply lookup_insert|done| |done].
  2:{ simpl. rewrite delete_insert_ne, lookup_insert_ne by congruence. done. }
  rewrite insert_insert in HR1. cbn [fs fu] in HR1. unfold del_block, add_block, set_objs, set_mem in *. simpl in *. rewrite insert_insert in HR1.
  match type of HR1 with R (State _ ?m _) _ _ => replace m with (<[Hp i := cells]> (delete (Hp h) (mem st))) in HR1; [exact HR1|] end.
  rewrite (delete_insert_ne _ (Hp h)) by congruence. rewrite (delete_insert_ne _ (Hp j)) by congruence.
  rewrite delete_insert; [done|]. by rewrite lookup_delete_ne by congruence.
Qed.

Lemma wpR_pad st σ X o f n (Q : bool -> state -> Prop) :
  R st σ X -> σ !! o = Some f -> owned f -> (exists d, fc f !! 0%nat = Some (Some d)) ->
  0 <= n < RADIX - 1 ->
  (forall st' k b, owned (Fo (fs f) (fu f) (fc f ++ replicate k None) b) ->
     n <= Z.of_nat (length (fc f) + k) <= MAXD ->
     ((n <= Z.of_nat (length (fc f))) -> k = 0%nat /\ b = fl f) ->
     R st' (<[o := Fo (fs f) (fu f) (fc f ++ replicate k None) b]> σ) X -> Q true st') ->
  wp (s_pad o n) Q st.
Proof.
  intros HR Ho Hown [d0 Hd0] Hn HQ. pose proof (R_len _ _ _ HR _ _ Ho) as Hlen.
  unfold s_pad. wb. eapply wpR_alloc; [done..|].
  destruct (Z.ltb_spec (Z.of_nat (length (fc f))) n) as [Hlt|Hge].
  2:{ apply wp_ret. apply (HQ st 0%nat (fl f)); [done|rewrite Nat.add_0_r; lia|done|].
      simpl. rewrite app_nil_r, insert_id; [done|]. by destruct f. }
  pose proof (round_prec n Hn) as Hrp.
  wb. eapply wpR_digits; [done..|]. wb. unfold ptr_eqb.
  case_bool_decide as Hs.
  - injection Hs as Hs. 
    assert (length (fc f) = 1%nat) as Hl1.
    { eapply (R_sng1 _ _ _ HR). rewrite <- Hs. by eapply R_mem. }
    wb. apply wp_s_alloc. intros Hm i Hi. set (b := Hp i).
    destruct (R_newB st σ X b (blank (s_round_prec n)) HR) as [Hc HR1]; [exact Hi|done|].
    wb. eapply (wp_load _ d0).
    { rewrite <- Hs. eapply (R_load0 _ _ _ o f); [exact HR1|done..]. }
    assert (blank (s_round_prec n) !! 0%nat = Some None) as Hb0.
    { unfold blank. apply lookup_replicate. split; [done|lia]. }
    wb. eapply wp_store.
    { rewrite (load_blk _ _ (blank (s_round_prec n))); [exact Hb0| |done]. simpl. apply lookup_insert. }
    apply wp_ret.
    eapply (R_cwrite _ _ _ b _ 0 [Some d0]) in HR1; [|simpl; apply lookup_insert]. rewrite wr_1 in HR1.
    rewrite list_inserts_0 in HR1 by (rewrite blank_len; simpl; lia).
    simpl in HR1. unfold with_cmem in HR1 at 1. simpl in HR1. rewrite insert_insert in HR1.
    set (cells := Some d0 :: drop 1 (blank (s_round_prec n))) in HR1.
    assert (fc f = [Some d0]) as Hfc. { destruct (fc f) as [|x [|y r]]; try done. simpl in Hd0. congruence. }
    assert (cells = fc f ++ replicate (Z.to_nat (s_round_prec n) - 1) None) as Hcells.
    { unfold cells. rewrite Hfc. simpl. f_equal. unfold blank. by rewrite drop_replicate. }
    wb. eapply wp_set_digits; [by eapply R_get|]. wb.
    eapply wp_set_alloc; [simpl; apply lookup_insert|]. apply wp_ret.
    eapply (R_own _ _ _ o f b cells (fs f) (fu f)) in HR1; [|done|simpl; apply lookup_insert|].
    2:{ rewrite Hcells, app_length, replicate_length. lia. }
    unfold release in HR1. rewrite Hs in HR1. simpl in HR1.
    rewrite delete_insert in HR1 by done. unfold with_cmem in HR1. simpl in HR1.
    rewrite Hcells in HR1.
    eapply (HQ _ (Z.to_nat (s_round_prec n) - 1)%nat b).
    + done.
    + lia.
    + lia.
    + destruct X; simpl in *. rewrite !set_objs_set_objs, insert_insert.
      unfold mpz_of in HR1. simpl in HR1.
      replace (Z.of_nat (length (fc f ++ replicate (Z.to_nat (s_round_prec n) - 1) None))) with (s_round_prec n) in HR1
        by (rewrite app_length, replicate_length; lia).
      exact HR1.
  - assert (exists h, fl f = Hp h) as [h Hh].
    { pose proof (R_loc _ _ _ HR _ _ Ho) as Hloc. unfold owned in Hown. unfold loc_ok in Hloc.
      destruct (fl f) eqn:E; [subst; done|eauto|done]. }
    assert (live_heap st (fl f, 0) = Some (fc f)) as Hlive.
    { unfold live_heap. rewrite Hh. rewrite <- Hh. by eapply R_mem. }
    unfold s_realloc. eapply wp_Realloc; [done| |].
    { left. apply at_null_none. }
    intros Hm i Hi. apply wp_AssertN; [done|]. apply wp_ret. cbn [fst snd].
    set (b := Hp i) in *. set (cells := resize_cells (fc f) (s_round_prec n)).
    assert (cells = fc f ++ replicate (Z.to_nat (s_round_prec n) - length (fc f)) None) as Hcells.
    { unfold cells. apply resize_grow. lia. }
    assert (Z.of_nat (length cells) = s_round_prec n) as Lc by (rewrite Hcells, app_length, replicate_length; lia).
    pose proof (R_realloc st σ X o f h i cells HR Ho Hh ltac:(rewrite Hh in Hi; exact Hi) ltac:(lia)) as HR1.
    wb. eapply wp_set_digits; [simpl; by eapply R_get|]. wb.
    eapply wp_set_alloc; [simpl; apply lookup_insert|]. apply wp_ret.
    eapply (HQ _ (Z.to_nat (s_round_prec n) - length (fc f))%nat b).
    + done.
    + lia.
    + lia.
    + rewrite <- Hcells. rewrite <- Hh in HR1. simpl. rewrite !set_objs_set_objs, insert_insert.
      unfold mpz_of, del_block, add_block, set_objs, set_mem in *. simpl in *. rewrite Lc in HR1. exact HR1.
Qed.
