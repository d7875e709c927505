(** Rules for the caller's buffers: loads, stores, reversal. *)
From Coq Require Import ZArith List Lia.
From stdpp Require Import gmap list.
From Verif Require Import Mem Prog Kern Imath Wp MemLem Dig KernLem KernMul KernKar Rel RelWp RelZ Life Basic Basic2 Mult Shift Knuth Divi Powr Spec Public.
Local Open Scope Z_scope.

Definition setb (X : ctx) (b : base) (l : list cell) : ctx := with_cmem X (<[b := l]> (cmem X)).
Lemma setb_setb X b l l' : setb (setb X b l) b l' = setb X b l'.
Proof. unfold setb, with_cmem. simpl. by rewrite insert_insert. Qed.
Lemma setb_id X b l : cmem X !! b = Some l -> setb X b l = X.
Proof. intros H. unfold setb, with_cmem. rewrite insert_id by done. by destruct X. Qed.
Lemma setb_lookup X b l : cmem (setb X b l) !! b = Some l.
Proof. apply lookup_insert. Qed.
Lemma world_setb X b l : world_of (setb X b l) = with_buf (world_of X) b l.
Proof. done. Qed.

Lemma wpR_loadb st σ X b l off v (Q : Z -> state -> Prop) :
  R st σ X -> cmem X !! b = Some l -> 0 <= off -> l !! Z.to_nat off = Some (Some v) -> Q v st -> wp (Load (b, off)) Q st.
Proof.
  intros HR Hb Ho Hl HQ. eapply wp_load; [|done]. rewrite (load_blk _ _ l); [done|by apply (R_ctx _ _ _ HR)|done].
Qed.
Lemma wpR_storeb st σ X b l off v (Q : unit -> state -> Prop) :
  R st σ X -> cmem X !! b = Some l -> 0 <= off < Z.of_nat (length l) ->
  (forall st', R st' σ (setb X b (<[Z.to_nat off := Some v]> l)) -> Q tt st') -> wp (Store (b, off) v) Q st.
Proof.
  intros HR Hb Ho HQ. destruct (lookup_lt_is_Some_2 l (Z.to_nat off)) as [c Hc]; [lia|].
  eapply wp_store. { rewrite (load_blk _ _ l); [exact Hc|by apply (R_ctx _ _ _ HR)|simpl; lia]. }
  rewrite <- wr_1. apply HQ. by apply (R_cwrite _ _ _ _ _ _ [Some v]).
Qed.
Lemma wpZ_loadb st ζ X b l off v (Q : Z -> state -> Prop) :
  RZ st ζ X -> cmem X !! b = Some l -> 0 <= off -> l !! Z.to_nat off = Some (Some v) -> Q v st -> wp (Load (b, off)) Q st.
Proof. intros (σ & HR & _) ? ? ? ?. by eapply wpR_loadb. Qed.
Lemma wpZ_storeb st ζ X b l off v (Q : unit -> state -> Prop) :
  RZ st ζ X -> cmem X !! b = Some l -> 0 <= off < Z.of_nat (length l) ->
  (forall st', RZ st' ζ (setb X b (<[Z.to_nat off := Some v]> l)) -> Q tt st') -> wp (Store (b, off) v) Q st.
Proof. intros (σ & HR & ?) ? ? HQ. eapply wpR_storeb; [done..|]. intros st' HR'. apply HQ. by exists σ. Qed.

Lemma insert_overwrite (l : list cell) off (s : list Z) v : (off + length s < length l)%nat ->
  <[(off + length s)%nat := Some v]> (overwrite off s l) = overwrite off (s ++ [v]) l.
Proof.
  intros H. unfold overwrite. rewrite fmap_app, app_length. simpl.
  rewrite insert_app_r_alt by (rewrite take_length; lia). rewrite take_length, Nat.min_l by lia. f_equal.
  rewrite insert_app_r_alt by (rewrite fmap_length; lia). rewrite fmap_length, <- app_assoc. f_equal.
  replace (off + length s - off - length s)%nat with 0%nat by lia.
  destruct (drop (off + length s) l) as [|c r] eqn:E. { apply (f_equal length) in E. rewrite drop_length in E. simpl in E. lia. }
  simpl. f_equal. replace (off + (length s + 1))%nat with (S (off + length s)) by lia. by rewrite <- drop_drop', E || (rewrite (drop_S _ c (off + length s)) in E; [by injection E as <-|]; rewrite <- (Nat.add_0_r (off + length s)), <- lookup_drop, E).
Qed.
Lemma overwrite_nil l off : overwrite off [] l = l.
Proof. unfold overwrite. simpl. by rewrite Nat.add_0_r, take_drop. Qed.
Lemma overwrite_length l off s : (off + length s <= length l)%nat -> length (overwrite off s l) = length l.
Proof. intros. unfold overwrite. rewrite !app_length, take_length, fmap_length, drop_length. lia. Qed.
Lemma overwrite_overwrite l off s s' : (off + length s <= length l)%nat -> (length s <= length s')%nat ->
  overwrite off s' (overwrite off s l) = overwrite off s' l.
Proof.
  intros H1 H2. unfold overwrite. rewrite take_app_alt by (rewrite take_length; lia). f_equal. f_equal.
  rewrite drop_app_ge by (rewrite take_length; lia). rewrite take_length, Nat.min_l by lia.
  rewrite drop_app_ge by (rewrite fmap_length; lia). rewrite fmap_length, drop_drop. f_equal. lia.
Qed.
Lemma overwrite_app l off s s' : (off + length s + length s' <= length l)%nat ->
  overwrite (off + length s) s' (overwrite off s l) = overwrite off (s ++ s') l.
Proof.
  intros H. unfold overwrite. rewrite fmap_app, app_length. rewrite !(app_assoc (take off l)).
  rewrite take_app_alt by (rewrite app_length, take_length, fmap_length; lia). rewrite <- !app_assoc. do 3 f_equal.
  rewrite (app_assoc (take off l)). rewrite drop_app_ge by (rewrite app_length, take_length, fmap_length; lia). rewrite app_length, take_length, fmap_length.
  rewrite drop_drop. f_equal. lia.
Qed.
Lemma overwrite_lookup l off s i v : s !! i = Some v -> (off <= length l)%nat -> overwrite off s l !! (off + i)%nat = Some (Some v).
Proof.
  intros H Ho. unfold overwrite. rewrite lookup_app_r by (rewrite take_length; lia). rewrite take_length, Nat.min_l by lia.
  replace (off + i - off)%nat with i by lia. rewrite lookup_app_l by (rewrite fmap_length; by eapply lookup_lt_Some). by rewrite list_lookup_fmap, H.
Qed.

(** ** Reversal *)
Lemma wpR_rev (m : list Z) : forall n st σ X b (pre post : list cell) (Q : unit -> state -> Prop),
  R st σ X -> cmem X !! b = Some (pre ++ (Some <$> m) ++ post) -> (length m <= n)%nat ->
  (forall st', R st' σ (setb X b (pre ++ (Some <$> rev m) ++ post)) -> Q tt st') ->
  wp (rev_loop n (b, Z.of_nat (length pre)) (b, Z.of_nat (length pre) + Z.of_nat (length m) - 1)) Q st.
Proof.
  induction m as [m IH] using (induction_ltof1 _ (@length Z)). unfold ltof in IH. intros n st σ X b pre post Q HR Hb Hn HQ.
  destruct m as [|x m']; [|destruct m' as [|y m _] using rev_ind].
  - destruct n; cbn [rev_loop fst snd length]; (destruct (Z.ltb_spec (Z.of_nat (length pre)) (Z.of_nat (length pre) + Z.of_nat 0 - 1)); [lia|]);
      apply wp_ret, HQ; simpl; by rewrite setb_id.
  - destruct n; cbn [rev_loop fst snd length]; (destruct (Z.ltb_spec (Z.of_nat (length pre)) (Z.of_nat (length pre) + Z.of_nat 1 - 1)); [lia|]);
      apply wp_ret, HQ; simpl; by rewrite setb_id.
  - rewrite app_comm_cons, app_length in *. cbn [length] in *. destruct n as [|n]; [lia|]. cbn [rev_loop fst snd].
    destruct (Z.ltb_spec (Z.of_nat (length pre)) (Z.of_nat (length pre) + Z.of_nat (S (length m) + 1) - 1)); [|lia].
    set (L := pre ++ (Some <$> (x :: m) ++ [y]) ++ post) in *.
    assert (L = pre ++ Some x :: (Some <$> m) ++ Some y :: post) as EL. { unfold L. rewrite fmap_app. simpl. by rewrite <- app_assoc. }
    assert (length L = length pre + S (length m + S (length post)))%nat as LL. { rewrite EL, app_length. simpl. rewrite app_length, fmap_length. done. }
    wb. eapply wpR_loadb; [done|done|lia| |].
    { rewrite Nat2Z.id, EL, list_lookup_middle; done. }
    wb. eapply (wpR_loadb _ _ _ _ _ _ y); [done|done|lia| |].
    { rewrite EL. replace (Z.to_nat _) with (length pre + S (length m))%nat by lia. rewrite lookup_app_r by lia. rewrite Nat.add_comm, Nat.add_sub. simpl.
      rewrite list_lookup_middle; [done|]. by rewrite fmap_length. }
    wb. eapply wpR_storeb; [done|done|lia|]. intros st1 HR1.
    wb. eapply wpR_storeb; [exact HR1|apply setb_lookup|rewrite insert_length; lia|]. intros st2 HR2. rewrite setb_setb in HR2.
    assert (<[Z.to_nat (Z.of_nat (length pre) + Z.of_nat (S (length m) + 1) - 1):=Some x]> (<[Z.to_nat (Z.of_nat (length pre)):=Some y]> L) = (pre ++ [Some y]) ++ (Some <$> m) ++ (Some x :: post)) as E2.
    { rewrite EL, Nat2Z.id. replace (Z.to_nat (Z.of_nat (length pre) + Z.of_nat (S (length m) + 1) - 1)) with (length pre + S (length m))%nat by lia.
      rewrite <- (Nat.add_0_r (length pre)) at 2. rewrite !insert_app_r. simpl. rewrite <- app_assoc. simpl. do 2 f_equal.
      rewrite <- (fmap_length Some m). rewrite <- (Nat.add_0_r (length (Some <$> m))), insert_app_r. done. }
    rewrite E2 in HR2.
    replace (padd (b, Z.of_nat (length pre)) 1) with (b, Z.of_nat (length (pre ++ [Some y]))) by (unfold padd; simpl; f_equal; rewrite app_length; simpl; lia).
    replace (padd (b, Z.of_nat (length pre) + Z.of_nat (S (length m) + 1) - 1) (-1)) with (b, Z.of_nat (length (pre ++ [Some y])) + Z.of_nat (length m) - 1)
      by (unfold padd; simpl; f_equal; rewrite app_length; simpl; lia).
    eapply (IH m); [simpl; lia|exact HR2|apply setb_lookup|lia|].
    intros st3 HR3. apply HQ. rewrite setb_setb in HR3. simpl. rewrite rev_app_distr. simpl. rewrite fmap_app. simpl.
    rewrite <- !app_assoc in *. simpl in *. done.
Qed.
Lemma wpZ_rev n st ζ X b l off (m : list Z) h t (Q : unit -> state -> Prop) :
  RZ st ζ X -> cmem X !! b = Some (overwrite off m l) -> (off + length m <= length l)%nat -> (length m <= n)%nat ->
  h = (b, Z.of_nat off) -> t = (b, Z.of_nat off + Z.of_nat (length m) - 1) ->
  (forall st', RZ st' ζ (setb X b (overwrite off (rev m) l)) -> Q tt st') -> wp (rev_loop n h t) Q st.
Proof.
  intros (σ & HR & Hz) Hb Ho Hn -> -> HQ. unfold overwrite in *.
  assert (length (take off l) = off) as Lt by (rewrite take_length; lia). rewrite <- Lt at 1 2.
  eapply wpR_rev; [done..|]. intros st' HR'. apply HQ. exists σ. split; [|done]. rewrite rev_length. done.
Qed.
