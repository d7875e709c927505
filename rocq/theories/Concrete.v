(** Concrete states that represent given stores: the theorems are not vacuous. *)
From Coq Require Import ZArith List Lia.
From stdpp Require Import gmap list.
From Verif Require Import Mem Prog Kern Imath Exec Spec MemLem.
Local Open Scope Z_scope.

Definition world0 : world := World ∅ ∅ (Globals 8 32).
Lemma Rep_empty : Rep st0 ∅ world0.
Proof.
  constructor; simpl.
  all: try (intros *; rewrite ?lookup_empty; done).
  intros o [? E]. by rewrite lookup_empty in E.
Qed.

Lemma to_digits_ok f v : 0 <= v < 2 ^ (32 * Z.of_nat f) -> (1 <= f)%nat ->
  digits_value (to_digits f v) = v /\ Forall (fun d => 0 <= d < 2 ^ 32) (to_digits f v) /\ (1 <= length (to_digits f v) <= f)%nat /\
  ((1 < length (to_digits f v))%nat -> last (to_digits f v) <> Some 0) /\ (0 < v -> last (to_digits f v) <> Some 0).
Proof.
  revert v. induction f as [|f IH]; intros v Hv Hf; [lia|]. cbn [to_digits].
  destruct (Z.ltb_spec v (2 ^ 32)) as [Hs|Hs].
  - cbn [digits_value length last]. split_and!; [lia|constructor; [lia|constructor]|lia|lia|lia|]. intros ? [=]. lia.
  - assert (32 * Z.of_nat (S f) = 32 + 32 * Z.of_nat f) as E by lia. rewrite E, Z.pow_add_r in Hv by lia.
    assert (1 <= f)%nat by (destruct f; [change (32 * Z.of_nat 0) with 0 in Hv; rewrite Z.pow_0_r in Hv|]; lia).
    destruct (IH (v / 2 ^ 32)) as (H1 & H2 & H3 & H4 & H5); [split; [apply Z.div_pos; lia|apply Z.div_lt_upper_bound; lia]|done|].
    assert (0 < v / 2 ^ 32) as Hd by (apply Z.div_str_pos; lia).
    cbn [digits_value length]. rewrite H1. split_and!.
    + pose proof (Z.div_mod v (2 ^ 32)). lia.
    + constructor; [apply Z.mod_pos_bound; lia|done].
    + lia.
    + lia.
    + intros _. destruct (to_digits f (v / 2 ^ 32)); [simpl in H3; lia|]. by apply H5.
    + intros _. destruct (to_digits f (v / 2 ^ 32)); [simpl in H3; lia|]. by apply H5.
Qed.

Lemma Rep_put st V W o v : Rep st V W -> objs st !! o = None -> Z.log2 (Z.abs v) < 2 ^ 20 -> Rep (put o v st) (<[o := v]> V) W.
Proof.
  intros H Ho L1. unfold put. set (n := Z.to_nat (Z.log2 (Z.abs v) / 32 + 2)). set (ds := to_digits n (Z.abs v)). set (b := Hp (new_hp (mem st))).
  pose proof (Z.log2_nonneg (Z.abs v)) as L0.
  assert (0 <= Z.log2 (Z.abs v) / 32 < 2 ^ 20) as L2 by (split; [apply Z.div_pos; lia|apply Z.div_lt_upper_bound; lia]).
  destruct (to_digits_ok n (Z.abs v)) as (D1 & D2 & D3 & D4 & D5).
  { split; [lia|]. unfold n. rewrite Z2Nat.id by lia. destruct (Z.eq_dec v 0) as [->|]; [done|].
    pose proof (Z.log2_spec (Z.abs v) ltac:(lia)) as [_ Hs]. eapply Z.lt_le_trans; [exact Hs|]. apply Z.pow_le_mono_r; [lia|].
    pose proof (Z.div_mod (Z.log2 (Z.abs v)) 32). pose proof (Z.mod_pos_bound (Z.log2 (Z.abs v)) 32). lia. }
  { unfold n. lia. }
  fold ds in D1, D2, D3, D4, D5. assert (Z.of_nat n <= 2 ^ 20 + 2) as Ln by (unfold n; lia).
  assert (mem st !! b = None) as Hb by apply new_hp_fresh.
  assert (V !! o = None) as HVo. { destruct (V !! o) as [x|] eqn:E; [|done]. destruct (rep_holds _ _ _ H _ _ E) as (? & (? & ? & ? & ? & ? & Hx & _) & _). congruence. }
  assert (mem st !! Sng o = None) as Hsng.
  { destruct (mem st !! Sng o) as [l|] eqn:E; [|done]. destruct (rep_all _ _ _ H _ _ E) as [(o' & v' & E1 & E2)|[(o' & E1 & [? E2])|[l' E1]]].
    - destruct (rep_holds _ _ _ H _ _ E1) as (b' & (al & us & sg & ds' & rest & Hx & _) & Hb'). unfold block_of in E2. rewrite Hx in E2. simpl in E2.
      injection E2 as ->. destruct Hb' as [Hb'|[? Hb']]; [|done]. injection Hb' as <-. congruence.
    - injection E1 as <-. congruence.
    - by apply (rep_bufs_sng _ _ _ H _ _ o) in E1. }
  assert (forall o', o' <> o -> block_of (State (<[o:=Mpz (Some (b, 0)) (Z.of_nat (length ((Some <$> ds) ++ [None; None]))) (Z.of_nat (length ds)) (if v <? 0 then 1 else 0)]>
      (objs st)) (<[Sng o:=[None]]> (<[b:=(Some <$> ds) ++ [None; None]]> (mem st))) (glob st)) o' = block_of st o') as HB.
  { intros o' N. unfold block_of. simpl. by rewrite lookup_insert_ne by done. }
  assert (forall o', o' = o -> block_of (State (<[o:=Mpz (Some (b, 0)) (Z.of_nat (length ((Some <$> ds) ++ [None; None]))) (Z.of_nat (length ds)) (if v <? 0 then 1 else 0)]>
      (objs st)) (<[Sng o:=[None]]> (<[b:=(Some <$> ds) ++ [None; None]]> (mem st))) (glob st)) o' = Some b) as HBo.
  { intros o' ->. unfold block_of. simpl. by rewrite lookup_insert. }
  assert (forall o' v', V !! o' = Some v' -> block_of st o' <> Some b) as HBne.
  { intros o' v' E E2. destruct (rep_holds _ _ _ H _ _ E) as (b' & (al & us & sg & ds' & rest & Hx & Hm & _) & _). unfold block_of in E2. rewrite Hx in E2. simpl in E2.
    injection E2 as ->. congruence. }
  set (st' := State _ _ _) in *.
  assert (forall b' l, mem st !! b' = Some l -> mem st' !! b' = Some l) as HM.
  { intros b' l E. unfold st'. simpl. rewrite !lookup_insert_ne by congruence. done. }
  constructor.
  - intros o' v' E. apply lookup_insert_Some in E as [[<- <-]|[N E]].
    + exists b. split; [|right; by eexists]. eexists _, _, _, ds, [None; None]. split_and!.
      * apply lookup_insert.
      * simpl. rewrite lookup_insert_ne by done. apply lookup_insert.
      * rewrite app_length, fmap_length. done.
      * rewrite app_length, fmap_length. simpl. change MAXD with (2 ^ 25). lia.
      * done.
      * lia.
      * done.
      * intros. apply D4. lia.
      * rewrite D1. destruct (Z.ltb_spec v 0); [right|left]; lia.
    + destruct (rep_holds _ _ _ H _ _ E) as (b' & (al & us & sg & ds' & rest & Hx & Hm & Hrest) & Hb'). exists b'. split; [|done].
      exists al, us, sg, ds', rest. split; [unfold st'; simpl; by rewrite lookup_insert_ne|]. split; [by apply HM|done].
  - intros o1 o2 v1 v2 E1 E2 EB. apply lookup_insert_Some in E1 as [[<- <-]|[N1 E1]], E2 as [[<- <-]|[N2 E2]]; [done| | |].
    + rewrite (HBo o), HB in EB by done. symmetry in EB. by apply (HBne _ _ E2) in EB.
    + rewrite (HBo o), HB in EB by done. by apply (HBne _ _ E1) in EB.
    + rewrite !HB in EB by done. by eapply (rep_apart _ _ _ H).
  - intros o' E. apply lookup_insert_None in E as [E N]. unfold st'. simpl. rewrite lookup_insert_ne by done. by apply (rep_others _ _ _ H).
  - intros o' v' E. apply lookup_insert_Some in E as [[<- <-]|[N E]]; [|by eapply (rep_blanks _ _ _ H)]. by rewrite <- (rep_others _ _ _ H).
  - intros b' l E. apply HM. by apply (rep_bufs _ _ _ H).
  - intros b' l o' v' E E'. split; [|by eapply (rep_bufs_sng _ _ _ H)]. apply lookup_insert_Some in E' as [[<- <-]|[N E']].
    + rewrite HBo by done. intros [= <-]. apply (rep_bufs _ _ _ H) in E. congruence.
    + rewrite HB by done. by eapply (rep_bufs_apart _ _ _ H).
  - apply (rep_bufs_sng _ _ _ H).
  - intros b' l E. unfold st' in E. simpl in E. apply lookup_insert_Some in E as [[<- <-]|[N E]].
    { right. left. exists o. split; [done|]. unfold st'. simpl. rewrite lookup_insert. eauto. }
    apply lookup_insert_Some in E as [[<- <-]|[N' E]].
    { left. exists o, v. rewrite lookup_insert. split; [done|]. by apply HBo. }
    destruct (rep_all _ _ _ H _ _ E) as [(o' & v' & E1 & E2)|[(o' & -> & [x E1])|?]]; [left|right; left|right; by right].
    + assert (o <> o') by congruence. exists o', v'. rewrite lookup_insert_ne, HB by done. done.
    + exists o'. split; [done|]. unfold st'. simpl. rewrite lookup_insert_ne by congruence. eauto.
  - intros o' [x E]. unfold st' in *. simpl in *. apply lookup_insert_Some in E as [[<- _]|[N E]]; [rewrite lookup_insert; eauto|].
    destruct (rep_sng _ _ _ H o') as [c Hc]; [eauto|]. exists c. rewrite !lookup_insert_ne; [done|congruence|congruence].
  - apply (rep_glob _ _ _ H).
  - apply (rep_tun _ _ _ H).
Qed.

(** Every finite store of (not astronomically large) integers is represented. *)
Theorem Rep_exists (V : gmap oid Z) : (forall o v, V !! o = Some v -> Z.log2 (Z.abs v) < 2 ^ 20) -> exists st, Rep st V world0.
Proof.
  induction V as [|o v V Ho IH] using map_ind; intros HV.
  - exists st0. apply Rep_empty.
  - destruct IH as [st H]. { intros o' v' E. apply (HV o'). rewrite lookup_insert_ne; [done|congruence]. }
    exists (put o v st). apply Rep_put; [done| |].
    + rewrite (rep_others _ _ _ H) by done. apply lookup_empty.
    + apply (HV o). apply lookup_insert.
Qed.

(** The store used by the examples: several digits, both signs, zero, and small
    numbers. *)
Definition hA : oid := H 1.
Definition hB : oid := H 2.
Definition hC : oid := H 3.
Definition hD : oid := H 4.
Definition hE : oid := (false, 5%positive).
Definition vA : Z := 2 ^ 100 - 12345.
Definition vB : Z := - (2 ^ 64 + 7).
Definition vD : Z := -12.
Definition exV : gmap oid Z := <[hE := 3]> (<[hD := vD]> (<[hC := 0]> (<[hB := vB]> (<[hA := vA]> ∅)))).
Definition exS : state := put hE 3 (put hD vD (put hC 0 (put hB vB (put hA vA st0)))).
Lemma ex_rep : Rep exS exV world0.
Proof. unfold exS, exV. repeat (apply Rep_put; [|reflexivity|by vm_compute]). apply Rep_empty. Qed.

(** A state with a buffer of the caller. *)
Definition put_buf (b : base) (l : list cell) (st : state) : state := set_mem st (<[b := l]> (mem st)).
Lemma Rep_put_buf st V W b l : Rep st V W -> mem st !! b = None -> (forall o, b <> Sng o) -> Rep (put_buf b l st) V (with_buf W b l).
Proof.
  intros H Hb Hs. destruct H as [rep_holds0 rep_apart0 rep_others0 rep_blanks0 rep_bufs0 rep_bufs_apart0 rep_bufs_sng0 rep_all0 rep_sng0 rep_glob0 rep_tun0]. unfold put_buf. constructor; cbn [objs mem glob set_mem bufs blanks tunables with_buf]; try done.
  - intros o v Ho. destruct (rep_holds0 o v Ho) as (b' & (al & us & sg & ds & rest & H1 & H2 & H3) & Hb'). exists b'. split; [|done].
    exists al, us, sg, ds, rest. cbn [objs mem set_mem]. split; [done|]. split; [|done]. rewrite lookup_insert_ne; [done|congruence].
  - intros b' l' E. apply lookup_insert_Some in E as [[<- <-]|[N E]]; [apply lookup_insert|]. rewrite lookup_insert_ne by done. auto.
  - intros b' l' o v E Ho. apply lookup_insert_Some in E as [[<- <-]|[N E]]; [|eauto]. split; [|done]. intros E.
    destruct (rep_holds0 o v Ho) as (b' & (al & us & sg & ds & rest & H1 & H2 & H3) & Hb'). unfold block_of in E. cbn [objs set_mem] in E. rewrite H1 in E. cbn in E. injection E as ->. congruence.
  - intros b' l' o E. apply lookup_insert_Some in E as [[<- <-]|[N E]]; eauto.
  - intros b' l' E. apply lookup_insert_Some in E as [[<- <-]|[N E]]; [right; right; rewrite lookup_insert; eauto|].
    destruct (rep_all0 b' l' E) as [?|[?|?]]; [by left|by right; left|right; right]. by rewrite lookup_insert_ne.
  - intros o Ho. destruct (rep_sng0 o Ho) as [c Hc]. exists c. rewrite lookup_insert_ne; [done|apply Hs].
Qed.
(** The store of the examples with one buffer of [n] cells. *)
Definition bX : base := Ext 1.
Definition exB (n : nat) : state := put_buf bX (replicate n None) exS.
Definition exW (n : nat) : world := with_buf world0 bX (replicate n None).
Lemma exB_rep n : Rep (exB n) exV (exW n).
Proof. apply Rep_put_buf; [apply ex_rep|by vm_compute|done]. Qed.
(** The result of a call and what it left in the buffer. *)
Definition result_buf {A} (p : prog A) (st : state) : option (A * option (list cell)) :=
  match exec p st with Done a st' _ => Some (a, mem st' !! bX) | _ => None end.
