(** Any client of the library sees a store of integers. *)
From Coq Require Import ZArith Znumtheory List Lia.
From stdpp Require Import gmap list.
From Verif Require Import Mem Prog Kern Fp Imath Wp KernLem Rel RelWp Rel RelZ Divi Spec SpecBin SpecHist Public Gcd Root Exptmod Buf Text Outlen Read Bin.
Local Open Scope Z_scope.
Local Open Scope prog_scope.

(** The library's function for each call. *)
Definition do_call (c : call) : prog answer :=
  match c with
  | Init o => r <- mp_int_init o; Ret (Num r)
  | InitSize o n => r <- mp_int_init_size o n; Ret (Num r)
  | InitCopy o a => r <- mp_int_init_copy o a; Ret (Num r)
  | InitValue o v => r <- mp_int_init_value o v; Ret (Num r)
  | InitUvalue o v => r <- mp_int_init_uvalue o v; Ret (Num r)
  | Clear o => mp_int_clear o;; Ret Nothing
  | Alloc => o <- mp_int_alloc; Ret (Handle o)
  | FreeInt o => mp_int_free o;; Ret Nothing
  | SetValue c v => r <- mp_int_set_value c v; Ret (Num r)
  | SetUvalue c v => r <- mp_int_set_uvalue c v; Ret (Num r)
  | Copy a c => r <- mp_int_copy a c; Ret (Num r)
  | Swap a c => mp_int_swap a c;; Ret Nothing
  | Zero c => mp_int_zero c;; Ret Nothing
  | Abs a c => r <- mp_int_abs a c; Ret (Num r)
  | Neg a c => r <- mp_int_neg a c; Ret (Num r)
  | Add a b c => r <- mp_int_add a b c; Ret (Num r)
  | AddValue a v c => r <- mp_int_add_value a v c; Ret (Num r)
  | Sub a b c => r <- mp_int_sub a b c; Ret (Num r)
  | SubValue a v c => r <- mp_int_sub_value a v c; Ret (Num r)
  | Mul a b c => r <- mp_int_mul a b c; Ret (Num r)
  | MulValue a v c => r <- mp_int_mul_value a v c; Ret (Num r)
  | MulPow2 a k c => r <- mp_int_mul_pow2 a k c; Ret (Num r)
  | Sqr a c => r <- mp_int_sqr a c; Ret (Num r)
  | Div a b q t => r <- mp_int_div a b q t; Ret (Num r)
  | DivValue a v q => r <- mp_int_div_value a v q; Ret (Small r.1 r.2)
  | DivPow2 a k q t => r <- mp_int_div_pow2 a k q t; Ret (Num r)
  | Mod a m c => r <- mp_int_mod a m c; Ret (Num r)
  | Expt a k c => r <- mp_int_expt a k c; Ret (Num r)
  | ExptValue v k c => r <- mp_int_expt_value v k c; Ret (Num r)
  | ExptFull a b c => r <- mp_int_expt_full a b c; Ret (Num r)
  | Compare a b => r <- mp_int_compare a b; Ret (Num r)
  | CompareUnsigned a b => r <- mp_int_compare_unsigned a b; Ret (Num r)
  | CompareZero a => r <- mp_int_compare_zero a; Ret (Num r)
  | CompareValue a v => r <- mp_int_compare_value a v; Ret (Num r)
  | CompareUvalue a v => r <- mp_int_compare_uvalue a v; Ret (Num r)
  | DivisibleValue a v => r <- mp_int_divisible_value a v; Ret (Flag r)
  | IsPow2 a => r <- mp_int_is_pow2 a; Ret (Num r)
  | IsOdd a => r <- mp_int_is_odd a; Ret (Flag r)
  | IsEven a => r <- mp_int_is_even a; Ret (Flag r)
  | Exptmod a b m c => r <- mp_int_exptmod a b m c; Ret (Num r)
  | ExptmodEvalue a v m c => r <- mp_int_exptmod_evalue a v m c; Ret (Num r)
  | ExptmodBvalue v b m c => r <- mp_int_exptmod_bvalue v b m c; Ret (Num r)
  | ExptmodKnown a b m mu c => r <- mp_int_exptmod_known a b m mu c; Ret (Num r)
  | ReduxConst m c => r <- mp_int_redux_const m c; Ret (Num r)
  | Invmod a m c => r <- mp_int_invmod a m c; Ret (Num r)
  | SpecHist.Gcd a b c => r <- mp_int_gcd a b c; Ret (Num r)
  | Egcd a b c x y => r <- mp_int_egcd a b c x y; Ret (Num r)
  | Lcm a b c => r <- mp_int_lcm a b c; Ret (Num r)
  | SpecHist.Root a k c => r <- mp_int_root a k c; Ret (Num r)
  | ToInt a => r <- mp_int_to_int a; Ret (Small r.1 r.2)
  | ToUint a => r <- mp_int_to_uint a; Ret (Small r.1 r.2)
  | CountBits a => r <- mp_int_count_bits a; Ret (Num r)
  | StringLen a k => r <- mp_int_string_len a k; Ret (Num r)
  | ToString a k b off limit => r <- mp_int_to_string a k (b, Z.of_nat off) limit; Ret (Num r)
  | ReadString c k s => r <- mp_int_read_string c k s; Ret (Num r)
  | ReadCString c k s => r <- mp_int_read_cstring c k s; Ret (Rest r.1 r.2)
  | UnsignedLen a => r <- mp_int_unsigned_len a; Ret (Num r)
  | BinaryLen a => r <- mp_int_binary_len a; Ret (Num r)
  | ToUnsigned a b off limit => r <- mp_int_to_unsigned a (b, Z.of_nat off) (Z.of_nat limit); Ret (Num r)
  | ToBinary a b off limit => r <- mp_int_to_binary a (b, Z.of_nat off) (Z.of_nat limit); Ret (Num r)
  | ReadUnsigned c b off len => r <- mp_int_read_unsigned c (b, Z.of_nat off) (Z.of_nat len); Ret (Num r)
  | ReadBinary c b off len => r <- mp_int_read_binary c (b, Z.of_nat off) (Z.of_nat len); Ret (Num r)
  | DefaultPrecision n => mp_int_default_precision n;; Ret Nothing
  | MultiplyThreshold n => mp_int_multiply_threshold n;; Ret Nothing
  end.
(** Running a client. *)
Fixpoint drive (k : client) : prog (list (call * answer)) :=
  match k with
  | Stop => Ret []
  | Then c k => r <- do_call c; h <- drive (k r); Ret ((c, r) :: h)
  end.

Definition SX (S : store) (X : ctx) : Prop :=
  cmem X = text S /\ (forall o, raws S !! o = None <-> craw X !! o = None) /\
  (forall o z, raws S !! o = Some true -> craw X !! o = Some z -> digits z = None) /\ (forall o, o ∈ dyns S -> o.1 = true).
Definition SH (st : state) (S : store) : Prop := exists X, RV st (ints S) X /\ SX S X.
Lemma shows_SH st S : shows st S <-> SH st S.
Proof.
  split.
  - intros (W & HR & H1 & H2 & H3 & H4). exists (ctx_of W). split; [by apply Rep_RV|]. by split_and!.
  - intros (X & HR & H1 & H2 & H3 & H4). exists (world_of X). split; [by apply RV_Rep|]. by split_and!.
Qed.
Lemma SX_int S X c v : SX S X -> SX (put_int c v S) X. Proof. done. Qed.
Lemma SX_opt S X c v : SX S X -> SX (put_opt c v S) X. Proof. done. Qed.
Lemma SX_text S X b l : SX S X -> SX (put_text b l S) (setb X b l).
Proof. intros (H1 & H2 & H3 & H4). split_and!; try done. simpl. by rewrite H1. Qed.
Lemma has_val S a : has S a -> ints S !! a = Some (val S a).
Proof. intros [v E]. unfold val. by rewrite E. Qed.
Lemma blank_raw S X o : SX S X -> blank_at S o -> exists z, craw X !! o = Some z.
Proof. intros (_ & H2 & _ & _) [c E]. destruct (craw X !! o) eqn:E2; [eauto|]. apply H2 in E2. congruence. Qed.
Lemma SX_new S X o v : SX S X -> SX (put_new o v S) (with_craw X (delete o (craw X))).
Proof.
  intros (H1 & H2 & H3 & H4). split_and!; try done; simpl.
  - intros o'. rewrite !lookup_delete_None. rewrite H2. done.
  - intros o' z. rewrite !lookup_delete_Some. intros [_ A] [_ B]. by eapply H3.
Qed.

(** Changing the tunables. *)
Lemma RV_glob st V X g : RV st V X -> tunables_ok g -> RV (set_glob st g) V (Ctx (cmem X) (craw X) g).
Proof.
  intros H Hg. apply RV_Rep in H. change (Ctx (cmem X) (craw X) g) with (ctx_of (World (cmem X) (craw X) g)). apply Rep_RV.
  destruct H as [A B C D E F G I J K L]. by constructor.
Qed.


Lemma lcm_abs va vb : va <> 0 \/ vb <> 0 -> Z.abs (va / Z.gcd va vb * vb) = Z.lcm va vb.
Proof.
  intros Hn. unfold Z.lcm. destruct (Z.gcd_divide_l va vb) as [q1 E1]. destruct (Z.gcd_divide_r va vb) as [q2 E2]. set (g := Z.gcd va vb) in *.
  assert (0 < g) as Pg. { pose proof (Z.gcd_nonneg va vb). assert (g <> 0); [|unfold g in *; lia]. intros E. apply Z.gcd_eq_0 in E. lia. }
  rewrite E1, E2. rewrite !Z.div_mul by lia. rewrite !Z.abs_mul. ring.
Qed.
Lemma enough_bits_20000 r : 2 <= r <= 36 -> 20000 <= enough_bits r.
Proof. intros Hr. unfold enough_bits. destruct r as [|p|p]; try lia. do 6 (destruct p as [p|p|]; try lia). Qed.
Lemma RV_glob_eq st V X : RV st V X -> glob st = cglob X.
Proof. intros H. apply RV_Rep in H. apply H. Qed.
Lemma text_has S X b l : SX S X -> text S !! b = Some l -> cmem X !! b = Some l.
Proof. intros (-> & _). done. Qed.

Ltac vals := repeat match goal with
  | H : _ /\ _ |- _ => destruct H
  | H : has _ _ |- _ => apply has_val in H
  end.
Lemma one_call c st S (Q : answer -> state -> Prop) : SH st S -> legal c S -> (forall r S' st', effect c S r S' -> SH st' S' -> Q r st') -> wp (do_call c) Q st.
Proof.
  intros (X & HV & HX) HL HQ.
  assert (forall r S' st', effect c S r S' -> RV st' (ints S') X -> SX S' X -> Q r st') as HQ1 by (intros; eapply HQ; [done|by exists X]).
  assert (forall r st', effect c S r S -> RV st' (ints S) X -> Q r st') as HQ0 by (intros; by eapply HQ1).
  assert (forall o v st', effect c S (Num MP_OK) (put_new o v S) -> RV st' (<[o := v]> (ints S)) (with_craw X (delete o (craw X))) -> Q (Num MP_OK) st') as HQN.
  { intros. eapply HQ; [done|]. eexists. split; [done|]. by apply SX_new. }
  assert (forall b l r st', effect c S r (put_text b l S) -> RV st' (ints S) (setb X b l) -> Q r st') as HQT.
  { intros. eapply HQ; [done|]. eexists. split; [done|]. by apply SX_text. }
  destruct c; cbn [do_call legal effect] in *; vals.
  - destruct (blank_raw _ _ _ HX HL) as [z Hz]. wb. eapply wpV_init; [done..|]. intros st' _ H'. apply wp_ret. by eapply HQN.
  - destruct (blank_raw _ _ _ HX H) as [z Hz]. wb. eapply wpV_init_size; [done..|]. intros st' _ H'. apply wp_ret. by eapply HQN.
  - destruct (blank_raw _ _ _ HX H) as [z Hz]. wb. eapply wpV_init_copy; [done..|]. intros st' _ H'. apply wp_ret. by eapply HQN.
  - destruct (blank_raw _ _ _ HX H) as [z Hz]. wb. eapply wpV_init_value; [done..|]. intros st' _ H'. apply wp_ret. by eapply HQN.
  - destruct (blank_raw _ _ _ HX H) as [z Hz]. wb. eapply wpV_init_uvalue; [done..|]. intros st' _ H'. apply wp_ret. by eapply HQN.
  - destruct (ints S !! o) as [v|] eqn:Eo.
    + wb. eapply wpV_clear; [done..|]. intros st' z Hz H'. apply wp_ret. eapply HQ; [done|]. eexists. split; [exact H'|]. destruct HX as (X1 & X2 & X3 & X4). split_and!; try done; simpl.
      * intros o'. rewrite !lookup_insert_None, X2. done.
      * intros o' z'. destruct (decide (o = o')) as [<-|N]; [rewrite !lookup_insert; by intros _ [= <-]|]. rewrite !lookup_insert_ne by done. apply X3.
    + destruct HL as [[? HL]|HL]; [congruence|]. destruct (blank_raw _ _ _ HX ltac:(by eexists)) as [z Hz]. wb. eapply wpV_clear_again; [done|done|by eapply HX|]. apply wp_ret. apply HQ0; [|done]. split; [done|].
      rewrite delete_notin by done. rewrite insert_id by done. by destruct S.
  - wb. eapply wpV_alloc; [done|apply wp_ret; apply HQ0; [by left|done]|]. intros o st' H1 H2 H3 H'. apply wp_ret. destruct HX as (X1 & X2 & X3 & X4).
    eapply HQ; [right; exists o; split; [done|]; split; [by apply X2|]; by split|]. eexists. split; [exact H'|]. split_and!; try done; simpl.
    intros o' [->%elem_of_singleton|Ho]%elem_of_union; [done|by apply X4].
  - wb. eapply wpV_free; [done..|by apply HX|]. intros st' H'. apply wp_ret. eapply HQ; [done|]. eexists. split; [exact H'|]. destruct HX as (X1 & X2 & X3 & X4). split_and!; try done; simpl.
    intros o' [Ho _]%elem_of_difference. by apply X4.
  - wb. eapply wpV_set_value; [done..|]. intros st' H'. apply wp_ret. by eapply HQ1.
  - wb. eapply wpV_set_uvalue; [done..|]. intros st' H'. apply wp_ret. by eapply HQ1.
  - wb. eapply wpV_copy; [done..|]. intros st' H'. apply wp_ret. by eapply HQ1.
  - wb. eapply wpV_swap; [done..|]. intros st' H'. apply wp_ret. by eapply HQ1.
  - wb. eapply wpV_zero; [done..|]. intros st' H'. apply wp_ret. by eapply HQ1.
  - wb. eapply wpV_abs; [done..|]. intros st' H'. apply wp_ret. by eapply HQ1.
  - wb. eapply wpV_neg; [done..|]. intros st' H'. apply wp_ret. by eapply HQ1.
  - wb. eapply wpV_add; [done..|]. intros st' H'. apply wp_ret. by eapply HQ1.
  - wb. eapply wpV_add_value; [done..|]. intros st' H'. apply wp_ret. by eapply HQ1.
  - wb. eapply wpV_sub; [done..|]. intros st' H'. apply wp_ret. by eapply HQ1.
  - wb. eapply wpV_sub_value; [done..|]. intros st' H'. apply wp_ret. by eapply HQ1.
  - wb. eapply wpV_mul; [done..|]. intros st' H'. apply wp_ret. by eapply HQ1.
  - wb. eapply wpV_mul_value; [done..|]. intros st' H'. apply wp_ret. by eapply HQ1.
  - wb. eapply wpV_mul_pow2; [done..|]. intros st' H'. apply wp_ret. by eapply HQ1.
  - wb. eapply wpV_sqr; [done..|]. intros st' H'. apply wp_ret. by eapply HQ1.
  - wb. eapply wpV_div; [done..| |].
    + intros E. apply wp_ret. apply HQ0; [|done]. by rewrite E.
    + intros E st' H'. apply wp_ret. eapply (HQ1 _ (put_opt _ _ (put_opt _ _ _))); [|exact H'|done]. by destruct (Z.eqb_spec (val S b) 0).
  - wb. eapply wpV_div_value; [done..| |].
    + intros E st' H'. apply wp_ret. apply HQ0; [|done]. by rewrite E.
    + intros E st' H'. apply wp_ret. eapply (HQ1 _ (put_opt _ _ _)); [|exact H'|done]. by destruct (Z.eqb_spec v 0).
  - wb. eapply wpV_div_pow2; [done..|]. intros st' H'. apply wp_ret. by eapply HQ1.
  - wb. eapply wpV_mod; [done..| |].
    + intros E st' H'. apply wp_ret. apply HQ0; [|done]. by rewrite E.
    + intros E st' H'. apply wp_ret. eapply (HQ1 _ (put_int _ _ _)); [|exact H'|done]. destruct (Z.eqb_spec (val S m) 0); [done|]. eexists. split; [|split; [|done]].
      * intros P. by apply mod_val_pos.
      * unfold mod_val. pose proof (Z.quot_rem' (val S a) (val S m)) as EQ. destruct (_ <? _).
        -- exists (Z.quot (val S a) (val S m) - 1). lia.
        -- exists (Z.quot (val S a) (val S m)). lia.
  - wb. eapply wpV_expt; [done..| |].
    + intros E. apply wp_ret. apply HQ0; [|done]. by destruct (Z.ltb_spec k 0); [|lia].
    + intros E st' H'. rewrite Z.mod_small in H' by lia. apply wp_ret. eapply (HQ1 _ (put_int _ _ _)); [|exact H'|done]. by destruct (Z.ltb_spec k 0); [lia|].
  - wb. eapply wpV_expt_value; [done..| |].
    + intros E. apply wp_ret. apply HQ0; [|done]. by destruct (Z.ltb_spec k 0); [|lia].
    + intros E st' H'. rewrite Z.mod_small in H' by lia. apply wp_ret. eapply (HQ1 _ (put_int _ _ _)); [|exact H'|done]. by destruct (Z.ltb_spec k 0); [lia|].
  - wb. eapply wpV_expt_full; [done..| |].
    + intros E. apply wp_ret. apply HQ0; [|done]. by destruct (Z.ltb_spec (val S b) 0); [|lia].
    + intros E st' H'. apply wp_ret. eapply (HQ1 _ (put_int _ _ _)); [|exact H'|done]. by destruct (Z.ltb_spec (val S b) 0); [lia|].
  - wb. eapply wpV_compare; [done..|]. apply wp_ret. apply HQ0; [|done]. eexists. split; [done|]. split; [apply ordered_sgn|done].
  - wb. eapply wpV_compare_unsigned; [done..|]. apply wp_ret. apply HQ0; [|done]. eexists. split; [done|]. split; [apply ordered_sgn|done].
  - wb. eapply wpV_compare_zero; [done..|]. apply wp_ret. apply HQ0; [|done]. eexists. split; [done|]. split; [|done]. rewrite <- (Z.sub_0_r (val S a)) at 1. apply ordered_sgn.
  - wb. eapply wpV_compare_value; [done..|]. intros st' H'. apply wp_ret. apply HQ0; [|done]. eexists. split; [done|]. split; [apply ordered_sgn|done].
  - wb. eapply wpV_compare_uvalue; [done..|]. intros st' H'. apply wp_ret. apply HQ0; [|done]. eexists. split; [done|]. split; [apply ordered_sgn|done].
  - wb. eapply wpV_divisible_value; [done..|]. intros st' H'. apply wp_ret. apply HQ0; [|done]. eexists. split; [done|]. split; [|done].
    destruct (Z.eqb_spec v 0); [done|]. rewrite Z.eqb_eq. by apply Z.rem_divide.
  - wb. destruct (Z.eq_dec (val S a) 0) as [E|E].
    + rewrite E in HL. eapply wpV_is_pow2_0; [done..|]. apply wp_ret. apply HQ0; [|done]. eexists. split; [done|]. split; [done|]. done.
    + eapply wpV_is_pow2; [done..| |].
      * intros j Hj Ej. apply wp_ret. apply HQ0; [|done]. eexists. split; [done|]. split; [done|]. intros _. by left.
      * intros Hj. apply wp_ret. apply HQ0; [|done]. eexists. split; [done|]. split; [done|]. intros _. by right.
  - wb. eapply wpV_is_odd; [done..|]. apply wp_ret. by apply HQ0.
  - wb. eapply wpV_is_even; [done..|]. apply wp_ret. by apply HQ0.
  - wb. eapply wpV_exptmod; [done..| | |].
    + intros E. apply wp_ret. apply HQ0; [|done]. by rewrite E.
    + intros E E2. apply wp_ret. apply HQ0; [|done]. destruct (Z.eqb_spec (val S m) 0); [done|]. by destruct (Z.ltb_spec (val S b) 0); [|lia].
    + intros E E2 st' H'. apply wp_ret. eapply (HQ1 _ (put_int _ _ _)); [|exact H'|done]. destruct (Z.eqb_spec (val S m) 0); [lia|]. by destruct (Z.ltb_spec (val S b) 0); [lia|].
  - wb. eapply wpV_exptmod_evalue; [done..| | |].
    + intros E st' H'. apply wp_ret. apply HQ0; [|done]. by rewrite E.
    + intros E E2 st' H'. apply wp_ret. apply HQ0; [|done]. destruct (Z.eqb_spec (val S m) 0); [done|]. by destruct (Z.ltb_spec v 0); [|lia].
    + intros E E2 st' H'. apply wp_ret. eapply (HQ1 _ (put_int _ _ _)); [|exact H'|done]. destruct (Z.eqb_spec (val S m) 0); [lia|]. by destruct (Z.ltb_spec v 0); [lia|].
  - wb. eapply wpV_exptmod_bvalue; [done..| | |].
    + intros E st' H'. apply wp_ret. apply HQ0; [|done]. by rewrite E.
    + intros E E2 st' H'. apply wp_ret. apply HQ0; [|done]. destruct (Z.eqb_spec (val S m) 0); [done|]. by destruct (Z.ltb_spec (val S b) 0); [|lia].
    + intros E E2 st' H'. apply wp_ret. eapply (HQ1 _ (put_int _ _ _)); [|exact H'|done]. destruct (Z.eqb_spec (val S m) 0); [lia|]. by destruct (Z.ltb_spec (val S b) 0); [lia|].
  - wb. eapply wpV_exptmod_known; [done..| | |].
    + intros E. apply wp_ret. apply HQ0; [|done]. by rewrite E.
    + intros E E2. apply wp_ret. apply HQ0; [|done]. destruct (Z.eqb_spec (val S m) 0); [done|]. by destruct (Z.ltb_spec (val S b) 0); [|lia].
    + intros E E2 st' H'. apply wp_ret. eapply (HQ1 _ (put_int _ _ _)); [|exact H'|done]. destruct (Z.eqb_spec (val S m) 0); [lia|]. by destruct (Z.ltb_spec (val S b) 0); [lia|].
  - wb. eapply wpV_redux_const; [done..|]. intros st' H'. apply wp_ret. eapply (HQ1 _ (put_int _ _ _)); [|exact H'|done]. exists (if val S c <? 0 then - barrett_const (val S m) else barrett_const (val S m)). split; [done|].
    assert (0 <= barrett_const (val S m)) as P by (unfold barrett_const; apply Z.div_pos; lia).
    destruct (Z.ltb_spec (val S c) 0); (split; [lia|]); (split; [lia|done]).
  - wb. eapply wpV_invmod; [done..| | |].
    + intros E. apply wp_ret. apply HQ0; [|done]. by left.
    + intros E1 E2 E3 st' H'. apply wp_ret. apply HQ0; [|done]. right. by left.
    + intros E1 E2 E3 st' r Hr Hb Hl H'. apply wp_ret. eapply (HQ1 _ (put_int _ _ _)); [|exact H'|done]. right. right. split_and!; try done. exists r. split; [done|]. split; [|done].
      destruct (Z.eq_dec r (val S m)) as [->|]; [right; destruct Hl as [? ->]; [done|]; done|left; lia].
  - wb. eapply wpV_gcd; [done..| |].
    + intros E1 E2. apply wp_ret. apply HQ0; [|done]. by rewrite E1, E2.
    + intros E st' H'. apply wp_ret. eapply (HQ1 _ (put_int _ _ _)); [|exact H'|done]. destruct (Z.eqb_spec (val S a) 0), (Z.eqb_spec (val S b) 0); try done. lia.
  - wb. eapply wpV_egcd; [done..| | | |].
    + intros E1 E2. apply wp_ret. apply HQ0; [|done]. by rewrite E1, E2.
    + intros E1 E2 st' H'. apply wp_ret. eapply (HQ1 _ (put_opt _ _ (put_opt _ _ (put_int _ _ _)))); [|exact H'|done]. cbv zeta. assert (Z.gcd (Z.abs (val S a)) (Z.abs (val S b)) = Z.abs (val S b)) as EG by (rewrite E1, Z.gcd_comm, Z.gcd_0_r; lia). rewrite EG, E1. change (Z.abs 0) with 0.
      destruct (Z.eqb_spec (Z.abs (val S b)) 0); [lia|]. split; [done|]. exists 0, 1. split; [lia|]. by left.
    + intros E1 E2 st' H'. apply wp_ret. eapply (HQ1 _ (put_opt _ _ (put_opt _ _ (put_int _ _ _)))); [|exact H'|done]. cbv zeta. assert (Z.gcd (Z.abs (val S a)) (Z.abs (val S b)) = Z.abs (val S a)) as EG by (rewrite E2, Z.gcd_0_r; lia). rewrite EG, E2. change (Z.abs 0) with 0.
      destruct (Z.eqb_spec (Z.abs (val S a)) 0); [lia|]. split; [done|]. exists 1, 0. split; [lia|]. by left.
    + intros E1 E2 st' s t Hst H'. apply wp_ret. eapply (HQ1 _ (put_int _ _ (put_opt _ _ (put_opt _ _ _)))); [|exact H'|done]. rewrite Z.gcd_abs_l, Z.gcd_abs_r.
      destruct (Z.eqb_spec (Z.abs (val S a)) 0); [lia|]. split; [done|]. exists s, t. split; [done|]. by right.
  - wb. eapply wpV_lcm; [done..| |].
    + intros E1 E2 st' H'. apply wp_ret. apply HQ0; [|done]. by rewrite E1, E2.
    + intros E st' H'. apply wp_ret. eapply (HQ1 _ (put_int _ _ _)); [|exact H'|done].
      assert (Z.abs (val S a / Z.gcd (val S a) (val S b) * val S b) = Z.lcm (val S a) (val S b)) as EL.
      { by apply lcm_abs. }
      destruct (Z.eqb_spec (val S a) 0), (Z.eqb_spec (val S b) 0); try (by eexists). lia.
  - wb. eapply wpV_root; [done..| |].
    + intros E1 E2. apply wp_ret. apply HQ0; [|done]. by left.
    + intros E st' r Hr Hx H'. apply wp_ret. eapply (HQ1 _ (put_int _ _ _)); [|exact H'|done]. right. split_and!; try done. by exists r.
  - wb. eapply wpV_to_int; [done..| |].
    + intros E st' H'. apply wp_ret. apply HQ0; [|done]. split; [done|]. destruct (Z.ltb_spec (- 2 ^ 63) (val S a)); [|lia]. by destruct (Z.ltb_spec (val S a) (2 ^ 63)); [|lia].
    + intros E st' H'. apply wp_ret. apply HQ0; [|done]. split; [done|]. destruct (Z.ltb_spec (- 2 ^ 63) (val S a)); [|done]. by destruct (Z.ltb_spec (val S a) (2 ^ 63)); [lia|].
  - wb. eapply wpV_to_uint; [done..| |].
    + intros E st' H'. apply wp_ret. apply HQ0; [|done]. split; [done|]. destruct (Z.leb_spec 0 (val S a)); [|lia]. by destruct (Z.ltb_spec (val S a) (2 ^ 64)); [|lia].
    + intros E st' H'. apply wp_ret. apply HQ0; [|done]. split; [done|]. destruct (Z.leb_spec 0 (val S a)); [|done]. by destruct (Z.ltb_spec (val S a) (2 ^ 64)); [lia|].
  - wb. eapply wpV_count_bits; [done..|]. apply wp_ret. apply HQ0; [|done]. eexists. split; [done|]. split; [done|]. split; [apply bitlen_pos|]. split; [apply bitlen_pow|].
    unfold bitlen. destruct (Z.eqb_spec (val S a) 0) as [E|E]; [done|]. split; [|done]. intros _. pose proof (Z.log2_spec (Z.abs (val S a)) ltac:(lia)) as HL2. rewrite Z.add_simpl_r. lia.
  - wb. eapply wpV_string_len; [done..|]. apply wp_ret. apply HQ0; [|done]. eexists. split; [done|]. split; [done|]. intros Hv s Hs.
    apply bitlen_le in Hv; [|done]. pose proof (enough_bits_20000 r ltac:(done)). destruct (outlen_enough (bitlen (val S a)) r) as [E1 E2]; [done|pose proof (bitlen_pos (val S a)); lia|].
    pose proof (bitlen_pow (val S a)). pose proof (numeral_len_le r (val S a) s (outlen (bitlen (val S a)) r) ltac:(lia) Hs ltac:(lia) E2). lia.
  - destruct H2 as (l & Hl & Hlen). destruct (numeral_exists r (val S a) ltac:(lia)) as [s Hs]. wb. eapply wpV_to_string; [done|done|by eapply text_has|done|done|done|lia| |].
    + intros st' L H'. apply wp_ret. eapply HQT; [|exact H']. exists l, s. split; [done|]. split; [done|]. by left.
    + intros st' s' L L' H'. apply wp_ret. eapply HQT; [|exact H']. exists l, s. split; [done|]. split; [done|]. right. split; [done|]. split; [done|]. by exists s'.
  - destruct (parse_shape r s) as (sp & sg & body & ds & rest & Hs). pose proof Hs as (Es & S1 & S2 & S3 & S4 & S5). wb. rewrite Es in H1 |- *. eapply wpV_read_string; [done..|]. intros st' H'. apply wp_ret.
    eapply (HQ1 _ (put_int _ _ _)); [|exact H'|done]. exists sp, sg, body, ds, rest. split; [done|]. by split.
  - destruct (parse_shape r s) as (sp & sg & body & ds & rest & Hs). pose proof Hs as (Es & S1 & S2 & S3 & S4 & S5). wb. rewrite Es in H1 |- *. eapply wpV_read_cstring; [done..|]. intros st' H'. apply wp_ret.
    eapply (HQ1 _ (put_int _ _ _)); [|exact H'|done]. exists sp, sg, body, ds, rest. split; [done|]. by split.
  - wb. eapply wpV_unsigned_len; [done..|apply unsigned_bitlen|]. apply wp_ret. apply HQ0; [|done]. eexists. split; [apply unsigned_bitlen|done].
  - wb. eapply wpV_binary_len; [done..|apply signed_bitlen|]. apply wp_ret. apply HQ0; [|done]. eexists. split; [apply signed_bitlen|done].
  - destruct H0 as (l & Hl & Hlen). wb. eapply wpV_to_unsigned; [done|done|by eapply text_has|done|apply unsigned_bitlen|]. intros st' H'. apply wp_ret. eapply HQT; [|exact H']. eexists l, _. split; [done|]. split; [apply unsigned_bitlen|]. by split.
  - destruct H1 as (l & Hl & Hlen). wb. eapply wpV_to_binary; [done|done|by eapply text_has|done|done|apply signed_bitlen|]. intros st' H'. apply wp_ret. eapply HQT; [|exact H']. eexists l, _. split; [done|]. split; [apply signed_bitlen|]. by split.
  - destruct H2 as (l & bs & Hl & HB & <-). wb. eapply wpV_read_unsigned; [done|by eexists|by eapply text_has|done|by destruct bs; [simpl in *; lia|]|lia|]. intros st' H'. apply wp_ret. eapply (HQ1 _ (put_int _ _ _)); [|exact H'|done]. exists l, bs. by split_and!.
  - destruct H2 as (l & bs & Hl & HB & <-). wb. eapply wpV_read_binary; [done|by eexists|by eapply text_has|done|by destruct bs; [simpl in *; lia|]|lia|]. intros st' H'. apply wp_ret. eapply (HQ1 _ (put_int _ _ _)); [|exact H'|done]. exists l, bs. by split_and!.
  - assert (tunables_ok (cglob X)) as [G1 G2] by (apply RV_Rep in HV; apply HV). wb. unfold mp_int_default_precision. wb. apply wp_assert; [apply Z.ltb_lt; lia|]. apply wp_GetG, wp_SetG, wp_ret, wp_ret.
    eapply HQ; [done|]. eexists. split; [apply RV_glob; [done|]|done]. split; [done|]. simpl. rewrite (RV_glob_eq _ _ _ HV). done.
  - assert (tunables_ok (cglob X)) as [G1 G2] by (apply RV_Rep in HV; apply HV). wb. unfold mp_int_multiply_threshold. wb. apply wp_assert; [apply Z.leb_le; lia|]. apply wp_GetG, wp_SetG, wp_ret, wp_ret.
    eapply HQ; [done|]. eexists. split; [apply RV_glob; [done|]|done]. split; [|done]. simpl. rewrite (RV_glob_eq _ _ _ HV). done.
Qed.

Theorem drive_ok k st S : SH st S -> well_behaved k S -> wp (drive k) (fun h st' => exists S', history k S h S' /\ SH st' S') st.
Proof.
  revert st S. induction k as [|c k IH]; intros st S HS HW; cbn [drive].
  - apply wp_ret. exists S. split; [constructor|done].
  - destruct HW as [HL HW]. wb. eapply one_call; [done..|]. intros r S' st' He HS'. wb. eapply wp_mono; [apply IH; [done|by apply HW]|].
    intros h st2 (S2 & Hh & HS2). apply wp_ret. exists S2. split; [by econstructor|done].
Qed.

(** ** What follows about raw states *)
Lemma holds_canonical st o b v : holds st o b v -> canonical st o.
Proof.
  intros (al & us & sg & ds & rest & H1 & H2 & -> & H4 & -> & H6 & H7 & H8 & H9). eexists _, b, _. split; [exact H1|]. simpl. split; [done|]. split; [exact H2|].
  split; [by rewrite app_length, fmap_length|]. split; [lia|]. split; [destruct H9 as [[-> _]|[-> _]]; [by left|by right]|]. rewrite Nat2Z.id. split.
  - intros i Hi. destruct (lookup_lt_is_Some_2 ds i Hi) as [d Hd]. exists d. split; [|rewrite Forall_forall in H7; apply H7; by eapply elem_of_list_lookup_2].
    rewrite lookup_app_l by (by rewrite fmap_length). by rewrite list_lookup_fmap, Hd.
  - intros E. rewrite lookup_app_l in E by (rewrite fmap_length; lia). rewrite list_lookup_fmap in E. destruct (ds !! (length ds - 1)%nat) as [d|] eqn:Ed; [|done]. injection E as ->.
    assert (last ds = Some 0) as EL by (rewrite last_lookup; by replace (pred (length ds)) with (length ds - 1)%nat by lia).
    destruct (Z.eq_dec (Z.of_nat (length ds)) 1) as [E1|E1]; [|by specialize (H8 ltac:(lia))]. split; [done|]. destruct H9 as [[-> _]|(_ & E9 & N)]; [done|]. exfalso. apply N.
    destruct ds as [|d [|]]; simpl in E1, Ed; try lia. injection Ed as ->. rewrite E9. done.
Qed.
Lemma shows_holds st S o v : shows st S -> ints S !! o = Some v -> exists b, holds st o b v.
Proof. intros (W & HR & _) Ho. destruct (rep_holds _ _ _ HR _ _ Ho) as (b & Hb & _). eauto. Qed.
Lemma assign_ne (q : option oid) (v : Z) (V : gmap oid Z) (o : oid) : o ∉ out_opt q -> assign q v V !! o = V !! o.
Proof. destruct q as [q|]; simpl; [|done]. intros N. apply lookup_insert_ne. set_solver. Qed.
Lemma effect_frame c S r S' o v : effect c S r S' -> ints S !! o = Some v -> o ∉ outputs c -> ints S' !! o = Some v.
Proof.
  intros He Ho N. destruct c; cbn [effect outputs] in *; repeat match goal with
   | H : if ?b then _ else _ |- _ => destruct b
   | H : _ /\ _ |- _ => destruct H
   | H : _ \/ _ |- _ => destruct H
   | H : exists _, _ |- _ => destruct H
   end; subst S'; try done; cbn [ints put_int put_new put_opt put_text];
   rewrite ?lookup_insert_ne, ?assign_ne, ?lookup_delete_ne, ?lookup_insert_ne by set_solver; try done.
Qed.
Lemma effect_text c S r S' b : effect c S r S' -> text S !! b = None -> text S' !! b = None.
Proof.
  intros He Hb. destruct c; cbn [effect] in *; repeat match goal with
   | H : if ?b then _ else _ |- _ => destruct b
   | H : _ /\ _ |- _ => destruct H
   | H : _ \/ _ |- _ => destruct H
   | H : exists _, _ |- _ => destruct H
   end; subst S'; try done; cbn [text put_text]; rewrite lookup_insert_ne; try done; congruence.
Qed.
Lemma history_frame k S h S' o v : history k S h S' -> ints S !! o = Some v -> (forall c r, (c, r) ∈ h -> o ∉ outputs c) -> ints S' !! o = Some v.
Proof.
  induction 1 as [|c k S r S' h S'' He Hh IH]; intros Ho N; [done|]. apply IH; [eapply effect_frame; [done..|]; apply (N c r); set_solver|]. intros c' r' Hc. apply (N c' r'). set_solver.
Qed.
Lemma history_text k S h S' b : history k S h S' -> text S !! b = None -> text S' !! b = None.
Proof. induction 1 as [|c k S r S' h S'' He Hh IH]; intros Hb; [done|]. apply IH. by eapply effect_text. Qed.
Lemma shows_heap st S n l : shows st S -> mem st !! Hp n = Some l -> (exists o v, ints S !! o = Some v /\ block_of st o = Some (Hp n)) \/ is_Some (text S !! Hp n).
Proof.
  intros (W & HR & HB & _) Hm. destruct (rep_all _ _ _ HR _ _ Hm) as [?|[(o & ? & _)|?]]; [by left|done|right]. by rewrite <- HB.
Qed.
Lemma shows_objs st S o : shows st S -> is_Some (objs st !! o) -> has S o \/ blank_at S o.
Proof.
  intros (W & HR & HB & H2 & _) Ho. destruct (ints S !! o) as [v|] eqn:E; [left; by eexists|right]. rewrite (rep_others _ _ _ HR) in Ho by done.
  unfold blank_at. destruct (raws S !! o) eqn:E2; [by eexists|]. apply H2 in E2. rewrite E2 in Ho. by destruct Ho.
Qed.

(** A program starts with structures that are declared and not initialised. *)
Definition declare (o : oid) (st : state) : state := State (<[o := Mpz None 0 0 0]> (objs st)) (<[Sng o := [None]]> (mem st)) (glob st).
Definition declares (os : list oid) : state := foldr declare (State ∅ ∅ (Globals 8 32)) os.
Definition blank_store (os : list oid) : store := Store ∅ (list_to_map ((fun o => (o, false)) <$> os)) ∅ ∅.
Lemma declares_shows os : shows (declares os) (blank_store os).
Proof.
  set (B := fun os => list_to_map ((fun o : oid => (o, Mpz None 0 0 0)) <$> os) : gmap oid mpz).
  assert (forall os o, objs (declares os) !! o = B os !! o) as HO.
  { intros os1. induction os1 as [|o' os1 IH]; intros o; [done|]. unfold B in *. cbn. destruct (decide (o' = o)) as [->|N]; [by rewrite !lookup_insert|]. by rewrite !lookup_insert_ne, IH. }
  assert (forall os b l, mem (declares os) !! b = Some l -> exists o, b = Sng o /\ is_Some (B os !! o)) as HM.
  { intros os1. induction os1 as [|o' os1 IH]; intros b l Hb; [done|]. cbn in Hb. unfold B. cbn. destruct (decide (Sng o' = b)) as [<-|N].
    - exists o'. split; [done|]. rewrite lookup_insert. eauto.
    - rewrite lookup_insert_ne in Hb by done. destruct (IH _ _ Hb) as (o & -> & Ho). exists o. split; [done|]. rewrite lookup_insert_ne by congruence. done. }
  assert (forall os o, is_Some (B os !! o) -> exists c, mem (declares os) !! Sng o = Some [c]) as HS.
  { intros os1. induction os1 as [|o' os1 IH]; intros o Ho; [by destruct Ho|]. cbn. destruct (decide (o' = o)) as [->|N]; [rewrite lookup_insert; eauto|]. rewrite lookup_insert_ne by congruence. apply IH.
    unfold B in Ho. cbn in Ho. by rewrite lookup_insert_ne in Ho by done. }
  assert (glob (declares os) = Globals 8 32) as HG by (clear -os; induction os; done).
  exists (World ∅ (B os) (Globals 8 32)). split; [|split; [done|split; [|split]]].
  - constructor; simpl; try (intros *; rewrite ?lookup_empty; done).
    + intros b l Hb. right. left. destruct (HM _ _ _ Hb) as (o & -> & Ho). exists o. split; [done|]. by rewrite HO.
    + intros o Ho. apply HS. by rewrite <- HO.
  - intros o. unfold B, blank_store. cbn [raws blanks]. rewrite <- !not_elem_of_list_to_map. rewrite <- !list_fmap_compose. done.
  - intros o z. simpl. intros E. apply elem_of_list_to_map_2 in E. apply elem_of_list_fmap in E as (? & ? & _). congruence.
  - intros o Ho. simpl in Ho. set_solver.
Qed.
