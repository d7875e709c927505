(** Rules for iprime.c. *)
From Coq Require Import ZArith Znumtheory List Lia.
From stdpp Require Import gmap list.
From Verif Require Import Mem Prog Kern Imath Wp MemLem KernLem Rel RelZ Divi Spec Public Gcd Exptmod Imrat Rat Iprime SpecPrime NumTh.
Local Open Scope Z_scope.

Lemma prime_factor v : 2 <= v -> exists p, prime p /\ (p | v).
Proof.
  intros H2. assert (0 <= v) as H0 by lia. revert H2. pattern v. apply Zlt_0_ind; [|done]. clear v H0. intros v IH H0 H2.
  destruct (prime_dec v) as [|Np]; [exists v; split; [done|apply Z.divide_refl]|].
  apply not_prime_divide in Np; [|lia]. destruct Np as (d & Hd & D). destruct (IH d) as (p & ? & ?); [lia|lia|]. exists p. split; [done|by transitivity d].
Qed.

(** ** The table *)
Definition range (a : Z) (n : nat) : list Z := map (fun i => a + Z.of_nat i) (seq 0 n).
Lemma in_range a n x : In x (range a n) <-> a <= x < a + Z.of_nat n.
Proof.
  unfold range. rewrite in_map_iff. split.
  - intros (i & <- & Hi). apply in_seq in Hi. lia.
  - intros Hx. exists (Z.to_nat (x - a)). split; [lia|]. apply in_seq. lia.
Qed.
Definition small_prime (n : Z) : bool := forallb (fun d => (n <=? d) || negb (n mod d =? 0)) (range 2 30).
Lemma small_prime_spec n : 2 <= n < 1024 -> small_prime n = true <-> prime n.
Proof.
  intros Hn. unfold small_prime. rewrite forallb_forall. split.
  - intros H. apply prime_alt. split; [lia|]. intros d Hd [k E].
    assert (0 < k) by nia. assert (k < n) by nia.
    assert (exists e f, 2 <= e < 32 /\ e < n /\ n = f * e) as (e & f & He & Hen & Ee).
    { destruct (Z.lt_ge_cases d 32). { exists d, k. lia. } exists k, d. split; [nia|]. split; [lia|lia]. }
    specialize (H e). rewrite in_range in H. specialize (H ltac:(lia)). rewrite Ee, Z.mod_mul in H by lia. destruct (Z.leb_spec (f * e) e); [nia|]. done.
  - intros Hp d Hd. apply in_range in Hd. destruct (Z.leb_spec n d); [done|]. simpl. destruct (Z.eqb_spec (n mod d) 0) as [E|E]; [|done].
    apply Z.mod_divide in E; [|lia]. apply prime_divisors in E; [|done]. lia.
Qed.
Lemma ptab_filter : s_ptab = List.filter small_prime (range 2 996).
Proof. by vm_compute. Qed.
Lemma ptab_spec p : In p s_ptab <-> prime p /\ p <= 997.
Proof.
  rewrite ptab_filter, filter_In, in_range. split.
  - intros [H1 H2]. apply small_prime_spec in H2; [|lia]. split; [done|lia].
  - intros [H1 H2]. pose proof (prime_ge_2 _ H1). split; [lia|]. apply small_prime_spec; [lia|done].
Qed.
Lemma ptab10_spec p : In p (take 10 s_ptab) <-> prime p /\ p <= 29.
Proof.
  assert (take 10 s_ptab = List.filter small_prime (range 2 28)) as -> by by vm_compute.
  rewrite filter_In, in_range. split.
  - intros [H1 H2]. apply small_prime_spec in H2; [|lia]. split; [done|lia].
  - intros [H1 H2]. pose proof (prime_ge_2 _ H1). split; [lia|]. apply small_prime_spec; [lia|done].
Qed.
Lemma ptab_bound p : In p s_ptab -> 2 <= p <= 997.
Proof. intros H. apply ptab_spec in H as [H1 H2]. pose proof (prime_ge_2 _ H1). lia. Qed.

(** ** The two loops *)
Lemma wpV_trial st V X z v ps (Q : option Z -> state -> Prop) : RV st V X -> V !! z = Some v -> 2 <= v -> (forall p, In p ps -> 2 <= p <= 997) ->
  (forall st' r, RV st' V X ->
    match r with
    | None => forall p, In p ps -> ~ (p | v)
    | Some x => x = MP_TRUE /\ In v ps \/ x = MP_FALSE /\ exists p, In p ps /\ (p | v) /\ p <> v
    end -> Q r st') -> wp (trial z ps) Q st.
Proof.
  intros HV Hz H2. revert st HV Q. induction ps as [|p ps IH]; intros st HV Q Hps HQ.
  { apply wp_ret. by apply HQ. }
  assert (2 <= p <= 997) as Hp by (apply Hps; by left).
  cbn [trial]. wb. eapply wpV_compare_value; [exact HV|exact Hz|lia|]. intros st1 HV1.
  destruct (Z.eqb_spec (Z.sgn (v - p)) 0) as [E|E].
  { apply (proj1 (Z.sgn_null_iff _)) in E. apply wp_ret. apply HQ; [done|]. left. split; [done|]. left. lia. }
  wb. eapply wpV_div_value; [exact HV1|exact Hz|done|lia|lia|]. intros _ st2 HV2. cbn [assign fst snd] in *.
  change (negb (MP_OK =? MP_OK)) with false. cbv iota. rewrite Z.rem_mod_nonneg by lia.
  destruct (Z.eqb_spec (v mod p) 0) as [E1|E1].
  - apply wp_ret. apply HQ; [done|]. right. split; [done|]. exists p. split; [by left|]. split; [apply Z.mod_divide in E1; [done|lia]|]. intros ->. by rewrite Z.sub_diag in E.
  - eapply IH; [exact HV2|intros q Hq; apply Hps; by right|]. intros st3 r HV3 Hr. apply HQ; [done|]. destruct r as [x|].
    + destruct Hr as [[? ?]|(? & q & ? & ? & ?)]; [left; split; [done|by right]|right]. split; [done|]. exists q. split; [by right|done].
    + intros q [<-|Hq]; [|by apply Hr]. intros D. apply E1. apply Z.mod_divide; [lia|done].
Qed.
Lemma wpV_fermat_tests st V X z t v vt ps (Q : Z + Z -> state -> Prop) : RV st V X -> V !! z = Some v -> V !! t = Some vt -> z <> t -> 997 < v -> (forall p, In p ps -> 2 <= p <= 997) ->
  (forall st' x vt', RV st' (<[t := vt']> V) X ->
    (x = MP_TRUE /\ (forall p, In p ps -> p ^ v mod v = p) \/ x = MP_FALSE /\ exists p, In p ps /\ p ^ v mod v <> p) -> Q (inr x) st') ->
  wp (fermat_tests z t ps) Q st.
Proof.
  intros HV Hz Ht N Hv. revert V vt Hz Ht st HV Q. induction ps as [|p ps IH]; intros V vt Hz Ht st HV Q Hps HQ.
  { apply wp_ret. eapply HQ with (vt' := vt); [by rewrite insert_id|]. by left. }
  assert (2 <= p <= 997) as Hp by (apply Hps; by left).
  cbn [fermat_tests]. wb. eapply wpV_exptmod_bvalue; [exact HV|exact Hz|exact Hz|exact Ht|lia|lia|lia|lia|].
  intros _ _ st1 HV1. change (negb (MP_OK =? MP_OK)) with false. cbv iota.
  unfold emval in HV1. destruct (Z.eqb_spec v 0); [lia|].
  wb. eapply wpV_compare_value; [exact HV1|apply lookup_insert|lia|]. intros st2 HV2.
  destruct (Z.eqb_spec (Z.sgn (p ^ v mod v - p)) 0) as [E|E]; cbn [negb].
  - apply (proj1 (Z.sgn_null_iff _)) in E. eapply IH; [by rewrite lookup_insert_ne by done|apply lookup_insert|exact HV2|intros q Hq; apply Hps; by right|].
    intros st3 x vt' HV3 Hx. rewrite insert_insert in HV3. eapply HQ; [exact HV3|]. destruct Hx as [[? HH]|(? & q & ? & ?)]; [left|right].
    + split; [done|]. intros q [<-|Hq]; [lia|by apply HH].
    + split; [done|]. exists q. split; [by right|done].
  - apply wp_ret. eapply HQ; [exact HV2|]. right. split; [done|]. exists p. split; [by left|]. intros E'. rewrite E', Z.sub_diag in E. done.
Qed.

Lemma wpV_is_prime st V X z v (Q : Z -> state -> Prop) : RV st V X -> V !! z = Some v ->
  (forall st' x, RV st' V X -> (x = MP_TRUE /\ apparent_prime v \/ x = MP_FALSE /\ ~ apparent_prime v) -> Q x st') ->
  wp (mp_int_is_prime z) Q st.
Proof.
  intros HV Hz HQ. unfold mp_int_is_prime. wb. eapply wpV_compare_value; [exact HV|exact Hz|lia|]. intros st1 HV1.
  destruct (Z.ltb_spec (Z.sgn (v - 2)) 0) as [E|E].
  { apply wp_ret. apply HQ; [done|]. right. split; [done|]. intros [[Hp _]|[? _]]; [pose proof (prime_ge_2 _ Hp)|]; lia. }
  assert (2 <= v) as H2 by lia. wb. eapply wpV_trial; [exact HV1|exact Hz|done|apply ptab_bound|]. intros st2 r HV2 Hr.
  destruct r as [x|].
  { apply wp_ret. apply HQ; [done|]. destruct Hr as [[? Hin]|(? & p & Hin & D & N)]; [left|right]; (split; [done|]).
    - left. by apply ptab_spec.
    - apply ptab_spec in Hin as [Hp Hp2]. intros [[Hv _]|(_ & HH & _)]; [|by apply (HH p)]. apply prime_divisors in D; [|done]. pose proof (prime_ge_2 _ Hp). lia. }
  assert (997 < v) as Hv.
  { destruct (Z.lt_ge_cases 997 v) as [|Hle]; [done|]. exfalso.
    assert (exists p, prime p /\ (p | v)) as (p & Hp & D).
    { by apply prime_factor. }
    apply (Hr p); [|done]. apply ptab_spec. split; [done|]. apply Z.divide_pos_le in D; lia. }
  wb. eapply wpV_with_zero_g; [exact HV2|]. intros t st3 Ft HV3. assert (z <> t) as Nz by congruence.
  eapply wpV_fermat_tests; [exact HV3|by rewrite lookup_insert_ne by done|apply lookup_insert|done|done|intros p Hp; apply ptab_bound; apply ptab10_spec in Hp; apply ptab_spec; split; [tauto|lia]|].
  intros st4 x vt HV4 Hx. split; [done|]. rewrite insert_insert in HV4. exists V, vt, X. split; [done|]. split; [done|]. intros st5 HV5. apply wp_ret.
  apply HQ; [done|]. destruct Hx as [[-> HH]|(-> & p & Hin & HH)]; [left|right]; (split; [done|]).
  - right. split; [done|]. split; [intros p Hp Hp2; apply Hr, ptab_spec; done|]. intros p Hp Hp2. apply HH, ptab10_spec. done.
  - apply ptab10_spec in Hin as [Hp Hp2]. intros [[? ?]|(_ & _ & H')]; [lia|]. by apply HH, H'.
Qed.

(** ** What passes the test *)
Lemma prime_apparent z : prime z -> apparent_prime z.
Proof.
  intros Hz. pose proof (prime_ge_2 _ Hz). destruct (Z.le_gt_cases z 997) as [|Hg]; [by left|]. right. split; [done|]. split.
  - intros p Hp Hp2 D. apply prime_divisors in D; [|done]. pose proof (prime_ge_2 _ Hp). lia.
  - intros p Hp Hp2. pose proof (prime_ge_2 _ Hp). rewrite fermat; [|done|lia]. apply Z.mod_small. lia.
Qed.
Lemma apparent_small z : z < 997 ^ 2 -> apparent_prime z -> prime z.
Proof.
  intros Hz [[? _]|(H2 & Hn & _)]; [done|]. destruct (prime_dec z) as [|Np]; [done|]. exfalso.
  apply not_prime_divide in Np; [|lia]. destruct Np as (d & Hd & k & E). assert (1 < k) by nia.
  assert (exists e, 2 <= e <= 997 /\ (e | z)) as (e & He & De).
  { destruct (Z.le_gt_cases d 997). { exists d. split; [lia|by exists k]. } exists k. split; [nia|exists d; lia]. }
  destruct (prime_factor e) as (p & Hp & Dp); [lia|]. apply (Hn p); [done| |by transitivity e]. apply Z.divide_pos_le in Dp; lia.
Qed.

(** ** The search *)
Lemma wpV_find_prime st V X z v (Q : Z -> state -> Prop) : RV st V X -> V !! z = Some v ->
  (forall st' w, RV st' (<[z := w]> V) X -> v <= w -> Z.odd w = true -> apparent_prime w -> (forall x, v <= x < w -> Z.odd x = true -> ~ apparent_prime x) -> Q MP_TRUE st') ->
  wp (mp_int_find_prime z) Q st.
Proof.
  intros HV Hz HQ. unfold mp_int_find_prime. wb. eapply wpV_is_even; [exact HV|exact Hz|].
  set (w0 := if Z.even v then v + 1 else v).
  assert (Z.odd w0 = true) as O0. { unfold w0. destruct (Z.even v) eqn:E; [by rewrite Z.odd_add, <- Z.negb_even, E|by rewrite <- Z.negb_even, E]. }
  assert (v <= w0 /\ forall x, v <= x < w0 -> Z.odd x = true -> False) as [L0 M0].
  { unfold w0. destruct (Z.even v) eqn:E; (split; [lia|]); intros x Hx; [|lia]. replace x with v by lia. by rewrite <- Z.negb_even, E. }
  apply wp_bind. apply (wp_mono _ (fun r st' => r = MP_OK /\ RV st' (<[z := w0]> V) X)).
  { unfold w0. destruct (Z.even v).
    - eapply wpV_add_value; [exact HV|exact Hz|exact Hz|lia|]. by intros st1 HV1.
    - apply wp_ret. split; [done|]. by rewrite insert_id. }
  intros r st1 [-> HV1]. change (negb (MP_OK =? MP_OK)) with false. cbv iota.
  wb. eapply wpV_used; [exact HV1|apply lookup_insert|]. intros n Hn1 Hn2 _ Hn.
  set (m := Z.max (Z.abs w0) 2). destruct (@prime_after m) as (P & HP & HP1); [lia|].
  assert (Z.odd P = true) as OP. { rewrite <- Z.negb_even. destruct (Z.even P) eqn:E; [|done]. apply Z.even_spec in E as [k E]. assert (2 | P) as D by (exists k; lia). apply prime_divisors in D; [|done]. lia. }
  assert (apparent_prime P) as AP by by apply prime_apparent.
  eapply (wp_loop_n _ _ (fun n _ st => exists w, n = P - w /\ w <= P /\ v <= w /\ Z.odd w = true /\ RV st (<[z := w]> V) X /\ (forall x, v <= x < w -> Z.odd x = true -> ~ apparent_prime x)) _ (P - w0)).
  - exists w0. split; [done|]. split; [lia|]. split; [done|]. split; [done|]. split; [done|]. intros x Hx Ox. by destruct (M0 x).
  - rewrite Z2Nat.id by lia. assert (2 ^ (64 * Z.of_nat n + 4) = 16 * (2 ^ (32 * Z.of_nat n) * 2 ^ (32 * Z.of_nat n))) as ->.
    { rewrite <- Z.pow_add_r by lia. rewrite Z.pow_add_r by lia. change (2 ^ 4) with 16. rewrite Z.mul_comm. do 2 f_equal. lia. }
    assert (2 ^ 32 <= 2 ^ (32 * Z.of_nat n)) as HB by (apply Z.pow_le_mono_r; lia). change (2 ^ 32) with 4294967296 in HB. set (B := 2 ^ (32 * Z.of_nat n)) in *.
    assert (m <= B) by lia. assert (m ^ 2 <= B * B) by nia. nia.
  - intros k [] st2 (w & -> & Hw1 & Hw2 & Hw3 & HV2 & Hw4). unfold find_body. wb. eapply wpV_is_prime; [exact HV2|apply lookup_insert|]. intros st3 x HV3 [[-> Ha]|[-> Ha]].
    + change (negb (MP_TRUE =? MP_FALSE)) with true. cbv iota. apply wp_ret. exact (HQ st3 w HV3 Hw2 Hw3 Ha Hw4).
    + change (negb (MP_FALSE =? MP_FALSE)) with false. cbv iota. wb. eapply wpV_add_value; [exact HV3|apply lookup_insert|apply lookup_insert|lia|]. intros st4 HV4.
      change (negb (MP_OK =? MP_OK)) with false. cbv iota. apply wp_ret. rewrite insert_insert in HV4.
      assert (w <> P) by (intros ->; done). assert (w + 2 <= P). { destruct (Z.eq_dec (w + 1) P) as [E|]; [|lia]. rewrite <- E, Z.odd_add, Hw3 in OP. done. }
      exists (P - (w + 2)). split; [lia|]. exists (w + 2). split; [done|]. split; [lia|]. split; [lia|]. split; [by rewrite Z.odd_add, Hw3|]. split; [done|].
      intros x Hx Ox. destruct (Z.lt_ge_cases x w); [apply Hw4; [lia|done]|]. destruct (Z.eq_dec x w) as [->|]; [done|]. replace x with (w + 1) in Ox by lia. by rewrite Z.odd_add, Hw3 in Ox.
Qed.
