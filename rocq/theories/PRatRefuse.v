(** C61: functions on rationals when a request for memory is refused, in the
    [NDEBUG] build.  See [SpecRef] for [withstands] and [SpecRat] for rationals. *)
From Coq Require Import ZArith List Lia QArith Qabs.
From stdpp Require Import gmap list.
From Verif Require Import Mem Prog Kern Imath Imrat Exec Wp Rel RelZ Divi Spec SpecHist SpecLow SpecRat SpecRef Public Refuse Rat Hist PStore PRefuse PExhaust Soft Soft3 SoftRat Read SpecDec SpecGstr SoftRatT Concrete ConcreteRat.
Local Open Scope Z_scope.
Local Open Scope prog_scope.
Local Open Scope list_scope.

Local Ltac strs := intros r s Hr Hs; cbn in Hr, Hs; destruct_or?; subst; cbn; (split; [done|]); try done.

Local Ltac nums := split; [repeat constructor; done|]; split; [by vm_compute|]; split; [done|]; split; [done|by vm_compute].
(** [c] holds a numerator and a denominator, and they are not those of [q], nor
    multiples of them. *)
Definition differs (st : state) (c : oid * oid) (q : Q) : Prop :=
  match value_of st (fst c), value_of st (snd c) with Some n, Some d => n * Zpos (Qden q) <> Qnum q * d | _, _ => False end.

(** Rationals of seven digits over seven, and one with the default storage. *)
Definition exR : state := put (H 21) (- 2 ^ 224 + 1) (put (H 22) (2 ^ 223) (put (H 25) 0 (put (H 26) 1 st0))).
Definition exRV : gmap oid Z := <[H 21 := - 2 ^ 224 + 1]> (<[H 22 := 2 ^ 223]> (<[H 25 := 0]> (<[H 26 := 1]> ∅))).
Lemma exR_rep : Rep exR exRV world0 /\ rat_at exRV rA (Qmake (- 2 ^ 224 + 1) (2 ^ 223)) /\ rat_live exRV rC.
Proof. split; [unfold exR, exRV; reps|]. split; [by vm_compute|]. split; by eexists. Qed.

(** ** C61 Rationals when memory runs out *)
(** Copying, absolute value, negation: done, or nothing was done, or the numerator
    was assigned and the denominator was not. *)
Theorem C61_copy st V W a c q :
  Rep st V W -> structs [a; c] -> rat_at V a q -> rat_live V c ->
  withstands (mp_rat_copy a c) st (fun r st' => (r = MP_OK /\ Rep st' (set_rat c q V) W) \/
    (r = MP_MEMORY /\ (Rep st' V W \/ Rep st' (<[fst c := Qnum (Qred q)]> V) W))).
Proof.
  intros H HS Ha Hc. eapply by_soft; [exact H|]. intros HV. eapply sV_rat_copy; [exact HV|exact HS|exact Ha|exact Hc| |].
  - split; intros st' H'; right; (split; [done|]); [left|right]; by apply RV_done.
  - intros st' H'. left. split; [done|by apply RV_done].
Qed.
Example C61_copy_ex : match run false orc_yes (mp_rat_copy rA rC) 0 exR with Done r st' _ => r = MP_OK /\ value_of st' (fst rC) = Some (- 2 ^ 224 + 1) /\ value_of st' (snd rC) = Some (2 ^ 223) | _ => False end /\
  match run false (orc_but 0) (mp_rat_copy rA rC) 0 exR with Done r st' _ => r = MP_MEMORY /\ value_of st' (fst rC) = Some 0 /\ value_of st' (snd rC) = Some 1 | _ => False end /\
  match run false (orc_but 1) (mp_rat_copy rA rC) 0 exR with Done r st' _ => r = MP_MEMORY /\ value_of st' (fst rC) = Some (- 2 ^ 224 + 1) /\ value_of st' (snd rC) = Some 1 | _ => False end.
Proof. by vm_compute. Qed.
Print Assumptions C61_copy.
Theorem C61_abs st V W a c q :
  Rep st V W -> structs [a; c] -> rat_at V a q -> rat_live V c ->
  withstands (mp_rat_abs a c) st (fun r st' => (r = MP_OK /\ Rep st' (set_rat c (Qabs q) V) W) \/
    (r = MP_MEMORY /\ (Rep st' V W \/ Rep st' (<[fst c := Z.abs (Qnum (Qred q))]> V) W))).
Proof.
  intros H HS Ha Hc. eapply by_soft; [exact H|]. intros HV. eapply sV_rat_abs; [exact HV|exact HS|exact Ha|exact Hc| |].
  - split; intros st' H'; right; (split; [done|]); [left|right]; by apply RV_done.
  - intros st' H'. left. split; [done|]. rewrite set_rat_abs. by apply RV_done.
Qed.
Example C61_abs_ex : match run false orc_yes (mp_rat_abs rA rC) 0 exR with Done r st' _ => r = MP_OK /\ value_of st' (fst rC) = Some (2 ^ 224 - 1) /\ value_of st' (snd rC) = Some (2 ^ 223) | _ => False end /\
  match run false (orc_but 0) (mp_rat_abs rA rC) 0 exR with Done r st' _ => r = MP_MEMORY /\ value_of st' (fst rC) = Some 0 /\ value_of st' (snd rC) = Some 1 | _ => False end /\
  match run false (orc_but 1) (mp_rat_abs rA rC) 0 exR with Done r st' _ => r = MP_MEMORY /\ value_of st' (fst rC) = Some (2 ^ 224 - 1) /\ value_of st' (snd rC) = Some 1 | _ => False end.
Proof. by vm_compute. Qed.
Print Assumptions C61_abs.
Theorem C61_neg st V W a c q :
  Rep st V W -> structs [a; c] -> rat_at V a q -> rat_live V c ->
  withstands (mp_rat_neg a c) st (fun r st' => (r = MP_OK /\ Rep st' (set_rat c (- q) V) W) \/
    (r = MP_MEMORY /\ (Rep st' V W \/ Rep st' (<[fst c := - Qnum (Qred q)]> V) W))).
Proof.
  intros H HS Ha Hc. eapply by_soft; [exact H|]. intros HV. eapply sV_rat_neg; [exact HV|exact HS|exact Ha|exact Hc| |].
  - split; intros st' H'; right; (split; [done|]); [left|right]; by apply RV_done.
  - intros st' H'. left. split; [done|]. rewrite set_rat_opp. by apply RV_done.
Qed.
Example C61_neg_ex : match run false orc_yes (mp_rat_neg rA rC) 0 exR with Done r st' _ => r = MP_OK /\ value_of st' (fst rC) = Some (2 ^ 224 - 1) /\ value_of st' (snd rC) = Some (2 ^ 223) | _ => False end /\
  match run false (orc_but 0) (mp_rat_neg rA rC) 0 exR with Done r st' _ => r = MP_MEMORY /\ value_of st' (fst rC) = Some 0 /\ value_of st' (snd rC) = Some 1 | _ => False end /\
  match run false (orc_but 1) (mp_rat_neg rA rC) 0 exR with Done r st' _ => r = MP_MEMORY /\ value_of st' (fst rC) = Some (2 ^ 224 - 1) /\ value_of st' (snd rC) = Some 1 | _ => False end.
Proof. by vm_compute. Qed.
Print Assumptions C61_neg.
Theorem C61_recip st V W a c q :
  Rep st V W -> structs [a; c] -> rat_at V a q -> rat_live V c -> ~ Qeq q 0 ->
  withstands (mp_rat_recip a c) st (fun r st' => (r = MP_OK /\ Rep st' (set_rat c (/ q) V) W) \/
    (r = MP_MEMORY /\ (Rep st' V W \/ Rep st' (<[fst c := Qnum (Qred q)]> V) W))).
Proof.
  intros H HS Ha Hc N. eapply by_soft; [exact H|]. intros HV. eapply sV_rat_recip; [exact HV|exact HS|exact Ha|exact Hc|done| |].
  - intros _. split; intros st' H'; right; (split; [done|]); [left|right]; by apply RV_done.
  - intros _ st' H'. left. split; [done|by apply RV_done].
Qed.
Example C61_recip_ex : match run false orc_yes (mp_rat_recip rA rC) 0 exR with Done r st' _ => r = MP_OK /\ value_of st' (fst rC) = Some (- 2 ^ 223) /\ value_of st' (snd rC) = Some (2 ^ 224 - 1) | _ => False end /\
  match run false (orc_but 0) (mp_rat_recip rA rC) 0 exR with Done r st' _ => r = MP_MEMORY /\ value_of st' (fst rC) = Some 0 /\ value_of st' (snd rC) = Some 1 | _ => False end /\
  match run false (orc_but 1) (mp_rat_recip rA rC) 0 exR with Done r st' _ => r = MP_MEMORY /\ value_of st' (fst rC) = Some (- 2 ^ 224 + 1) /\ value_of st' (snd rC) = Some 1 | _ => False end.
Proof. by vm_compute. Qed.
Print Assumptions C61_recip.
(** Zero, and a fresh rational, are made without memory. *)
Theorem C61_zero st V W c :
  Rep st V W -> structs [c] -> rat_live V c -> withstands (mp_rat_zero c) st (fun _ st' => Rep st' (set_rat c 0 V) W).
Proof.
  intros H HS Hc. eapply by_soft; [exact H|]. intros HV. eapply sV_rat_zero; [exact HV|exact HS|exact Hc|]. intros st' H'. by apply RV_done.
Qed.
Example C61_zero_ex : match run false (orc_first 0) (mp_rat_zero rA) 0 exR with Done _ st' _ => value_of st' (fst rA) = Some 0 /\ value_of st' (snd rA) = Some 1 | _ => False end. Proof. by vm_compute. Qed.
Print Assumptions C61_zero.
Theorem C61_init st V W r zn zd :
  Rep st V W -> fst r <> snd r -> blanks W !! fst r = Some zn -> blanks W !! snd r = Some zd ->
  withstands (mp_rat_init r) st (fun x st' => x = MP_OK /\ Rep st' (set_rat r 0 V) (World (bufs W) (delete (snd r) (delete (fst r) (blanks W))) (tunables W))).
Proof.
  intros H N Hn Hd. eapply by_soft; [exact H|]. intros HV. eapply sV_rat_init; [exact HV|done|exact Hn|exact Hd|]. intros st' H'. split; [done|by apply RV_done].
Qed.
Example C61_init_ex : match run false (orc_first 0) (mp_rat_init rA) 0 (declares [fst rA; snd rA]) with Done r st' _ => r = MP_OK /\ value_of st' (fst rA) = Some 0 /\ value_of st' (snd rA) = Some 1 | _ => False end. Proof. by vm_compute. Qed.
Print Assumptions C61_init.
(** Initialisation with storage: done, or neither member owns any: it can be
    initialised again, and nothing is lost if it is not. *)
Theorem C61_init_size st V W r zn zd pn pd :
  Rep st V W -> fst r <> snd r -> blanks W !! fst r = Some zn -> blanks W !! snd r = Some zd -> 0 <= pn < 2 ^ 32 - 1 -> 0 <= pd < 2 ^ 32 - 1 ->
  withstands (mp_rat_init_size r pn pd) st (fun x st' =>
    (x = MP_OK /\ Rep st' (set_rat r 0 V) (World (bufs W) (delete (snd r) (delete (fst r) (blanks W))) (tunables W))) \/
    (x = MP_MEMORY /\ exists zn' zd', digits zn' = None /\ (digits zd' = None \/ zd' = zd) /\ Rep st' V (World (bufs W) (<[snd r := zd']> (<[fst r := zn']> (blanks W))) (tunables W)))).
Proof.
  intros H N Hn Hd H1 H2. eapply by_soft; [exact H|]. intros HV. eapply sV_rat_init_size; [exact HV|done|exact Hn|exact Hd|exact H1|exact H2| |].
  - intros st' zn' zd' E1 E2 H'. right. split; [done|]. exists zn', zd'. split; [done|]. split; [done|by apply RV_done].
  - intros st' H'. left. split; [done|by apply RV_done].
Qed.
Example C61_init_size_ex : match run false orc_yes (mp_rat_init_size rA 3 70) 0 (declares [fst rA; snd rA]) with Done r st' _ => r = MP_OK /\ value_of st' (fst rA) = Some 0 /\ value_of st' (snd rA) = Some 1 | _ => False end /\
  match run false (orc_but 1) (mp_rat_init_size rA 3 70) 0 (declares [fst rA; snd rA]) with Done r st' _ => r = MP_MEMORY | _ => False end /\
  match run false (orc_but 1) (mp_rat_init_size rA 3 70;; mp_rat_init rA) 0 (declares [fst rA; snd rA]) with Done r st' _ => r = MP_OK /\ value_of st' (fst rA) = Some 0 /\ value_of st' (snd rA) = Some 1 | _ => False end. Proof. by vm_compute. Qed.
Print Assumptions C61_init_size.
Theorem C61_init_copy st V W r a q zn zd :
  Rep st V W -> fst r <> snd r -> blanks W !! fst r = Some zn -> blanks W !! snd r = Some zd -> rat_at V a q ->
  withstands (mp_rat_init_copy r a) st (fun x st' =>
    (x = MP_OK /\ Rep st' (set_rat r q V) (World (bufs W) (delete (snd r) (delete (fst r) (blanks W))) (tunables W))) \/
    (x = MP_MEMORY /\ exists zn' zd', digits zn' = None /\ (digits zd' = None \/ zd' = zd) /\ Rep st' V (World (bufs W) (<[snd r := zd']> (<[fst r := zn']> (blanks W))) (tunables W)))).
Proof.
  intros H N Hn Hd Ha. eapply by_soft; [exact H|]. intros HV. eapply sV_rat_init_copy; [exact HV|done|exact Hn|exact Hd|exact Ha| |].
  - intros st' zn' zd' E1 E2 H'. right. split; [done|]. exists zn', zd'. split; [done|]. split; [done|by apply RV_done].
  - intros st' H'. left. split; [done|by apply RV_done].
Qed.
Example C61_init_copy_ex : match run false orc_yes (mp_rat_init rB;; mp_rat_init_copy rA rB) 0 (declares [fst rA; snd rA; fst rB; snd rB]) with Done r st' _ => r = MP_OK /\ value_of st' (fst rA) = Some 0 /\ value_of st' (snd rA) = Some 1 | _ => False end /\
  match run false orc_yes (mp_rat_init_size rB 2 2;; mp_rat_set_value rB (2 ^ 60) 3;; mp_rat_init_copy rA rB) 0 (declares [fst rA; snd rA; fst rB; snd rB]) with Done r st' t' => r = MP_OK /\
    match run false (orc_but (t' - 1)) (mp_rat_init_size rB 2 2;; mp_rat_set_value rB (2 ^ 60) 3;; mp_rat_init_copy rA rB) 0 (declares [fst rA; snd rA; fst rB; snd rB]) with Done r st' _ => r = MP_MEMORY | _ => False end | _ => False end. Proof. by vm_compute. Qed.
Print Assumptions C61_init_copy.
(** Numerator and denominator as integers: done, or nothing was done. *)
Theorem C61_numer st V W a z q :
  Rep st V W -> rat_at V a q -> is_Some (V !! z) ->
  withstands (mp_rat_numer a z) st (fun r st' => (r = MP_OK /\ Rep st' (<[z := Qnum (Qred q)]> V) W) \/ (r = MP_MEMORY /\ Rep st' V W)).
Proof. intros H [Ha _] [v Hz]. by eapply C54_copy. Qed.
Example C61_numer_ex : match run false orc_yes (mp_rat_numer rA (H 25)) 0 exR with Done r st' _ => r = MP_OK /\ value_of st' (H 25) = Some (- 2 ^ 224 + 1) | _ => False end /\
  match run false (orc_but 0) (mp_rat_numer rA (H 25)) 0 exR with Done r st' _ => r = MP_MEMORY /\ value_of st' (H 25) = Some 0 | _ => False end. Proof. by vm_compute. Qed.
Print Assumptions C61_numer.
Theorem C61_denom st V W a z q :
  Rep st V W -> rat_at V a q -> is_Some (V !! z) ->
  withstands (mp_rat_denom a z) st (fun r st' => (r = MP_OK /\ Rep st' (<[z := Zpos (Qden (Qred q))]> V) W) \/ (r = MP_MEMORY /\ Rep st' V W)).
Proof. intros H [_ Ha] [v Hz]. by eapply C54_copy. Qed.
Example C61_denom_ex : match run false orc_yes (mp_rat_denom rA (H 25)) 0 exR with Done r st' _ => r = MP_OK /\ value_of st' (H 25) = Some (2 ^ 223) | _ => False end /\
  match run false (orc_but 0) (mp_rat_denom rA (H 25)) 0 exR with Done r st' _ => r = MP_MEMORY /\ value_of st' (H 25) = Some 0 | _ => False end. Proof. by vm_compute. Qed.
Print Assumptions C61_denom.

(** A failed copy need not leave the output as it was: the numerator is the new
    one and the denominator the old one.  Here the target held 0 and now holds an
    integer. *)
Theorem C61_copy_restores_refuted : exists st V W a c q orc,
  Rep st V W /\ structs [a; c] /\ rat_at V a q /\ rat_at V c 0 /\
  match run false orc (mp_rat_copy a c) 0 st with
  | Done r st' _ => r = MP_MEMORY /\ differs st' c 0 /\ differs st' c q | _ => False end.
Proof.
  destruct exR_rep as (H1 & H2 & _). exists exR, exRV, world0, rA, rC, (Qmake (- 2 ^ 224 + 1) (2 ^ 223)), (orc_but 1).
  split; [done|]. split; [strs|]. split; [done|]. split; [by vm_compute|]. vm_compute. split; [reflexivity|]. split; discriminate.
Qed.
Print Assumptions C61_copy_restores_refuted.

(** The other operations can report success with a wrong result: a refused request
    inside a division (imath.c 2346-2360) or a Karatsuba product goes unnoticed. *)
Definition st61 (n1 d1 n2 d2 i : Z) (st : state) : state := put (H 1) n1 (put (H 2) d1 (put (H 3) n2 (put (H 4) d2 (put (H 5) 0 (put (H 6) 1 (put (H 7) i st)))))).
Definition V61 (n1 d1 n2 d2 i : Z) : gmap oid Z := <[H 1 := n1]> (<[H 2 := d1]> (<[H 3 := n2]> (<[H 4 := d2]> (<[H 5 := 0]> (<[H 6 := 1]> (<[H 7 := i]> ∅)))))).
Theorem C61_mul_refuted : exists st V W a b c qa qb orc,
  Rep st V W /\ structs [a; b; c] /\ rat_at V a qa /\ rat_at V b qb /\ rat_live V c /\
  match run false orc (mp_rat_mul a b c) 0 st with Done r st' _ => r = MP_OK /\ differs st' c (qa * qb) | _ => False end.
Proof.
  exists (st61 (2 ^ 64 - 1) 1 (2 ^ 64 - 3) (2 ^ 32 + 1) 0 st0), (V61 (2 ^ 64 - 1) 1 (2 ^ 64 - 3) (2 ^ 32 + 1) 0), world0, (H 1, H 2), (H 3, H 4), (H 5, H 6), (Qmake (2 ^ 64 - 1) 1), (Qmake (2 ^ 64 - 3) (2 ^ 32 + 1)), (orc_but 15).
  split; [unfold st61, V61; reps|]. split; [strs|]. do 2 (split; [by vm_compute|]). split; [split; by eexists|]. vm_compute. split; [reflexivity|discriminate].
Qed.
Print Assumptions C61_mul_refuted.
Theorem C61_div_refuted : exists st V W a b c qa qb orc,
  Rep st V W /\ structs [a; b; c] /\ rat_at V a qa /\ rat_at V b qb /\ rat_live V c /\ ~ Qeq qb 0 /\
  match run false orc (mp_rat_div a b c) 0 st with Done r st' _ => r = MP_OK /\ differs st' c (qa / qb) | _ => False end.
Proof.
  exists (st61 (2 ^ 64 - 1) 1 ((2 ^ 32 + 1)) (2 ^ 64 - 3) 0 st0), (V61 (2 ^ 64 - 1) 1 ((2 ^ 32 + 1)) (2 ^ 64 - 3) 0), world0, (H 1, H 2), (H 3, H 4), (H 5, H 6), (Qmake (2 ^ 64 - 1) 1), (Qmake ((2 ^ 32 + 1)) (2 ^ 64 - 3)), (orc_but 15).
  split; [unfold st61, V61; reps|]. split; [strs|]. do 2 (split; [by vm_compute|]). split; [split; by eexists|]. split; [by vm_compute|]. vm_compute. split; [reflexivity|discriminate].
Qed.
Print Assumptions C61_div_refuted.
Theorem C61_add_refuted : exists st V W a b c qa qb orc,
  Rep st V W /\ structs [a; b; c] /\ rat_at V a qa /\ rat_at V b qb /\ rat_live V c /\
  match run false orc (mp_rat_add a b c) 0 st with Done r st' _ => r = MP_OK /\ differs st' c (qa + qb) | _ => False end.
Proof.
  exists (st61 (2 ^ 128 - 2) (2 ^ 32 + 1) (1) (2 ^ 32 + 1) 0 st0), (V61 (2 ^ 128 - 2) (2 ^ 32 + 1) (1) (2 ^ 32 + 1) 0), world0, (H 1, H 2), (H 3, H 4), (H 5, H 6), (Qmake (2 ^ 128 - 2) (2 ^ 32 + 1)), (Qmake (1) (2 ^ 32 + 1)), (orc_but 14).
  split; [unfold st61, V61; reps|]. split; [strs|]. do 2 (split; [by vm_compute|]). split; [split; by eexists|]. vm_compute. split; [reflexivity|discriminate].
Qed.
Print Assumptions C61_add_refuted.
Theorem C61_sub_refuted : exists st V W a b c qa qb orc,
  Rep st V W /\ structs [a; b; c] /\ rat_at V a qa /\ rat_at V b qb /\ rat_live V c /\
  match run false orc (mp_rat_sub a b c) 0 st with Done r st' _ => r = MP_OK /\ differs st' c (qa - qb) | _ => False end.
Proof.
  exists (st61 (2 ^ 128 - 2) (2 ^ 32 + 1) (-1) (2 ^ 32 + 1) 0 st0), (V61 (2 ^ 128 - 2) (2 ^ 32 + 1) (-1) (2 ^ 32 + 1) 0), world0, (H 1, H 2), (H 3, H 4), (H 5, H 6), (Qmake (2 ^ 128 - 2) (2 ^ 32 + 1)), (Qmake (-1) (2 ^ 32 + 1)), (orc_but 14).
  split; [unfold st61, V61; reps|]. split; [strs|]. do 2 (split; [by vm_compute|]). split; [split; by eexists|]. vm_compute. split; [reflexivity|discriminate].
Qed.
Print Assumptions C61_sub_refuted.
Theorem C61_div_int_refuted : exists st V W a b c qa vb orc,
  Rep st V W /\ structs [a; c] /\ rat_at V a qa /\ V !! b = Some vb /\ vb <> 0 /\ b <> fst c /\ b <> snd c /\ rat_live V c /\
  match run false orc (mp_rat_div_int a b c) 0 st with Done r st' _ => r = MP_OK /\ differs st' c (qa / inject_Z vb) | _ => False end.
Proof.
  exists (st61 (2 ^ 128 - 1) 7 0 1 ((2 ^ 32 + 1)) st0), (V61 (2 ^ 128 - 1) 7 0 1 ((2 ^ 32 + 1))), world0, (H 1, H 2), (H 7), (H 5, H 6), (Qmake (2 ^ 128 - 1) 7), ((2 ^ 32 + 1)), (orc_but 15).
  split; [unfold st61, V61; reps|]. split; [strs|]. do 2 (split; [by vm_compute|]). do 3 (split; [done|]). split; [split; by eexists|]. vm_compute. split; [reflexivity|discriminate].
Qed.
Print Assumptions C61_div_int_refuted.
Theorem C61_add_int_refuted : exists st V W a b c qa vb orc,
  Rep st V W /\ structs [a; c] /\ rat_at V a qa /\ V !! b = Some vb /\ vb <> 0 /\ b <> fst c /\ b <> snd c /\ rat_live V c /\
  match run false orc (mp_rat_add_int a b c) 0 st with Done r st' _ => r = MP_OK /\ differs st' c (qa + inject_Z vb) | _ => False end.
Proof.
  exists (st61 (1) (2 ^ 544) 0 1 (2 ^ 544) st8), (V61 (1) (2 ^ 544) 0 1 (2 ^ 544)), world8, (H 1, H 2), (H 7), (H 5, H 6), (Qmake (1) (2 ^ 544)), (2 ^ 544), (orc_but 6).
  split; [unfold st61, V61; reps|]. split; [strs|]. do 2 (split; [by vm_compute|]). do 3 (split; [done|]). split; [split; by eexists|]. vm_compute. split; [reflexivity|discriminate].
Qed.
Print Assumptions C61_add_int_refuted.
Theorem C61_sub_int_refuted : exists st V W a b c qa vb orc,
  Rep st V W /\ structs [a; c] /\ rat_at V a qa /\ V !! b = Some vb /\ vb <> 0 /\ b <> fst c /\ b <> snd c /\ rat_live V c /\
  match run false orc (mp_rat_sub_int a b c) 0 st with Done r st' _ => r = MP_OK /\ differs st' c (qa - inject_Z vb) | _ => False end.
Proof.
  exists (st61 (1) (2 ^ 544) 0 1 (- 2 ^ 544) st8), (V61 (1) (2 ^ 544) 0 1 (- 2 ^ 544)), world8, (H 1, H 2), (H 7), (H 5, H 6), (Qmake (1) (2 ^ 544)), (- 2 ^ 544), (orc_but 6).
  split; [unfold st61, V61; reps|]. split; [strs|]. do 2 (split; [by vm_compute|]). do 3 (split; [done|]). split; [split; by eexists|]. vm_compute. split; [reflexivity|discriminate].
Qed.
Print Assumptions C61_sub_int_refuted.
Theorem C61_mul_int_refuted : exists st V W a b c qa vb orc,
  Rep st V W /\ structs [a; c] /\ rat_at V a qa /\ V !! b = Some vb /\ vb <> 0 /\ b <> fst c /\ b <> snd c /\ rat_live V c /\
  match run false orc (mp_rat_mul_int a b c) 0 st with Done r st' _ => r = MP_OK /\ differs st' c (qa * inject_Z vb) | _ => False end.
Proof.
  exists (st61 (2 ^ 544) 1 0 1 (2 ^ 544) st8), (V61 (2 ^ 544) 1 0 1 (2 ^ 544)), world8, (H 1, H 2), (H 7), (H 5, H 6), (Qmake (2 ^ 544) 1), (2 ^ 544), (orc_but 5).
  split; [unfold st61, V61; reps|]. split; [strs|]. do 2 (split; [by vm_compute|]). do 3 (split; [done|]). split; [split; by eexists|]. vm_compute. split; [reflexivity|discriminate].
Qed.
Print Assumptions C61_mul_int_refuted.
Theorem C61_expt_refuted : exists st V W a c qa orc,
  Rep st V W /\ structs [a; c] /\ rat_at V a qa /\ rat_live V c /\
  match run false orc (mp_rat_expt a 2 c) 0 st with Done r st' _ => r = MP_OK /\ differs st' c (qa * qa) | _ => False end.
Proof.
  exists (st61 (2 ^ 288 - 1) 1 0 1 0 st8), (V61 (2 ^ 288 - 1) 1 0 1 0), world8, (H 1, H 2), (H 5, H 6), (inject_Z (2 ^ 288 - 1)), (orc_but 4).
  split; [unfold st61, V61; reps|]. split; [strs|]. split; [by vm_compute|]. split; [split; by eexists|]. vm_compute. split; [reflexivity|discriminate].
Qed.
Print Assumptions C61_expt_refuted.
(** Comparison has no way to report a failure: it answers that the first is greater. *)
Theorem C61_compare_refuted : exists st V W a b qa qb orc,
  Rep st V W /\ structs [a; b] /\ rat_at V a qa /\ rat_at V b qb /\ Qcompare qa qb = Lt /\
  match run false orc (mp_rat_compare a b) 0 st with Done r st' _ => 0 < r | _ => False end /\
  match run false orc (mp_rat_compare_unsigned a b) 0 st with Done r st' _ => 0 < r | _ => False end.
Proof.
  exists (st61 (2 ^ 288 + 3) (2 ^ 288 - 1) (2 ^ 288 + 5) (2 ^ 288 + 1) 0 st8), (V61 (2 ^ 288 + 3) (2 ^ 288 - 1) (2 ^ 288 + 5) (2 ^ 288 + 1) 0), world8, (H 3, H 4), (H 1, H 2), (Qmake (2 ^ 288 + 5) (2 ^ 288 + 1)), (Qmake (2 ^ 288 + 3) (2 ^ 288 - 1)), (orc_but 1).
  split; [unfold st61, V61; reps|]. split; [strs|]. do 3 (split; [by vm_compute|]). by vm_compute.
Qed.
Print Assumptions C61_compare_refuted.
(** Assignment of a quotient of machine integers, and reduction to lowest terms, for
    a rational with room for two digits in each member. *)
Theorem C61_set_value_refuted : exists r n d orc, - 2 ^ 63 < n < 2 ^ 63 /\ 0 < d < 2 ^ 63 /\
  match run false orc (mp_rat_init_size r 2 2;; mp_rat_set_value r n d) 0 (declares [fst r; snd r]) with
  | Done x st' _ => x = MP_OK /\ differs st' r (frac n d) | _ => False end.
Proof. exists rA, (2 ^ 63 - 2 ^ 31 - 1), (2 ^ 32 + 1), (orc_but 17). split; [by vm_compute|]. split; [by vm_compute|]. vm_compute. split; [reflexivity|discriminate]. Qed.
Print Assumptions C61_set_value_refuted.
Theorem C61_set_uvalue_refuted : exists r n d orc, 0 <= n < 2 ^ 64 /\ 0 < d < 2 ^ 64 /\
  match run false orc (mp_rat_init_size r 2 2;; mp_rat_set_uvalue r n d) 0 (declares [fst r; snd r]) with
  | Done x st' _ => x = MP_OK /\ differs st' r (frac n d) | _ => False end.
Proof. exists rA, (2 ^ 64 - 1), (3 * (2 ^ 32 + 1)), (orc_but 17). split; [by vm_compute|]. split; [by vm_compute|]. vm_compute. split; [reflexivity|discriminate]. Qed.
Print Assumptions C61_set_uvalue_refuted.
Theorem C61_reduce_refuted : exists r n d orc, 0 <= n < 2 ^ 64 /\ 0 < d < 2 ^ 64 /\
  match run false orc (mp_rat_init_size r 2 2;; mp_int_set_uvalue (fst r) n;; mp_int_set_uvalue (snd r) d;; mp_rat_reduce r) 0 (declares [fst r; snd r]) with
  | Done x st' _ => x = MP_OK /\ differs st' r (frac n d) | _ => False end.
Proof. exists rA, (2 ^ 64 - 1), (7 * (2 ^ 32 + 1)), (orc_but 17). split; [by vm_compute|]. split; [by vm_compute|]. vm_compute. split; [reflexivity|discriminate]. Qed.
Print Assumptions C61_reduce_refuted.
(** Comparison with a quotient of machine integers: the number is smaller, and the
    answer is that it is greater. *)
Theorem C61_compare_value_refuted : exists st V W a qa n d orc,
  Rep st V W /\ structs [a] /\ rat_at V a qa /\ - 2 ^ 63 < n < 2 ^ 63 /\ 0 < d < 2 ^ 63 /\ Qcompare qa (frac n d) = Lt /\
  match run false orc (mp_rat_compare_value a n d) 0 st with Done r _ _ => 0 < r | _ => False end.
Proof.
  exists (st61 (2 ^ 288 + 3) (2 ^ 288 - 1) 0 1 0 st8), (V61 (2 ^ 288 + 3) (2 ^ 288 - 1) 0 1 0), world8, (H 1, H 2), (Qmake (2 ^ 288 + 3) (2 ^ 288 - 1)), 2, 1, (orc_but 11).
  split; [unfold st61, V61; reps|]. split; [strs|]. do 4 (split; [by vm_compute|]). by vm_compute.
Qed.
Print Assumptions C61_compare_value_refuted.

(** ** Text *)
(** The text of a rational: done; or nothing was written; or the numerator and the
    slash were written, without a terminator. *)
Theorem C61_to_string st V W r q radix b (off : nat) l limit s :
  Rep st V W -> rat_at V r q -> bufs W !! b = Some l -> 2 <= radix <= 36 -> rat_text radix q s ->
  Z.of_nat (length s) < limit -> (off + length s + 1 <= length l)%nat ->
  withstands (mp_rat_to_string r radix (b, Z.of_nat off) limit) st (fun x st' =>
    (x = MP_OK /\ Rep st' V (with_buf W b (overwrite off (s ++ [0]) l))) \/
    (x = MP_MEMORY /\ (Rep st' V W \/
       exists sn sd, s = sn ++ 47 :: sd /\ numeral radix (Qnum (Qred q)) sn /\ Rep st' V (with_buf W b (overwrite off (sn ++ [47]) l))))).
Proof.
  intros H [Hn Hd] Hb Hr (sn & sd & Hsn & Hsd & Es) Hl Ho. eapply by_soft; [exact H|]. intros HV.
  destruct (numeral_short _ _ _ _ _ _ _ HV Hn (proj1 Hr) Hsn) as [L1 _].
  assert (length sn <= length s)%nat as L3 by (rewrite Es; destruct (_ =? _); [done|rewrite app_length; lia]).
  eapply (sV_rat_to_string _ _ _ r (Qnum (Qred q)) (Zpos (Qden (Qred q)))); [exact HV|exact Hn|exact Hd|exact Hb|done|lia|exact Hsn|exact Hsd|rewrite <- Es; lia|rewrite <- Es; lia| | |].
  - intros st' H'. right. split; [done|]. left. by apply RV_done.
  - intros st' N H'. right. split; [done|]. right. exists sn, sd. split; [by rewrite Es, (proj2 (Z.eqb_neq _ _) N)|]. split; [done|]. by apply RV_done_buf.
  - intros st' H'. left. split; [done|]. rewrite <- Es in H'. by apply RV_done_buf.
Qed.
Example C61_to_string_ex : let st := put_buf bX (replicate 21 None) (st61 (2 ^ 36 - 1) (2 ^ 36) 0 1 0 st8) in
  let result k := match run false (orc_but k) (mp_rat_to_string (H 1, H 2) 16 (bX, 0) 21) 0 st with Done x st' _ => Some (x, mem st' !! bX) | _ => None end in
  rat_text 16 (Qmake (2 ^ 36 - 1) (2 ^ 36)) (replicate 9 70 ++ [47; 49] ++ replicate 9 48) /\
  result 9%nat = Some (MP_OK, Some (map Some (replicate 9 70 ++ [47; 49] ++ replicate 9 48 ++ [0]))) /\
  result 1%nat = Some (MP_MEMORY, Some (replicate 21 None)) /\ result 3%nat = Some (MP_MEMORY, Some (replicate 9 (Some 70) ++ [Some 47] ++ replicate 11 None)).
Proof. cbv zeta. split; [|by vm_compute]. exists (replicate 9 70), (49 :: replicate 9 48). split; [exists (replicate 9 15); nums|]. split; [exists (1 :: replicate 9 0); nums|done]. Qed.
Print Assumptions C61_to_string.
(** A rational of eight digits over two, rounded to an integer: the answer is that
    it was done, and the text is not that of the number. *)
Theorem C61_to_decimal_refuted : exists st V W r q b l N s orc,
  Rep st V W /\ structs [r] /\ rat_at V r q /\ bufs W !! b = Some l /\ (0 < Qnum q) /\ rounds Down (Qnum (Qred q)) (Zpos (Qden (Qred q))) N /\ decimal_text 16 0 false N s /\ (length s < 80)%nat /\ length l = 80%nat /\
  match run false orc (mp_rat_to_decimal r 16 0 (rounding_code Down) (b, 0) 80) 0 st with
  | Done x st' _ => x = MP_OK /\ mem st' !! b <> Some (overwrite 0 (s ++ [0]) l) | _ => False end.
Proof.
  pose (ds := [15; 15; 15; 15; 15; 15; 15; 1; 0; 0; 0; 0; 0; 0; 14; 0; 15; 15; 15; 15; 15; 2; 13; 1; 0; 0; 0; 0; 12; 5; 12; 0; 15; 15; 15; 4; 6; 9; 11; 1; 0; 0; 10; 13; 12; 14; 10; 0; 15; 5; 13; 0; 14; 4; 9; 1] : list Z).
  exists (put_buf bX (replicate 80 None) (st61 (2 ^ 256 - 3) (2 ^ 32 + 15) 0 1 0 st8)), (V61 (2 ^ 256 - 3) (2 ^ 32 + 15) 0 1 0), (with_buf world8 bX (replicate 80 None)), (H 1, H 2), (Qmake (2 ^ 256 - 3) (2 ^ 32 + 15)), bX, (replicate 80 None), ((2 ^ 256 - 3) / (2 ^ 32 + 15)), (map digit_char ds), (orc_but 7).
  split; [apply Rep_put_buf; [unfold st61, V61; reps|by vm_compute|done]|]. split; [strs|]. split; [by vm_compute|]. split; [by vm_compute|]. split; [done|]. split; [by vm_compute|].
  split. { exists (map digit_char ds), []. split; [exists ds; nums|]. split; [exists []; by repeat constructor|done]. }
  split; [vm_compute; lia|]. split; [done|]. vm_compute. split; [reflexivity|discriminate].
Qed.
Print Assumptions C61_to_decimal_refuted.
(** Reading a whole number: done, or the call fails, and if the caller then releases
    the rational nothing is lost and nothing else has changed. *)
Definition read_or_clear (r : oid * oid) (p : prog (Z * option (list Z))) : prog (Z * option (list Z)) :=
  x <- p; if fst x =? MP_MEMORY then mp_rat_clear r;; Ret x else Ret x.
Theorem C61_read_integer st V W r radix s n sp rest :
  Rep st V W -> structs [r] -> rat_live V r -> 2 <= radix <= 36 -> Z.of_nat (length s) < 2 ^ 31 ->
  reads radix s n (sp ++ rest) -> Forall is_space sp -> (forall c, head rest = Some c -> ~ is_space c /\ c <> 47) ->
  withstands (read_or_clear r (mp_rat_read_cstring r radix s)) st (fun x st' =>
    (x = (match sp ++ rest with [] => MP_OK | _ :: _ => MP_TRUNC end, Some (sp ++ rest)) /\ Rep st' (set_rat r (inject_Z n) V) W) \/
    (x = (MP_MEMORY, None) /\ exists zn zd, digits zn = None /\ digits zd = None /\
       Rep st' (delete (snd r) (delete (fst r) V)) (World (bufs W) (<[snd r := zd]> (<[fst r := zn]> (blanks W))) (tunables W)))).
Proof.
  intros H HS Hl Hr Hs H1 Hsp Hh. eapply by_soft; [exact H|]. intros HV. assert (fst r <> snd r) as N by (apply (HS r r); by left). pose proof Hl as [[vn Hn] [vd Hd]].
  unfold read_or_clear. apply soft_bind, wp_bind. eapply sV_rat_read_int; [exact HV|exact N|exact Hl|done|done|exact H1|done|done|done| |].
  - intros st' HX. cbn [fst]. change (MP_MEMORY =? MP_MEMORY) with true. cbv iota. unfold mp_rat_clear. sqt. apply wp_bind. eapply spoilt_clear; [exact HX|]. intros st2 zn E1 H2.
    eapply wpV_clear; [exact H2|rewrite lookup_delete_ne by done; exact Hd|]. intros st3 zd E2 H3. apply s_ret. right. split; [done|]. exists zn, zd. split; [done|]. split; [done|]. by apply RV_done.
  - intros st' H'. cbn [fst]. destruct (sp ++ rest); change (_ =? MP_MEMORY) with false; cbv iota; apply s_ret; left; (split; [done|by apply RV_done]).
Qed.
Example C61_read_integer_ex : let result k := match run false (orc_but k) (read_or_clear rC (mp_rat_read_cstring rC 16 (45 :: replicate 80 102))) 0 exR with Done x st' _ => Some (x, value_of st' (fst rC), value_of st' (snd rC), size (mem st')) | _ => None end in
  result 9%nat = Some ((MP_OK, Some []), Some (- (2 ^ 320 - 1)), Some 1, size (mem exR)) /\
  result 0%nat = Some ((MP_MEMORY, None), None, None, (size (mem exR) - 2)%nat).
Proof. by vm_compute. Qed.
Print Assumptions C61_read_integer.
(** Nineteen digits before the point and nineteen after it, read into a rational
    while the default precision is two digits. *)
Definition st2 : state := State ∅ ∅ (Globals 2 32).
Lemma Rep_empty2 : Rep st2 ∅ (World ∅ ∅ (Globals 2 32)).
Proof.
  constructor; simpl.
  all: try (intros *; rewrite ?lookup_empty; done).
  intros o [? E]. by rewrite lookup_empty in E.
Qed.
Theorem C61_read_decimal_refuted : exists st V W r s q orc,
  Rep st V W /\ structs [r] /\ rat_live V r /\ reads_point 10 s q [] /\
  match run false orc (mp_rat_read_decimal r 10 s) 0 st with Done x st' _ => x = MP_OK /\ differs st' r q | _ => False end.
Proof.
  pose (i := replicate 19 9). pose (f := [6; 1; 0; 3; 5; 1; 5; 6; 3; 1; 1; 0; 3; 5; 1; 5; 6; 2; 5] : list Z).
  exists (put (H 25) 0 (put (H 26) 1 st2)), (<[H 25 := 0]> (<[H 26 := 1]> ∅)), (World ∅ ∅ (Globals 2 32)), rC, (map digit_char i ++ 46 :: map digit_char f), (frac (1 * horner 10 (i ++ f)) (10 ^ 19)), (orc_but 62).
  split; [repeat (apply Rep_put; [|reflexivity|by vm_compute]); apply Rep_empty2|]. split; [strs|]. split; [split; by eexists|].
  split. { exists [], [], (map digit_char i), i, (map digit_char f), f. split; [done|]. split; [done|]. split; [by left|]. split; [unfold i; cbn; by repeat constructor|]. split; [unfold f; cbn; by repeat constructor|]. split; [done|]. split; [|done]. intros c Hc. vm_compute in Hc. injection Hc as <-. split; [unfold is_space; lia|done]. }
  vm_compute. split; [reflexivity|discriminate].
Qed.
Print Assumptions C61_read_decimal_refuted.
(** ** A rational on the heap *)
(** NULL and nothing is changed, or a fresh zero. *)
Theorem C61_alloc st V W :
  Rep st V W ->
  withstands mp_rat_alloc st (fun x st' => match x with
    | Some r => fst r <> snd r /\ V !! fst r = None /\ V !! snd r = None /\ blanks W !! fst r = None /\ blanks W !! snd r = None /\ heap_made r /\ Rep st' (set_rat r 0 V) W
    | None => Rep st' V W
    end).
Proof.
  intros H. eapply by_soft; [exact H|]. intros HV. eapply sV_rat_alloc; [exact HV|intros st2 H2; by apply RV_done|].
  intros r st2 N V1 V2 B1 B2 M H2. split; [done|]. split; [done|]. split; [done|]. split; [done|]. split; [done|]. split; [done|by apply RV_done].
Qed.
Example C61_alloc_ex : match run false orc_yes mp_rat_alloc 0 exR with Done (Some r) st' _ => value_of st' (fst r) = Some 0 /\ value_of st' (snd r) = Some 1 | _ => False end /\
  match run false (orc_but 0) mp_rat_alloc 0 exR with Done None st' _ => size (objs st') = size (objs exR) | _ => False end.
Proof. by vm_compute. Qed.
Print Assumptions C61_alloc.
