(** The [NDEBUG] build when requests for memory are refused: the state that a
    refusal leaves behind. *)
From Coq Require Import ZArith List Lia.
From stdpp Require Import gmap list.
From Verif Require Import Mem Prog Kern Imath Exec Wp MemLem Dig Rel RelWp RelZ Life Basic Basic2 Mult Shift Knuth Divi Powr Spec SpecHist Public Refuse Gcd.
Local Open Scope Z_scope.
Local Open Scope prog_scope.

(** The program without its [assert(out != NULL)]. *)
Fixpoint soft {A} (p : prog A) : prog A :=
  match p with
  | Ret a => Ret a
  | Peek p k => Peek p (fun c => soft (k c))
  | Poke p c k => Poke p c (soft k)
  | GetO o k => GetO o (fun z => soft (k z))
  | SetO o z k => SetO o z (soft k)
  | NewO k => NewO (fun o => soft (k o))
  | DelO o k => DelO o (soft k)
  | MallocO k => MallocO (fun o => soft (k o))
  | FreeO o k => FreeO o (soft k)
  | Malloc n k => Malloc n (fun p => soft (k p))
  | Realloc p n k => Realloc p n (fun p => soft (k p))
  | Free p k => Free p (soft k)
  | NewE n k => NewE n (fun p => soft (k p))
  | DelE p k => DelE p (soft k)
  | GetG k => GetG (fun g => soft (k g))
  | SetG g k => SetG g (soft k)
  | Assert (ANull _) _ k => soft k
  | Assert ALogic b k => Assert ALogic b (soft k)
  | Undef => Undef
  | NoFuel => NoFuel
  end.
Local Transparent wp bind Load Prog.Store getO setO getG assert.
Local Arguments bind {A B} !p f : simpl nomatch.
Local Arguments wp {A} !p Q st.

Lemma soft_run {A} (p : prog A) orc t st : run false orc (soft p) t st = run false orc p t st.
Proof. revert t st. induction p; intros t st; cbn [soft run]; try done; try (destruct a; cbn [run]); repeat case_match; eauto. Qed.
Lemma soft_no_oom {A} (p : prog A) orc t st n : run true orc (soft p) t st <> OOM n.
Proof. revert t st. induction p; intros t st; cbn [soft run]; try done; try (destruct a; cbn [run]); repeat case_match; try done; eauto. Qed.
Lemma soft_not_null {A B} n (p : prog A) (f : A -> prog B) : at_null n (bind (soft p) (fun a => soft (f a))) -> False.
Proof.
  induction p; cbn [soft bind at_null]; try done; try (destruct a; cbn [bind at_null]; try done).
  induction (f a); cbn [soft at_null]; try done. destruct a0; cbn [at_null]; done.
Qed.
Lemma soft_bind {A B} (p : prog A) (f : A -> prog B) Q st : wp (bind (soft p) (fun a => soft (f a))) Q st -> wp (soft (bind p f)) Q st.
Proof.
  revert st. induction p; intros st0; cbn [soft bind wp]; try done; try (destruct a; cbn [bind wp soft]); try (by eauto); repeat case_match; try done; try naive_solver.
  all: intros [[H1|H1] H2]; [by apply soft_not_null in H1|]; split; [right|intros]; eauto.
Qed.

(** Every request is followed at once by the assertion. *)
Fixpoint wf {A} (p : prog A) : Prop :=
  match p with
  | Ret _ | Undef | NoFuel => True
  | Peek _ k => forall c, wf (k c)
  | Poke _ _ k | SetO _ _ k | DelO _ k | FreeO _ k | Free _ k | DelE _ k | SetG _ k | Assert _ _ k => wf k
  | GetO _ k => forall z, wf (k z)
  | NewO k => forall o, wf (k o)
  | MallocO k => forall o, wf (k o)
  | Malloc n k | Realloc _ n k => at_null n (k None) /\ forall p, wf (k p)
  | NewE _ k => forall p, wf (k p)
  | GetG k => forall g, wf (k g)
  end.
Lemma wf_bind {A B} (p : prog A) (f : A -> prog B) : wf p -> (forall a, wf (f a)) -> wf (bind p f).
Proof. intros Hp Hf. induction p; cbn [wf bind] in *; eauto; destruct Hp as [H1 H2]; (split; [by apply at_null_bind|by eauto]). Qed.
Lemma quiet_wf {A} (p : prog A) : quiet p -> wf p.
Proof. induction p; cbn [quiet wf]; try done; try (destruct a); eauto; done. Qed.
Lemma wp_bind_inv {A B} (p : prog A) (f : A -> prog B) Q st : wf p -> wp (bind p f) Q st -> wp p (fun a st' => wp (f a) Q st') st.
Proof.
  revert st. induction p; intros st0; cbn [wf bind wp]; try done; try (by eauto); repeat case_match; try done; try naive_solver.
Qed.
Lemma quiet_soft {A} (p : prog A) Q st : quiet p -> wp p Q st -> wp (soft p) Q st.
Proof.
  revert st. induction p; intros st0; cbn [quiet soft wp]; try done; try (destruct a; cbn [wp]; try done); repeat case_match; try done; naive_solver.
Qed.
Fixpoint reader {A} (p : prog A) : Prop :=
  match p with
  | Ret _ | Undef | NoFuel => True
  | Peek _ k => forall c, reader (k c)
  | GetO _ k => forall z, reader (k z)
  | GetG k => forall g, reader (k g)
  | Assert ALogic _ k => reader k
  | _ => False
  end.
Lemma reader_bind {A B} (p : prog A) (f : A -> prog B) : reader p -> (forall a, reader (f a)) -> reader (bind p f).
Proof. intros Hp Hf. induction p; cbn [reader bind] in *; try (destruct a); eauto. Qed.
Lemma reader_step {A B} (p : prog A) (f : A -> prog B) Q st : reader p -> wp (bind p f) Q st ->
  exists a, wp (f a) Q st /\ (wp (soft (f a)) Q st -> wp (soft (bind p f)) Q st).
Proof.
  induction p; cbn [reader bind wp soft]; try done; try (destruct a; cbn [wp]; try done); repeat case_match; try done; try naive_solver.
Qed.

(** [softens p E]: what [p] ensures in the asserting build it ensures in the
    other one, unless a request is refused; then it ends with [E]. *)
Definition softens {A} (p : prog A) (E : state -> A -> state -> Prop) : Prop :=
  forall st Q, wp p Q st -> (forall a st', E st a st' -> Q a st') -> wp (soft p) Q st.
Lemma sf_mono {A} (p : prog A) (E E' : state -> A -> state -> Prop) : softens p E -> (forall st a st', E st a st' -> E' st a st') -> softens p E'.
Proof. intros H HE st Q HW HQ. apply H; [done|]. eauto. Qed.
Lemma sf_quiet {A} (p : prog A) E : quiet p -> softens p E.
Proof. intros Hq st Q HW _. by apply quiet_soft. Qed.
Lemma sf_read {A B} (p : prog A) (f : A -> prog B) E : reader p -> (forall a, softens (f a) E) -> softens (bind p f) E.
Proof. intros Hr Hf st Q HW HQ. destruct (reader_step p f Q st Hr HW) as (a & Ha & Hs). apply Hs. by apply Hf. Qed.
(** A call that leaves the state alone when it fails, and then nothing that can fail. *)
Lemma sf_bind_quiet {A B} (p : prog A) (f : A -> prog B) (E : state -> A -> state -> Prop) (E' : state -> B -> state -> Prop) :
  wf p -> softens p E -> (forall a, quiet (f a) \/ softens (f a) (fun _ _ _ => False)) ->
  (forall st (Q : B -> state -> Prop) a st', E st a st' -> (forall b st'', E' st b st'' -> Q b st'') -> wp (soft (f a)) Q st') -> softens (bind p f) E'.
Proof.
  intros Hw Hp Hf HE st Q HW HQ. apply soft_bind, wp_bind. apply wp_bind_inv in HW; [|done]. apply Hp.
  - eapply wp_mono; [exact HW|]. intros a st' Ha. destruct (Hf a) as [Hq|Hs]; [by apply quiet_soft|by apply Hs].
  - intros a st' Ha. eapply HE; [exact Ha|done].
Qed.
Lemma sf_bind_any {A B} (p : prog A) (f : A -> prog B) (E : state -> A -> state -> Prop) (G : B -> state -> Prop) :
  wf p -> softens p E -> (forall a, softens (f a) (fun _ => G)) ->
  (forall st (Q : B -> state -> Prop) a st', E st a st' -> (forall b st'', G b st'' -> Q b st'') -> wp (soft (f a)) Q st') -> softens (bind p f) (fun _ => G).
Proof.
  intros Hw Hp Hf HE st Q HW HQ. apply soft_bind, wp_bind. apply wp_bind_inv in HW; [|done]. apply Hp.
  - eapply wp_mono; [exact HW|]. intros a st' Ha. by apply Hf.
  - intros a st' Ha. eapply HE; [exact Ha|done].
Qed.
Lemma sf_after_quiet {A B} (p : prog A) (f : A -> prog B) (G : B -> state -> Prop) :
  quiet p -> (forall a, softens (f a) (fun _ => G)) -> softens (bind p f) (fun _ => G).
Proof.
  intros Hq Hf. eapply (sf_bind_any p f (fun _ _ _ => False)); [by apply quiet_wf|by apply sf_quiet|done|done].
Qed.
Ltac rd := lazymatch goal with
  | |- forall _, _ => intro; rd
  | |- reader (bind _ _) => apply reader_bind; rd
  | |- reader (if ?b then _ else _) => destruct b; rd
  | |- reader (match ?x with _ => _ end) => destruct x; rd
  | |- reader (Ret _) => exact I
  | |- reader (GetO _ _) => cbn [reader]; rd
  | |- reader (Peek _ _) => cbn [reader]; rd
  | |- True => exact I
  | |- reader getG => exact (fun _ => I)
  | |- reader (getO _) => exact (fun _ => I)
  | |- reader (get_used _) => unfold get_used; rd
  | |- reader (get_alloc _) => unfold get_alloc; rd
  | |- reader (get_sign _) => unfold get_sign; rd
  | |- reader (get_digits _) => unfold get_digits; rd
  | |- reader (CMPZ _) => unfold CMPZ; rd
  | |- reader (Load _) => unfold Load; rd
  | |- reader Undef => exact I
  | |- reader NoFuel => exact I
  | |- _ => idtac
  end.
Ltac srd := apply sf_read; [rd|intros ?].

Lemma wf_pad z n : wf (s_pad z n).
Proof.
  unfold s_pad. apply wf_bind; [by apply quiet_wf; qt|]. intros za. destruct (_ <? _); [|done]. cbv zeta. apply wf_bind; [by apply quiet_wf; qt|]. intros d. apply wf_bind.
  - destruct (ptr_eqb _ _).
    + apply wf_bind; [unfold s_alloc; cbn; by split|]. intros [t|]; [|done]. by apply quiet_wf; qt.
    + unfold s_realloc. cbn. by split.
  - intros [t|]; [by apply quiet_wf; qt|done].
Qed.
Lemma sf_pad z n : softens (s_pad z n) (fun st a st' => a = false /\ st' = st).
Proof.
  unfold s_pad. srd. destruct (_ <? _); [|apply sf_quiet; qt]. cbv zeta. srd. destruct (ptr_eqb _ _).
  - intros st Q HW HQ. unfold s_alloc in *. cbn [bind soft wp] in *. destruct HW as [_ HW]. split; [right; by apply HQ|].
    intros Hn ib Hib. specialize (HW Hn ib Hib). cbv zeta in *. destruct HW as [_ HW]. revert HW. apply quiet_soft.
    apply quiet_bind; [qt|intros [t|]; qt].
  - intros st Q HW HQ. unfold s_realloc in *. cbn [bind soft wp] in *. destruct (live_heap _ _); [|done]. destruct HW as [_ HW]. split; [right; by apply HQ|].
    intros Hn ib Hib. specialize (HW Hn ib Hib). cbv zeta in *. destruct HW as [_ HW]. revert HW. apply quiet_soft. qt.
Qed.
Definition untouched (st : state) (r : Z) (st' : state) : Prop := r = MP_MEMORY /\ st' = st.
Lemma wf_copy a c : wf (mp_int_copy a c).
Proof.
  unfold mp_int_copy. case_bool_decide; [done|]. apply wf_bind; [by apply quiet_wf; qt|]. intros ua. apply wf_bind; [apply wf_pad|]. intros [|]; apply quiet_wf; cbn [negb]; qt.
Qed.
Lemma sf_copy a c : softens (mp_int_copy a c) untouched.
Proof.
  unfold mp_int_copy. case_bool_decide; [by apply sf_quiet|]. srd. eapply sf_bind_quiet; [apply wf_pad|apply sf_pad|intros [|]; left; cbn [negb]; qt|].
  intros st Q ok st' [-> ->] HQ. cbn [negb soft]. by apply HQ.
Qed.
Lemma sf_abs a c : softens (mp_int_abs a c) untouched.
Proof.
  unfold mp_int_abs. eapply sf_bind_quiet; [apply wf_copy|apply sf_copy|intros r; left; qt|]. intros st Q r st' [-> ->] HQ. change (wp (soft (Ret MP_MEMORY)) Q st). by apply HQ.
Qed.
Lemma sf_neg a c : softens (mp_int_neg a c) untouched.
Proof.
  unfold mp_int_neg. eapply sf_bind_quiet; [apply wf_copy|apply sf_copy|intros r; left; qt|]. intros st Q r st' [-> ->] HQ. change (wp (soft (Ret MP_MEMORY)) Q st). by apply HQ.
Qed.
Lemma sf_qmul z p : softens (s_qmul z p) (fun st a st' => a = false /\ st' = st).
Proof.
  unfold s_qmul. destruct (_ =? _); [by apply sf_quiet|]. srd. cbv zeta. srd. eapply sf_bind_quiet; [apply wf_pad|apply sf_pad|intros [|]; left; cbn [negb]; qt|].
  intros st Q ok st' [-> ->] HQ. cbn [negb soft]. by apply HQ.
Qed.
Lemma wf_qmul z p : wf (s_qmul z p).
Proof.
  unfold s_qmul. destruct (_ =? _); [done|]. apply wf_bind; [apply quiet_wf; qt|]. intros uz. cbv zeta. apply wf_bind; [apply quiet_wf; qt|]. intros x. apply wf_bind; [apply wf_pad|]. intros [|]; apply quiet_wf; cbn [negb]; qt.
Qed.
Lemma sf_add_mags a b c : softens (add_mags a b c) (fun _ r _ => r = MP_MEMORY).
Proof.
  unfold add_mags. srd. srd. cbv zeta. eapply (sf_bind_any _ _ _ (fun r _ => r = MP_MEMORY)); [apply wf_pad|apply sf_pad| |intros st Q ok st' [-> ->] HQ; by apply HQ].
  intros [|]; cbn [negb]; [|by apply sf_quiet]. do 3 srd. apply (sf_after_quiet _ _ (fun r _ => r = MP_MEMORY)); [qt|]. intros carry. destruct (_ =? _); [apply sf_quiet; qt|].
  eapply (sf_bind_any _ _ _ (fun r _ => r = MP_MEMORY)); [apply wf_pad|apply sf_pad| |intros st Q ok st' [-> ->] HQ; by apply HQ].
  intros [|]; apply sf_quiet; cbn [negb]; qt.
Qed.
Lemma sf_get {B} o (g : mpz -> Z) (f : Z -> prog B) Q st : wp (bind (bind (getO o) (fun m => Ret (g m))) f) Q st ->
  exists z, objs st !! o = Some z /\ wp (f (g z)) Q st /\ (wp (soft (f (g z))) Q st -> wp (soft (bind (bind (getO o) (fun m => Ret (g m))) f)) Q st).
Proof. unfold getO. cbn [bind wp soft]. destruct (objs st !! o) as [z|]; [|done]. intros H. exists z. by split. Qed.
(** Subtraction of numbers of the same sign. *)
Lemma sf_sub a b c : softens (mp_int_sub a b c) (fun st r st' => r = MP_MEMORY /\ forall za zb, objs st !! a = Some za -> objs st !! b = Some zb -> sign za = sign zb -> st' = st).
Proof.
  unfold mp_int_sub. intros st Q HW HQ.
  destruct (sf_get _ used _ _ _ HW) as (za & Ha & HW1 & G). apply G. clear HW G.
  destruct (sf_get _ used _ _ _ HW1) as (zb & Hb & HW2 & G). apply G. clear HW1 G.
  destruct (sf_get _ sign _ _ _ HW2) as (za' & Ha' & HW3 & G). apply G. clear HW2 G.
  destruct (sf_get _ sign _ _ _ HW3) as (zb' & Hb' & HW & G). apply G. clear HW3 G. simplify_eq.
  destruct (Z.eqb_spec (sign za) (sign zb)) as [E|E]; cbn [negb] in *.
  - assert (forall b st', untouched st b st' -> Q b st') as HQ'. { intros r st' [-> ->]. apply HQ. split; [done|]. by intros. }
    revert HW HQ'. clear HQ Ha Hb E. revert st Q.
    match goal with |- forall st Q, wp ?p Q st -> _ -> _ => change (softens p untouched) end.
    eapply sf_bind_quiet; [apply wf_pad|apply sf_pad|intros [|]; left; cbn [negb]; qt|].
    intros st Q ok st' [-> ->] HQ. cbn [negb soft]. by apply HQ.
  - apply sf_add_mags; [done|]. intros r st' ->. apply HQ. split; [done|]. intros. congruence.
Qed.

(** ** Rules for stores of integers *)
Notation sw p Q st := (wp (soft p) Q st).
Lemma s_ret {A} (a : A) (Q : A -> state -> Prop) st : Q a st -> sw (Ret a) Q st. Proof. done. Qed.
Lemma s_req (e k : prog Z) (Q : Z -> state -> Prop) st : sw e (fun r st' => (r = MP_OK /\ sw k Q st') \/ (r <> MP_OK /\ Q r st')) st -> sw (require e k) Q st.
Proof.
  intros H. unfold require. apply soft_bind, wp_bind. eapply wp_mono; [exact H|]. intros r st' [[-> H']|[N H']]; [done|]. cbv beta. by rewrite (proj2 (Z.eqb_neq r MP_OK) N).
Qed.
Lemma s_reqL {S} (e : prog Z) (k : prog (S + Z)) (Q : S + Z -> state -> Prop) st : sw e (fun r st' => (r = MP_OK /\ sw k Q st') \/ (r <> MP_OK /\ Q (inr r) st')) st -> sw (requireL e k) Q st.
Proof.
  intros H. unfold requireL. apply soft_bind, wp_bind. eapply wp_mono; [exact H|]. intros r st' [[-> H']|[N H']]; [done|]. cbv beta. by rewrite (proj2 (Z.eqb_neq r MP_OK) N).
Qed.
Lemma s_loopc {S R} (k : nat) (body : S -> prog (S + R)) (I : Z -> S -> state -> Prop) (Q : R -> state -> Prop) :
  (forall n s st, I n s st ->
    sw (body s) (fun r st' => match r with inl s' => exists n', 0 <= n' < n /\ I n' s' st' | inr x => Q x st' end) st) ->
  forall n s st, I n s st ->
  sw (loopc k body s) (fun r st' => match r with inl s' => exists n', 0 <= n' /\ n' + 2 ^ Z.of_nat k <= n /\ I n' s' st' | inr x => Q x st' end) st.
Proof.
  intros Hb. induction k as [|k IH]; intros n s st Hs.
  - simpl loopc. eapply wp_mono; [apply (Hb n), Hs|]. intros [s'|x] st'; [|done]. intros (n' & Hn & HI). exists n'. change (2 ^ Z.of_nat 0) with 1. split; [lia|]. split; [lia|done].
  - simpl loopc. apply soft_bind, wp_bind. eapply wp_mono; [eapply IH, Hs|].
    intros [s'|x] st'; [|by intros; apply wp_ret]. intros (n' & H1 & H2 & HI).
    eapply wp_mono; [eapply IH, HI|]. intros [s''|x] st''; [|done]. intros (n'' & H3 & H4 & HI'). exists n''.
    rewrite Nat2Z.inj_succ, Z.pow_succ_r by lia. split; [lia|]. split; [lia|done].
Qed.
Lemma s_loop {S R} (k : nat) (body : S -> prog (S + R)) (I : Z -> S -> state -> Prop) (Q : R -> state -> Prop) n s st :
  I n s st -> n < 2 ^ Z.of_nat k ->
  (forall n s st, I n s st ->
    sw (body s) (fun r st' => match r with inl s' => exists n', 0 <= n' < n /\ I n' s' st' | inr x => Q x st' end) st) ->
  sw (loop k body s) Q st.
Proof.
  intros Hs Hm Hb. unfold loop. apply soft_bind, wp_bind. eapply wp_mono; [eapply (s_loopc k body I Q); eauto|].
  intros [s'|x] st'; [|by intros; apply wp_ret]. intros (n' & H0 & H1 & HI). lia.
Qed.
Lemma s_quiet {A B} (p : prog A) (f : A -> prog B) Q st : quiet p -> wp p (fun a st' => sw (f a) Q st') st -> sw (bind p f) Q st.
Proof. intros Hq H. apply soft_bind, wp_bind. by apply quiet_soft. Qed.

Lemma sV_with_temp st V X (body : oid -> prog Z) (Q : Z -> state -> Prop) :
  RV st V X ->
  (forall t st1, V !! t = None -> RV st1 (<[t := 0]> V) X ->
     sw (body t) (fun r st2 => exists V2 v, V2 !! t = None /\ RV st2 (<[t := v]> V2) X /\ (forall st3, RV st3 V2 X -> Q r st3)) st1) ->
  sw (with_temp body) Q st.
Proof.
  intros HV H. unfold with_temp. cbn [soft]. apply wp_NewO. intros z iz Fz. destruct HV as (ζ & HZ & Hv).
  destruct (RZ_newO st ζ X false z _ HZ Fz) as (H1 & H2 & H3). set (t := (false, iz)) in *.
  apply s_quiet; [apply q_init|]. eapply wpZ_init; [exact H3|simpl; apply lookup_insert|]. intros st1 _ HZ1. simpl in HZ1.
  rewrite delete_insert in HZ1 by done. unfold with_craw in HZ1. simpl in HZ1.
  assert (RZ st1 (<[t:=zzero]> ζ) X) as HZ1' by (destruct X; exact HZ1).
  apply soft_bind, wp_bind. eapply wp_mono.
  { apply H; [by eapply relv_none'|]. eexists. split; [exact HZ1'|]. by apply relv_ins. }
  cbv beta. intros r st2 (V2 & v & N & (ζ2 & HZ2 & Hv2) & HQ). destruct (relv_some ζ2 (<[t := v]> V2) t v Hv2) as (zt & Ht & _ & _ & O); [apply lookup_insert|].
  apply s_quiet; [apply q_clear|]. eapply wpZ_clear; [done..|]. intros st3 z3 _ HZ3. cbn [soft].
  eapply wp_DelO; [eapply RZ_raw; [exact HZ3|simpl; apply lookup_insert]|done|].
  apply wp_ret. apply HQ. eapply RZ_delO in HZ3; [|simpl; apply lookup_insert].
  unfold with_craw in HZ3. simpl in HZ3. rewrite delete_insert in HZ3 by (by eapply RZ_not_raw).
  eexists. split; [destruct X; exact HZ3|]. apply (relv_del _ _ t) in Hv2. by rewrite delete_insert in Hv2.
Qed.
Section ops.
Context (st : state) (V : gmap oid Z) (X : ctx).
Implicit Types Q : Z -> state -> Prop.
Lemma sV_copy a c va vc Q : RV st V X -> V !! a = Some va -> V !! c = Some vc ->
  Q MP_MEMORY st -> (forall st', RV st' (<[c := va]> V) X -> Q MP_OK st') -> sw (mp_int_copy a c) Q st.
Proof. intros HV Ha Hc HF HQ. apply sf_copy; [by eapply wpV_copy|]. by intros r st' [-> ->]. Qed.
Lemma sV_abs a c va vc Q : RV st V X -> V !! a = Some va -> V !! c = Some vc ->
  Q MP_MEMORY st -> (forall st', RV st' (<[c := Z.abs va]> V) X -> Q MP_OK st') -> sw (mp_int_abs a c) Q st.
Proof. intros HV Ha Hc HF HQ. apply sf_abs; [by eapply wpV_abs|]. by intros r st' [-> ->]. Qed.
Lemma sV_neg a c va vc Q : RV st V X -> V !! a = Some va -> V !! c = Some vc ->
  Q MP_MEMORY st -> (forall st', RV st' (<[c := - va]> V) X -> Q MP_OK st') -> sw (mp_int_neg a c) Q st.
Proof. intros HV Ha Hc HF HQ. apply sf_neg; [by eapply wpV_neg|]. by intros r st' [-> ->]. Qed.
Lemma sV_qmul a va p (Q : bool -> state -> Prop) : RV st V X -> V !! a = Some va -> 0 <= p < RADIX ->
  Q false st -> (forall st', RV st' (<[a := va * 2 ^ p]> V) X -> Q true st') -> sw (s_qmul a p) Q st.
Proof. intros HV Ha Hp HF HQ. apply sf_qmul; [by eapply wpV_qmul|]. by intros r st' [-> ->]. Qed.
Lemma RV_sign a va : RV st V X -> V !! a = Some va -> exists z, objs st !! a = Some z /\ sign z = if va <? 0 then 1 else 0.
Proof.
  intros HV Ha. pose proof (wpV_sign st V X a va (fun s st' => s = (if va <? 0 then 1 else 0)) HV Ha eq_refl) as HW. unfold get_sign, getO in HW. cbn [bind wp] in HW.
  destruct (objs st !! a) as [z|]; [|done]. by exists z.
Qed.
Lemma sV_sub a b c va vb vc Q : RV st V X -> V !! a = Some va -> V !! b = Some vb -> V !! c = Some vc -> (va <? 0) = (vb <? 0) ->
  Q MP_MEMORY st -> (forall st', RV st' (<[c := va - vb]> V) X -> Q MP_OK st') -> sw (mp_int_sub a b c) Q st.
Proof.
  intros HV Ha Hb Hc HS HF HQ. apply sf_sub; [by eapply wpV_sub|]. intros r st' [-> H].
  destruct (RV_sign _ _ HV Ha) as (za & Hza & Sa). destruct (RV_sign _ _ HV Hb) as (zb & Hzb & Sb).
  rewrite (H za zb); [done..|]. by rewrite Sa, Sb, HS.
Qed.
End ops.

(** ** Greatest common divisor *)
Lemma q_tz n : forall d k, quiet (tz_loop n d k). Proof. induction n; cbn [tz_loop]; qt. Qed.
#[export] Hint Resolve q_tz : quiet.
Lemma q_dp2k_loop n : forall d k, quiet (dp2k_loop n d k). Proof. induction n; cbn [dp2k_loop]; qt. Qed.
#[export] Hint Resolve q_dp2k_loop : quiet.
Lemma q_dp2k z : quiet (s_dp2k z). Proof. unfold s_dp2k. qt. Qed.
Lemma q_is_odd z : quiet (mp_int_is_odd z). Proof. unfold mp_int_is_odd. qt. Qed.
#[export] Hint Resolve q_dp2k q_is_odd : quiet.
Ltac sqt := apply s_quiet; [qt|].
Ltac okr := left; split; [done|].
Ltac badr := right; split; [done|].
Section gcd.
Context (V : gmap oid Z) (X : ctx) (t0 t1 t2 : oid).
Hypotheses (N01 : t0 <> t1) (N02 : t0 <> t2) (N12 : t1 <> t2).
Local Notation G u v t := (<[t2 := t]> (<[t1 := v]> (<[t0 := u]> V))).
Lemma sV_gcd_body g n st :
  gcd_inv V X t0 t1 t2 g n st ->
  sw (gcd_body t0 t1 t2 tt) (fun r st' => match r with inl s' => exists n', 0 <= n' < n /\ gcd_inv V X t0 t1 t2 g n' st'
    | inr x => (x = MP_OK /\ exists v, RV st' (G g v 0) X) \/ (x = MP_MEMORY /\ exists u v t, RV st' (G u v t) X) end) st.
Proof.
  intros (u & v & t & HV & Hu & Hv & Ht & Hpos & Hneg & Hn & Hm & Hm2). unfold gcd_body.
  sqt. eapply wpV_dp2k; [exact HV|lk|done|]. intros j e Hj He Et. rewrite u32_id by mx.
  sqt. eapply wpV_qdiv; [exact HV|lk|lia|]. intros st1 HV1.
  assert (0 < 2 ^ j) as P by (apply Z.pow_pos_nonneg; lia).
  assert (Z.quot t (2 ^ j) = Z.sgn t * e) as Eq.
  { transitivity (Z.quot (2 ^ j * (Z.sgn t * e)) (2 ^ j)); [|apply quot_pow_exact; lia]. f_equal. rewrite Z.mul_assoc, (Z.mul_comm (2 ^ j)), <- Z.mul_assoc, <- Et. lia. }
  rewrite Eq in HV1. assert (0 < e <= Z.abs t) as He0 by nia.
  sqt. eapply wpV_CMPZ; [exact HV1|lk|].
  apply s_reqL. destruct (Z.lt_trichotomy t 0) as [T|[T|T]]; [|lia|].
  - destruct (Hneg T) as (Ou & Hg & Lv). replace (Z.sgn t) with (-1) in * by lia. replace (Z.sgn (-1 * e)) with (-1) by lia. change (-1 >? 0) with false. cbv iota.
    eapply sV_neg; [exact HV1|lk|lk| |]. { badr. right. split; [done|]. eexists u, v, _. vn HV1. } intros st2 HV2. okr.
    apply s_reqL. eapply sV_sub; [exact HV2|lk|lk|lk| | |].
    { rewrite (proj2 (Z.ltb_ge u 0)) by lia. symmetry. apply Z.ltb_ge. lia. }
    { badr. right. split; [done|]. eexists u, _, _. vn HV2. } intros st3 HV3. okr.
    sqt. eapply wpV_CMPZ; [exact HV3|lk|]. replace (- (-1 * e)) with e in HV3 |- * by lia. replace (- t) with (Z.abs t) in * by lia.
    assert (Z.gcd u e = g) as Hg'. { rewrite Et, Z.gcd_comm, gcd_odd_mul in Hg by (done || lia). by rewrite Z.gcd_comm. }
    destruct (Z.eqb_spec (Z.sgn (u - e)) 0) as [E|E]; apply s_ret.
    + left. split; [done|]. exists e. assert (u = e) as Eu by lia. rewrite Eu in *. rewrite Z.gcd_diag, Z.abs_eq in Hg' by lia. rewrite <- Hg'.
      replace (e - e) with 0 in HV3 by lia. vn HV3.
    + exists (u + e). split; [lia|]. exists u, e, (u - e). split; [vn HV3|]. split_and!; try lia.
      * intros Hp. split_and!; [done| |lia]. by rewrite Z.gcd_comm, Z.gcd_sub_diag_r, Z.gcd_comm.
      * intros Hp. split_and!; [done| |lia]. replace (- (u - e)) with (e - u) by lia. by rewrite Z.gcd_sub_diag_r.
  - destruct (Hpos T) as (Ou & Hg & Lv). replace (Z.sgn t) with 1 in * by lia. replace (Z.sgn (1 * e)) with 1 by lia. change (1 >? 0) with true. cbv iota.
    eapply sV_copy; [exact HV1|lk|lk| |]. { badr. right. split; [done|]. eexists u, v, _. vn HV1. } intros st2 HV2. okr.
    apply s_reqL. eapply sV_sub; [exact HV2|lk|lk|lk| | |].
    { rewrite (proj2 (Z.ltb_ge (1 * e) 0)) by lia. symmetry. apply Z.ltb_ge. lia. }
    { badr. right. split; [done|]. eexists _, v, _. vn HV2. } intros st3 HV3. okr.
    sqt. eapply wpV_CMPZ; [exact HV3|lk|]. rewrite Z.mul_1_l in *.
    assert (Z.gcd e v = g) as Hg'. { rewrite Z.abs_eq in Et by lia. by rewrite Et, gcd_odd_mul in Hg by (done || lia). }
    destruct (Z.eqb_spec (Z.sgn (e - v)) 0) as [E|E]; apply s_ret.
    + left. split; [done|]. exists e. assert (v = e) as Eu by lia. rewrite Eu in *. rewrite Z.gcd_diag, Z.abs_eq in Hg' by lia. rewrite <- Hg'.
      replace (e - e) with 0 in HV3 by lia. vn HV3.
    + exists (e + v). split; [lia|]. exists e, v, (e - v). split; [vn HV3|]. split_and!; try lia.
      * intros Hp. split_and!; [done| |lia]. by rewrite Z.gcd_comm, Z.gcd_sub_diag_r, Z.gcd_comm.
      * intros Hp. split_and!; [done| |lia]. replace (- (e - v)) with (v - e) by lia. by rewrite Z.gcd_sub_diag_r.
Qed.
End gcd.
Lemma sV_gcd (st : state) (V : gmap oid Z) (X : ctx) (a b c : oid) (va vb vc : Z) (Q : Z -> state -> Prop) : RV st V X -> V !! a = Some va -> V !! b = Some vb -> V !! c = Some vc ->
  (va = 0 -> vb = 0 -> Q MP_UNDEF st) ->
  (forall v st', RV st' (<[c := v]> V) X -> Q MP_MEMORY st') ->
  (va <> 0 \/ vb <> 0 -> forall st', RV st' (<[c := Z.gcd va vb]> V) X -> Q MP_OK st') ->
  sw (mp_int_gcd a b c) Q st.
Proof.
  intros HV Ha Hb Hc HU HF HQ. assert (Q MP_MEMORY st) as HF0. { apply (HF vc). by rewrite insert_id. } unfold mp_int_gcd. sqt. eapply wpV_CMPZ; [exact HV|exact Ha|]. sqt. eapply wpV_CMPZ; [exact HV|exact Hb|].
  destruct (Z.eqb_spec (Z.sgn va) 0) as [Ea|Ea]; cbn [andb].
  { destruct (Z.eqb_spec (Z.sgn vb) 0) as [Eb|Eb]; cbn [andb]; [apply s_ret; apply HU; lia|].
    eapply sV_abs; [exact HV|exact Hb|exact Hc|done|]. intros st' HV'. apply HQ; [lia|]. assert (va = 0) as -> by lia. done. }
  destruct (Z.eqb_spec (Z.sgn vb) 0) as [Eb|Eb].
  { eapply sV_abs; [exact HV|exact Ha|exact Hc|done|]. intros st' HV'. apply HQ; [lia|]. assert (vb = 0) as -> by lia. by rewrite Z.gcd_0_r. }
  sqt. eapply wpV_used; [exact HV|exact Ha|]. intros na Na1 Na2 _ Na. sqt. eapply wpV_used; [exact HV|exact Hb|]. intros nb Nb1 Nb2 _ Nb.
  eapply sV_with_temp; [exact HV|]. intros t0 st1 F0 HV1. eapply sV_with_temp; [exact HV1|]. intros t1 st2 F1 HV2.
  eapply sV_with_temp; [exact HV2|]. intros t2 st3 F2 HV3. fr F1. fr F2.
  assert (forall st' r u v t w, RV st' (<[t2 := t]> (<[t1 := v]> (<[t0 := u]> (<[c := w]> V)))) X -> (forall st3, RV st3 (<[c := w]> V) X -> Q r st3) ->
       exists V2 v, V2 !! t2 = None /\ RV st' (<[t2 := v]> V2) X /\ (forall st3, RV st3 V2 X ->
        exists V2 v, V2 !! t1 = None /\ RV st3 (<[t1 := v]> V2) X /\ (forall st3, RV st3 V2 X ->
        exists V2 v, V2 !! t0 = None /\ RV st3 (<[t0 := v]> V2) X /\ (forall st3, RV st3 V2 X -> Q r st3)))) as Out.
  { intros st' r u v t w HV' HQ'. exists (<[t1 := v]> (<[t0 := u]> (<[c := w]> V))), t. split; [lk|]. split; [done|]. intros st14 HV14.
    eexists _, v. split; [|split; [exact HV14|]]; [lk|]. intros st15 HV15.
    eexists _, u. split; [|split; [exact HV15|]]; [lk|]. done. }
  assert (V = <[c := vc]> V) as EV by (symmetry; by apply insert_id).
  apply s_req. eapply sV_copy; [exact HV3|lk|lk| |]. { badr. eapply (Out _ _ 0 0 0 vc); [rewrite <- EV; vn HV3|apply HF]. } intros st4 HV4. okr.
  apply s_req. eapply sV_copy; [exact HV4|lk|lk| |]. { badr. eapply (Out _ _ va 0 0 vc); [rewrite <- EV; vn HV4|apply HF]. } intros st5 HV5. okr.
  sqt. eapply wpV_set_pos; [exact HV5|lk|]. intros st6 HV6. sqt. eapply wpV_set_pos; [exact HV6|lk|]. intros st7 HV7.
  sqt. eapply wpV_dp2k; [exact HV7|lk|lia|]. intros j1 e1 Hj1 O1 E1. sqt. eapply wpV_dp2k; [exact HV7|lk|lia|]. intros j2 e2 Hj2 O2 E2.
  rewrite Z.abs_involutive in E1, E2. set (k := MIN j1 j2). assert (0 <= k < 2 ^ 30) as Hk by (unfold k, MIN; destruct (_ <? _); lia).
  destruct (common_two (Z.abs va) (Z.abs vb) j1 e1 j2 e2) as (x & y & Ex & Ey & Hx & Hy & Hodd); try (done || lia). fold k in Ex, Ey.
  rewrite u32_id by mx. sqt. eapply wpV_qdiv; [exact HV7|lk|lia|]. intros st8 HV8. sqt. eapply wpV_qdiv; [exact HV8|lk|lia|]. intros st9 HV9.
  rewrite Ex, Ey, !quot_pow_exact in HV9 by lia.
  set (g := Z.gcd x y).
  assert (Z.gcd va vb = 2 ^ k * g) as Eg by (unfold g; rewrite <- gcd_common, <- Ex, <- Ey, Z.gcd_abs_l, Z.gcd_abs_r by lia; done).
  sqt. eapply wpV_is_odd; [exact HV9|lk|].
  apply s_req.
  assert (forall st10 t, t <> 0 -> (0 < t -> Z.odd y = true /\ t = x) -> (t < 0 -> Z.odd x = true /\ t = - y) ->
     RV st10 (<[t2 := t]> (<[t1 := y]> (<[t0 := x]> V))) X -> sw (REQUIRE loop (Z.to_nat (32 * (Z.of_nat na + Z.of_nat nb))) (gcd_body t0 t1 t2) tt;;
       REQUIRE mp_int_abs t0 c;; ok <- s_qmul c k; Ret (if ok then MP_OK else MP_MEMORY))%prog
       (fun r st2 => exists V2 v, V2 !! t2 = None /\ RV st2 (<[t2 := v]> V2) X /\ (forall st3, RV st3 V2 X ->
        exists V2 v, V2 !! t1 = None /\ RV st3 (<[t1 := v]> V2) X /\ (forall st3, RV st3 V2 X ->
        exists V2 v, V2 !! t0 = None /\ RV st3 (<[t0 := v]> V2) X /\ (forall st3, RV st3 V2 X -> Q r st3)))) st10) as Main.
  { intros st10 t Ht Tp Tn HV10. apply s_req.
    eapply s_loop with (I := fun n _ st => gcd_inv V X t0 t1 t2 g n st) (n := x + y + 1).
    - exists x, y, t. split; [exact HV10|]. split_and!; try lia.
      + intros T. destruct (Tp T) as [? ->]. split_and!; [done|done|lia].
      + intros T. destruct (Tn T) as [? ->]. rewrite Z.opp_involutive. split_and!; [done|done|lia].
    - rewrite Z2Nat.id by lia. apply Z.le_lt_trans with (Z.abs va + Z.abs vb + 1); [lia|]. apply pow_sum_lt; lia.
    - intros n [] st' HI. eapply wp_mono; [apply (sV_gcd_body V X t0 t1 t2); [neqs..|exact HI]|].
      intros [[]|r] st'' H; [exact H|]. destruct H as [[-> (v & HV')]|[-> (u' & v' & t' & HV')]].
      2:{ badr. eapply (Out _ _ _ _ _ vc); [rewrite <- EV; exact HV'|apply HF]. } okr.
      apply s_req. eapply sV_abs; [exact HV'|lk|lk| |]. { badr. eapply (Out _ _ _ _ _ vc); [rewrite <- EV; exact HV'|apply HF]. } intros st12 HV12. okr.
      apply soft_bind, wp_bind. eapply sV_qmul; [exact HV12|lk|mx| |].
      { apply s_ret. eapply (Out _ _ g v 0 (Z.abs g)); [vn HV12|apply HF]. } intros st13 HV13. apply s_ret.
      assert (0 <= g) by apply Z.gcd_nonneg.
      eapply (Out _ _ g v 0 (Z.gcd va vb)); [vn HV13; f_equal; lia|]. apply HQ. lia. }
  destruct (Z.odd x) eqn:Ox.
  - eapply sV_neg; [exact HV9|lk|lk| |]. { badr. eapply (Out _ _ x y 0 vc); [rewrite <- EV; vn HV9|apply HF]. } intros st10 HV10. okr. apply (Main _ (- y)); [lia|lia|done|]. vn HV10.
  - eapply sV_copy; [exact HV9|lk|lk| |]. { badr. eapply (Out _ _ x y 0 vc); [rewrite <- EV; vn HV9|apply HF]. } intros st10 HV10. okr. apply (Main _ x); [lia| |lia|]; [|vn HV10].
    intros _. split; [|done]. by destruct Hodd.
Qed.
