(** The main loop of the calculator of examples/imcalc.c. *)
From Coq Require Import ZArith Znumtheory List Lia String Ascii.
From stdpp Require Import gmap list.
From Verif Require Import Mem Prog Kern Fp Imath Imrat Gmp Wp MemLem Dig KernLem Rel RelWp RelZ Life Basic Basic2 Mult Shift Knuth Divi Powr Spec SpecBin Public Gcd Root Exptmod Buf Text Read Outlen Inlen Bin Rat RatText Gmpr Hist.
From Verif Require Import Rsa Rsamath SpecGalloc Galloc Iprime ExPiR SpecKey ExRsakeyR SpecCalc ExCalc ExCalcR ExCalcX ExCalcH.
Local Open Scope Z_scope.
Local Open Scope prog_scope.
Local Open Scope list_scope.
Local Ltac wb := apply wp_bind.

(** ** Tokens *)
Lemma isspace_no c : ~ is_space c -> isspace c = false.
Proof. intros H. destruct (isspace c) eqn:E; [|done]. apply isspace_spec in E. done. Qed.
Lemma isdigit_spec c : ExCalc.isdigit c = true <-> is_digit c.
Proof. unfold ExCalc.isdigit, is_digit. rewrite andb_true_iff, !Z.leb_le. done. Qed.
Lemma isdigit_no c : ~ is_digit c -> ExCalc.isdigit c = false.
Proof. intros H. destruct (ExCalc.isdigit c) eqn:E; [|done]. apply isdigit_spec in E. done. Qed.
Lemma skip_space_ok sp c s : Forall is_space sp -> ~ is_space c -> skip_space (sp ++ c :: s) = c :: s.
Proof. intros HF Hc. induction HF as [|x sp Hx HF IH]; cbn [app skip_space]; [by rewrite isspace_no|]. apply isspace_spec in Hx. by rewrite Hx. Qed.
Lemma skip_space_end sp : Forall is_space sp -> skip_space sp = [].
Proof. intros HF. induction HF as [|x sp Hx HF IH]; cbn [skip_space]; [done|]. apply isspace_spec in Hx. by rewrite Hx. Qed.
Definition ends (s : list Z) : Prop := s = [] \/ exists b s', s = b :: s' /\ is_space b.
Lemma token_loop_ok res size w s : ends s -> forall pos, Forall (fun ch => (match res with t_number => ispunct ch && negb (ch =? 45) | t_symbol => ExCalc.isdigit ch | _ => false end) || isspace ch = false)%bool w ->
  pos + Z.of_nat (length w) < size -> token_loop res size pos (w ++ s) = (res, w, s).
Proof.
  intros Hs. induction w as [|ch w IH]; intros pos HF HL.
  - cbn [app]. destruct Hs as [->|(b & s' & -> & Hb)]; [done|]. cbn [token_loop]. apply isspace_spec in Hb. by rewrite Hb, orb_true_r.
  - apply Forall_cons in HF as [Hc HF]. cbn [app token_loop length] in *. rewrite Hc. destruct (Z.leb_spec size (pos + 1)); [lia|]. rewrite IH; [done|done|lia].
Qed.
Lemma c_string_ok w : Forall (fun c => c <> 0) w -> c_string w = w.
Proof. induction w as [|c w IH]; intros HF; [done|]. apply Forall_cons in HF as [Hc HF]. cbn [c_string]. destruct (Z.eqb_spec c 0); [done|]. by rewrite IH. Qed.
Lemma token_symbol sp w s : Forall is_space sp -> name_word w -> ends s -> Z.of_nat (length w) < BUFFER_SIZE -> next_token BUFFER_SIZE (sp ++ w ++ s) = (t_symbol, w, s).
Proof.
  intros Hsp (Nn & Nh & HF) Hs HL. destruct w as [|c w]; [done|]. cbn [length head app] in *. pose proof HF as HF0. apply Forall_cons in HF as [(C1 & C2 & C3) HF]. unfold next_token. rewrite skip_space_ok by done.
  assert ((if c =? 45 then match w ++ s with next :: _ => if ExCalc.isdigit next then t_number else t_symbol | [] => t_symbol end else if ExCalc.isdigit c || (c =? 35) then t_number else t_symbol) = t_symbol) as ->.
  { destruct (Z.eqb_spec c 45) as [->|N].
    - destruct w as [|d w]; cbn [app].
      + destruct Hs as [->|(b & s' & -> & Hb)]; [done|]. rewrite isdigit_no; [done|]. unfold is_digit, is_space in *. lia.
      + apply Forall_cons in HF as [(D1 & D2 & D3) _]. by rewrite isdigit_no.
    - rewrite isdigit_no by done. destruct (Z.eqb_spec c 35) as [->|]; [by destruct Nh|done]. }
  rewrite (token_loop_ok t_symbol BUFFER_SIZE w s Hs 1); [|eapply Forall_impl; [exact HF|]|lia].
  - rewrite c_string_ok; [done|]. eapply Forall_impl; [exact HF0|]. by intros x (_ & _ & ?).
  - intros x (X1 & X2 & _). by rewrite isdigit_no, isspace_no.
Qed.
Lemma token_end sp : Forall is_space sp -> next_token BUFFER_SIZE sp = (t_eof, [], []).
Proof. intros H. unfold next_token. by rewrite skip_space_end. Qed.
Lemma digit_of_cases c d : digit_of c = Some d -> (48 <= c <= 57 /\ d = c - 48) \/ (65 <= c <= 90 /\ d = c - 55) \/ (97 <= c <= 122 /\ d = c - 87).
Proof.
  unfold digit_of. destruct (Z.leb_spec 48 c), (Z.leb_spec c 57); cbn [andb]; try (intros [= <-]; lia);
  destruct (Z.leb_spec 65 c), (Z.leb_spec c 90); cbn [andb]; try (intros [= <-]; lia);
  destruct (Z.leb_spec 97 c), (Z.leb_spec c 122); cbn [andb]; try (intros [= <-]; lia); done.
Qed.
Definition numc (c : Z) : Prop := ((ispunct c && negb (c =? 45)) || isspace c = false)%bool.
Lemma alnum_numc c : (48 <= c <= 57 \/ 65 <= c <= 90 \/ 97 <= c <= 122 \/ c = 45) -> numc c /\ c <> 0.
Proof.
  intros H. split; [|lia]. unfold numc. assert (isspace c = false) as -> by (apply isspace_no; unfold is_space; lia). rewrite orb_false_r.
  destruct (Z.eqb_spec c 45) as [->|N]; [done|]. rewrite andb_true_r. unfold ispunct.
  destruct (Z.leb_spec 33 c), (Z.leb_spec c 47), (Z.leb_spec 58 c), (Z.leb_spec c 64), (Z.leb_spec 91 c), (Z.leb_spec c 96), (Z.leb_spec 123 c), (Z.leb_spec c 126); cbn; try done; lia.
Qed.
Lemma body_numc r body ds : Forall2 (fun c d => digit_of c = Some d /\ d < r) body ds -> Forall (fun c => numc c /\ c <> 0) body.
Proof. intros H. induction H as [|c d body ds [Hc _] H IH]; [done|]. constructor; [|done]. apply alnum_numc. destruct (digit_of_cases _ _ Hc) as [?|[?|?]]; lia. Qed.
Lemma lower_inv x c : lower x = c -> 97 <= c <= 122 -> x = c \/ x = c - 32.
Proof. unfold lower. destruct (Z.leb_spec 65 x), (Z.leb_spec x 90); cbn [andb]; lia. Qed.
(** The letters that announce a radix. *)
Lemma mark_cases p r : radix_mark p r -> (p = [] /\ r = 10) \/ exists c, p = [35; c] /\ (((c = 98 \/ c = 66) /\ r = 2) \/ ((c = 111 \/ c = 79) /\ r = 8) \/ ((c = 100 \/ c = 68) /\ r = 10) \/ ((c = 120 \/ c = 88) /\ r = 16)).
Proof.
  assert (forall x, lower x = 35 -> x = 35) as H35 by (unfold lower; intros x; destruct (Z.leb_spec 65 x), (Z.leb_spec x 90); cbn [andb]; lia).
  intros [[-> ->]|H]; [by left|]. right. destruct H as [[E ->]|[[E ->]|[[E ->]|[E ->]]]]; (destruct p as [|a [|b [|? ?]]]; try done; vm_compute chars in E; cbn [map] in E; injection E as E1 E2; apply H35 in E1 as ->; exists b; split; [done|]; apply lower_inv in E2; [|lia]); lia.
Qed.
Lemma token_number sp w v s : Forall is_space sp -> number_word w v -> ends s -> Z.of_nat (length w) < BUFFER_SIZE -> next_token BUFFER_SIZE (sp ++ w ++ s) = (t_number, w, s).
Proof.
  intros Hsp (p & r & sg & body & ds & Hp & Hsg & Nb & HB & -> & _) Hs HL. pose proof (body_numc _ _ _ HB) as HN.
  assert (Forall (fun c => numc c /\ c <> 0) sg) as HS. { destruct Hsg as [-> | ->]; [done|]. repeat constructor; try done. }
  assert (exists c w, p ++ sg ++ body = c :: w /\ ~ is_space c /\ Forall (fun c => numc c /\ c <> 0) w /\ c <> 0 /\
     (if c =? 45 then match w ++ s with next :: _ => if ExCalc.isdigit next then t_number else t_symbol | [] => t_symbol end else if ExCalc.isdigit c || (c =? 35) then t_number else t_symbol) = t_number) as (c & w & E & Hc & HW & C0 & Ht).
  { destruct (mark_cases _ _ Hp) as [[-> ->]|(c & -> & Hc)].
    - destruct body as [|b body]; [done|]. apply Forall2_cons_inv_l in HB as (d & ds' & [Hb Bd] & HB & ->). apply digit_of_cases in Hb. assert (48 <= b <= 57) as Bb by lia. pose proof (proj2 (isdigit_spec b) Bb) as Db. destruct Hsg as [-> | ->].
      + exists b, body. split; [done|]. split; [unfold is_space; lia|]. split; [by apply Forall_cons in HN as [_ ?]|]. split; [lia|]. destruct (Z.eqb_spec b 45); [lia|]. by rewrite Db.
      + exists 45, (b :: body). split; [done|]. split; [unfold is_space; lia|]. split; [done|]. split; [lia|]. cbn [app]. by rewrite Db.
    - exists 35, (c :: sg ++ body). split; [done|]. split; [unfold is_space; lia|]. split; [|split; [lia|done]]. constructor; [|by apply Forall_app]. apply alnum_numc. lia. }
  rewrite E in *. cbn [app length] in *. unfold next_token. rewrite skip_space_ok by done. rewrite Ht. rewrite (token_loop_ok t_number BUFFER_SIZE w s Hs 1); [|eapply Forall_impl; [exact HW|]; by intros x [? _]|lia].
  rewrite c_string_ok; [done|]. constructor; [done|]. eapply Forall_impl; [exact HW|]. by intros x [_ ?].
Qed.
(** *** Names of operators *)
Definition name_wordb (w : list Z) : bool := match w with [] => false | c :: _ => negb (c =? 35) && forallb (fun c => negb (isspace c) && negb (ExCalc.isdigit c) && negb (c =? 0)) w end.
Lemma name_wordb_ok w : name_wordb w = true -> name_word w.
Proof.
  intros H. assert (w <> []) as Nw by (by destruct w). split; [done|]. destruct w as [|c w]; [done|]. unfold name_wordb in H. apply andb_true_iff in H as [H1 H2]. split.
  - cbn. intros [= ->]. done.
  - apply Forall_forall. intros x Hx. apply elem_of_list_In in Hx. rewrite forallb_forall in H2. specialize (H2 x Hx). apply andb_true_iff in H2 as [H2 H3]. apply andb_true_iff in H2 as [H2 H4].
    split; [intros I; apply isspace_spec in I; by rewrite I in H2|]. split; [intros I; apply isdigit_spec in I; by rewrite I in H4|]. intros ->. done.
Qed.
Lemma names_ok : forallb (fun p => name_wordb (chars p.1)) names = true. Proof. reflexivity. Qed.
Lemma name_lower w n : name_word n -> map lower w = n -> name_word w.
Proof.
  intros (N1 & N2 & N3) <-. split; [by destruct w|]. split.
  - destruct w as [|c w]; [done|]. cbn in *. intros [= ->]. done.
  - apply Forall_map in N3. eapply Forall_impl; [exact N3|]. intros x (A1 & A2 & A3). unfold lower, is_space, is_digit in *. destruct (Z.leb_spec 65 x), (Z.leb_spec x 90); cbn [andb] in *; lia.
Qed.
Lemma op_name_word o w : spelling (Do o) w -> name_word w.
Proof.
  intros (n & Hn & E). eapply name_lower; [|exact E]. apply name_wordb_ok. pose proof names_ok as H. rewrite forallb_forall in H. exact (H (n, o) Hn).
Qed.
Definition handler_of (o : op) : cstate -> prog (Z * cstate) :=
  match o with
  | OAbs => cf_abs | ONeg => cf_neg | OAdd => cf_add | OSub => cf_sub | OMul => cf_mul | ODivmod => cf_divmod | ODiv => cf_div | OMod => cf_mod | OExpt => cf_expt | OExptmod => cf_exptmod
  | OSqr => cf_square | OInv => cf_invmod | OGcd => cf_gcd | OXgcd => cf_xgcd | OSqrt => cf_sqrt | ORoot => cf_root
  | OLt => cf_cmp (fun c => c <? 0) | OGt => cf_cmp (fun c => 0 <? c) | OLe => cf_cmp (fun c => c <=? 0) | OGe => cf_cmp (fun c => 0 <=? c) | OEq => cf_cmp (fun c => c =? 0) | ONe => cf_cmp (fun c => negb (c =? 0))
  | OInc => cf_inc | ODec => cf_dec | OFact => cf_fact | OShowDrop => cf_pprint | OShow => cf_print | OShowStack => cf_pstack | OClear => cf_clstk | ODrop => cf_pop | ODup => cf_dup | OCopy => cf_copy
  | OSwap => cf_swap | ORot => cf_rot | OPick => cf_pick | OForget => cf_cmem | OShowVars => cf_pmem | OOut => cf_setr | OBin => cf_setbin | OHelp => cf_help
  end.
Lemma tolower_lower w : map tolower w = map lower w. Proof. done. Qed.
Lemma find_op_name o w : spelling (Do o) w -> find_op w g_ops = Some (arity o, handler_of o).
Proof.
  intros (n & Hn & E). cut (Forall (fun p : string * op => forall w, map lower w = chars p.1 -> find_op w g_ops = Some (arity p.2, handler_of p.2)) names).
  - intros F. rewrite Forall_forall in F. apply (F (n, o)); [by apply elem_of_list_In|done].
  - clear. unfold names. repeat (apply Forall_cons; split; [intros w E; unfold find_op, g_ops, same_word; rewrite tolower_lower, E; reflexivity|]). done.
Qed.
Lemma find_op_save w : w = chars ">>" -> find_op w g_ops = Some (1%nat, cf_store). Proof. by intros ->. Qed.
Lemma find_op_recall w : w = chars "<<" -> find_op w g_ops = Some (0%nat, cf_recall). Proof. by intros ->. Qed.
Lemma find_op_none w : ~ In (map lower w) (chars ">>" :: chars "<<" :: map (fun p => chars (fst p)) names) -> find_op w g_ops = None.
Proof.
  intros H. assert (forall ops, (forall n k h, In (n, k, h) ops -> map lower w <> map tolower n) -> find_op w ops = None) as HF.
  { induction ops as [|[[n k] h] ops IH]; intros Ho; [done|]. cbn [find_op]. unfold same_word. rewrite bool_decide_eq_false_2; [apply IH; intros; eapply Ho; by right|]. rewrite tolower_lower. eapply (Ho n k h). by left. }
  apply HF. intros n k h Hn E. apply H. rewrite E. clear - Hn.
  assert (forallb (fun p : list Z * nat * (cstate -> prog (Z * cstate)) => existsb (fun n => bool_decide (map tolower p.1.1 = n)) (chars ">>" :: chars "<<" :: map (fun p => chars (fst p)) names)) g_ops = true) as F by (vm_compute; reflexivity).
  rewrite forallb_forall in F. specialize (F _ Hn). apply existsb_exists in F as (m & Hm & E). apply bool_decide_eq_true in E. cbn in E. by rewrite E.
Qed.
