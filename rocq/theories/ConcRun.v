(** Running threads: one effect with the environment's choices given, any list of
    turns; used by the examples and to show that a thread can go on. *)
From Coq Require Import ZArith List Lia.
From stdpp Require Import gmap list.
From Verif Require Import Mem Prog MemLem Conc.
Local Open Scope Z_scope.

(** One effect of [p], the allocator's choices made by [orc]. *)
Definition fire {A} (orc : oracle) (t : nat) (p : prog A) (st : state) : option (prog A * state) :=
  match p with
  | Ret _ => None
  | Peek p k => match load (mem st) p with Some c => Some (k c, st) | None => None end
  | Poke p c k => match load (mem st) p with Some _ => Some (k, set_mem st (store (mem st) p c)) | None => None end
  | GetO o k => match objs st !! o with Some z => Some (k z, st) | None => None end
  | SetO o z k => match objs st !! o with Some _ => Some (k, set_objs st (<[o := z]> (objs st))) | None => None end
  | NewO k => let o := (false, pick_obj orc t false st) in Some (k o, add_obj st o (junk orc t))
  | DelO o k => match objs st !! o with Some _ => if o.1 then None else Some (k, del_obj st o) | None => None end
  | MallocO k => if grants orc t 0 then let o := (true, pick_obj orc t true st) in Some (k (Some o), add_obj st o (junk orc t)) else Some (k None, st)
  | FreeO o k => match objs st !! o with Some _ => if o.1 then Some (k, del_obj st o) else None | None => None end
  | Malloc n k => if granted orc t n then let b := Hp (pick_hp orc t st) in Some (k (Some (b, 0)), add_block st b (blank n)) else Some (k None, st)
  | Realloc p n k => match live_heap st p with
      | Some l => if granted orc t n then let b := Hp (pick_hp orc t (del_block st p.1)) in Some (k (Some (b, 0)), add_block (del_block st p.1) b (resize_cells l n)) else Some (k None, st)
      | None => None end
  | Free p k => match live_heap st p with Some _ => Some (k, del_block st p.1) | None => None end
  | NewE n k => let b := Ext (pick_ext orc t st) in Some (k (b, 0), add_block st b (replicate n None))
  | DelE p k => match p.1, mem st !! p.1 with Ext _, Some _ => Some (k, del_block st p.1) | _, _ => None end
  | GetG k => Some (k (glob st), st)
  | SetG g k => Some (k, set_glob st g)
  | Assert _ b k => if b then Some (k, st) else None
  | Undef => None
  | NoFuel => None
  end.
Lemma granted_range orc t n : granted orc t n = true -> 0 <= n <= MAXD.
Proof. unfold granted. intros E. repeat (apply andb_prop in E as [E ?]); lia. Qed.
Lemma fire_step {A} orc t (p p' : prog A) st st' : fire orc t p st = Some (p', st') -> step p st p' st'.
Proof.
  intros E. destruct p; cbn [fire] in E; try done;
    repeat match type of E with
    | context [match load ?m ?q with _ => _ end] => destruct (load m q) eqn:?; [|done]
    | context [match objs ?s !! ?o with _ => _ end] => destruct (objs s !! o) eqn:?; [|done]
    | context [match live_heap ?s ?o with _ => _ end] => destruct (live_heap s o) eqn:?; [|done]
    | context [if granted ?a ?b ?c then _ else _] => destruct (granted a b c) eqn:?
    | context [if grants ?a ?b ?c then _ else _] => destruct (grants a b c) eqn:?
    end; try (injection E as <- <-; try by econstructor).
  - destruct (pick_obj_fresh orc t false st) as [? ?]. by apply step_newo.
  - destruct o as [[|] n]; [done|]. injection E as <- <-. by eapply step_delo.
  - destruct (pick_obj_fresh orc t true st) as [? ?]. by apply step_malloco.
  - destruct o as [[|] n]; [|done]. injection E as <- <-. by eapply step_freeo.
  - apply step_malloc; [by eapply granted_range|apply pick_hp_fresh].
  - apply step_realloc; [done|by eapply granted_range|apply pick_hp_fresh].
  - apply step_newe, pick_ext_fresh.
  - destruct p as [b z]. cbn [fst] in E. destruct b; try done. destruct (mem st !! Ext _) eqn:?; [|done]. injection E as <- <-. by eapply step_dele.
  - destruct b; [|done]. injection E as <- <-. constructor.
Qed.
Lemma fire_none {A} orc t (p : prog A) st : fire orc t p st = None -> finished p \/ wrong p st \/ aborts p.
Proof.
  assert (HS : ~ finished p -> ~ aborts p -> (forall p' st', step p st p' st' -> fire orc t p st = None -> False) -> fire orc t p st = None -> finished p \/ wrong p st \/ aborts p).
  { intros N1 N2 N3 E. right; left. split_and!; [done..|]. intros p' st' Hs. by eapply N3. }
  assert (HG : ~ (exists n k, p = Assert (ANull n) false k) -> forall p' st', step p st p' st' -> fire orc t p st = None -> False).
  { intros _ p' st' Hs E. destruct Hs; cbn [fire] in E; repeat match goal with H : ?x = Some _ |- _ => rewrite H in E; clear H end; try done.
    - destruct o as [[|] ?]; [|done]. done.
    - by destruct (grants orc t 0).
    - by destruct (grants orc t 0).
    - destruct o as [[|] ?]; [done|]. done.
    - by destruct (granted orc t n).
    - by destruct (granted orc t n).
    - by destruct (granted orc t n).
    - by destruct (granted orc t n).
    - cbn [fst] in E. match goal with H : mem st !! Ext _ = Some _ |- _ => by rewrite H in E end. }
  destruct p; try (by left); try (apply HS; [by intros []|by intros []|apply HG; by intros (? & ? & ?)]).
  destruct b; [by cbn [fire]|]. destruct a; [by right; right|]. apply HS; [by intros []|by intros []|apply HG; by intros (? & ? & ?)].
Qed.

(** Turns as listed; a thread that cannot go on loses its turn. *)
Fixpoint play {A} (orc : oracle) (t : nat) (is : list nat) (ps : list (prog A)) (st : state) : list (prog A) * state :=
  match is with
  | [] => (ps, st)
  | i :: is =>
      match ps !! i with
      | Some p => match fire orc t p st with Some (p', st') => play orc (S t) is (<[i := p']> ps) st' | None => play orc (S t) is ps st end
      | None => play orc (S t) is ps st
      end
  end.
Lemma play_interleaves {A} orc is : forall t (ps : list (prog A)) st, interleaves ps st (play orc t is ps st).1 (play orc t is ps st).2.
Proof.
  induction is as [|i is IH]; intros t ps st; cbn [play]; [constructor|]. destruct (ps !! i) as [p|] eqn:Ei; [|apply IH].
  destruct (fire orc t p st) as [[p' st']|] eqn:E; [|apply IH]. eapply inter_step; [done|by eapply fire_step|apply IH].
Qed.

(** A run of one program is a schedule of one thread. *)
Lemma inter_trans {A} (ps ps1 ps2 : list (prog A)) st st1 st2 : interleaves ps st ps1 st1 -> interleaves ps1 st1 ps2 st2 -> interleaves ps st ps2 st2.
Proof. induction 1; [done|]. intros HI. eapply inter_step; [done..|auto]. Qed.
Lemma inter_one {A} (p p' : prog A) st st1 a st' : step p st p' st1 -> interleaves [p'] st1 [Ret a] st' -> interleaves [p] st [Ret a] st'.
Proof. intros Hs HI. eapply (inter_step _ _ 0); [done|done|done]. Qed.
Lemma run_interleaves {A} orc (p : prog A) : forall t st a st' t', run true orc p t st = Done a st' t' -> interleaves [p] st [Ret a] st'.
Proof.
  induction p; intros t st x st' t' E; cbn [run] in E;
    repeat match type of E with
    | context [match load ?m ?q with _ => _ end] => destruct (load m q) eqn:?; [|done]
    | context [match objs ?s !! ?o with _ => _ end] => destruct (objs s !! o) eqn:?; [|done]
    | context [match live_heap ?s ?o with _ => _ end] => destruct (live_heap s o) eqn:?; [|done]
    | context [if granted ?a ?b ?c then _ else _] => destruct (granted a b c) eqn:?
    | context [if grants ?a ?b ?c then _ else _] => destruct (grants a b c) eqn:?
    end; try (injection E as <- <- <-; constructor); try (eapply inter_one; [by econstructor|eauto]; fail); try done.
  - destruct (pick_obj_fresh orc t false st) as [? ?]. eapply inter_one; [by apply step_newo|eauto].
  - destruct o as [[|] n]; [done|]. cbn [fst] in E. eapply inter_one; [by eapply step_delo|eauto].
  - destruct (pick_obj_fresh orc t true st) as [? ?]. eapply inter_one; [by apply step_malloco|eauto].
  - destruct o as [[|] n]; [|done]. cbn [fst] in E. eapply inter_one; [by eapply step_freeo|eauto].
  - eapply inter_one; [apply step_malloc; [by eapply granted_range|apply pick_hp_fresh]|eauto].
  - eapply inter_one; [apply step_realloc; [done|by eapply granted_range|apply pick_hp_fresh]|eauto].
  - eapply inter_one; [apply step_newe, pick_ext_fresh|eauto].
  - destruct p as [b z]. cbn [fst] in E. destruct b; try done. destruct (mem st !! Ext _) eqn:?; [|done]. eapply inter_one; [by eapply step_dele|eauto].
  - destruct b; [|by destruct a]. eapply inter_one; [constructor|eauto].
Qed.
