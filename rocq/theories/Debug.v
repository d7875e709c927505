(** The build with [make DEBUG=Y] ([-DDEBUG=1], Makefile 30-44).  The functions are
    the same; two of them differ, [s_alloc] and [s_realloc], and what differs in them
    is the one effect they consist of, so the build is the same programs under
    another interpretation of [Realloc].

    imath.c 1696-1698: new digits are set to a pattern.  They stay indeterminate here:
    a program that looked at one would be undefined, whatever the pattern.
    imath.c 1703-1708: [s_realloc] asks for a new block, fills it, and copies the old
    digits, [MP_ALLOC(z)] of them, which are all of the old block ([holds] in
    [Spec]).  The old block is not freed. *)
From Coq Require Import ZArith List Lia.
From stdpp Require Import gmap list.
From Verif Require Import Mem Prog MemLem.
Local Open Scope Z_scope.

(** As [run true] in [Prog], but for [Realloc]. *)
Fixpoint run_debug {A} (orc : oracle) (p : prog A) (t : nat) (st : state) : outcome A :=
  match p with
  | Ret a => Done a st t
  | Peek p k => match load (mem st) p with Some c => run_debug orc (k c) t st | None => UB end
  | Poke p c k => match load (mem st) p with Some _ => run_debug orc k t (set_mem st (store (mem st) p c)) | None => UB end
  | GetO o k => match objs st !! o with Some z => run_debug orc (k z) t st | None => UB end
  | SetO o z k => match objs st !! o with Some _ => run_debug orc k t (set_objs st (<[o := z]> (objs st))) | None => UB end
  | NewO k => let o := (false, pick_obj orc t false st) in run_debug orc (k o) (S t) (add_obj st o (junk orc t))
  | DelO o k => match objs st !! o with Some _ => if o.1 then UB else run_debug orc k t (del_obj st o) | None => UB end
  | MallocO k =>
      if grants orc t 0 then let o := (true, pick_obj orc t true st) in run_debug orc (k (Some o)) (S t) (add_obj st o (junk orc t))
      else run_debug orc (k None) (S t) st
  | FreeO o k => match objs st !! o with Some _ => if o.1 then run_debug orc k t (del_obj st o) else UB | None => UB end
  | Malloc n k =>
      if granted orc t n then let b := Hp (pick_hp orc t st) in run_debug orc (k (Some (b, 0))) (S t) (add_block st b (blank n))
      else run_debug orc (k None) (S t) st
  | Realloc p n k =>
      match live_heap st p with
      | Some l =>
          if granted orc t n then let b := Hp (pick_hp orc t st) in run_debug orc (k (Some (b, 0))) (S t) (add_block st b (resize_cells l n))
          else run_debug orc (k None) (S t) st
      | None => UB
      end
  | Free p k => match live_heap st p with Some _ => run_debug orc k t (del_block st p.1) | None => UB end
  | NewE n k => let b := Ext (pick_ext orc t st) in run_debug orc (k (b, 0)) t (add_block st b (replicate n None))
  | DelE p k => match p.1, mem st !! p.1 with Ext _, Some _ => run_debug orc k t (del_block st p.1) | _, _ => UB end
  | GetG k => run_debug orc (k (glob st)) t st
  | SetG g k => run_debug orc k t (set_glob st g)
  | Assert a b k => if b then run_debug orc k t st else match a with ANull n => OOM n | ALogic => AssertFail end
  | Undef => UB
  | NoFuel => OutOfFuel
  end.
