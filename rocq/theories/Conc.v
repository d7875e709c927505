(** Threads: several programs run on one memory, and a scheduler picks, before
    every single effect, the thread that performs it.

    Simplifications: an access to a structure (an [mpz_t]) reads or writes all its
    fields at once, and effects are atomic.  Both are harmless for programs without
    data races, and [races] below is what a race is for accesses of this size. *)
From Coq Require Import ZArith List Lia.
From stdpp Require Import gmap list.
From Verif Require Import Mem Prog.
Local Open Scope Z_scope.

(** One effect of a thread.  [malloc] and [realloc] (/repo/imath.c:1692-1715) may
    refuse any request and may use any free address. *)
Inductive step {A} : prog A -> state -> prog A -> state -> Prop :=
| step_peek q c k st : load (mem st) q = Some c -> step (Peek q k) st (k c) st
| step_poke q c0 c k st : load (mem st) q = Some c0 -> step (Poke q c k) st k (set_mem st (store (mem st) q c))
| step_geto o z k st : objs st !! o = Some z -> step (GetO o k) st (k z) st
| step_seto o z0 z k st : objs st !! o = Some z0 -> step (SetO o z k) st k (set_objs st (<[o := z]> (objs st)))
| step_newo n z k st : objs st !! (false, n) = None -> mem st !! Sng (false, n) = None ->
    step (NewO k) st (k (false, n)) (add_obj st (false, n) z)
| step_delo o z k st : objs st !! o = Some z -> o.1 = false -> step (DelO o k) st k (del_obj st o)
| step_malloco_no k st : step (MallocO k) st (k None) st
| step_malloco n z k st : objs st !! (true, n) = None -> mem st !! Sng (true, n) = None ->
    step (MallocO k) st (k (Some (true, n))) (add_obj st (true, n) z)
| step_freeo o z k st : objs st !! o = Some z -> o.1 = true -> step (FreeO o k) st k (del_obj st o)
| step_malloc_no n k st : step (Malloc n k) st (k None) st
| step_malloc n i k st : 0 <= n <= MAXD -> mem st !! Hp i = None ->
    step (Malloc n k) st (k (Some (Hp i, 0))) (add_block st (Hp i) (blank n))
| step_realloc_no p l n k st : live_heap st p = Some l -> step (Realloc p n k) st (k None) st
| step_realloc p l n i k st : live_heap st p = Some l -> 0 <= n <= MAXD -> mem (del_block st p.1) !! Hp i = None ->
    step (Realloc p n k) st (k (Some (Hp i, 0))) (add_block (del_block st p.1) (Hp i) (resize_cells l n))
| step_free p l k st : live_heap st p = Some l -> step (Free p k) st k (del_block st p.1)
| step_newe n i k st : mem st !! Ext i = None -> step (NewE n k) st (k (Ext i, 0)) (add_block st (Ext i) (replicate n None))
| step_dele i z l k st : mem st !! Ext i = Some l -> step (DelE (Ext i, z) k) st k (del_block st (Ext i))
| step_getg k st : step (GetG k) st (k (glob st)) st
| step_setg g k st : step (SetG g k) st k (set_glob st g)
| step_assert a k st : step (Assert a true k) st k st.

(** The thread has returned, or stands at the failing [assert(out != NULL)] after a
    refused request (which ends the process). *)
Definition finished {A} (p : prog A) : Prop := match p with Ret _ => True | _ => False end.
Definition aborts {A} (p : prog A) : Prop := match p with Assert (ANull _) false _ => True | _ => False end.

(** Something undefined, a failing assertion of another kind, or a loop that the
    model did not give enough turns: the thread has not returned, does not abort
    for lack of memory, and its next effect cannot be performed. *)
Definition wrong {A} (p : prog A) (st : state) : Prop :=
  ~ finished p /\ ~ aborts p /\ forall p' st', ~ step p st p' st'.

(** What the next effect of a thread touches, and whether it writes there.  New
    storage is not counted: nobody else knows it. *)
Inductive thing : Type := Structure (o : oid) | Block (b : base) | Tunables.
Definition thing_of (b : base) : thing := match b with Sng o => Structure o | _ => Block b end.
Definition touches {A} (p : prog A) : option (thing * bool) :=
  match p with
  | Peek q _ => Some (thing_of q.1, false)
  | Poke q _ _ => Some (thing_of q.1, true)
  | GetO o _ => Some (Structure o, false)
  | SetO o _ _ | DelO o _ | FreeO o _ => Some (Structure o, true)
  | Realloc p _ _ | Free p _ | DelE p _ => Some (thing_of p.1, true)
  | GetG _ => Some (Tunables, false)
  | SetG _ _ => Some (Tunables, true)
  | _ => None
  end.
(** Two threads are about to touch the same thing, and at least one is to write. *)
Definition races {A B} (p : prog A) (q : prog B) : Prop :=
  exists x w w', touches p = Some (x, w) /\ touches q = Some (x, w') /\ (w || w')%bool = true.

(** Any schedule. *)
Inductive interleaves {A} : list (prog A) -> state -> list (prog A) -> state -> Prop :=
| inter_stop ps st : interleaves ps st ps st
| inter_step ps st i p p' st1 ps' st' : ps !! i = Some p -> step p st p' st1 ->
    interleaves (<[i := p']> ps) st1 ps' st' -> interleaves ps st ps' st'.
