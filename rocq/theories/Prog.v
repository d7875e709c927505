(** C programs as trees of memory effects, and their execution. *)
From Coq Require Import ZArith List Lia.
From stdpp Require Import gmap list.
From Verif Require Import Mem.
Local Open Scope Z_scope.

(** [ANull n]: the [assert(out != NULL)] after a request for [n] digits (imath.c 1694, 1711);
    [ALogic]: every other assertion. *)
Inductive akind := ANull (n : Z) | ALogic.

Inductive prog (A : Type) : Type :=
| Ret (a : A)
| Peek (p : ptr) (k : cell -> prog A)          (* raw copy of an element     *)
| Poke (p : ptr) (c : cell) (k : prog A)
| GetO (o : oid) (k : mpz -> prog A)           (* read the fields of *o      *)
| SetO (o : oid) (z : mpz) (k : prog A)
| NewO (k : oid -> prog A)                     (* local [mpz_t] variable     *)
| DelO (o : oid) (k : prog A)                  (* end of its lifetime        *)
| MallocO (k : option oid -> prog A)           (* malloc(sizeof(mpz_t))      *)
| FreeO (o : oid) (k : prog A)                 (* free() of the above        *)
| Malloc (n : Z) (k : option ptr -> prog A)    (* malloc(n * sizeof(mp_digit)) *)
| Realloc (p : ptr) (n : Z) (k : option ptr -> prog A)
| Free (p : ptr) (k : prog A)
| NewE (n : nat) (k : ptr -> prog A)           (* local array                *)
| DelE (p : ptr) (k : prog A)
| GetG (k : globals -> prog A)
| SetG (g : globals) (k : prog A)
| Assert (a : akind) (b : bool) (k : prog A)
| Undef                                        (* undefined behaviour        *)
| NoFuel.                                      (* the model's loop bound ran out *)

Arguments Ret {A} a.
Arguments Peek {A} p k.
Arguments Poke {A} p c k.
Arguments GetO {A} o k.
Arguments SetO {A} o z k.
Arguments NewO {A} k.
Arguments DelO {A} o k.
Arguments MallocO {A} k.
Arguments FreeO {A} o k.
Arguments Malloc {A} n k.
Arguments Realloc {A} p n k.
Arguments Free {A} p k.
Arguments NewE {A} n k.
Arguments DelE {A} p k.
Arguments GetG {A} k.
Arguments SetG {A} g k.
Arguments Assert {A} a b k.
Arguments Undef {A}.
Arguments NoFuel {A}.

Fixpoint bind {A B} (p : prog A) (f : A -> prog B) : prog B :=
  match p with
  | Ret a => f a
  | Peek p k => Peek p (fun c => bind (k c) f)
  | Poke p c k => Poke p c (bind k f)
  | GetO o k => GetO o (fun z => bind (k z) f)
  | SetO o z k => SetO o z (bind k f)
  | NewO k => NewO (fun o => bind (k o) f)
  | DelO o k => DelO o (bind k f)
  | MallocO k => MallocO (fun o => bind (k o) f)
  | FreeO o k => FreeO o (bind k f)
  | Malloc n k => Malloc n (fun p => bind (k p) f)
  | Realloc p n k => Realloc p n (fun p => bind (k p) f)
  | Free p k => Free p (bind k f)
  | NewE n k => NewE n (fun p => bind (k p) f)
  | DelE p k => DelE p (bind k f)
  | GetG k => GetG (fun g => bind (k g) f)
  | SetG g k => SetG g (bind k f)
  | Assert a b k => Assert a b (bind k f)
  | Undef => Undef
  | NoFuel => NoFuel
  end.

Declare Scope prog_scope.
Delimit Scope prog_scope with prog.
Notation "x <- p ; q" := (bind p (fun x => q))
  (at level 100, p at next level, q at level 200, right associativity) : prog_scope.
Notation "p ;; q" := (bind p (fun _ => q))
  (at level 100, q at level 200, right associativity) : prog_scope.
Local Open Scope prog_scope.

(** ** Derived effects *)

(** [*p] as an rvalue: reading an indeterminate element is undefined. *)
Definition Load (p : ptr) : prog Z :=
  Peek p (fun c => match c with Some v => Ret v | None => Undef end).
Definition Store (p : ptr) (v : Z) : prog unit := Poke p (Some v) (Ret tt).
Definition getO (o : oid) : prog mpz := GetO o Ret.
Definition setO (o : oid) (z : mpz) : prog unit := SetO o z (Ret tt).
Definition assert (b : bool) : prog unit := Assert ALogic b (Ret tt).
Definition getG : prog globals := GetG Ret.

Definition set_digits (o : oid) (p : option ptr) : prog unit :=
  z <- getO o; setO o (Mpz p (alloc z) (used z) (sign z)).
Definition set_alloc (o : oid) (n : Z) : prog unit :=
  z <- getO o; setO o (Mpz (digits z) n (used z) (sign z)).
Definition set_used (o : oid) (n : Z) : prog unit :=
  z <- getO o; setO o (Mpz (digits z) (alloc z) n (sign z)).
Definition set_sign (o : oid) (s : Z) : prog unit :=
  z <- getO o; setO o (Mpz (digits z) (alloc z) (used z) s).
Definition get_used (o : oid) : prog Z := z <- getO o; Ret (used z).
Definition get_alloc (o : oid) : prog Z := z <- getO o; Ret (alloc z).
Definition get_sign (o : oid) : prog Z := z <- getO o; Ret (sign z).
(** [MP_DIGITS(z)] about to be dereferenced or used in arithmetic: a NULL
    pointer there is undefined. *)
Definition get_digits (o : oid) : prog ptr :=
  z <- getO o; match digits z with Some p => Ret p | None => Undef end.

(** ** Loops

    [loop k body s] runs [body] from state [s] until it returns [inr], at most
    2^k times. *)
Fixpoint loopc {S R} (k : nat) (body : S -> prog (S + R)) (s : S) : prog (S + R) :=
  match k with
  | O => body s
  | Datatypes.S k' =>
      r <- loopc k' body s;
      match r with
      | inl s' => loopc k' body s'
      | inr x => Ret (inr x)
      end
  end.
Definition loop {S R} (k : nat) (body : S -> prog (S + R)) (s : S) : prog R :=
  r <- loopc k body s;
  match r with inl _ => NoFuel | inr x => Ret x end.

(** ** Execution *)

Inductive outcome (A : Type) : Type :=
| Done (a : A) (st : state) (t : nat)
| OOM (n : Z)                (* stopped after a refused request for n digits *)
| AssertFail
| UB
| OutOfFuel.
Arguments Done {A} a st t.
Arguments OOM {A} n.
Arguments AssertFail {A}.
Arguments UB {A}.
Arguments OutOfFuel {A}.

(** The environment: at the [t]-th allocation, does [malloc] grant [n] digits,
    what junk does the [t]-th new structure hold, and where are new blocks and
    structures placed?  The placement may depend on the whole state. *)
Record oracle : Type := Oracle {
  grants : nat -> Z -> bool;
  junk : nat -> mpz;
  place : nat -> state -> positive }.

Definition granted (orc : oracle) (t : nat) (n : Z) : bool :=
  ((0 <=? n) && (n <=? MAXD) && grants orc t n)%bool.

Definition blank (n : Z) : list cell := replicate (Z.to_nat n) None.

(** Resizing copies the common prefix; the rest is indeterminate. *)
Definition resize_cells (l : list cell) (n : Z) : list cell :=
  take (Z.to_nat n) (l ++ blank (n - Z.of_nat (length l))).

Definition add_block (st : state) (b : base) (l : list cell) : state :=
  set_mem st (<[b := l]> (mem st)).
Definition del_block (st : state) (b : base) : state :=
  set_mem st (delete b (mem st)).
Definition add_obj (st : state) (o : oid) (z : mpz) : state :=
  State (<[o := z]> (objs st)) (<[Sng o := [None]]> (mem st)) (glob st).
Definition del_obj (st : state) (o : oid) : state :=
  State (delete o (objs st)) (delete (Sng o) (mem st)) (glob st).

Definition live_heap (st : state) (p : ptr) : option (list cell) :=
  match p with
  | (Hp n, 0) => mem st !! Hp n
  | _ => None
  end.

(** The address of a new block: the one the environment asks for if it is free,
    some free one if it is not. *)
Definition pick_hp (orc : oracle) (t : nat) (st : state) : positive :=
  match mem st !! Hp (place orc t st) with
  | None => place orc t st
  | Some _ => new_hp (mem st)
  end.
Definition pick_ext (orc : oracle) (t : nat) (st : state) : positive :=
  match mem st !! Ext (place orc t st) with
  | None => place orc t st
  | Some _ => new_ext (mem st)
  end.
Definition pick_obj (orc : oracle) (t : nat) (b : bool) (st : state) : positive :=
  match objs st !! (b, place orc t st), mem st !! Sng (b, place orc t st) with
  | None, None => place orc t st
  | _, _ => new_obj st
  end.

(** [dbg = true] is the default build, [dbg = false] the [NDEBUG] build, in
    which assertions are not evaluated. *)
Fixpoint run {A} (dbg : bool) (orc : oracle) (p : prog A) (t : nat) (st : state)
  : outcome A :=
  match p with
  | Ret a => Done a st t
  | Peek p k =>
      match load (mem st) p with
      | Some c => run dbg orc (k c) t st
      | None => UB
      end
  | Poke p c k =>
      match load (mem st) p with
      | Some _ => run dbg orc k t (set_mem st (store (mem st) p c))
      | None => UB
      end
  | GetO o k =>
      match objs st !! o with
      | Some z => run dbg orc (k z) t st
      | None => UB
      end
  | SetO o z k =>
      match objs st !! o with
      | Some _ => run dbg orc k t (set_objs st (<[o := z]> (objs st)))
      | None => UB
      end
  | NewO k =>
      let o := (false, pick_obj orc t false st) in
      run dbg orc (k o) (S t) (add_obj st o (junk orc t))
  | DelO o k =>
      match objs st !! o with
      | Some _ => if o.1 then UB else run dbg orc k t (del_obj st o)
      | None => UB
      end
  | MallocO k =>
      if grants orc t 0 then
        let o := (true, pick_obj orc t true st) in
        run dbg orc (k (Some o)) (S t) (add_obj st o (junk orc t))
      else run dbg orc (k None) (S t) st
  | FreeO o k =>
      match objs st !! o with
      | Some _ => if o.1 then run dbg orc k t (del_obj st o) else UB
      | None => UB
      end
  | Malloc n k =>
      if granted orc t n then
        let b := Hp (pick_hp orc t st) in
        run dbg orc (k (Some (b, 0))) (S t) (add_block st b (blank n))
      else run dbg orc (k None) (S t) st
  | Realloc p n k =>
      match live_heap st p with
      | Some l =>
          if granted orc t n then
            let b := Hp (pick_hp orc t (del_block st p.1)) in
            run dbg orc (k (Some (b, 0))) (S t)
                (add_block (del_block st p.1) b (resize_cells l n))
          else run dbg orc (k None) (S t) st
      | None => UB
      end
  | Free p k =>
      match live_heap st p with
      | Some _ => run dbg orc k t (del_block st p.1)
      | None => UB
      end
  | NewE n k =>
      let b := Ext (pick_ext orc t st) in
      run dbg orc (k (b, 0)) t (add_block st b (replicate n None))
  | DelE p k =>
      match p.1, mem st !! p.1 with
      | Ext _, Some _ => run dbg orc k t (del_block st p.1)
      | _, _ => UB
      end
  | GetG k => run dbg orc (k (glob st)) t st
  | SetG g k => run dbg orc k t (set_glob st g)
  | Assert a b k =>
      if dbg then
        if b then run dbg orc k t st
        else match a with ANull n => OOM n | ALogic => AssertFail end
      else run dbg orc k t st
  | Undef => UB
  | NoFuel => OutOfFuel
  end.
