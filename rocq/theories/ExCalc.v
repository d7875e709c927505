(** Model of examples/imcalc.c.

    Simplifications: the array of operands, the table of variables and the input
    buffer are lists in the state of the calculator, so the requests for their
    storage are not modelled (in mem_insert they are not checked); the messages on
    stderr are not modelled, the result codes are; options and input files are
    not modelled: the input is a list of bytes, the output too. *)
From Coq Require Import ZArith List Lia String Ascii.
From stdpp Require Import gmap list.
From Verif Require Import Mem Prog Kern Imath GmpAlloc Imrat Iprime.
Local Open Scope Z_scope.
Local Open Scope prog_scope.
Local Open Scope list_scope.

(** The bytes of a string constant. *)
Fixpoint bytes (s : string) : list Z :=
  match s with EmptyString => [] | String c s' => Z.of_nat (nat_of_ascii c) :: bytes s' end.

(** examples/imcalc.c 48-63: the operands (top first), the variables, what is still to
    be read, the token read last, the output radix (204) and the output. *)
Record cstate := CS {
  cs_elts : list oid;
  cs_mem : list (list Z * oid);
  cs_in : list Z;
  cs_buf : list Z;
  cs_radix : Z;
  cs_out : list Z
}.
Definition set_elts (sp : cstate) (l : list oid) : cstate := CS l (cs_mem sp) (cs_in sp) (cs_buf sp) (cs_radix sp) (cs_out sp).
Definition set_mem (sp : cstate) (m : list (list Z * oid)) : cstate := CS (cs_elts sp) m (cs_in sp) (cs_buf sp) (cs_radix sp) (cs_out sp).
Definition set_token (sp : cstate) (i b : list Z) : cstate := CS (cs_elts sp) (cs_mem sp) i b (cs_radix sp) (cs_out sp).
Definition set_radix (sp : cstate) (r : Z) : cstate := CS (cs_elts sp) (cs_mem sp) (cs_in sp) (cs_buf sp) r (cs_out sp).
Definition put_out (sp : cstate) (s : list Z) : cstate := CS (cs_elts sp) (cs_mem sp) (cs_in sp) (cs_buf sp) (cs_radix sp) (cs_out sp ++ s).

(** examples/imcalc.c 190 *)
Definition BUFFER_SIZE : Z := 16384.
(** examples/imcalc.c 193 *)
Inductive token := t_eof | t_symbol | t_number | t_error.
Definition isdigit (c : Z) : bool := (48 <=? c) && (c <=? 57).
Definition ispunct (c : Z) : bool := ((33 <=? c) && (c <=? 47)) || ((58 <=? c) && (c <=? 64)) || ((91 <=? c) && (c <=? 96)) || ((123 <=? c) && (c <=? 126)).

(** examples/imcalc.c 287-288 *)
Fixpoint skip_space (s : list Z) : list Z := match s with c :: s' => if isspace c then skip_space s' else s | [] => [] end.
(** examples/imcalc.c 309-319: the kind of token, the characters stored from
    position [pos] on, and the rest of the input. *)
Fixpoint token_loop (res : token) (size pos : Z) (s : list Z) : token * list Z * list Z :=
  match s with
  | [] => (res, [], [])
  | ch :: s' =>
      if (match res with t_number => ispunct ch && negb (ch =? 45) | t_symbol => isdigit ch | _ => false end) || isspace ch then (res, [], s)
      else if size <=? pos + 1 then (t_error, [], s')
      else let '(r, cs, rest) := token_loop res size (pos + 1) s' in (r, ch :: cs, rest)
  end.
(** The string up to the first NUL. *)
Fixpoint c_string (l : list Z) : list Z := match l with c :: l' => if c =? 0 then [] else c :: c_string l' | [] => [] end.
(** examples/imcalc.c 281-322: the kind of token, the string in the buffer, the rest
    of the input. *)
Definition next_token (size : Z) (s : list Z) : token * list Z * list Z :=
  match skip_space s with
  | [] => (t_eof, [], [])
  | ch :: s' =>
      let res := if ch =? 45 then match s' with next :: _ => if isdigit next then t_number else t_symbol | [] => t_symbol end
                 else if isdigit ch || (ch =? 35) then t_number else t_symbol in
      let '(r, cs, rest) := token_loop res size 1 s' in (r, c_string (ch :: cs), rest)
  end.

(** examples/imcalc.c 324-369: the result and [*out]. *)
Definition read_number (buf : list Z) : prog (Z * option oid) :=
  let read radix s :=
    value <- mp_int_alloc;
    match value with
    | None => Ret (MP_MEMORY, None)
    | Some value =>
        res <- mp_int_read_string value radix s;
        if negb (res =? MP_OK) then mp_int_free value;; Ret (res, None) else Ret (res, Some value)
    end in
  match buf with
  | 35 :: c :: s =>
      if (c =? 98) || (c =? 66) then read 2 s else
      if (c =? 100) || (c =? 68) then read 10 s else
      if (c =? 111) || (c =? 79) then read 8 s else
      if (c =? 120) || (c =? 88) then read 16 s else Ret (MP_BADARG, None)
  | 35 :: [] => Ret (MP_BADARG, None)
  | _ => read 10 buf
  end.

(** printf's %02x and %2d for numbers from 0 on. *)
Definition hex_digit (d : Z) : Z := if d <? 10 then 48 + d else 87 + d.
Definition hex2 (c : Z) : list Z := [hex_digit (c / 16); hex_digit (c mod 16)].
Fixpoint decimal (fuel : nat) (n : Z) : list Z :=
  match fuel with O => [] | S f => (if n <? 10 then [] else decimal f (n / 10)) ++ [48 + n mod 10] end.
Definition pad2 (n : nat) : list Z := (if (n <? 10)%nat then [32] else []) ++ decimal (S n) (Z.of_nat n).
Definition newline : list Z := [10].
(** The bytes printed by examples/imcalc.c 396-399, from [n] bytes at [p]. *)
Fixpoint print_bytes (n : nat) (p : ptr) : prog (list Z) :=
  match n with
  | O => Ret []
  | S O => c <- Load p; Ret (hex2 c ++ newline)
  | S n' => c <- Load p; s <- print_bytes n' (p +p 1); Ret (hex2 c ++ [46] ++ s)
  end.
Definition no_memory_to_print : list Z := bytes "<insufficient memory to print>" ++ newline.
(** examples/imcalc.c 389-418: what is printed. *)
Definition print_value (radix : Z) (v : oid) : prog (list Z) :=
  if radix =? 0 then
    len <- mp_int_binary_len v;
    Malloc len (fun q => match q with
      | None => Ret no_memory_to_print
      | Some buf => mp_int_to_binary v buf len;; s <- print_bytes (Z.to_nat len) buf; Free buf (Ret s)
      end)
  else
    len <- mp_int_string_len v radix;
    Malloc len (fun q => match q with
      | None => Ret no_memory_to_print
      | Some buf => mp_int_to_string v radix buf len;; s <- cstring (Z.to_nat len + 1) buf; Free buf (Ret (s ++ newline))
      end).

(** ** The stack and the variables *)
(** examples/imcalc.c 557-576, without the growth of the array *)
Definition stack_push (sp : cstate) (elt : oid) : prog (Z * cstate) := Ret (MP_OK, set_elts sp (elt :: cs_elts sp)).
(** examples/imcalc.c 578-588 *)
Definition stack_pop (sp : cstate) : prog (Z * cstate) :=
  match cs_elts sp with
  | [] => Ret (MP_UNDEF, sp)
  | o :: l => mp_int_clear o;; Ret (MP_OK, set_elts sp l)
  end.
(** examples/imcalc.c 544-555 *)
Fixpoint clear_all (l : list oid) : prog unit := match l with [] => Ret tt | o :: l' => mp_int_clear o;; clear_all l' end.
Definition stack_flush (sp : cstate) : prog cstate := clear_all (cs_elts sp);; Ret (set_elts sp []).
(** The place of a name in the table: the variables before it, it, and those after. *)
Fixpoint find_name (name : list Z) (m : list (list Z * oid)) : option (list (list Z * oid) * oid * list (list Z * oid)) :=
  match m with
  | [] => None
  | (n, o) :: m' =>
      if bool_decide (name = n) then Some ([], o, m') else
      match find_name name m' with Some (l, o', r) => Some ((n, o) :: l, o', r) | None => None end
  end.
(** examples/imcalc.c 590-636.  If mp_int_alloc gives NULL, the assertion of
    mp_int_copy fails (without assertions it dereferences NULL). *)
Definition mem_insert (sp : cstate) (name : list Z) (value : oid) : prog (Z * cstate) :=
  let fill l r :=
    new <- mp_int_alloc;
    Assert ALogic (bool_decide (is_Some new)) (match new with
      | Some o => res <- mp_int_copy value o; Ret (res, set_mem sp (l ++ (name, o) :: r))
      | None => Undef
      end) in
  match find_name name (cs_mem sp) with
  | Some (l, o, r) => mp_int_free o;; fill l r
  | None => fill (cs_mem sp) []
  end.
(** examples/imcalc.c 638-648 *)
Definition mem_recall (sp : cstate) (name : list Z) (value : oid) : prog Z :=
  match find_name name (cs_mem sp) with
  | Some (_, o, _) => mp_int_copy o value
  | None => Ret MP_UNDEF
  end.
(** examples/imcalc.c 650-660 *)
Fixpoint free_all (m : list (list Z * oid)) : prog unit := match m with [] => Ret tt | (_, o) :: m' => mp_int_free o;; free_all m' end.
Definition mem_clear (sp : cstate) : prog (Z * cstate) := free_all (cs_mem sp);; Ret (MP_OK, set_mem sp []).

(** ** The operators *)
Notation handler := (cstate -> prog (Z * cstate)).
(** Operators that need a number of operands are only called with them (440-442). *)
Definition with1 (f : oid -> prog (Z * cstate)) (sp : cstate) : prog (Z * cstate) :=
  match cs_elts sp with a :: _ => f a | _ => Undef end.
Definition with2 (f : oid -> oid -> prog (Z * cstate)) (sp : cstate) : prog (Z * cstate) :=
  match cs_elts sp with b :: a :: _ => f a b | _ => Undef end.
Definition with3 (f : oid -> oid -> oid -> prog (Z * cstate)) (sp : cstate) : prog (Z * cstate) :=
  match cs_elts sp with m :: b :: a :: _ => f a b m | _ => Undef end.
Definition stay (sp : cstate) (p : prog Z) : prog (Z * cstate) := res <- p; Ret (res, sp).
(** [if (res == MP_OK) stack_pop(sp); return res;] *)
Definition and_pop (sp : cstate) (p : prog Z) : prog (Z * cstate) :=
  res <- p; if res =? MP_OK then r <- stack_pop sp; Ret (res, snd r) else Ret (res, sp).

(** examples/imcalc.c 662-666 *)
Definition cf_abs : handler := fun sp => with1 (fun a => stay sp (mp_int_abs a a)) sp.
(** examples/imcalc.c 668-672 *)
Definition cf_neg : handler := fun sp => with1 (fun a => stay sp (mp_int_neg a a)) sp.
(** examples/imcalc.c 674-682 *)
Definition cf_add : handler := fun sp => with2 (fun a b => and_pop sp (mp_int_add a b a)) sp.
(** examples/imcalc.c 684-692 *)
Definition cf_sub : handler := fun sp => with2 (fun a b => and_pop sp (mp_int_sub a b a)) sp.
(** examples/imcalc.c 694-702 *)
Definition cf_mul : handler := fun sp => with2 (fun a b => and_pop sp (mp_int_mul a b a)) sp.
(** examples/imcalc.c 704-709 *)
Definition cf_divmod : handler := fun sp => with2 (fun a b => stay sp (mp_int_div a b (Some a) (Some b))) sp.
(** examples/imcalc.c 711-719 *)
Definition cf_div : handler := fun sp => with2 (fun a b => and_pop sp (mp_int_div a b (Some a) None)) sp.
(** examples/imcalc.c 721-729 *)
Definition cf_mod : handler := fun sp => with2 (fun a b => and_pop sp (mp_int_mod a b a)) sp.
(** examples/imcalc.c 731-741 *)
Definition cf_expt : handler := fun sp => with2 (fun a b =>
  rv <- mp_int_to_int b;
  match rv with
  | (0, Some bval) => p <- stack_pop sp; res <- mp_int_expt a bval a; Ret (res, snd p)
  | (res, _) => Ret (res, sp)
  end) sp.
(** examples/imcalc.c 743-755 *)
Definition cf_exptmod : handler := fun sp => with3 (fun a b m =>
  res <- mp_int_exptmod a b m a;
  if res =? MP_OK then p <- stack_pop sp; p' <- stack_pop (snd p); Ret (res, snd p') else Ret (res, sp)) sp.
(** examples/imcalc.c 757-761 *)
Definition cf_square : handler := fun sp => with1 (fun a => stay sp (mp_int_sqr a a)) sp.
(** examples/imcalc.c 763-771 *)
Definition cf_invmod : handler := fun sp => with2 (fun a m =>
  res <- mp_int_invmod a m a; p <- stack_pop sp; Ret (res, snd p)) sp.
(** examples/imcalc.c 773-781 *)
Definition cf_gcd : handler := fun sp => with2 (fun a b => and_pop sp (mp_int_gcd a b a)) sp.
(** examples/imcalc.c 783-798 *)
Definition cf_xgcd : handler := fun sp => with2 (fun a b =>
  t <- mp_int_alloc;
  match t with
  | None => Ret (MP_MEMORY, sp)
  | Some t =>
      res <- mp_int_egcd a b a (Some b) (Some t);
      if negb (res =? MP_OK) then mp_int_free t;; Ret (res, sp) else stack_push sp t
  end) sp.
(** examples/imcalc.c 800-804 *)
Definition cf_sqrt : handler := fun sp => with1 (fun a => stay sp (mp_int_sqrt a a)) sp.
(** examples/imcalc.c 806-816 *)
Definition cf_root : handler := fun sp => with2 (fun a bp =>
  rv <- mp_int_to_int bp;
  match rv with
  | (0, Some b) => p <- stack_pop sp; res <- mp_int_root a b a; Ret (res, snd p)
  | (res, _) => Ret (res, sp)
  end) sp.
(** examples/imcalc.c 818-876 *)
Definition cf_cmp (test : Z -> bool) : handler := fun sp => with2 (fun a b =>
  c <- mp_int_compare a b;
  res <- mp_int_set_value a (if test c then 1 else 0);
  p <- stack_pop sp; Ret (res, snd p)) sp.
(** examples/imcalc.c 878-882 *)
Definition cf_inc : handler := fun sp => with1 (fun a => stay sp (mp_int_add_value a 1 a)) sp.
(** examples/imcalc.c 884-888 *)
Definition cf_dec : handler := fun sp => with1 (fun a => stay sp (mp_int_sub_value a 1 a)) sp.
(** examples/imcalc.c 890-909.  The number of steps allowed is above the value. *)
Definition fact_body (x tmp : oid) (_ : unit) : prog (unit + Z) :=
  c <- mp_int_compare_value x 1;
  if 0 <? c then
    res <- mp_int_mul tmp x tmp;
    if negb (res =? MP_OK) then Ret (inr res) else
    res <- mp_int_sub_value x 1 x;
    if negb (res =? MP_OK) then Ret (inr res) else Ret (inl tt)
  else res <- mp_int_copy tmp x; Ret (inr res).
Definition cf_fact : handler := fun sp => with1 (fun x =>
  c <- mp_int_compare_zero x;
  if c <? 0 then Ret (MP_UNDEF, sp) else
  stay sp (NewO (fun tmp =>
    mp_int_init_value tmp 1;;
    u <- get_used x;
    res <- loop (Z.to_nat (32 * u)) (fact_body x tmp) tt;
    mp_int_clear tmp;; DelO tmp (Ret res)))) sp.
(** examples/imcalc.c 911-915 *)
Definition cf_pprint : handler := fun sp => with1 (fun a =>
  s <- print_value (cs_radix sp) a; p <- stack_pop (put_out sp s); Ret (MP_OK, snd p)) sp.
(** examples/imcalc.c 917-920 *)
Definition cf_print : handler := fun sp => with1 (fun a =>
  s <- print_value (cs_radix sp) a; Ret (MP_OK, put_out sp s)) sp.
(** examples/imcalc.c 922-935 *)
Fixpoint print_stack (radix : Z) (ix : nat) (l : list oid) : prog (list Z) :=
  match l with
  | [] => Ret []
  | o :: l' => s <- print_value radix o; s' <- print_stack radix (S ix) l'; Ret (pad2 ix ++ [58; 32] ++ s ++ s')
  end.
Definition cf_pstack : handler := fun sp =>
  match cs_elts sp with
  | [] => Ret (MP_OK, put_out sp (bytes "<stack empty>" ++ newline))
  | l => s <- print_stack (cs_radix sp) 0 l; Ret (MP_OK, put_out sp s)
  end.
(** examples/imcalc.c 937-941 *)
Definition cf_clstk : handler := fun sp => sp' <- stack_flush sp; Ret (MP_OK, sp').
(** examples/imcalc.c 943 *)
Definition cf_pop : handler := stack_pop.
(** examples/imcalc.c 945-959 *)
Definition dup (sp : cstate) (old : oid) : prog (Z * cstate) :=
  new <- mp_int_alloc;
  match new with
  | None => Ret (MP_MEMORY, sp)
  | Some cp =>
      res <- mp_int_copy old cp;
      if negb (res =? MP_OK) then mp_int_free cp;; Ret (res, sp) else stack_push sp cp
  end.
Definition cf_dup : handler := fun sp => with1 (dup sp) sp.
(** examples/imcalc.c 961-987 *)
Fixpoint copy_loop (n : nat) (ncopy : nat) (sp : cstate) : prog (Z * cstate) :=
  match n with
  | O => Ret (MP_OK, sp)
  | S n' =>
      match cs_elts sp !! (ncopy - 1)%nat with
      | None => Undef
      | Some old =>
          p <- dup sp old;
          if negb (fst p =? MP_OK) then Ret p else copy_loop n' ncopy (snd p)
      end
  end.
Definition cf_copy : handler := fun sp => with1 (fun n =>
  rv <- mp_int_to_int n;
  match rv with
  | (0, Some ncopy) =>
      if (ncopy <? 1) || (Z.of_nat (length (cs_elts sp)) <=? ncopy) then Ret (MP_RANGE, sp) else
      p <- stack_pop sp; copy_loop (Z.to_nat ncopy) (Z.to_nat ncopy) (snd p)
  | (res, _) => Ret (res, sp)
  end) sp.
(** examples/imcalc.c 989-996 *)
Definition cf_swap : handler := fun sp =>
  match cs_elts sp with x :: y :: l => Ret (MP_OK, set_elts sp (y :: x :: l)) | _ => Undef end.
(** examples/imcalc.c 998-1006 *)
Definition cf_rot : handler := fun sp =>
  match cs_elts sp with c :: b :: a :: l => Ret (MP_OK, set_elts sp (a :: c :: b :: l)) | _ => Undef end.
(** examples/imcalc.c 1008-1018 *)
Definition cf_pick : handler := fun sp => with1 (fun n =>
  rv <- mp_int_to_int n;
  match rv with
  | (0, Some pos) =>
      if (pos <? 0) || (Z.of_nat (length (cs_elts sp)) - 1 <=? pos) then Ret (MP_RANGE, sp) else
      match cs_elts sp !! (1 + Z.to_nat pos)%nat with Some o => stay sp (mp_int_copy o n) | None => Undef end
  | (res, _) => Ret (res, sp)
  end) sp.
(** examples/imcalc.c 1020-1032 *)
Definition cf_setr : handler := fun sp => with1 (fun a =>
  rv <- mp_int_to_int a;
  match rv with
  | (0, Some rdx) =>
      if (rdx <? 2) || (36 <? rdx) then Ret (MP_RANGE, sp) else
      p <- stack_pop (set_radix sp rdx); Ret (MP_OK, snd p)
  | (res, _) => Ret (res, sp)
  end) sp.
(** examples/imcalc.c 1034-1037 *)
Definition cf_setbin : handler := fun sp => Ret (MP_OK, set_radix sp 0).
(** examples/imcalc.c 1039-1060: the text goes to stderr. *)
Definition cf_help : handler := fun sp => Ret (MP_OK, sp).
(** examples/imcalc.c 217: MP_MINERR - 1 *)
Definition MP_INPUT : Z := -7.
(** examples/imcalc.c 1062-1071 *)
Definition cf_store : handler := fun sp =>
  let '(t, buf, rest) := next_token BUFFER_SIZE (cs_in sp) in
  let sp := set_token sp rest buf in
  match t with
  | t_symbol => with1 (fun a =>
      p <- mem_insert sp buf a;
      if negb (fst p =? MP_OK) then Ret p else stack_pop (snd p)) sp
  | _ => Ret (MP_INPUT, sp)
  end.
(** examples/imcalc.c 1119-1131 *)
Definition cf_qrecall : handler := fun sp =>
  val <- mp_int_alloc;
  match val with
  | None => Ret (MP_MEMORY, sp)
  | Some val =>
      res <- mem_recall sp (cs_buf sp) val;
      if negb (res =? MP_OK) then mp_int_free val;; Ret (res, sp) else stack_push sp val
  end.
(** examples/imcalc.c 1073-1086 *)
Definition cf_recall : handler := fun sp =>
  let '(t, buf, rest) := next_token BUFFER_SIZE (cs_in sp) in
  let sp := set_token sp rest buf in
  match t with t_symbol => cf_qrecall sp | _ => Ret (MP_INPUT, sp) end.
(** examples/imcalc.c 1088 *)
Definition cf_cmem : handler := mem_clear.
(** examples/imcalc.c 1090-1117 *)
Fixpoint print_mem (radix : Z) (max_len : nat) (m : list (list Z * oid)) : prog (list Z) :=
  match m with
  | [] => Ret []
  | (n, o) :: m' =>
      s <- print_value radix o; s' <- print_mem radix max_len m';
      Ret (n ++ [58] ++ replicate (max_len - length n) 32 ++ s ++ s')
  end.
Definition cf_pmem : handler := fun sp =>
  match cs_mem sp with
  | [] => Ret (MP_OK, put_out sp (bytes "<memory empty>" ++ newline))
  | m => s <- print_mem (cs_radix sp) (foldr Nat.max O (map (fun p => length (fst p)) m) + 1) m; Ret (MP_OK, put_out sp s)
  end.

(** examples/imcalc.c 123-188: name, number of operands, handler *)
Definition g_ops : list (list Z * nat * handler) := [
  (bytes "abs", 1%nat, cf_abs); (bytes "neg", 1%nat, cf_neg); (bytes "+", 2%nat, cf_add); (bytes "add", 2%nat, cf_add);
  (bytes "-", 2%nat, cf_sub); (bytes "sub", 2%nat, cf_sub); (bytes "*", 2%nat, cf_mul); (bytes "mul", 2%nat, cf_mul);
  (bytes "/", 2%nat, cf_divmod); (bytes "//", 2%nat, cf_div); (bytes "div", 2%nat, cf_div); (bytes "%", 2%nat, cf_mod);
  (bytes "mod", 2%nat, cf_mod); (bytes "^", 2%nat, cf_expt); (bytes "expt", 2%nat, cf_expt); (bytes "^^", 3%nat, cf_exptmod);
  (bytes "emod", 3%nat, cf_exptmod); (bytes "sqr", 1%nat, cf_square); (bytes "inv", 2%nat, cf_invmod); (bytes "gcd", 2%nat, cf_gcd);
  (bytes "xgcd", 2%nat, cf_xgcd); (bytes "sqrt", 1%nat, cf_sqrt); (bytes "root", 2%nat, cf_root);
  (bytes "<", 2%nat, cf_cmp (fun c => c <? 0)); (bytes ">", 2%nat, cf_cmp (fun c => 0 <? c));
  (bytes "<=", 2%nat, cf_cmp (fun c => c <=? 0)); (bytes ">=", 2%nat, cf_cmp (fun c => 0 <=? c));
  (bytes "=", 2%nat, cf_cmp (fun c => c =? 0)); (bytes "<>", 2%nat, cf_cmp (fun c => negb (c =? 0)));
  (bytes "inc", 1%nat, cf_inc); (bytes "dec", 1%nat, cf_dec); (bytes "!", 1%nat, cf_fact); (bytes "fact", 1%nat, cf_fact);
  (bytes ".", 1%nat, cf_pprint); (bytes ";", 1%nat, cf_print); (bytes "?", 0%nat, cf_pstack); (bytes "cls", 0%nat, cf_clstk);
  (bytes "$", 1%nat, cf_pop); (bytes "drop", 1%nat, cf_pop); (bytes "dup", 1%nat, cf_dup); (bytes "copy", 2%nat, cf_copy);
  (bytes "swap", 2%nat, cf_swap); (bytes "rot", 3%nat, cf_rot); (bytes "pick", 2%nat, cf_pick);
  (bytes ">>", 1%nat, cf_store); (bytes "<<", 0%nat, cf_recall); (bytes "clm", 0%nat, cf_cmem); (bytes "??", 0%nat, cf_pmem);
  (bytes "out", 1%nat, cf_setr); (bytes "bin", 0%nat, cf_setbin); (bytes "help", 0%nat, cf_help) ].

(** strcasecmp (s, t) == 0 *)
Definition tolower (c : Z) : Z := if (65 <=? c) && (c <=? 90) then c + 32 else c.
Definition same_word (s t : list Z) : bool := bool_decide (map tolower s = map tolower t).
(** examples/imcalc.c 371-387: the number of operands and the handler. *)
Fixpoint find_op (buf : list Z) (ops : list (list Z * nat * handler)) : option (nat * handler) :=
  match ops with
  | [] => None
  | (name, n, h) :: ops' => if same_word buf name then Some (n, h) else find_op buf ops'
  end.
Definition find_command (sp : cstate) : option (nat * handler) :=
  match find_op (cs_buf sp) g_ops with
  | Some x => Some x
  | None => if bool_decide (cs_buf sp ∈ map fst (cs_mem sp)) then Some (O, cf_qrecall) else None
  end.

(** examples/imcalc.c 420-460.  Each token takes one character at least. *)
Fixpoint run_loop (n : nat) (res : Z) (sp : cstate) : prog (Z * cstate) :=
  match n with
  | O => NoFuel
  | S n' =>
      let '(next, buf, rest) := next_token BUFFER_SIZE (cs_in sp) in
      let sp := set_token sp rest buf in
      match next with
      | t_eof => Ret (res, sp)
      | t_number =>
          rv <- read_number buf;
          match rv with
          | (0, Some value) => p <- stack_push sp value; if negb (fst p =? MP_OK) then Ret p else run_loop n' (fst p) (snd p)
          | (res, _) => run_loop n' res sp
          end
      | t_symbol =>
          match find_command sp with
          | None => run_loop n' res sp
          | Some (need, h) =>
              if (length (cs_elts sp) <? need)%nat then run_loop n' res sp else
              p <- h sp; run_loop n' (fst p) (snd p)
          end
      | t_error => Ret (MP_BADARG, sp)
      end
  end.
Definition run_file (sp : cstate) : prog (Z * cstate) := run_loop (S (length (cs_in sp))) MP_OK sp.
(** examples/imcalc.c 500-542 *)
Definition state_clear (sp : cstate) : prog unit := clear_all (rev (cs_elts sp));; free_all (cs_mem sp).
(** examples/imcalc.c 207-279 without arguments: the exit code and the output. *)
Definition imcalc_main (input : list Z) : prog (Z * list Z) :=
  p <- run_file (CS [] [] input [] 10 []);
  state_clear (snd p);;
  Ret (if fst p =? MP_OK then 0 else 1, cs_out (snd p)).
