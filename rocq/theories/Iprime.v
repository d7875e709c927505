(** Model of iprime.c. *)
From Coq Require Import ZArith List Lia.
From stdpp Require Import gmap list.
From Verif Require Import Mem Prog Kern Imath Imrat.
Local Open Scope Z_scope.
Local Open Scope prog_scope.

(** iprime.c 30-44, without the sentinel. *)
Definition s_ptab : list Z :=
  [2;   3;   5;   7;   11;  13;  17;  19;  23;  29;  31;  37;  41;  43;  47;
   53;  59;  61;  67;  71;  73;  79;  83;  89;  97;  101; 103; 107; 109; 113;
   127; 131; 137; 139; 149; 151; 157; 163; 167; 173; 179; 181; 191; 193; 197;
   199; 211; 223; 227; 229; 233; 239; 241; 251; 257; 263; 269; 271; 277; 281;
   283; 293; 307; 311; 313; 317; 331; 337; 347; 349; 353; 359; 367; 373; 379;
   383; 389; 397; 401; 409; 419; 421; 431; 433; 439; 443; 449; 457; 461; 463;
   467; 479; 487; 491; 499; 503; 509; 521; 523; 541; 547; 557; 563; 569; 571;
   577; 587; 593; 599; 601; 607; 613; 617; 619; 631; 641; 643; 647; 653; 659;
   661; 673; 677; 683; 691; 701; 709; 719; 727; 733; 739; 743; 751; 757; 761;
   769; 773; 787; 797; 809; 811; 821; 823; 827; 829; 839; 853; 857; 859; 863;
   877; 881; 883; 887; 907; 911; 919; 929; 937; 941; 947; 953; 967; 971; 977;
   983; 991; 997].

(** iprime.c 54-60: the loop over the table up to the sentinel.  [Some r]: the
    function returns [r] from inside the loop. *)
Fixpoint trial (z : oid) (ps : list Z) : prog (option Z) :=
  match ps with
  | [] => Ret None
  | p :: ps' =>
      c <- mp_int_compare_value z p;
      if c =? 0 then Ret (Some MP_TRUE) else
      x <- mp_int_div_value z p None;
      if negb (x.1 =? MP_OK) then Ret (Some x.1) else
      match x.2 with
      | Some rem => if rem =? 0 then Ret (Some MP_FALSE) else trial z ps'
      | None => Undef                    (* rem read without having been set *)
      end
  end.

(** iprime.c 70-78: the loop over the first ten primes.  [inl r]: the function
    returns [r] without clearing the temporary; [inr r]: the temporary is
    cleared and [r] returned. *)
Fixpoint fermat_tests (z tmp : oid) (ps : list Z) : prog (Z + Z) :=
  match ps with
  | [] => Ret (inr MP_TRUE)
  | p :: ps' =>
      res <- mp_int_exptmod_bvalue p z z tmp;
      if negb (res =? MP_OK) then Ret (inl res) else
      c <- mp_int_compare_value tmp p;
      if negb (c =? 0) then Ret (inr MP_FALSE) else fermat_tests z tmp ps'
  end.

(** iprime.c 46-81; [with_init] (Imrat.v) is the life of the local [tmp], which
    is not cleared when [fermat_tests] fails. *)
Definition mp_int_is_prime (z : oid) : prog Z :=
  c <- mp_int_compare_value z 2;
  if c <? 0 then Ret MP_FALSE else
  r <- trial z s_ptab;
  match r with
  | Some x => Ret x
  | None =>
      r <- with_init (fun r => match r with inl _ => true | inr _ => false end) mp_int_init inl
             (fun tmp => fermat_tests z tmp (take 10 s_ptab));
      match r with inl e => Ret e | inr x => Ret x end
  end.

(** iprime.c 90-92 *)
Definition find_body (z : oid) (_ : unit) : prog (unit + Z) :=
  res <- mp_int_is_prime z;
  if negb (res =? MP_FALSE) then Ret (inr res) else
  res <- mp_int_add_value z 2 z;
  if negb (res =? MP_OK) then Ret (inr res) else Ret (inl tt).

(** iprime.c 84-95.  The loop is bounded by 2^(64 u + 4) rounds for [z] of [u]
    digits; theorem [C34_find_prime] shows that this never runs out. *)
Definition mp_int_find_prime (z : oid) : prog Z :=
  e <- mp_int_is_even z;
  res <- (if e then mp_int_add_value z 1 z else Ret MP_OK);
  if negb (res =? MP_OK) then Ret res else
  u <- get_used z;
  loop (Z.to_nat (64 * u + 4)) (find_body z) tt.
