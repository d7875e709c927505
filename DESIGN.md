# Formal model of creachadair/imath in Rocq

## 1. What is modelled

The default build of the library (`mp_digit` = 32-bit unsigned, `mp_word` =
64-bit unsigned, `mp_small` = 64-bit `long`, asserts enabled; `NDEBUG`: C28, C29, C54, C55, C61, C66, C69; `DEBUG`: C68;
no logging) is transcribed function by function into *programs over an explicit
C memory*:

* `Mem.v`  – memory: a map from blocks to arrays of cells.  A cell is `None`
  when indeterminate (fresh `malloc` storage) or `Some d`.  Blocks are the
  `single` field inside an `mpz_t`, a heap block, a local array or a caller's
  byte buffer.  Pointers are (block, offset).
* `Prog.v` – a free monad whose operations are exactly the memory effects the
  C code performs (peek/poke, struct read/write, malloc/realloc/free, local
  arrays, globals, assert).  `run` executes a program against an allocator
  oracle; outcomes are `Done`, `OOM` (the `assert(out != NULL)` of
  `s_alloc`/`s_realloc` fired), `AssertFail`, `UB` (out of bounds, reading an
  indeterminate digit, bad free, overlapping memcpy, NULL dereference, signed
  overflow) and `NoFuel`.  `run_nd` is the `NDEBUG` build.
* The environment (`oracle`) decides, as arbitrary functions of the number of
  requests so far, which requests are granted and what a new structure holds;
  and, as an arbitrary function of that number and of the whole state, at which
  free address every new block or structure is placed.  `realloc` may leave the block where it is or move it.  All theorems
  hold for every such environment.
* `wp p Q st`: for every allocator oracle, the run ends in `Done` with `Q`, or
  in `OOM`.  UB, AssertFail and NoFuel are excluded.

Everything is a total computable Gallina function; `while` loops use a fuel
that the model computes from the operand sizes, and every theorem excludes
`NoFuel`.

Environment assumption: the allocator refuses any request above 2^25 digits
(128 MiB), so that `mp_size` (32-bit) size arithmetic cannot wrap.  Narrowing
casts of API arguments (`(mp_size)p2`, `unsigned int v = labs(b)`) are
modelled with their wrap.  Nothing else is assumed of the allocator.

Doubles in `s_inlen`/`s_outlen` are modelled by exact integer arithmetic for
IEEE binary64 round-to-nearest-even (no Reals axioms).

## 2. Layers of proof

0. digit kernels: exact final-state specs over digit arrays, in place or not;
1. a representation relation between a memory and a map from handles to
   sign/digits/stale storage, including exact ownership of every heap block;
2. functional specs of each API function: values, frame, no leak;
3. property theorems, in files that contain nothing else.

Properties that turn out false of the code are stated precisely where they
hold, and the failing case is a theorem named `..._refuted` (a concrete
execution computed in the model).

Files, in build order:

| Files | Contents |
|---|---|
| Mem, Prog | memory, programs, `run` |
| Kern, Fp, Imath, Imrat, Iprime, Rsamath, Gmp, GmpAlloc | the model of imath.c (digit kernels, binary64 arithmetic, API), imrat.c, iprime.c, rsamath.c, gmp_compat.c |
| Exec, Wp | meta-theory of `run` and `wp` |
| MemLem ... KernDig | layer 0 |
| Rel ... Powr, Gcd ... Short, Bin, Rat, RatText, RatDec, RatOut, Prime, Rsa, Gmpr, Impexp, Outup, Gmpstr, Chk, Galloc | layers 1 and 2: one `wpV_*` rule per API function |
| NumTh | number theory (Fermat, a prime between m and 2m^2, RSA exponents); uses mathcomp |
| Hist, Room, Refuse, Still | histories of calls; storage; behaviour after a refused request |
| Conc, ConcRun, Const, ConstFns, Threads, ConcFns, ConcApi | threads: schedules; no function writes its operands; views |
| Spec, SpecBin, SpecRat, SpecDec, SpecPrime, SpecGmp, SpecGstr, SpecHist, SpecQHist, SpecConc, SpecRef, SpecLow, SpecGalloc, SpecKey | the small separate specifications used in theorem statements |
| Concrete, ConcreteRat | concrete states for the non-vacuity examples |
| P*.v | property theorems, each with an example and `Print Assumptions` |

## 3. Plan per property

| Property | Model | Proof |
|---|---|---|
| C01, C02 add/sub | s_uadd, s_usub, s_ucmp, s_pad, CLAMP, mp_int_add/sub, s_fake | induction on digits with carry invariant; arbitrary aliasing via arbitrary handles |
| C03, C04 mul/sqr | s_umul, s_kmul, s_usqr, s_ksqr, s_udad | loop invariants; strong induction on size for Karatsuba |
| C05, C06 div/mod | s_udiv_knuth, s_norm, s_ddiv, s_qdiv, s_qmod | Knuth Theorem A/B; loop invariant on remainder prefix |
| C07 pow2 | s_qmul, s_qdiv, s_qmod | bit-shift invariants; truncation of k refuted for k>=2^32 |
| C08 expt | expt, expt_value, expt_full | square-and-multiply invariant |
| C09 compare | s_ucmp, s_cdig, s_vcmp | lexicographic order = value order |
| C10-C13 gcd, egcd, lcm, invmod | binary gcd loops | invariant gcd preserved, measure decreases; Bezout invariant |
| C14 exptmod | s_brmu, s_reduce, s_qsub, s_embar | Barrett bound; stale-digit argument |
| C15 root | Newton loop | AM-GM/Bernoulli in Z; decreasing measure |
| C16 conversions | s_fake, s_uvpack, to_int, to_uint | digit arithmetic |
| C17-C20 text | to_string, read_cstring, s_inlen, s_outlen | digits of numeral; integer rounding-error analysis |
| C21, C22 binary | s_tobin, s_2comp, read/to binary/unsigned | byte-list lemmas |
| C23-C28 | whole model | representation relation preserved; step simulation over histories; meta-theorem run/run_nd |
| C29 OOM | run false | refuted by concrete schedules for mul, sqr, div (PStore.v) and for the functions built on them (PExhaust.v); Refuse.v follows each of the other programs after a refusal |
| C50 storage | whole model | the L2 relation carries a lower bound of the capacity (Room.v) |
| C30-C32 | as named | kernel specs |
| C33, C34 primes | iprime.c | Fermat's little theorem, Euclid's theorem proved in Z |
| C35-C38 rationals | imrat.c | compositional over integer specs |
| C39-C41 rational text | mp_rat_to_string, to_decimal, read_* | compositional over the integer text rules; digit-list arithmetic (horner), rounding as inequalities |
| C42-C44 RSA | rsamath.c | byte-list proofs, Fermat + CRT |
| C45-C48 GMP | gmp_compat.c | compositional |
| C51, C52 GMP interface | gmp_compat.c: direct translations, get_str, set_str, sizeinbase | compositional; the reported length is at most one too large (Outup.v: upper bound for the floating-point product) |
| C53 life of rationals | mp_rat_init ... mp_rat_free | compositional over the integer life cycle rules |
| C54 after a refusal | run false | Soft.v: the program without its assert(out != NULL) behaves in both builds alike and never stops for memory; rules for it in the same weakest precondition, with a branch for each refused request (Soft.v, Soft2.v, Soft3.v, Soft4.v; the last also tracks that short products make no request inside the digit loops; Soft6.v: egcd, whose failure may leave one of its eight temporaries without a number); refutations by concrete runs |
| C55 programs that run out of memory | run false, drive | SpecLow.v: the store of SpecHist with a set of spoilt integers and, for each call, what a failure leaves behind; Low.v: one lemma by cases on the call in the soft logic (spoilt integers become raw structures whose block is part of the frame, Soft5.v), then induction on the client; PLow.v |
| C56 programs with rationals | drive_q | SpecQHist.v: the store of SpecHist together with the map of the rationals (keyed by the handles of their two members, `None` after a failed read), `qlegal`, `qeffect`; QHist.v: one lemma by cases over all calls from the rules of Rat/RatText/RatDec/RatOut and `one_call` of Hist; invariant `tidy`: members distinct and in lowest terms; induction on the client. |
| C57 allocation in the GMP interface | get_str and export with a null buffer, the copy in mpq_set_str (GmpAlloc.v) | the rules of Gmpstr and Impexp after a rule for a new block; the unchecked `malloc` by comparison with the same program with an assertion (Chk.v, Galloc.v); refutations by concrete runs |
| C58 threads | the same programs, one effect at a time: `step`, `interleaves`, `races` (Conc.v); what may be shared is in SpecConc.v | a second predicate transformer `wpw` (Const.v) that forbids writing shared structures and blocks, proved for every function of Kern.v and Imath.v (ConstFns.v); a step of one thread on its view of the memory keeps the other views (Threads.v); views from a divided store and back (ConcApi.v); the race on mp_int_read_binary by a concrete schedule |
| C59 digits of pi | `arctan`, `pi_main` (ExPi.v, from examples/pi.c) | loop invariant: after k rounds t = M x / x^2k and the sum is the alternating sum of floor(M / ((2k+1) x^(2k+1))) (ExPiR.v); Arctan.v: error of the truncated terms plus the remainder of the alternating series for atan (Coq.Reals), number of terms by logarithms, Machin's formula of the standard library (PPi.v); refutations by concrete runs |
| C60 key generator | `mp_int_randomize`, `make_key`, `rsa_key_write`, `rsakey_main` (ExRsakey.v, from examples/rsakey.c); the random device is a list of reads, given from outside | SpecKey.v says what key belongs to which reads; ExRsakeyR.v: the masked bytes against the bits of the number, induction over the remaining reads for the exponent, the buffer of the printed numerals; round trip by `rsa_exponents` of C43 |
| C61 rationals, refused requests | `mp_rat_*` (Imrat.v), run with `run false` and any oracle | SoftRat.v, SoftRatT.v: rules for `soft` runs, composed from those of the integer functions (Soft*.v), one case for each request; PRatRefuse.v: `withstands` theorems, and refutations by a state, an operand and one refused request (`orc_but k`), checked by computation |
| C62 calculator | `next_token`, `read_number`, `print_value`, stack and variables, `cf_*`, `find_command`, `run_file`, `imcalc_main` (ExCalc.v, from examples/imcalc.c); input and output are lists of bytes; the arrays of operands and variables are lists (their growth is not modelled) | SpecCalc.v: the machine (`effect_of`, `does`, `runs`) and the notation (`written`); ExCalcR.v: the store of the program's integers next to the machine's values; ExCalcH.v: one lemma for each operator; ExCalcX.v: preconditions for environments that grant structures; ExCalcM.v, ExCalcL.v: tokens, names, variables, induction over the commands; refutations by running texts (PExCalc.v) |
| C63 small examples | `basecvt_loop`, `basecvt_main`, `input_main`, `rounding_main`, `findprime_main`, `strong_body`, `find_strong_prime`, `randprime_main` (ExConv.v, from examples/basecvt.c, input.c, rounding.c, findprime.c, randprime.c); the arguments are lists of bytes, messages are kinds | SpecConv.v: which strings write a number (`writes_rat`, `over_zero`, `no_number`), the text of one (`shown`), the sessions of the converter; ExConvR.v: reading classifies every string, the buffers are long enough, induction over the arguments; ExConvS.v: rounding by comparison with a program that checks malloc (Chk.v), prime searches by the loop rule with the distance to the prime; ExConvB.v: bounds from the length of the string; refutations by running (PConv.v) |
| C64 threads with rationals | the same steps and schedules (Conc.v) for the clients of SpecQHist.v; what may be shared is in SpecQConc.v | `ww` for every function of Imrat.v (ConstRat.v) and every call (QConc.v); one thread on its view keeps the shared rationals, tidy parts that share only those are tidy together (QConcRun.v); then as for C58 |
| C65 programs on the GMP interface | `gcall`: one constructor for each function of gmp_compat.h, and the calls of C56; their meaning in SpecGHist.v, over the store of SpecQHist.v; `do_gcall`, `drive_g` (GHist.v) run the functions of Gmp.v | one call with the rules behind C45–C48, C51, C52 (`one_gcall`, GHist.v), writing to a member of a rational takes its value away (`lose`); induction over the client as for C56. `C65_settled`: the meaning of a call is a function |
| C66 the GMP interface when memory runs out | Gmp.v in the `NDEBUG` build (`run false`), where `CHECK` tests nothing; the values that may be left behind are `may`, `may_all` (SpecGmpRef.v) | the theorems of C54 and C61 carried through `CHECK` (`withstands_check`), sequences by induction; the silent failures and the undefined behaviour by runs with one refused request |
| C67 threads with the GMP interface | the clients of C65 as programs, run by the interleaving semantics of C58 (Conc.v); what a call writes: `changed` (SpecGHist.v), `gwritten` (SpecGConc.v); the division of the store: `qdivided` (SpecQConc.v) | write discipline of every function of Gmp.v (ConstGmp.v; those with a local made of a machine integer at the level of states, ConstGmpU.v), one call, a client (GConc.v), the parts put together as in C64 |
| C68 the build with DEBUG=1 | `run_debug` (Debug.v): the same programs, `Realloc` takes a new block, copies and keeps the old one; the fill pattern of new blocks is kept indeterminate (stronger: a use of it would be undefined) | SpecDebug.v: memory with lost blocks; DebugLem.v: every `wp` carries over to `run_debug` on a state with lost blocks; the theorems of C65; no-leak refuted by a run |
| C69 with storage enough no call fails | the same programs as C27 | SpecFits.v: which calls, how many digits, `sure` (both builds, every allocator); Fits.v: each such call makes no request for memory and keeps the storage of every integer (induction over the programs, sizes from the canonical form), put together with the store of C27 by induction over the client; the limits refuted by runs |
| C49 error strings | mp_error_string | case analysis |

## 4. Trusted base

* Coq 8.16.1 kernel (and `coqchk`), std++ for finite maps and lists, mathcomp in
  NumTh.v only.  Every property theorem is closed under the global context (no
  axiom is used), with one exception: C59_arctan, C59_pi and
  C59_last_digits_refuted speak about the real numbers `PI` and `atan` of the
  standard library, and `Print Assumptions` lists for them
  `ClassicalDedekindReals.sig_forall_dec`, `ClassicalDedekindReals.sig_not_dec`,
  `FunctionalExtensionality.functional_extensionality_dep` and
  `Classical_Prop.classic`, all of the standard library.
* `Print Assumptions` appears under every property theorem.
* The reading of the C code embodied in the model files (each definition cites
  the lines it models).
* Threads (C58, C64, C67): effects are atomic, an access to a structure touches all its
  fields, and memory is sequentially consistent.  C11 gives programs without data
  races sequentially consistent behaviour (all accesses are ordinary ones), and
  the theorem shows that there is no race at this grain.  `malloc`, `realloc` and
  `free` are taken to be thread-safe, as C11 requires.
* Not modelled: `imdrover`/`imtest`/`imtimer`, the option parsing, files and message texts of the examples, the
  `USE_32BIT_WORDS` builds, pointer provenance beyond (block, offset), FILE
  output.

## How to read seeded/LOG.jsonl

Each line is one wrong program: an edit to the model, made in a scratch copy and rebuilt.

- `first_failures` are the lemmas at which Coq stopped. This is what was observed.
- `theorems_failed` is computed, not observed. It lists the property theorems that rest on a lemma in
  `first_failures`, directly or through other lemmas (tools/mutate.py). Coq does not get as far as trying them.
- So "caught" means that the development no longer builds. It does not show that each listed theorem is
  false of the edited program. A lemma can fail because its proof follows the text of the code, while
  its statement is still true. A list of hundreds of theorems mostly reflects an edit to a function that everything uses.
- Where a `note` says "checked separately" (M258, M259), the edited model was also run on a program that
  meets the hypotheses of the claim, and the result contradicts the theorem. The other entries
  were not checked in this way.
