import json
P=[]
def p(id,title,statement,quant,why,anchors):
    P.append(dict(id=id,title=title,statement=statement,quantifier=quant,why_tests_cant=why,anchors=anchors))
ALLZ="all integer values of any size that fit in memory, all aliasings of the arguments, all heap layouts, all multiply thresholds and default precisions, all allocator behaviours"
W="tests sample a few operands; carries, borrows, buffer growth and aliasing interact at digit boundaries for unboundedly many sizes"
p("C01","Addition is exact","mp_int_add(a,b,c) stores exactly a+b in c and returns MP_OK whenever no allocation is refused; mp_int_add_value does the same for a small operand.",ALLZ,W,["imath.c:mp_int_add","imath.c:mp_int_add_value","imath.c:s_uadd","imath.c:s_usub"])
p("C02","Subtraction is exact","mp_int_sub(a,b,c) stores exactly a-b in c; mp_int_sub_value does the same for a small operand.",ALLZ,W,["imath.c:mp_int_sub","imath.c:mp_int_sub_value","imath.c:s_usub"])
p("C03","Multiplication is exact at every size","mp_int_mul(a,b,c) stores exactly a*b in c, whichever of schoolbook or Karatsuba is chosen at each recursion level, and mp_int_mul_value agrees.",ALLZ,"the Karatsuba recursion depends on size and threshold; overlapping scratch buffers are only exercised by particular odd splits",["imath.c:mp_int_mul","imath.c:s_kmul","imath.c:s_umul","imath.c:mp_int_mul_value"])
p("C04","Squaring is exact at every size","mp_int_sqr(a,c) stores exactly a*a in c for every size and threshold.",ALLZ,"the doubled cross product can carry out of a 64-bit word only for particular digits",["imath.c:mp_int_sqr","imath.c:s_ksqr","imath.c:s_usqr"])
p("C05","Division gives the truncated quotient and remainder","mp_int_div(a,b,q,r) with b<>0 stores the quotient truncated toward zero in q and a - q*b in r (so |r|<|b| and r has the sign of a or is 0), for q or r NULL, q and r distinct, and any overlap with a and b; it returns MP_UNDEF and changes nothing when b=0.",ALLZ+", q/r present or NULL","Knuth's Algorithm D takes its rare correction branches with probability about 2/2^32 per digit",["imath.c:mp_int_div","imath.c:s_udiv_knuth","imath.c:s_norm","imath.c:s_ddiv","imath.c:s_qdiv","imath.c:s_qmod"])
p("C06","Modulus is the least non-negative residue","mp_int_mod(a,m,c) with m>0 stores a mod m with 0<=c<m and c congruent to a; MP_UNDEF if m=0.",ALLZ,W,["imath.c:mp_int_mod"])
p("C07","Power-of-two scaling","mp_int_mul_pow2(a,k,c) stores a*2^k and mp_int_div_pow2(a,k,q,r) stores the truncated quotient and remainder by 2^k, for every non-negative small k and all documented aliasings.",ALLZ+", all k>=0","the shift amount is narrowed to 32 bits and whole-digit moves are combined with bit moves",["imath.c:mp_int_mul_pow2","imath.c:mp_int_div_pow2","imath.c:s_qmul","imath.c:s_qdiv","imath.c:s_qmod"])
p("C08","Exponentiation is exact","mp_int_expt, mp_int_expt_value and mp_int_expt_full store exactly a^b for b>=0 (0^0=1) and return MP_RANGE for b<0, for all documented aliasings.",ALLZ+", all exponents","the loop length depends on the exponent and intermediate sizes are unbounded",["imath.c:mp_int_expt","imath.c:mp_int_expt_value","imath.c:mp_int_expt_full"])
p("C09","Comparison is the order of the integers","mp_int_compare, _compare_unsigned, _compare_zero, _compare_value and _compare_uvalue return a negative, zero or positive result exactly as the mathematical order (of the values or of the magnitudes) demands.","all pairs of values and all small values","a total order is a statement about all pairs and triples",["imath.c:mp_int_compare","imath.c:mp_int_compare_unsigned","imath.c:mp_int_compare_zero","imath.c:mp_int_compare_value","imath.c:mp_int_compare_uvalue"])
p("C10","GCD is the greatest common divisor","mp_int_gcd(a,b,c) terminates and stores gcd(a,b)>0; MP_UNDEF iff both are zero.",ALLZ,"termination and greatest-ness quantify over all inputs and all divisors",["imath.c:mp_int_gcd","imath.c:s_dp2k"])
p("C11","Extended GCD satisfies Bezout's identity","mp_int_egcd(a,b,c,x,y) stores c=gcd(a,b) and x,y with a*x+b*y=c, with x or y optionally NULL.",ALLZ,"identity over all inputs; sign and zero corner cases",["imath.c:mp_int_egcd"])
p("C12","LCM","mp_int_lcm(a,b,c) stores the least common multiple of a and b.",ALLZ,W,["imath.c:mp_int_lcm"])
p("C13","Modular inverse","mp_int_invmod(a,m,c) stores the c in [0,m) with a*c congruent to 1 mod m when gcd(a,m)=1; MP_UNDEF when no inverse exists; MP_RANGE when a=0 or m<=0.",ALLZ,"existence and uniqueness over all residues",["imath.c:mp_int_invmod","imath.c:mp_int_egcd"])
p("C14","Modular exponentiation","mp_int_exptmod(a,b,m,c) with m>0, b>=0 stores a^b mod m in [0,m); _evalue, _bvalue and _known (given mp_int_redux_const(m)) agree; MP_UNDEF for m=0, MP_RANGE for b<0; all documented aliasings.",ALLZ,"Barrett reduction relies on an off-by-at-most-two estimate and on digits above the used length being zero",["imath.c:mp_int_exptmod","imath.c:mp_int_exptmod_known","imath.c:mp_int_redux_const","imath.c:s_embar","imath.c:s_reduce","imath.c:s_qsub","imath.c:s_brmu"])
p("C15","Integer roots","mp_int_root(a,b,c) terminates and stores the integer c with c^b <= |a| < (c+1)^b carrying a's sign; MP_UNDEF for negative a and even b; mp_int_sqrt is the case b=2.",ALLZ+", all b>0","Newton iteration must converge for every start and the last step is corrected by one",["imath.c:mp_int_root","imath.h:mp_int_sqrt"])
p("C16","Small integer conversions","mp_int_set_value/_set_uvalue/_init_value/_init_uvalue store the given machine integer; mp_int_to_int/_to_uint return it exactly when it is representable and MP_RANGE otherwise.","all values of long and unsigned long, all mp_int values","2^64 inputs; boundary values and sign extension",["imath.c:mp_int_set_value","imath.c:mp_int_set_uvalue","imath.c:mp_int_init_value","imath.c:mp_int_to_int","imath.c:mp_int_to_uint","imath.c:s_fake","imath.c:s_uvpack"])
p("C17","String round trip","For every value z and radix 2..36, writing z with mp_int_to_string into a large enough buffer and reading it back with mp_int_read_string gives z and MP_OK; the text is the standard numeral with no leading zeros.","all values, all radices 2..36","unboundedly many numerals per radix",["imath.c:mp_int_to_string","imath.c:mp_int_read_string","imath.c:mp_int_read_cstring"])
p("C18","mp_int_to_string respects its limit","mp_int_to_string(z,radix,str,limit) never writes outside str[0..limit-1] and returns MP_OK exactly when the numeral and its terminator fit.","all values, radices and limits","off-by-one at every possible limit",["imath.c:mp_int_to_string"])
p("C19","Reported string length is sufficient","A buffer of mp_int_string_len(z,radix) characters is enough for mp_int_to_string to succeed.","all values, all radices","the estimate is computed in floating point from a 9-digit table; failures sit at rare bit lengths",["imath.c:mp_int_string_len","imath.c:s_outlen","imath.c:s_log2"])
p("C20","String parsing","mp_int_read_cstring consumes optional spaces, one optional sign and the maximal run of digits in the radix, sets z to their value, sets *end to the first unconsumed character, returns MP_OK iff the whole string was consumed else MP_TRUNC, and never writes outside the digit buffer it sized in floating point.","all NUL-terminated strings, all radices","arbitrary strings and lengths",["imath.c:mp_int_read_cstring","imath.c:s_inlen","imath.c:s_ch2val","imath.c:s_dmul","imath.c:s_dadd"])
p("C21","Two's complement binary round trip","mp_int_to_binary with limit >= mp_int_binary_len(z) succeeds, writes the big-endian two's complement form, and mp_int_read_binary of those bytes restores z; read_binary computes the two's complement value of any byte string and restores the buffer.","all values, all byte strings of length >= 1","sign bit and padding interact at every byte boundary",["imath.c:mp_int_to_binary","imath.c:mp_int_read_binary","imath.c:mp_int_binary_len","imath.c:s_tobin","imath.c:s_2comp"])
p("C22","Unsigned binary round trip","mp_int_to_unsigned with limit >= mp_int_unsigned_len(z) succeeds and mp_int_read_unsigned restores |z|; the length is minimal.","all values, all byte strings",W,["imath.c:mp_int_to_unsigned","imath.c:mp_int_read_unsigned","imath.c:mp_int_unsigned_len"])
p("C23","Values stay canonical","After every API call each mp_int has used>=1, used<=alloc, no leading zero digit, and zero is never negative.","all API calls and histories","an invariant over every reachable state",["imath.c:CLAMP","imath.c:mp_int_div_pow2","imath.c:s_qmod"])
p("C24","Memory safety","On valid handles no API call reads or writes outside a digit buffer, reads an uninitialised digit, frees a pointer not obtained from malloc, uses freed storage or trips an assertion.","all API calls, operands, aliasings and heap states","absence of undefined behaviour is universally quantified over executions",["imath.c"])
p("C25","No leaks","Every heap block obtained during an API call is owned by a live mp_int when it returns; clearing all handles returns the heap to its initial state.","all API calls and histories","leaks on some path of some input escape tests",["imath.c:DECLARE_TEMP","imath.c:CLEANUP_TEMP","imath.c:mp_int_clear"])
p("C26","Only outputs change","An API call changes no mp_int other than its output arguments, whatever the aliasing.","all API calls and all other live handles","quantifies over all unrelated handles",["imath.c","doc.md.in"])
p("C27","Any history behaves like a store of integers","Any sequence of API calls on any set of handles returns the result codes and leaves the values that the same sequence on a map from handles to mathematical integers would.","all finite sequences of API calls with arbitrary arguments","unbounded histories",["imath.c","imath.h"])
p("C28","Assertions do not change results","With NDEBUG the library computes the same results as the asserting build on every execution in which no allocation is refused.","all API calls, all inputs","needs equality of two builds on all inputs",["imath.c:s_alloc"])
p("C29","Allocation failure is reported","With NDEBUG, if malloc refuses a request, the API call returns MP_MEMORY rather than MP_OK with a wrong value.","all allocation failure schedules","each allocation site of each call may fail independently",["imath.c:s_kmul","imath.c:s_ksqr","imath.c:mp_int_sqr","imath.c:mp_int_mul"])
p("C30","Copy, negate, absolute value, zero, swap","mp_int_copy, _neg, _abs, _zero, _swap store exactly a, -a, |a|, 0 and exchange two values, without sharing storage between handles.",ALLZ,"storage sharing shows only after later mutation",["imath.c:mp_int_copy","imath.c:mp_int_neg","imath.c:mp_int_abs","imath.c:mp_int_zero","imath.c:mp_int_swap","imath.c:mp_int_init_copy"])
p("C31","Bit predicates","mp_int_is_odd/_is_even report parity, mp_int_count_bits the bit length (1 for 0), mp_int_is_pow2 returns k iff z=2^k and -1 otherwise.","all values",W,["imath.h:mp_int_is_odd","imath.h:mp_int_is_even","imath.c:mp_int_count_bits","imath.c:mp_int_is_pow2","imath.c:s_isp2"])
p("C32","Division by small values","mp_int_div_value(a,v,q,&r) gives the truncated quotient and remainder; mp_int_divisible_value reports divisibility; mp_int_mod_value returns the least non-negative residue as documented.","all values, all small v<>0",W,["imath.c:mp_int_div_value","imath.c:mp_int_divisible_value","imath.h:mp_int_mod_value"])
p("C33","Primality test never rejects a prime","mp_int_is_prime returns MP_TRUE for every prime, MP_FALSE for every z<2, and exactly decides primality for z < 997^2; a MP_FALSE answer means z is not prime.","all values","quantifies over all primes",["iprime.c:mp_int_is_prime"])
p("C34","find_prime terminates at the first apparent prime","mp_int_find_prime(z) terminates and leaves z at the least odd number >= z (z itself if odd, else z+1) that mp_int_is_prime accepts.","all values","termination for all inputs rests on infinitely many primes",["iprime.c:mp_int_find_prime"])
p("C35","Rationals stay in lowest terms","After every mp_rat arithmetic call that returns MP_OK the result has positive denominator, coprime numerator and denominator, and 0 is 0/1.","all rational operands, all aliasings","invariant over all results",["imrat.c:s_rat_reduce","imrat.c:s_rat_combine"])
p("C36","Rational arithmetic is exact","mp_rat_add/_sub/_mul/_div/_neg/_abs/_recip and the _int variants store the exact rational result; division by zero returns MP_UNDEF.","all rational operands, all aliasings of the rational arguments",W,["imrat.c"])
p("C37","Rational comparison is the order of the rationals","mp_rat_compare, _compare_unsigned, _compare_zero and _compare_value agree with the order of the rationals; compare_value with d=0 returns MP_UNDEF as documented.","all pairs of rationals","total order over all pairs",["imrat.c:mp_rat_compare","imrat.c:mp_rat_compare_unsigned","imrat.c:mp_rat_compare_value"])
p("C38","Rational powers","mp_rat_expt(a,b,c) stores a^b in lowest terms for b>=0, MP_RANGE for b<0.","all rationals, all exponents",W,["imrat.c:mp_rat_expt"])
p("C39","Rational text round trip","mp_rat_to_string followed by mp_rat_read_string restores the rational; mp_rat_read_cstring leaves a canonical rational or reports an error.","all rationals, all radices, all strings","arbitrary strings",["imrat.c:mp_rat_to_string","imrat.c:mp_rat_read_cstring"])
p("C40","Decimal output is correctly rounded","mp_rat_to_decimal writes the value rounded to prec digits in the requested rounding mode.","all rationals, radices, precisions, modes","rounding carries propagate arbitrarily far",["imrat.c:mp_rat_to_decimal"])
p("C41","Decimal input is exact","mp_rat_read_decimal of s z.ffff stores exactly the decimal value in lowest terms.","all decimal strings, all radices",W,["imrat.c:mp_rat_read_cdecimal"])
p("C42","PKCS#1 v1.5 padding round trip","rsa_pkcs1v15_decode(rsa_pkcs1v15_encode(m)) = m for every message that fits and every nonzero filler, and decode of any buffer stays inside the buffer.","all messages, buffers, tags, fillers","arbitrary buffers and fillers",["rsamath.c:rsa_pkcs1v15_encode","rsamath.c:rsa_pkcs1v15_decode"])
p("C43","RSA primitives invert each other","For distinct primes p,q, n=pq and e*d = 1 mod lcm(p-1,q-1), rsa_rsadp(rsa_rsaep(m))=m for all 0<=m<n; out-of-range messages give MP_RANGE.","all messages and keys","number-theoretic identity for all messages and keys",["rsamath.c:s_rsa_transform"])
p("C44","Octet string conversion","rsa_i2osp(z,out,len) writes the len-byte big-endian form of z when it fits and MP_RANGE otherwise, staying within out[0..len-1].","all values and lengths","all lengths relative to the value's length",["rsamath.c:rsa_i2osp","rsamath.c:rsa_os2ip"])
p("C45","GMP rounding divisions","impz_cdiv_q, _fdiv_q, _fdiv_r, _tdiv_q, _fdiv_q_ui compute ceiling, floor, floor remainder, truncation for all sign combinations and aliasings.","all values with d<>0, all aliasings","sign/zero/alias corner cases over all values",["gmp_compat.c:GMPZAPI(cdiv_q)","gmp_compat.c:GMPZAPI(fdiv_q)","gmp_compat.c:GMPZAPI(fdiv_r)","gmp_compat.c:GMPZAPI(tdiv_q)","gmp_compat.c:GMPZAPI(fdiv_q_ui)"])
p("C46","GMP import inverts export","impz_import of the words written by impz_export (any word size, order, endianness) restores |op|; export stays inside num_words*size bytes.","all values, word sizes, orders and endiannesses","the pointer walk depends on size, order and endianness",["gmp_compat.c:GMPZAPI(export)","gmp_compat.c:GMPZAPI(import)"])
p("C47","GMP small conversions","impz_get_ui returns |op| mod 2^64 when op does not fit, else op; impz_get_si returns op when it fits, else the low 63 bits with the sign of op.","all values","all residues",["gmp_compat.c:GMPZAPI(get_ui)","gmp_compat.c:GMPZAPI(get_si)","gmp_compat.c:get_long_bits"])
p("C48","GMP composite operations","impz_addmul, _submul, _add_ui, _sub_ui, _mul_ui, _pow_ui, _divexact, _divisible_p, _gcd, _lcm, _mul_2exp compute what their GMP counterparts do.","all values, all aliasings",W,["gmp_compat.c"])
p("C49","Error strings are total","mp_error_string(res) returns the documented message for each code and the unknown-code message otherwise, for every int.","all 2^32 result codes","every integer must map inside a finite table",["imath.c:mp_error_string"])
p("C50","Storage grows monotonically","No call shrinks the storage of an mp_int; copy/zero do not allocate unless more digits are needed.","all calls, all storage states","quantifies over all storage states",["imath.c:s_pad","imath.c:mp_int_copy","imath.c:mp_int_zero"])
with open('/verif/properties.jsonl','w') as f:
    for x in P: f.write(json.dumps(x)+"\n")
print(len(P))
