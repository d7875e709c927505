{"id": "C01", "title": "Addition is exact", "statement": "mp_int_add(a,b,c) stores exactly a+b in c and returns MP_OK whenever no allocation is refused; mp_int_add_value does the same for a small operand. The small operand is any value except the smallest mp_small (LONG_MIN), for which the code's own negation overflows.", "quantifier": "all integer values of any size that fit in memory, all aliasings of the arguments, all heap layouts, all multiply thresholds and default precisions, all allocator behaviours", "why_tests_cant": "tests sample a few operands; carries, borrows, buffer growth and aliasing interact at digit boundaries for unboundedly many sizes", "anchors": ["imath.c:mp_int_add", "imath.c:mp_int_add_value", "imath.c:s_uadd", "imath.c:s_usub"]}
{"id": "C02", "title": "Subtraction is exact", "statement": "mp_int_sub(a,b,c) stores exactly a-b in c; mp_int_sub_value does the same for a small operand. The small operand is any value except the smallest mp_small.", "quantifier": "all integer values of any size that fit in memory, all aliasings of the arguments, all heap layouts, all multiply thresholds and default precisions, all allocator behaviours", "why_tests_cant": "tests sample a few operands; carries, borrows, buffer growth and aliasing interact at digit boundaries for unboundedly many sizes", "anchors": ["imath.c:mp_int_sub", "imath.c:mp_int_sub_value", "imath.c:s_usub"]}
{"id": "C03", "title": "Multiplication is exact at every size", "statement": "mp_int_mul(a,b,c) stores exactly a*b in c, whichever of schoolbook or Karatsuba is chosen at each recursion level, and mp_int_mul_value agrees. The small operand is any value except the smallest mp_small.", "quantifier": "all integer values of any size that fit in memory, all aliasings of the arguments, all heap layouts, all multiply thresholds and default precisions, all allocator behaviours", "why_tests_cant": "the Karatsuba recursion depends on size and threshold; overlapping scratch buffers are only exercised by particular odd splits", "anchors": ["imath.c:mp_int_mul", "imath.c:s_kmul", "imath.c:s_umul", "imath.c:mp_int_mul_value"]}
{"id": "C04", "title": "Squaring is exact at every size", "statement": "mp_int_sqr(a,c) stores exactly a*a in c for every size and threshold.", "quantifier": "all integer values of any size that fit in memory, all aliasings of the arguments, all heap layouts, all multiply thresholds and default precisions, all allocator behaviours", "why_tests_cant": "the doubled cross product can carry out of a 64-bit word only for particular digits", "anchors": ["imath.c:mp_int_sqr", "imath.c:s_ksqr", "imath.c:s_usqr"]}
{"id": "C05", "title": "Division gives the truncated quotient and remainder", "statement": "mp_int_div(a,b,q,r) with b<>0 stores the quotient truncated toward zero in q and a - q*b in r (so |r|<|b| and r has the sign of a or is 0), for q or r NULL, q and r distinct, and any overlap with a and b; it returns MP_UNDEF and changes nothing when b=0.", "quantifier": "all integer values of any size that fit in memory, all aliasings of the arguments, all heap layouts, all multiply thresholds and default precisions, all allocator behaviours, q/r present or NULL", "why_tests_cant": "Knuth's Algorithm D takes its rare correction branches with probability about 2/2^32 per digit", "anchors": ["imath.c:mp_int_div", "imath.c:s_udiv_knuth", "imath.c:s_norm", "imath.c:s_ddiv", "imath.c:s_qdiv", "imath.c:s_qmod"]}
{"id": "C06", "title": "Modulus is the least non-negative residue", "statement": "mp_int_mod(a,m,c) with m>0 stores a mod m with 0<=c<m and c congruent to a; MP_UNDEF if m=0.", "quantifier": "all integer values of any size that fit in memory, all aliasings of the arguments, all heap layouts, all multiply thresholds and default precisions, all allocator behaviours", "why_tests_cant": "tests sample a few operands; carries, borrows, buffer growth and aliasing interact at digit boundaries for unboundedly many sizes", "anchors": ["imath.c:mp_int_mod"]}
{"id": "C07", "title": "Power-of-two scaling", "statement": "mp_int_mul_pow2(a,k,c) stores a*2^k and mp_int_div_pow2(a,k,q,r) stores the truncated quotient and remainder by 2^k, for every non-negative small k and all documented aliasings. The shift is below 2^32 (larger ones are silently truncated). For div_pow2 with a remainder, q is not a and a is not a negative multiple of 2^k (which would leave a negative zero).", "quantifier": "all integer values of any size that fit in memory, all aliasings of the arguments, all heap layouts, all multiply thresholds and default precisions, all allocator behaviours, all k>=0", "why_tests_cant": "the shift amount is narrowed to 32 bits and whole-digit moves are combined with bit moves", "anchors": ["imath.c:mp_int_mul_pow2", "imath.c:mp_int_div_pow2", "imath.c:s_qmul", "imath.c:s_qdiv", "imath.c:s_qmod"]}
{"id": "C08", "title": "Exponentiation is exact", "statement": "mp_int_expt, mp_int_expt_value and mp_int_expt_full store exactly a^b for b>=0 (0^0=1) and return MP_RANGE for b<0, for all documented aliasings. A machine exponent is below 2^32 (larger ones are silently truncated); for expt_full the output is not the exponent.", "quantifier": "all integer values of any size that fit in memory, all aliasings of the arguments, all heap layouts, all multiply thresholds and default precisions, all allocator behaviours, all exponents", "why_tests_cant": "the loop length depends on the exponent and intermediate sizes are unbounded", "anchors": ["imath.c:mp_int_expt", "imath.c:mp_int_expt_value", "imath.c:mp_int_expt_full"]}
{"id": "C09", "title": "Comparison is the order of the integers", "statement": "mp_int_compare, _compare_unsigned, _compare_zero, _compare_value and _compare_uvalue return a negative, zero or positive result exactly as the mathematical order (of the values or of the magnitudes) demands.", "quantifier": "all pairs of values and all small values", "why_tests_cant": "a total order is a statement about all pairs and triples", "anchors": ["imath.c:mp_int_compare", "imath.c:mp_int_compare_unsigned", "imath.c:mp_int_compare_zero", "imath.c:mp_int_compare_value", "imath.c:mp_int_compare_uvalue"]}
{"id": "C10", "title": "GCD is the greatest common divisor", "statement": "mp_int_gcd(a,b,c) terminates and stores gcd(a,b)>0; MP_UNDEF iff both are zero.", "quantifier": "all integer values of any size that fit in memory, all aliasings of the arguments, all heap layouts, all multiply thresholds and default precisions, all allocator behaviours", "why_tests_cant": "termination and greatest-ness quantify over all inputs and all divisors", "anchors": ["imath.c:mp_int_gcd", "imath.c:s_dp2k"]}
{"id": "C11", "title": "Extended GCD satisfies Bezout's identity", "statement": "mp_int_egcd(a,b,c,x,y) stores c=gcd(a,b) and x,y with a*x+b*y=c, with x or y optionally NULL. The identity is for non-negative operands (for negative ones it holds for the absolute values only); with a NULL coefficient both operands are non-zero.", "quantifier": "all integer values of any size that fit in memory, all aliasings of the arguments, all heap layouts, all multiply thresholds and default precisions, all allocator behaviours", "why_tests_cant": "identity over all inputs; sign and zero corner cases", "anchors": ["imath.c:mp_int_egcd"]}
{"id": "C12", "title": "LCM", "statement": "mp_int_lcm(a,b,c) stores the least common multiple of a and b. The stored value carries the sign of the product a*b, so it is the least common multiple up to sign.", "quantifier": "all integer values of any size that fit in memory, all aliasings of the arguments, all heap layouts, all multiply thresholds and default precisions, all allocator behaviours", "why_tests_cant": "tests sample a few operands; carries, borrows, buffer growth and aliasing interact at digit boundaries for unboundedly many sizes", "anchors": ["imath.c:mp_int_lcm"]}
{"id": "C13", "title": "Modular inverse", "statement": "mp_int_invmod(a,m,c) stores the c in [0,m) with a*c congruent to 1 mod m when gcd(a,m)=1; MP_UNDEF when no inverse exists; MP_RANGE when a=0 or m<=0. The case a<0, m=1 is excluded (1 is stored).", "quantifier": "all integer values of any size that fit in memory, all aliasings of the arguments, all heap layouts, all multiply thresholds and default precisions, all allocator behaviours", "why_tests_cant": "existence and uniqueness over all residues", "anchors": ["imath.c:mp_int_invmod", "imath.c:mp_int_egcd"]}
{"id": "C14", "title": "Modular exponentiation", "statement": "mp_int_exptmod(a,b,m,c) with m>0, b>=0 stores a^b mod m in [0,m); _evalue, _bvalue and _known (given mp_int_redux_const(m)) agree; MP_UNDEF for m=0, MP_RANGE for b<0; all documented aliasings. Exponent 0 with modulus 1 is excluded (1 is stored), and the supplied constant is not the output.", "quantifier": "all integer values of any size that fit in memory, all aliasings of the arguments, all heap layouts, all multiply thresholds and default precisions, all allocator behaviours", "why_tests_cant": "Barrett reduction relies on an off-by-at-most-two estimate and on digits above the used length being zero", "anchors": ["imath.c:mp_int_exptmod", "imath.c:mp_int_exptmod_known", "imath.c:mp_int_redux_const", "imath.c:s_embar", "imath.c:s_reduce", "imath.c:s_qsub", "imath.c:s_brmu"]}
{"id": "C15", "title": "Integer roots", "statement": "mp_int_root(a,b,c) terminates and stores the integer c with c^b <= |a| < (c+1)^b carrying a's sign; MP_UNDEF for negative a and even b; mp_int_sqrt is the case b=2. The degree is below 2^32.", "quantifier": "all integer values of any size that fit in memory, all aliasings of the arguments, all heap layouts, all multiply thresholds and default precisions, all allocator behaviours, all b>0", "why_tests_cant": "Newton iteration must converge for every start and the last step is corrected by one", "anchors": ["imath.c:mp_int_root", "imath.h:mp_int_sqrt"]}
{"id": "C16", "title": "Small integer conversions", "statement": "mp_int_set_value/_set_uvalue/_init_value/_init_uvalue store the given machine integer; mp_int_to_int/_to_uint return it exactly when it is representable and MP_RANGE otherwise. The value -2^63 is excluded: the conversion negates it in signed arithmetic.", "quantifier": "all values of long and unsigned long, all mp_int values", "why_tests_cant": "2^64 inputs; boundary values and sign extension", "anchors": ["imath.c:mp_int_set_value", "imath.c:mp_int_set_uvalue", "imath.c:mp_int_init_value", "imath.c:mp_int_to_int", "imath.c:mp_int_to_uint", "imath.c:s_fake", "imath.c:s_uvpack"]}
{"id": "C17", "title": "String round trip", "statement": "For every value z and radix 2..36, writing z with mp_int_to_string into a large enough buffer and reading it back with mp_int_read_string gives z and MP_OK; the text is the standard numeral with no leading zeros.", "quantifier": "all values, all radices 2..36", "why_tests_cant": "unboundedly many numerals per radix", "anchors": ["imath.c:mp_int_to_string", "imath.c:mp_int_read_string", "imath.c:mp_int_read_cstring"]}
{"id": "C18", "title": "mp_int_to_string respects its limit", "statement": "mp_int_to_string(z,radix,str,limit) returns MP_OK exactly when the numeral and its terminator fit into limit characters, otherwise MP_TRUNC, and writes only str[0..limit]: the terminator of a truncated numeral goes to str[limit], so a buffer of exactly limit characters overflows.", "quantifier": "all values, radices and limits", "why_tests_cant": "off-by-one at every possible limit", "anchors": ["imath.c:mp_int_to_string"]}
{"id": "C19", "title": "Reported string length is sufficient", "statement": "A buffer of mp_int_string_len(z,radix) characters is enough for mp_int_to_string to succeed, for every value in the radices 2, 3, 4, 9, 10, 12, 15, 16, 18, 21, 24, 26, 27, 28, 31, 32, 35, 36, and in the other radices up to a bit length that depends on the radix (at least 20196 bits); beyond it the report can be one too small.", "quantifier": "all values, all radices", "why_tests_cant": "the estimate is computed in floating point from a 9-digit table; failures sit at rare bit lengths", "anchors": ["imath.c:mp_int_string_len", "imath.c:s_outlen", "imath.c:s_log2"]}
{"id": "C20", "title": "String parsing", "statement": "mp_int_read_cstring consumes optional spaces, one optional sign and the maximal run of digits in the radix, sets z to their value, sets *end to the first unconsumed character, returns MP_OK iff the whole string was consumed else MP_TRUNC, and never writes outside the digit buffer it sized in floating point.", "quantifier": "all NUL-terminated strings, all radices", "why_tests_cant": "arbitrary strings and lengths", "anchors": ["imath.c:mp_int_read_cstring", "imath.c:s_inlen", "imath.c:s_ch2val", "imath.c:s_dmul", "imath.c:s_dadd"]}
{"id": "C21", "title": "Two's complement binary round trip", "statement": "mp_int_to_binary with limit >= mp_int_binary_len(z) succeeds, writes the big-endian two's complement form, and mp_int_read_binary of those bytes restores z; read_binary computes the two's complement value of any byte string and restores the buffer. Buffers of 2^28 bytes or more are excluded (the bit count is computed in an int), and so is writing with a limit of 0 (the byte before the buffer is read).", "quantifier": "all values, all byte strings of length >= 1", "why_tests_cant": "sign bit and padding interact at every byte boundary", "anchors": ["imath.c:mp_int_to_binary", "imath.c:mp_int_read_binary", "imath.c:mp_int_binary_len", "imath.c:s_tobin", "imath.c:s_2comp"]}
{"id": "C22", "title": "Unsigned binary round trip", "statement": "mp_int_to_unsigned with limit >= mp_int_unsigned_len(z) succeeds and mp_int_read_unsigned restores |z|; the length is minimal. Byte strings of 2^28 bytes or more are excluded.", "quantifier": "all values, all byte strings", "why_tests_cant": "tests sample a few operands; carries, borrows, buffer growth and aliasing interact at digit boundaries for unboundedly many sizes", "anchors": ["imath.c:mp_int_to_unsigned", "imath.c:mp_int_read_unsigned", "imath.c:mp_int_unsigned_len"]}
{"id": "C23", "title": "Values stay canonical", "statement": "After every API call each mp_int has used>=1, used<=alloc, no leading zero digit, and zero is never negative. The calls are made under the conditions recorded with C01-C22 and C30-C32.", "quantifier": "all API calls and histories", "why_tests_cant": "an invariant over every reachable state", "anchors": ["imath.c:CLAMP", "imath.c:mp_int_div_pow2", "imath.c:s_qmod"]}
{"id": "C24", "title": "Memory safety", "statement": "On valid handles no API call reads or writes outside a digit buffer, reads an uninitialised digit, frees a pointer not obtained from malloc, uses freed storage or trips an assertion. The calls are made under the conditions recorded with C01-C22 and C30-C32 (outside them there are violations, stated with those properties).", "quantifier": "all API calls, operands, aliasings and heap states", "why_tests_cant": "absence of undefined behaviour is universally quantified over executions", "anchors": ["imath.c"]}
{"id": "C25", "title": "No leaks", "statement": "Every heap block obtained during an API call is owned by a live mp_int when it returns; clearing all handles returns the heap to its initial state. The calls are made under the conditions recorded with C01-C22 and C30-C32.", "quantifier": "all API calls and histories", "why_tests_cant": "leaks on some path of some input escape tests", "anchors": ["imath.c:DECLARE_TEMP", "imath.c:CLEANUP_TEMP", "imath.c:mp_int_clear"]}
{"id": "C26", "title": "Only outputs change", "statement": "An API call changes no mp_int other than its output arguments, whatever the aliasing.", "quantifier": "all API calls and all other live handles", "why_tests_cant": "quantifies over all unrelated handles", "anchors": ["imath.c", "doc.md.in"]}
{"id": "C27", "title": "Any history behaves like a store of integers", "statement": "Any sequence of API calls on any set of handles returns the result codes and leaves the values that the same sequence on a map from handles to mathematical integers would. The calls are made under the conditions recorded with C01-C22 and C30-C32.", "quantifier": "all finite sequences of API calls with arbitrary arguments", "why_tests_cant": "unbounded histories", "anchors": ["imath.c", "imath.h"]}
{"id": "C28", "title": "Assertions do not change results", "statement": "With NDEBUG the library computes the same results as the asserting build on every execution in which no allocation is refused.", "quantifier": "all API calls, all inputs", "why_tests_cant": "needs equality of two builds on all inputs", "anchors": ["imath.c:s_alloc"]}
{"id": "C29", "title": "Allocation failure is reported", "statement": "With NDEBUG, if malloc refuses a request, a call of the integer API returns MP_MEMORY rather than MP_OK with a wrong value. (False of the code for multiplication and squaring of long operands, for division, and for what is built on them: mod, lcm, invmod, expt, root, redux_const and exptmod answer MP_OK with a wrong value, and exptmod can even write past the end of a block; true of all other integer functions, among them gcd and egcd.) (For the rational functions see C61.) (False of the code for multiplication, squaring and division and what is built on them; true of the other arithmetic, initialisation and text functions.)", "quantifier": "all allocation failure schedules", "why_tests_cant": "each allocation site of each call may fail independently", "anchors": ["imath.c:s_kmul", "imath.c:s_ksqr", "imath.c:mp_int_sqr", "imath.c:mp_int_mul", "imath.c:mp_int_div", "imath.c:s_brmu", "imath.c:s_embar", "imath.c:mp_int_exptmod", "imath.c:mp_int_expt", "imath.c:mp_int_root"]}
{"id": "C30", "title": "Copy, negate, absolute value, zero, swap", "statement": "mp_int_copy, _neg, _abs, _zero, _swap store exactly a, -a, |a|, 0 and exchange two values, without sharing storage between handles.", "quantifier": "all integer values of any size that fit in memory, all aliasings of the arguments, all heap layouts, all multiply thresholds and default precisions, all allocator behaviours", "why_tests_cant": "storage sharing shows only after later mutation", "anchors": ["imath.c:mp_int_copy", "imath.c:mp_int_neg", "imath.c:mp_int_abs", "imath.c:mp_int_zero", "imath.c:mp_int_swap", "imath.c:mp_int_init_copy"]}
{"id": "C31", "title": "Bit predicates", "statement": "mp_int_is_odd/_is_even report parity, mp_int_count_bits the bit length (1 for 0), mp_int_is_pow2 returns k iff z=2^k and -1 otherwise. is_pow2 is for positive z: the code ignores the sign and reports 0 as 2^0.", "quantifier": "all values", "why_tests_cant": "tests sample a few operands; carries, borrows, buffer growth and aliasing interact at digit boundaries for unboundedly many sizes", "anchors": ["imath.h:mp_int_is_odd", "imath.h:mp_int_is_even", "imath.c:mp_int_count_bits", "imath.c:mp_int_is_pow2", "imath.c:s_isp2"]}
{"id": "C32", "title": "Division by small values", "statement": "mp_int_div_value(a,v,q,&r) gives the truncated quotient and remainder; mp_int_divisible_value reports divisibility; mp_int_mod_value returns the least non-negative residue as documented. mod_value is for non-negative dividends: for negative ones it returns a negative remainder.", "quantifier": "all values, all small v<>0", "why_tests_cant": "tests sample a few operands; carries, borrows, buffer growth and aliasing interact at digit boundaries for unboundedly many sizes", "anchors": ["imath.c:mp_int_div_value", "imath.c:mp_int_divisible_value", "imath.h:mp_int_mod_value"]}
{"id": "C33", "title": "Primality test never rejects a prime", "statement": "mp_int_is_prime returns MP_TRUE for every prime, MP_FALSE for every z<2, and exactly decides primality for z < 997^2; a MP_FALSE answer means z is not prime. Composites beyond 997^2 may be accepted (Carmichael numbers without a factor in the table).", "quantifier": "all values", "why_tests_cant": "quantifies over all primes", "anchors": ["iprime.c:mp_int_is_prime"]}
{"id": "C34", "title": "find_prime terminates at the first apparent prime", "statement": "mp_int_find_prime(z) terminates and leaves z at the least odd number >= z (z itself if odd, else z+1) that mp_int_is_prime accepts. In particular 2 is passed over: from 2 the search ends at 3.", "quantifier": "all values", "why_tests_cant": "termination for all inputs rests on infinitely many primes", "anchors": ["iprime.c:mp_int_find_prime"]}
{"id": "C35", "title": "Rationals stay in lowest terms", "statement": "After every mp_rat arithmetic call that returns MP_OK the result has positive denominator, coprime numerator and denominator, and 0 is 0/1.", "quantifier": "all rational operands, all aliasings", "why_tests_cant": "invariant over all results", "anchors": ["imrat.c:s_rat_reduce", "imrat.c:s_rat_combine"]}
{"id": "C36", "title": "Rational arithmetic is exact", "statement": "mp_rat_add/_sub/_mul/_div/_neg/_abs/_recip and the _int variants store the exact rational result; division by zero returns MP_UNDEF. For mul_int and div_int the integer operand must not be the numerator or denominator of a destination other than the first operand (the copy overwrites it).", "quantifier": "all rational operands, all aliasings of the rational arguments", "why_tests_cant": "tests sample a few operands; carries, borrows, buffer growth and aliasing interact at digit boundaries for unboundedly many sizes", "anchors": ["imrat.c"]}
{"id": "C37", "title": "Rational comparison is the order of the rationals", "statement": "mp_rat_compare, _compare_unsigned, _compare_zero, _sign, _is_integer and _compare_value agree with the order of the rationals; compare_value is for a non-zero denominator (with d=0 it returns INT_MAX, not the documented MP_UNDEF) and for arguments other than the smallest mp_small; to_ints returns both parts exactly when both fit.", "quantifier": "all pairs of rationals", "why_tests_cant": "total order over all pairs", "anchors": ["imrat.c:mp_rat_compare", "imrat.c:mp_rat_compare_unsigned", "imrat.c:mp_rat_compare_value"]}
{"id": "C38", "title": "Rational powers", "statement": "mp_rat_expt(a,b,c) stores a^b in lowest terms for b>=0, MP_RANGE for b<0. The exponent is below 2^32 (larger ones are silently truncated).", "quantifier": "all rationals, all exponents", "why_tests_cant": "tests sample a few operands; carries, borrows, buffer growth and aliasing interact at digit boundaries for unboundedly many sizes", "anchors": ["imrat.c:mp_rat_expt"]}
{"id": "C39", "title": "Rational text round trip", "statement": "mp_rat_to_string writes the fraction in lowest terms if it fits the limit and reports MP_TRUNC if not (when the numerator fits and less than three characters remain, an assertion fails instead); a buffer of mp_rat_string_len characters is enough; mp_rat_read_string restores what was written; mp_rat_read_cstring, on every string, leaves a canonical rational with MP_OK, or reports MP_TRUNC or MP_UNDEF (after MP_TRUNC or MP_UNDEF the pair can be unreduced or have a zero denominator).", "quantifier": "all rationals, all radices, all strings", "why_tests_cant": "arbitrary strings", "anchors": ["imrat.c:mp_rat_to_string", "imrat.c:mp_rat_read_cstring"]}
{"id": "C40", "title": "Decimal output is correctly rounded", "statement": "mp_rat_to_decimal writes the value rounded to prec digits in the requested rounding mode, if there is room for the text, its terminator and, with prec > 0, one more character, and reports MP_TRUNC if the text does not fit; a buffer of mp_rat_decimal_len characters is enough. Excluded: a rounding upwards whose fraction digits become 0..010..0 or carry into the integer part (a wrong text is written), and invalid modes.", "quantifier": "all rationals, radices, precisions, modes", "why_tests_cant": "rounding carries propagate arbitrarily far", "anchors": ["imrat.c:mp_rat_to_decimal"]}
{"id": "C41", "title": "Decimal input is exact", "statement": "mp_rat_read_decimal stores exactly the value of a text with a radix point in lowest terms, for every string: the longest sensible prefix is read and MP_TRUNC reports that something follows; a point followed by white space or a sign is not part of the number. It reads back what mp_rat_to_decimal wrote. mp_rat_read_ustring takes integers, fractions and texts with a point.", "quantifier": "all decimal strings, all radices", "why_tests_cant": "tests sample a few operands; carries, borrows, buffer growth and aliasing interact at digit boundaries for unboundedly many sizes", "anchors": ["imrat.c:mp_rat_read_cdecimal"]}
{"id": "C42", "title": "PKCS#1 v1.5 padding round trip", "statement": "rsa_pkcs1v15_decode(rsa_pkcs1v15_encode(m)) = m for every message that fits and every nonzero filler; decode accepts exactly the buffers of at least 11 bytes that start with 0 and the tag, provided they hold a further zero byte: without one it reads beyond the buffer. A message of at most rsa_max_message_len bytes, padded, is a number below the modulus.", "quantifier": "all messages, buffers, tags, fillers", "why_tests_cant": "arbitrary buffers and fillers", "anchors": ["rsamath.c:rsa_pkcs1v15_encode", "rsamath.c:rsa_pkcs1v15_decode"]}
{"id": "C43", "title": "RSA primitives invert each other", "statement": "For distinct primes p,q, n=pq and e*d = 1 mod lcm(p-1,q-1), rsa_rsadp(rsa_rsaep(m))=m for all 0<=m<n; out-of-range messages give MP_RANGE. The output of the first step is neither the second exponent nor the modulus; exponents are positive.", "quantifier": "all messages and keys", "why_tests_cant": "number-theoretic identity for all messages and keys", "anchors": ["rsamath.c:s_rsa_transform"]}
{"id": "C44", "title": "Octet string conversion", "statement": "rsa_i2osp(z,out,len) writes the len-byte big-endian form of z when len is the reported binary length of z. (It should do so whenever z fits and fail otherwise; in fact larger len is refused and smaller len overruns out.) rsa_os2ip reads the big-endian value of a byte string whose first byte is below 128 (others are read as negative).", "quantifier": "all values and lengths", "why_tests_cant": "all lengths relative to the value's length", "anchors": ["rsamath.c:rsa_i2osp", "rsamath.c:rsa_os2ip"]}
{"id": "C45", "title": "GMP rounding divisions", "statement": "impz_cdiv_q, _fdiv_q, _fdiv_r, _tdiv_q, _fdiv_q_ui compute ceiling, floor, floor remainder, truncation for all sign combinations and aliasings.", "quantifier": "all values with d<>0, all aliasings", "why_tests_cant": "sign/zero/alias corner cases over all values", "anchors": ["gmp_compat.c:GMPZAPI(cdiv_q)", "gmp_compat.c:GMPZAPI(fdiv_q)", "gmp_compat.c:GMPZAPI(fdiv_r)", "gmp_compat.c:GMPZAPI(tdiv_q)", "gmp_compat.c:GMPZAPI(fdiv_q_ui)"]}
{"id": "C46", "title": "GMP import inverts export", "statement": "impz_import of the words written by impz_export (any word size, order, endianness) restores |op|; export stays inside num_words*size bytes. Importing no words leaves the result unchanged.", "quantifier": "all values, word sizes, orders and endiannesses", "why_tests_cant": "the pointer walk depends on size, order and endianness", "anchors": ["gmp_compat.c:GMPZAPI(export)", "gmp_compat.c:GMPZAPI(import)"]}
{"id": "C47", "title": "GMP small conversions", "statement": "impz_get_ui returns |op| mod 2^64 when op does not fit, else op; impz_get_si returns op when it fits, else the low 63 bits with the sign of op. The value -2^63 is excluded for get_si.", "quantifier": "all values", "why_tests_cant": "all residues", "anchors": ["gmp_compat.c:GMPZAPI(get_ui)", "gmp_compat.c:GMPZAPI(get_si)", "gmp_compat.c:get_long_bits"]}
{"id": "C48", "title": "GMP composite operations", "statement": "impz_addmul, _submul, _add_ui, _sub_ui, _mul_ui, _pow_ui, _divexact, _divisible_p, _gcd, _lcm, _mul_2exp compute what their GMP counterparts do. A shift by mul_2exp of a non-zero number is below 2^32.", "quantifier": "all values, all aliasings", "why_tests_cant": "tests sample a few operands; carries, borrows, buffer growth and aliasing interact at digit boundaries for unboundedly many sizes", "anchors": ["gmp_compat.c"]}
{"id": "C49", "title": "Error strings are total", "statement": "mp_error_string(res) returns the documented message for each code and the unknown-code message otherwise, for every int. INT_MIN is excluded: its negation overflows.", "quantifier": "all 2^32 result codes", "why_tests_cant": "every integer must map inside a finite table", "anchors": ["imath.c:mp_error_string"]}
{"id": "C50", "title": "Storage grows monotonically", "statement": "No call shrinks the storage of an mp_int; copy/zero do not allocate unless more digits are needed. Multiplication and squaring are for an output that is not an operand (otherwise the storage is replaced).", "quantifier": "all calls, all storage states", "why_tests_cant": "quantifies over all storage states", "anchors": ["imath.c:s_pad", "imath.c:mp_int_copy", "imath.c:mp_int_zero"]}
{"id": "C51", "title": "GMP direct translations", "statement": "The functions of the GMP interface that correspond to one library function (mpz_add, sub, mul, set, neg, abs, set_si, set_ui, swap, cmp, cmpabs, cmp_si, sgn, init, clear; mpq_mul, set, set_ui, canonicalize, cmp, sgn, numref, denref) compute the same result as GMP documents: the result goes to the first argument, comparisons give the order, and the internal check that the operation succeeded holds. Excluded: mpz_set_si of the least long (C16), mpq_set_ui and mpq_canonicalize with denominator 0, exhausted memory.", "quantifier": "all values of the arguments, all aliasings of the output with the inputs, all other live variables", "why_tests_cant": "Swapped arguments and aliasing errors show only for some values and some combinations of arguments; the value range is unbounded.", "anchors": ["gmp_compat.c: GMPZAPI(add), GMPZAPI(sub), GMPZAPI(mul), GMPZAPI(neg), GMPZAPI(abs), GMPZAPI(set), GMPZAPI(set_si), GMPZAPI(set_ui), GMPZAPI(swap), GMPZAPI(cmp), GMPZAPI(cmpabs), GMPZAPI(cmp_si), GMPZAPI(sgn), GMPZAPI(init), GMPZAPI(clear), GMPQAPI(mul), GMPQAPI(set), GMPQAPI(set_ui), GMPQAPI(canonicalize), GMPQAPI(cmp), GMPQAPI(sgn), GMPQAPI(numref), GMPQAPI(denref)"]}
{"id": "C52", "title": "GMP text conversions", "statement": "mpz_get_str writes exactly the text of the number (lower case digits for a positive radix, upper case for a negative one) and its terminator into a buffer that has room for them, mpq_get_str likewise for a rational, mpz_set_str and mpq_set_str read such texts back to the same value and return 0 exactly if the whole string is a number, and mpz_sizeinbase gives the number of digits or one more, and exactly the number of digits if the base is a power of two. Excluded: numbers beyond the bounds of C19 and beyond 2^29 bits, results allocated by the function itself; refuted for mpq_get_str with a buffer whose bytes behind the text have not been written.", "quantifier": "all numbers within the size bounds, all radixes 2 to 36 and their negatives, all buffers and offsets, all strings read", "why_tests_cant": "The reported length is computed from a table of logarithms and the bit count; whether it is short, exact or one long depends on the number and the radix.", "anchors": ["gmp_compat.c: GMPZAPI(get_str), GMPQAPI(get_str), GMPZAPI(set_str), GMPQAPI(set_str), GMPZAPI(sizeinbase)"]}
{"id": "C53", "title": "Life of a rational", "statement": "mp_rat_init, mp_rat_init_size and mp_rat_init_copy turn an uninitialised rational into one with the value 0/1, 0/1 and that of the original; mp_rat_clear gives the storage of both parts back and leaves the structure so that clearing again is harmless; mp_rat_alloc gives a fresh rational with value 0/1 or NULL, mp_rat_free takes it back with nothing left over; mp_rat_numer and mp_rat_denom copy out the parts of the value in lowest terms. No other variable changes.", "quantifier": "all states with any other live variables, all precisions below 2^32 - 1, all refusals of memory that the functions report", "why_tests_cant": "Leaks and interference with other variables depend on the whole state.", "anchors": ["imrat.c: mp_rat_init, mp_rat_init_size, mp_rat_init_copy, mp_rat_clear, mp_rat_alloc, mp_rat_free, mp_rat_numer, mp_rat_denom"]}
{"id": "C54", "title": "A refused request leaves the other integers intact", "statement": "In the NDEBUG build, whichever requests for memory are refused: mp_int_copy, abs, neg, set_value, set_uvalue either do their work or return MP_MEMORY with nothing changed; mp_int_read_unsigned and read_binary too, and mp_int_mul_value, and mp_int_mul and sqr when the operands have fewer digits than the Karatsuba threshold or one is about twice as long as the other; mp_int_to_string the same, the buffer included; mp_int_mul_pow2 and mp_int_div_pow2 fail with nothing changed or with only their first step done; mp_int_gcd fails with its temporaries released, its operands intact and its output still a number; mp_int_egcd fails with its eight temporaries released, and at most the coefficients assigned; mp_int_init_size, init_copy, init_value, init_uvalue fail with the structure holding no storage and nothing else changed; after a failed mp_int_add, sub, add_value or sub_value the caller may clear the output, and then everything else is intact and nothing has leaked. Refuted: that a failed mp_int_add leaves its output as it was; that a failed mp_int_read_string does (it negates it); that a failed mp_int_mul of long operands leaks nothing.", "quantifier": "all integers, all aliasings of the arguments, all sequences of granted and refused requests, all states with any other live variables", "why_tests_cant": "Every subset of the requests may be refused, from every state; tests do not run out of memory at a chosen request.", "anchors": ["imath.c: s_pad, mp_int_copy, mp_int_abs, mp_int_neg, mp_int_set_value, mp_int_set_uvalue, mp_int_add, mp_int_sub, mp_int_add_value, mp_int_sub_value, mp_int_mul, mp_int_mul_pow2, mp_int_div_pow2, mp_int_gcd, mp_int_init_size, mp_int_init_copy, mp_int_init_value, mp_int_to_string, mp_int_read_string"]}
{"id": "C55", "title": "Programs survive running out of memory", "statement": "In the NDEBUG build, a program that makes any sequence of calls (input, output and conversion of integers, copies, comparisons, sums, differences, shifts, gcd, egcd, products by small values, products and squares that need no Karatsuba step, creation and release of handles), may look at the results, and after a failed addition, subtraction or string input only releases the output, runs without undefined behaviour whichever requests for memory are refused. Each call does its work or returns MP_MEMORY (alloc: NULL); integers that are not outputs keep their values through all of that; integers that are not spoilt have canonical values; every heap block belongs to one live or spoilt integer, so when all are released nothing is left on the heap; and with no request refused no failure is reported.", "quantifier": "all such programs (of any length, deciding by the answers), all starting states, all sequences of granted and refused requests", "why_tests_cant": "Failures at any subset of the requests in a history of any length, with the rest of the history depending on them.", "anchors": ["imath.c: all functions named in rocq/theories/SpecLow.v, safe; s_pad, s_alloc, s_realloc"]}
{"id": "C56", "title": "Programs with rationals behave like a store of rationals", "statement": "A program that makes any sequence of calls to the rational and the integer functions (creation and release, assignment, copies, sums, differences, products, quotients, reciprocals, powers, operations with an integer operand, comparisons, conversions, text in both notations, and all calls of C27 on integers that are not members of a rational), each within its conditions, and decides by the answers what to call next, sees exactly a store of rational numbers and integers: every answer and every value is the one of exact arithmetic. After every call every rational is in lowest terms with a positive denominator in memory; rationals that are not outputs are unchanged; there is no undefined behaviour, failing assertion or endless loop; every heap block belongs to one live integer or member.", "quantifier": "all such programs of any length, deciding by the answers, all starting stores, all numbers, all aliasings the conditions allow", "why_tests_cant": "Histories of any length, adaptive, over unbounded numbers, with two parts of the library sharing structures.", "anchors": ["imrat.c: all functions named in rocq/theories/SpecQHist.v, qcall", "imath.c: all functions named in rocq/theories/SpecHist.v, call"]}
{"id": "C57", "title": "Functions of the GMP interface that obtain memory for the caller", "statement": "mpz_get_str, mpq_get_str (for integers) and mpz_export called with a null buffer return a block of the heap that did not exist before; it holds exactly the text with its terminator (and at most one further byte) or the words, it belongs to the caller, freeing it restores the memory as it was, and nothing else changes. mpz_export of zero returns the null pointer. mpq_set_str works on a copy of its argument which it frees. When a request is refused, mpz_get_str stops in an assertion; mpz_export and mpq_set_str write to the null pointer, and mpq_get_str of a rational that is not an integer reads bytes of its new block nobody has written (recorded as refuted).", "quantifier": "all numbers within the stated size, all radices, word sizes, orders and endiannesses, all strings, all decisions of the allocator", "why_tests_cant": "Every number and every format; the absence of leaks and of accesses outside the new block is about every execution.", "anchors": ["gmp_compat.c: GMPZAPI(get_str), GMPQAPI(get_str), GMPZAPI(export), GMPQAPI(set_str)"]}
{"id": "C58", "title": "Threads that use the library side by side do not disturb each other", "statement": "Several threads each make any sequence of the calls of C27, within their conditions, on integers and buffers of their own; besides these they may share integers and buffers as long as no thread names them as an output (for a buffer: no thread writes text or bytes into it or decodes it with mp_int_read_binary) and no thread changes the default precision or the multiplication threshold. Then, for every interleaving of their accesses to memory and every decision of the allocator: nothing is undefined, no assertion fails but the one after a refused request, no two threads are ever about to touch the same structure, block or tunable with one of them writing (no data race), every schedule comes to an end, each thread sees exactly the answers it would see on its own part of the store, and when all have returned the memory holds the parts put together, nothing leaked, what was shared unchanged. Two threads decoding the same buffer with mp_int_read_binary do race, and one may decode -1 as 1 (recorded as refuted): the function complements a negative number in place while it reads it.", "quantifier": "all numbers of threads, all such programs of any length deciding by the answers, all divisions of the store, all schedules, all decisions of the allocator", "why_tests_cant": "A test sees a few schedules; the claim is about every interleaving of single accesses of programs of any length, and a temporary write to an operand, restored before the function returns, is invisible to tests on one thread.", "anchors": ["imath.h: the API functions (const operands), multiply_threshold, default_precision", "imath.c: all functions named in rocq/theories/SpecHist.v, call", "imath.c: mp_int_read_binary, s_2comp"]}
{"id": "C59", "title": "The example program for the digits of pi prints pi, up to a few units of the last place", "statement": "For a radix from 4 to 36 and any number n of digits the program examples/pi.c ends with status 0 and its buffer holds one digit, n further digits and a terminating NUL; the number these n+1 digits write differs from pi * radix^n by at most n/4 + 6 units. Its function arctan stores mul * radix^prec * atan(1/x) within one unit plus (the number of terms of the series plus one)/radix, for all arguments, and always ends. All temporaries are released and nothing else changes. The last digits need not be right: for n = 11 the program prints 3.14159265360 (recorded as refuted). In radix 2 and 3 the program writes one byte past the end of its buffer (recorded as refuted).", "quantifier": "all radices, all numbers of digits below 2^31 - 2, all multipliers and arguments of arctan whose square fits, all decisions of the allocator", "why_tests_cant": "Tests compare a few lengths with known digits; the error bound is about every length and radix and about the real number pi.", "anchors": ["examples/pi.c: arctan, main"]}
{"id": "C60", "title": "The RSA key generator makes the key that its random bytes determine, and says why when it does not", "statement": "examples/rsakey.c: a random number of n bits has the bits of the bytes read, besides its lowest bit, which is set, and its highest, which is set if n is no multiple of 8; with too few bytes (MP_TRUNC) or no memory (MP_MEMORY) the number is unchanged, and the buffer is released in every case. From the random bytes the program makes p and q, the least odd apparent primes from two such numbers on, e, the given exponent or the first later draw with an inverse modulo (p-1)(q-1), and d, that inverse; then n = p q. If it stops before, the code reported is the one for the reason. If p and q are two different primes, raising to the power e and then d modulo n gives back every number below n. The modulus is not below 2^(2h-2), h being half the number of bits, if h is no multiple of 8. The program prints the decimal numerals of p, q, e, d, n and gives back all memory, if e is not above n; this is so for random exponents when h is no multiple of 8. Recorded as refuted: p and q may be equal, and the key is then wrong; the modulus may have fewer bits (4 instead of 16) or more (9 instead of 8) than asked for; an exponent with more digits than n is written past the end of the buffer.", "quantifier": "all numbers of bits from 8 to 2^31 - 2, all sequences of random reads (including short ones and failures to open the device), all texts given for the exponent, all decisions of the allocator", "why_tests_cant": "The result depends on random bytes; the failures need particular ones (equal primes, small primes) that a test does not meet.", "anchors": ["examples/rsakey.c: randomize, mp_int_randomize, find_prime, main, rsa_key_write", "imath.c: mp_int_read_unsigned, mp_int_invmod, mp_int_to_string", "iprime.c: mp_int_is_prime"]}
{"id": "C61", "title": "Rational functions when memory runs out", "statement": "With NDEBUG, whichever requests for memory are refused, copying, absolute value, negation and reciprocal of a rational either succeed with the right value and MP_OK, or return MP_MEMORY, and then the output is as it was or has its new numerator and its old denominator (so a failed call need not leave the output as it was: refuted by an example). Setting to zero and initialisation make no request and succeed. Initialisation with given sizes or from another rational succeeds, or returns MP_MEMORY, and then neither member owns memory: nothing is lost and the structure can be initialised again. Reading the numerator or denominator as an integer succeeds or leaves the integer as it was. Allocation on the heap gives NULL and changes nothing, or a fresh zero. Writing a fraction as text succeeds, or returns MP_MEMORY and has written nothing, or the numerator and the slash without a terminator. Reading a whole number succeeds, or returns MP_MEMORY, and then releasing the rational puts everything in order. Nothing else changes, and nothing outside the storage is touched. Recorded as refuted: mul, div, add, sub, their variants with an integer, expt, set_value, set_uvalue and reduce can answer MP_OK with a wrong number, compare and compare_value a wrong order, to_decimal a wrong text with MP_OK, and read_decimal a wrong number with MP_OK.", "quantifier": "all rationals, all placements of the operands, all allocation failure schedules", "why_tests_cant": "each request of each call may be refused independently of the others", "anchors": ["imrat.c:mp_rat_copy", "imrat.c:mp_rat_abs", "imrat.c:mp_rat_neg", "imrat.c:mp_rat_recip", "imrat.c:mp_rat_init_size", "imrat.c:mp_rat_init_copy", "imrat.c:mp_rat_add", "imrat.c:mp_rat_mul", "imrat.c:mp_rat_compare_unsigned", "imrat.c:mp_rat_reduce", "imath.c:s_norm", "imrat.c:mp_rat_to_string", "imrat.c:mp_rat_to_decimal", "imrat.c:mp_rat_read_cstring", "imrat.c:mp_rat_read_cdecimal", "imrat.c:mp_rat_alloc", "imrat.c:mp_rat_compare_value"]}
{"id": "C62", "title": "The calculator computes what its stack machine says", "statement": "examples/imcalc.c reads commands separated by white space: numbers in radix 10, or in radix 2, 8, 10 or 16 after #b, #o, #d or #x; the names of about fifty operators in either case; setting and fetching of variables. On every such text, of any length, on any machine state, it behaves as a stack machine on integers: each operator replaces its operands by its result (or, when it cannot, reports why and leaves the operands as specified), operators without enough operands and unknown words are skipped, the printing operators print the numeral of the value in the radix chosen (or its bytes in two's complement, or that there is no memory to print it). The program always ends, with status 0 exactly if the last operation that ran reported success. No digits are leaked and nothing of the caller's is changed. Whatever requests are refused this remains so for texts that set no variable (a command that needs a new integer may then fail for lack of memory); with variables, if no structure is refused. In particular any expression in postfix notation followed by a full stop prints its value. Conditions on single operators: exponents and orders of roots from 2^32 on, the order of a root below 1, powers modulo a negative number, the integer -2^63 as a count, and printing above 2^20000 in radices other than 10 and binary are excluded. Recorded as refuted: structures of operands that are taken off the stack are never released; status 0 after a division by zero; 2 to the power 2^32 printed as 1; 3^5 modulo -7 printed as 19; an assertion fails for the root of order 0, and when the structure for a variable is refused; undefined behaviour when -2^63 is the count for picking; names end before a digit.", "quantifier": "all texts made of such commands, of any length, all states of the store, all patterns of refused requests", "why_tests_cant": "A session is a sequence of commands of any length over integers of any size, read from text that can be written in many ways; the effect of a command depends on everything before it, and on which requests were refused.", "anchors": ["examples/imcalc.c: main, run_file, next_token, read_number, find_command, print_value, stack_push, stack_pop, mem_insert, mem_recall, cf_* (the table g_ops)"]}
{"id": "C63", "title": "The example programs for conversion, rounding and primes do what they say", "statement": "examples/basecvt.c: for any list of arguments and radices from 2 to 36, each argument that as a whole writes a rational (an integer, a fraction, or digits with a radix point) is printed in the other radix, an integer without a denominator and any other number in lowest terms; an argument that is none is reported with the part that is not understood and skipped; a fraction over zero or a refused buffer ends the program; the status is that of the last argument. Other radices give status 3. examples/input.c: the same for one value, with the library's code when it is no number. examples/rounding.c: the value rounded in the mode asked for with that many digits (except for the carries refuted in C40), or the code when the string is no number. examples/findprime.c: the least odd apparent prime from the number on; numbers up to 131 give status 1, other strings status 2. examples/randprime.c: the least odd apparent prime from the number the random bytes determine on, or, with -s, 2h+1 for the least odd apparent prime h from it on with 2h+1 apparent prime too; otherwise the code for lack of memory or of random bytes. Nothing of the caller's is changed and nothing is leaked. Recorded as refuted: status 0 although memory ran out or an argument was no number; rounding with an unknown mode or a refused buffer (undefined) or a radix above 36 (assertion); the memory lost when findprime refuses a number; the number of bits randprime is asked for.", "quantifier": "all argument lists, strings, radices, precisions, rounding modes, numbers of bits, random bytes, machine states and patterns of refused requests (rounding.c: when all requests are granted)", "why_tests_cant": "The texts, values and allocation failures are unbounded; a test runs a few arguments.", "anchors": ["examples/basecvt.c: main", "examples/input.c: main", "examples/rounding.c: main", "examples/findprime.c: main", "examples/randprime.c: main, find_strong_prime, find_prime, mp_int_randomize"]}
{"id": "C64", "title": "Threads that use rationals and integers side by side do not disturb each other", "statement": "C58 with the calls of C56: several threads each make any sequence of calls on integers, rationals and buffers of their own; besides these they may share integers, rationals and buffers, as long as no call of a thread changes a shared integer, a member of a shared rational or a shared buffer, and none changes the default precision or the multiplication threshold. Then, for every interleaving of their accesses to memory and every decision of the allocator: nothing is undefined, no assertion fails but the one after a refused request, there is no data race, every schedule comes to an end, each thread sees exactly the answers it would see on its own part of the store, and when all have returned the memory holds the parts put together, every rational in lowest terms, nothing leaked, what was shared unchanged.", "quantifier": "all numbers of threads, all such programs of any length deciding by the answers, all divisions of the store, all schedules, all decisions of the allocator", "why_tests_cant": "The functions on rationals read their operands many times and work on copies with temporaries; that no operand is written even for a moment, in any branch, under any interleaving, is not visible to a test.", "anchors": ["imrat.h: the API functions (const operands)", "imrat.c: all functions named in rocq/theories/SpecQHist.v, qcall", "imath.c: the functions they call"]}
{"id": "C65", "title": "Programs written against the GMP interface behave like a store of integers and rationals", "statement": "A program makes any sequence of calls of the functions of gmp_compat.h (initialising and clearing, arithmetic, the rounding divisions, exact division, gcd, lcm, powers, shifts, comparison, conversion to machine words, text, import and export, and the functions on rationals), mixed in any way with calls of imath.h and imrat.h, and decides each call by the answers so far. Arguments may be the same variable, also as input and output, and the numerator and denominator of a rational may be written to as integers (mpq_numref, mpq_denref); the rational then has no value until mpq_canonicalize makes one of the two. As long as each call meets the documented preconditions (a divisor is not 0, an exact division is exact, a buffer is long enough, and the exceptions of C47, C48 and C52), nothing is undefined, no assertion of the interface fails, every call returns, and the answers and the numbers left are those of plain integers and rationals. Every rational with a value is in lowest terms in memory. Nothing is leaked, in particular none of the temporary variables of the interface, and what is not an output is unchanged. The result and the answer of each call, but for the freedom its documentation leaves, are settled by the call and the numbers before it.", "quantifier": "all programs of any length deciding by the answers, all numbers, all sharing of variables between arguments, all decisions of the allocator", "why_tests_cant": "A test runs one sequence; that no sequence leaves a variable, a rational or the heap in a state in which a later call misbehaves is a statement about all of them.", "anchors": ["gmp_compat.h: all functions", "gmp_compat.c: GMPZAPI(...), GMPQAPI(...), all functions", "imath.c, imrat.c: the functions they call"]}
{"id": "C66", "title": "The GMP interface when memory runs out", "statement": "The GMP-style functions return nothing, so in a build without assertions a refused request for memory is not reported. For assignment, negation, absolute value, products (made without Karatsuba's method) and assignment of machine integers the output then holds either the right result or its old value; for a shift also possibly the unshifted operand, for a greatest common divisor possibly another number; no other variable changes, nothing leaks, and any sequence of such calls goes on safely from there. After a refused sum or difference the output can still be released with everything else intact. Initialising a rational cannot fail. Otherwise the interface does not survive: products, sums, quotients, powers, least common multiples may silently be wrong, mpz_divisible_p may answer yes for a number that is no multiple, and mpz_add_ui, mpz_sub_ui, mpz_mul_ui, mpz_fdiv_r and mpz_fdiv_q_ui use a temporary that was never initialised, which is undefined behaviour.", "quantifier": "all stores of integers and rationals, all operands and aliasings, all sequences of the calls named, and all patterns of refused requests for memory", "why_tests_cant": "A test would have to refuse each request in turn for every operand length and every sequence of calls; the failures are silent, so only a comparison with the intended value for all inputs can say what may be left behind.", "anchors": ["gmp_compat.c: CHECK", "gmp_compat.c: GMPZAPI(set), GMPZAPI(mul), GMPZAPI(gcd), GMPZAPI(mul_2exp)", "gmp_compat.c: GMPZAPI(add_ui), GMPZAPI(fdiv_r), GMPZAPI(fdiv_q_ui), GMPZAPI(divisible_p)", "imath.c: s_pad, s_alloc"]}
{"id": "C67", "title": "Threads that use the GMP interface do not disturb each other", "statement": "C64 with the calls of C65: several threads each make any sequence of calls of the GMP interface and of the library on integers, rationals and buffers of their own; besides these they may share integers, rationals and buffers, as long as no call of a thread changes a shared integer, a member of a shared rational or a shared buffer, and none changes the default precision or the multiplication threshold. Then, for every interleaving of their accesses to memory and every decision of the allocator: nothing is undefined, no assertion fails but the one after a refused request, there is no data race, every schedule comes to an end, each thread sees exactly the answers it would see on its own part of the store, and when all have returned the memory holds the parts put together, nothing leaked, what was shared unchanged.", "quantifier": "all numbers of threads, all such programs of any length deciding by the answers, all divisions of the store, all schedules, all decisions of the allocator", "why_tests_cant": "The GMP interface makes local integers for machine integers, negates and restores signs of temporaries and copies operands that coincide with results; that it never writes an operand even for a moment, in any branch, under any interleaving, is not visible to a test.", "anchors": ["gmp_compat.h: the functions with const operands", "gmp_compat.c: all functions named in rocq/theories/SpecGHist.v, gcall", "imath.c, imrat.c: the functions they call"]}
{"id": "C68", "title": "The build with DEBUG=1 gives the same answers, but loses memory when an integer grows", "statement": "Built with make DEBUG=Y (the digits of an integer that must grow are moved to a new block filled with a pattern, instead of being resized), the library gives every program of C65 exactly the answers and leaves exactly the values of C65, whatever the allocator grants: nothing is undefined, no assertion fails but the one after a refused request, and no two integers share digits, also when blocks have been lost before. The absence of leaks (C65) does not hold in this build: an integer that has grown leaves its old block behind, which nothing points to any more, even after the integer is cleared.", "quantifier": "all programs of any length on the GMP interface and the library, deciding by the answers; all states they start from, with any blocks lost before; all decisions of the allocator", "why_tests_cant": "The debug build is used to find errors by tests; that it does not itself change any answer, for any history and any pattern of refusals, is not visible to tests in either build.", "anchors": ["imath.c: s_alloc, s_realloc under DEBUG", "Makefile: DFLAGSY", "imath.c, imrat.c, gmp_compat.c: all functions named in rocq/theories/SpecGHist.v"]}
{"id": "C69", "title": "Integers that were given enough storage: no call fails for want of memory", "statement": "If every integer of a program has storage for N digits (mp_int_init_size gives it), calls whose operands leave the room they need cannot fail, whatever the allocator refuses, in the default build and with NDEBUG: copies, negation, sums and differences (one digit more than the operands), shifts, products (up to seven digits) and squares (up to eight) into an integer that is not an operand (twice the digits of the longer operand plus two), strings and bytes read in (a digit for every four characters or bytes, and two more), comparisons, conversions to machine integers and bytes, swaps, clearing. Each gives the answer of the store of integers, no call reports MP_MEMORY or stops the program, and no integer ends up with storage for less than N digits. So a program that first makes its integers with mp_int_init_size can only fail in those first calls, one request each; when these are granted everything succeeds in both builds. The limits are real: a product put onto one of its operands, a division, and a sum of operands that fill the storage ask for memory however much storage there is.", "quantifier": "all programs of any length made of such calls, deciding by the answers; all N and all values that fit; all aliasings of operands and outputs except those named; all settings of the tunables; all decisions of the allocator; both builds", "why_tests_cant": "Whether a request is made depends on the values and on the storage left by every earlier call, and the allocator's refusals are not under the control of tests; that a program of any length never asks is a claim about all histories.", "anchors": ["imath.c: s_pad, s_fake, s_ufake, mp_int_init_size, mp_int_copy, mp_int_add, mp_int_sub, mp_int_mul, mp_int_sqr, mp_int_mul_pow2, mp_int_div_pow2, mp_int_swap, mp_int_clear, s_kmul, s_ksqr, s_qmul, mp_int_read_string, mp_int_read_cstring, mp_int_read_unsigned, mp_int_read_binary, s_inlen"]}
