{
 "C01": {
  "note": "For every operand except the smallest mp_small, for which the C code is undefined (C01_add_value_min_refuted)."
 },
 "C02": {
  "note": "Small operand: every value except the smallest mp_small (same defect as C01)."
 },
 "C03": {
  "note": "All sizes, all thresholds >= 8; small operand other than the smallest mp_small."
 },
 "C05": {
  "note": ""
 },
 "C06": {
  "note": "Positive modulus. For a negative modulus the result is not a residue (C06_mod_negative_refuted)."
 },
 "C07": {
  "note": "For exponents below 2^32 and the aliasings and remainders listed; the rest of the claim is refuted by the *_refuted theorems."
 },
 "C08": {
  "note": "For exponents below 2^32 (machine exponent) and c distinct from b (full exponent); the rest is refuted by the *_refuted theorems."
 },
 "C16": {
  "note": "All values except -2^63, for which both directions are undefined (C16_min_refuted)."
 },
 "C31": {
  "note": "Parity and bit length for all values, is_pow2 for positive ones; is_pow2 of 0 and of negative numbers is refuted."
 },
 "C32": {
  "note": "mod_value proved for non-negative dividends; for negative ones the documented range is refuted."
 },
 "C10": {
  "note": "All operands and aliasings."
 },
 "C11": {
  "note": "Bezout's identity proved for positive operands (and for absolute values in general). For negative operands it is refuted (C11_egcd_negative_refuted); a NULL coefficient with a zero operand fails an assertion (C11_egcd_null_refuted)."
 },
 "C12": {
  "note": "Least common multiple up to the sign of the product; negative results are refuted by C12_lcm_negative_refuted."
 },
 "C13": {
  "note": "All a, m except a<0 with m=1, where the stored value 1 is outside [0,1) (C13_invmod_one_refuted)."
 },
 "C15": {
  "note": "All degrees 1 <= b < 2^32; larger degrees are cut to 32 bits (C15_root_big_refuted)."
 },
 "C14": {
  "note": "Positive modulus, every exponent and aliasing (the supplied Barrett constant must not be the output). Exponent 0 with modulus 1, negative moduli, the aliased constant and the sign of the constant are refuted by the *_refuted theorems."
 },
 "C17": {
  "note": "All values and radices; one numeral per value. Strings that are read are lists of characters."
 },
 "C18": {
  "note": "MP_OK/MP_TRUNC exactly as stated; the write to str[limit] is C18_overflow_refuted."
 },
 "C19": {
  "note": "Proved from the floating-point arithmetic up to enough_bits r (all sizes in radix 10, 16 and others); refuted for 2^20197-1 in radix 13. Also at most one too long, and exact in a radix that is a power of two (C19_string_len_tight, up to 2^29 bits)."
 },
 "C20": {
  "note": "Every string shorter than 2^31 (the code stores its length in an int); every string has the shape of the theorem (C20_every_string)."
 },
 "C21": {
  "note": "Byte strings shorter than 2^28 bytes (beyond, the bit count overflows an int: C21_read_binary_refuted); to_binary needs a limit of at least 1 (C21_no_room_refuted). With too little room the low-order bytes are written and MP_TRUNC returned."
 },
 "C22": {
  "note": "Byte strings shorter than 2^28 bytes."
 },
 "C35": {
  "note": "What is stored is unique and in lowest terms; every C36/C38 theorem concludes with such a store. set_value excludes the smallest mp_small."
 },
 "C36": {
  "note": "All aliasings of the rational arguments; for mul_int and div_int the integer is not a member of a different destination (C36_mul_int_alias_refuted)."
 },
 "C37": {
  "note": "compare_value with d = 0 returns INT_MAX instead of the documented MP_UNDEF (C37_compare_value_zero_refuted); the arguments of compare_value exclude the smallest mp_small."
 },
 "C38": {
  "note": "Exponents below 2^32; larger ones are cut to 32 bits (C38_expt_big_refuted)."
 },
 "C33": {
  "note": "Fermat test to the prime bases up to 29 after trial division, characterised exactly by apparent_prime; a composite that is accepted is exhibited. Refuted: the temporary leaks when memory runs out in the NDEBUG build (C33_leak_refuted)."
 },
 "C34": {
  "note": "Termination uses a prime between m and 2*m^2, proved in NumTh.v."
 },
 "C42": {
  "note": "That decode stays inside the buffer is refuted (C42_decode_overrun_refuted); everything else proved."
 },
 "C43": {
  "note": "Fermat + CRT proved in NumTh.v with mathcomp, no axioms."
 },
 "C44": {
  "note": "For len = reported binary length and leading byte below 128, as the statement says; the wider reading of the function's comment is refuted by the *_refuted theorems."
 },
 "C45": {
  "note": "All values with d <> 0 and all aliasings."
 },
 "C46": {
  "note": "Destination supplied by the caller (the NULL form, which calls malloc, is in C57), nails 0; sizes up to 2^34-8 bytes. Importing no words leaves the result unchanged where GMP stores 0 (C46_import_none_refuted)."
 },
 "C47": {
  "note": "get_ui for all values; get_si for all but -2^63, excluded in the statement, where it is undefined behaviour (C47_get_si_min_refuted)."
 },
 "C48": {
  "note": "mul_2exp with 2^32 or more bits is refuted; all other operations proved for all values and aliasings."
 },
 "C23": {
  "note": "Over every history of imath.c calls made under the conditions of C01-C32 (legal), see SpecHist.v."
 },
 "C24": {
  "note": "Over every history of legal calls and every allocation schedule, in both builds (NDEBUG: as long as nothing is refused). Refuted for mp_int_init_size with the largest mp_size (C24_init_size_max_refuted)."
 },
 "C25": {
  "note": "Over every history of legal calls."
 },
 "C26": {
  "note": "Over every legal call: unlisted handles keep value and storage contents."
 },
 "C27": {
  "note": "Step simulation between the pointer-level model and a map from handles to integers, over every history, including object life cycles and adaptive clients."
 },
 "C28": {
  "note": "For every program of the model and for histories."
 },
 "C29": {
  "status": "proved",
  "note": "Settled function by function for the integer functions. True (C29_, C54_ and, for histories, C55_withstands): copy, abs, neg, add(_value), sub(_value), set_(u)value, mul_value, mul_pow2, div_pow2, gcd, egcd, init_size, init_copy, init_(u)value, text and binary input and output, and mul and sqr when Karatsuba is not used. Refuted by concrete schedules (C29_..._refuted): sqr and mul of long operands, div, mod, div_value, divisible_value, lcm, invmod, expt, expt_value, expt_full, root, redux_const, exptmod, exptmod_known answer MP_OK with a wrong value; exptmod, exptmod_evalue and exptmod_bvalue moreover have undefined behaviour. For the rational functions see C61."
 },
 "C49": {
  "note": "Refuted for INT_MIN (negation overflows)."
 },
 "C50": {
  "note": "Refuted when the output of mul/sqr is an operand; the functions built on mul (powers, gcd, ...) are not treated separately."
 },
 "C39": {
  "note": "Writing, limits, string_len, reading of every string, round trip. Refuted: with room for the numerator but less than three characters after it an assertion fails (C39_slash_refuted); characters behind the denominator leave an unreduced, possibly zero-denominator pair with MP_TRUNC (C39_junk_refuted)."
 },
 "C40": {
  "note": "All modes, precisions and limits except: a rounding carry into 0..010..0 or out of the fraction digits (C40_carry_refuted) and a buffer without one spare character (C40_exact_refuted). An invalid mode leaks the temporaries (C40_mode_refuted)."
 },
 "C41": {
  "note": "Exact for every string; a point followed by white space or a sign ends the number at the point (C41_read_badpoint), and the end is then not reported."
 },
 "C51": {
  "note": "mpz_set_si excludes the least long (C16)."
 },
 "C52": {
  "note": "Sizes bounded as in C19 and by 2^29 bits; mpq_get_str reads up to two bytes behind the terminator, so it is undefined with a fresh buffer (C52_mpq_get_str_refuted). The branches that allocate the result are in C57."
 },
 "C53": {
  "note": "calls: a request that is refused inside mp_rat_init ends the statement; a refusal of the structure itself gives NULL."
 },
 "C54": {
  "note": "For the functions named in the statement. add, sub and their _value forms: with the output cleared by the caller after a failure. mul: operands for which Karatsuba is not used (unsplit: both below the threshold, or one about twice as long as the other); sqr: below the threshold. Refuted: C54_add_refuted, C54_read_string_refuted, C54_mul_leak_refuted."
 },
 "C55": {
  "note": "For the calls of SpecLow.safe: not division, powers, modular arithmetic, lcm, root, nor products and squares that use Karatsuba (these can mistake a refusal for success, C29)."
 },
 "C56": {
  "note": "After a failed mp_rat_read_cstring (zero denominator, or characters left over after a fraction) the structure holds no rational until it is assigned again (C39_junk_refuted); mp_rat_to_decimal only where there is no carry out of the fraction (C40_carry_refuted) and with room for the text; mp_rat_string_len and mp_rat_decimal_len are sure to be enough up to 2^20000 (C19_string_len_refuted). All functions of imrat.h are among the calls except mp_rat_read_string/read_decimal, which are the c-variants without the end pointer, and the inline accessors."
 },
 "C57": {
  "note": "Blocks in the model have at most MAXD cells, requests for more are refused. mpz_get_str up to 2^29 bits (and the range of C19 for radices other than powers of two). Refuted for rationals that are not integers, and for refused requests in mpz_export and mpq_set_str."
 },
 "C58": {
  "note": "Integers (the calls of SpecHist.v); with rationals in C64. Sequentially consistent, atomic effects; see the trusted base in DESIGN.md. Refuted for a buffer decoded by two threads with mp_int_read_binary."
 },
 "C59": {
  "note": "The statements mention the real numbers PI and atan of the standard library: Print Assumptions lists the axioms of Coq.Reals (sig_forall_dec, sig_not_dec, functional_extensionality_dep) and classic; all other properties are closed. Refuted: exactness of the last digits; radix 2 and 3 (buffer overrun). n >= 2^31 - 2 overflows an int in main (undefined in the model)."
 },
 "C60": {
  "note": "Refuted parts: different primes, number of bits of the modulus, buffer for a long exponent. The marks of progress and the messages are not modelled (the code reported with a message is); the numbers are released in the opposite order. The theorem about the whole program assumes 0 <= e <= n for the key made (proved for random exponents if half the number of bits is no multiple of 8)."
 },
 "C61": {
  "note": "Positive theorems for copy, abs, neg, recip, zero, init, init_size, init_copy, alloc, numer, denom, to_string and reading of whole numbers. Refuted: restoring the output after a failed copy; MP_OK with a wrong number for mul, div, add, sub, add_int, sub_int, mul_int, div_int, expt, set_value, set_uvalue, reduce, read_decimal; MP_OK with a wrong text for to_decimal; order reported by compare, compare_unsigned and compare_value. Not treated: reading a fraction with a slash while requests are refused."
 },
 "C62": {
  "note": "Two theorems: texts that set no variable, all refusals; all texts, structures granted. Refuted parts: release of structures, exit code, exponent 2^32, negative modulus, root of order 0, pick -2^63, refused variable, digits in names. Growth of the arrays, messages on stderr, options and files are not modelled."
 },
 "C63": {
  "note": "basecvt and input for all refusals of requests; rounding when all are granted (malloc is not checked). findprime: if the prime has at most 4095 digits (its buffer). randprime -s: if there is a prime of the form asked for within the bound of the model (whether there always is one is an open problem). For the error returns of findprime only the status is proved, memory is lost. Option parsing, files and the text of the messages are not modelled."
 },
 "C64": {
  "note": "The calls of SpecQHist.v (with the conditions of C56). Sequentially consistent, atomic effects; see the trusted base in DESIGN.md."
 },
 "C65": {
  "note": "All functions of gmp_compat.h with the conditions written in glegal (SpecGHist.v), each with a reason; mpz_get_str, mpq_get_str and mpz_export with a buffer given (for NULL see C57)."
 },
 "C66": {
  "note": "NDEBUG build. Products with Karatsuba (where C54 has a leak), addmul/submul after a refusal, and the functions with string or byte buffers are not treated; the clauses about what goes wrong are the _refuted theorems, each a concrete run of the model."
 },
 "C67": {
  "note": "The calls of SpecGHist.v (with the conditions of C65). Sequentially consistent, atomic effects; see the trusted base in DESIGN.md."
 },
 "C68": {
  "note": "All of C65 but the absence of leaks, which is refuted (C68_no_leak_refuted). The fill pattern written into new blocks is modelled as indeterminate contents; the number of digits copied is the length of the old block (MP_ALLOC)."
 },
 "C69": {
  "note": "Products of up to seven digits and squares of up to eight, because the multiplication threshold may be as low as 8 and longer ones may use Karatsuba with temporaries. Calls not listed in thrifty (SpecFits.v) may ask for memory; C69_mul_alias_refuted, C69_div_refuted and C69_add_full_refuted show that for three kinds."
 }
}