{
 "claims": [
  {
   "property": "C01",
   "status": "proved",
   "theorems": [
    "C01_add",
    "C01_add_value",
    "C01_add_value_min_refuted"
   ],
   "note": "For every operand except the smallest mp_small, for which the C code is undefined (C01_add_value_min_refuted)."
  },
  {
   "property": "C02",
   "status": "proved",
   "theorems": [
    "C02_sub",
    "C02_sub_value"
   ],
   "note": "Small operand: every value except the smallest mp_small (same defect as C01)."
  },
  {
   "property": "C03",
   "status": "proved",
   "theorems": [
    "C03_mul",
    "C03_mul_value"
   ],
   "note": "All sizes, all thresholds >= 8; small operand other than the smallest mp_small."
  },
  {
   "property": "C04",
   "status": "proved",
   "theorems": [
    "C04_sqr"
   ],
   "note": ""
  },
  {
   "property": "C05",
   "status": "proved",
   "theorems": [
    "C05_div",
    "C05_div_by_zero"
   ],
   "note": ""
  },
  {
   "property": "C06",
   "status": "proved",
   "theorems": [
    "C06_mod",
    "C06_mod_negative_refuted",
    "C06_mod_zero"
   ],
   "note": "Positive modulus. For a negative modulus the result is not a residue (C06_mod_negative_refuted)."
  },
  {
   "property": "C07",
   "status": "proved",
   "theorems": [
    "C07_div_pow2",
    "C07_div_pow2_alias_refuted",
    "C07_div_pow2_zero_refuted",
    "C07_mul_pow2",
    "C07_mul_pow2_big_refuted"
   ],
   "note": "For exponents below 2^32 and the aliasings and remainders listed; the rest of the claim is refuted by the *_refuted theorems."
  },
  {
   "property": "C08",
   "status": "proved",
   "theorems": [
    "C08_expt",
    "C08_expt_big_refuted",
    "C08_expt_full",
    "C08_expt_full_alias_refuted",
    "C08_expt_value",
    "C08_negative_exponent"
   ],
   "note": "For exponents below 2^32 (machine exponent) and c distinct from b (full exponent); the rest is refuted by the *_refuted theorems."
  },
  {
   "property": "C09",
   "status": "proved",
   "theorems": [
    "C09_compare",
    "C09_compare_unsigned",
    "C09_compare_uvalue",
    "C09_compare_value",
    "C09_compare_zero"
   ],
   "note": ""
  },
  {
   "property": "C10",
   "status": "proved",
   "theorems": [
    "C10_gcd",
    "C10_gcd_undefined",
    "C10_gcd_value"
   ],
   "note": "All operands and aliasings."
  },
  {
   "property": "C11",
   "status": "proved",
   "theorems": [
    "C11_egcd",
    "C11_egcd_abs",
    "C11_egcd_negative_refuted",
    "C11_egcd_null_refuted",
    "C11_egcd_undefined",
    "C11_egcd_zero"
   ],
   "note": "Bezout's identity proved for positive operands (and for absolute values in general). For negative operands it is refuted (C11_egcd_negative_refuted); a NULL coefficient with a zero operand fails an assertion (C11_egcd_null_refuted)."
  },
  {
   "property": "C12",
   "status": "proved",
   "theorems": [
    "C12_lcm",
    "C12_lcm_abs",
    "C12_lcm_negative_refuted",
    "C12_lcm_undefined"
   ],
   "note": "Least common multiple up to the sign of the product; negative results are refuted by C12_lcm_negative_refuted."
  },
  {
   "property": "C13",
   "status": "proved",
   "theorems": [
    "C13_invmod",
    "C13_invmod_one_refuted",
    "C13_invmod_range",
    "C13_invmod_undefined",
    "C13_invmod_unique"
   ],
   "note": "All a, m except a<0 with m=1, where the stored value 1 is outside [0,1) (C13_invmod_one_refuted)."
  },
  {
   "property": "C14",
   "status": "proved",
   "theorems": [
    "C14_exptmod",
    "C14_exptmod_bvalue",
    "C14_exptmod_bvalue_errors",
    "C14_exptmod_evalue",
    "C14_exptmod_evalue_errors",
    "C14_exptmod_known",
    "C14_exptmod_known_alias_refuted",
    "C14_exptmod_known_errors",
    "C14_exptmod_negative_refuted",
    "C14_exptmod_one_refuted",
    "C14_exptmod_range",
    "C14_exptmod_undefined",
    "C14_redux_const",
    "C14_redux_const_sign_refuted",
    "C14_redux_then_known"
   ],
   "note": "Positive modulus, every exponent and aliasing (the supplied Barrett constant must not be the output). Exponent 0 with modulus 1, negative moduli, the aliased constant and the sign of the constant are refuted by the *_refuted theorems."
  },
  {
   "property": "C15",
   "status": "proved",
   "theorems": [
    "C15_root",
    "C15_root_big_refuted",
    "C15_root_undefined",
    "C15_sqrt"
   ],
   "note": "All degrees 1 <= b < 2^32; larger degrees are cut to 32 bits (C15_root_big_refuted)."
  },
  {
   "property": "C16",
   "status": "proved",
   "theorems": [
    "C16_min_refuted",
    "C16_set_uvalue",
    "C16_set_value",
    "C16_to_int",
    "C16_to_uint"
   ],
   "note": "All values except -2^63, for which both directions are undefined (C16_min_refuted)."
  },
  {
   "property": "C17",
   "status": "proved",
   "theorems": [
    "C17_numeral",
    "C17_round_trip",
    "C17_to_string"
   ],
   "note": "All values and radices; one numeral per value. Strings that are read are lists of characters."
  },
  {
   "property": "C18",
   "status": "proved",
   "theorems": [
    "C18_overflow_refuted",
    "C18_to_string_limit"
   ],
   "note": "MP_OK/MP_TRUNC exactly as stated; the write to str[limit] is C18_overflow_refuted."
  },
  {
   "property": "C19",
   "status": "proved",
   "theorems": [
    "C19_string_len",
    "C19_string_len_decimal",
    "C19_string_len_refuted",
    "C19_string_len_tight"
   ],
   "note": "Proved from the floating-point arithmetic up to enough_bits r (all sizes in radix 10, 16 and others); refuted for 2^20197-1 in radix 13. Also at most one too long, and exact in a radix that is a power of two (C19_string_len_tight, up to 2^29 bits)."
  },
  {
   "property": "C20",
   "status": "proved",
   "theorems": [
    "C20_every_string",
    "C20_read_cstring",
    "C20_read_string"
   ],
   "note": "Every string shorter than 2^31 (the code stores its length in an int); every string has the shape of the theorem (C20_every_string)."
  },
  {
   "property": "C21",
   "status": "proved",
   "theorems": [
    "C21_binary_len",
    "C21_no_room_refuted",
    "C21_read_binary",
    "C21_read_binary_refuted",
    "C21_round_trip",
    "C21_size",
    "C21_to_binary"
   ],
   "note": "Byte strings shorter than 2^28 bytes (beyond, the bit count overflows an int: C21_read_binary_refuted); to_binary needs a limit of at least 1 (C21_no_room_refuted). With too little room the low-order bytes are written and MP_TRUNC returned."
  },
  {
   "property": "C22",
   "status": "proved",
   "theorems": [
    "C22_read_unsigned",
    "C22_round_trip",
    "C22_size",
    "C22_to_unsigned",
    "C22_unsigned_len"
   ],
   "note": "Byte strings shorter than 2^28 bytes."
  },
  {
   "property": "C23",
   "status": "proved",
   "theorems": [
    "C23_canonical",
    "C23_canonical_rep"
   ],
   "note": "Over every history of imath.c calls made under the conditions of C01-C32 (legal), see SpecHist.v."
  },
  {
   "property": "C24",
   "status": "proved",
   "theorems": [
    "C24_init_size_max_refuted",
    "C24_safe",
    "C24_safe_ndebug"
   ],
   "note": "Over every history of legal calls and every allocation schedule, in both builds (NDEBUG: as long as nothing is refused). Refuted for mp_int_init_size with the largest mp_size (C24_init_size_max_refuted)."
  },
  {
   "property": "C25",
   "status": "proved",
   "theorems": [
    "C25_all_cleared",
    "C25_no_leak"
   ],
   "note": "Over every history of legal calls."
  },
  {
   "property": "C26",
   "status": "proved",
   "theorems": [
    "C26_outputs"
   ],
   "note": "Over every legal call: unlisted handles keep value and storage contents."
  },
  {
   "property": "C27",
   "status": "proved",
   "theorems": [
    "C27_history",
    "C27_start"
   ],
   "note": "Step simulation between the pointer-level model and a map from handles to integers, over every history, including object life cycles and adaptive clients."
  },
  {
   "property": "C28",
   "status": "proved",
   "theorems": [
    "C28_any",
    "C28_ndebug"
   ],
   "note": "For every program of the model and for histories."
  },
  {
   "property": "C29",
   "status": "proved",
   "theorems": [
    "C29_abs",
    "C29_add",
    "C29_add_value",
    "C29_copy",
    "C29_div_pow2",
    "C29_div_refuted",
    "C29_div_value_refuted",
    "C29_divisible_value_refuted",
    "C29_expt_full_refuted",
    "C29_expt_refuted",
    "C29_expt_value_refuted",
    "C29_exptmod_bvalue_unsafe_refuted",
    "C29_exptmod_evalue_unsafe_refuted",
    "C29_exptmod_known_refuted",
    "C29_exptmod_refuted",
    "C29_exptmod_unsafe_refuted",
    "C29_init_copy",
    "C29_init_size",
    "C29_init_uvalue",
    "C29_init_value",
    "C29_invmod_refuted",
    "C29_lcm_refuted",
    "C29_mod_refuted",
    "C29_mul_pow2",
    "C29_mul_refuted",
    "C29_neg",
    "C29_read_string",
    "C29_redux_const_refuted",
    "C29_root_refuted",
    "C29_set_uvalue",
    "C29_set_value",
    "C29_sqr_refuted",
    "C29_sub",
    "C29_sub_value",
    "C29_to_string"
   ],
   "note": "Settled function by function for the integer functions. True (C29_, C54_ and, for histories, C55_withstands): copy, abs, neg, add(_value), sub(_value), set_(u)value, mul_value, mul_pow2, div_pow2, gcd, egcd, init_size, init_copy, init_(u)value, text and binary input and output, and mul and sqr when Karatsuba is not used. Refuted by concrete schedules (C29_..._refuted): sqr and mul of long operands, div, mod, div_value, divisible_value, lcm, invmod, expt, expt_value, expt_full, root, redux_const, exptmod, exptmod_known answer MP_OK with a wrong value; exptmod, exptmod_evalue and exptmod_bvalue moreover have undefined behaviour. For the rational functions see C61."
  },
  {
   "property": "C30",
   "status": "proved",
   "theorems": [
    "C30_abs",
    "C30_copy",
    "C30_neg",
    "C30_swap",
    "C30_zero"
   ],
   "note": ""
  },
  {
   "property": "C31",
   "status": "proved",
   "theorems": [
    "C31_count_bits",
    "C31_is_pow2",
    "C31_is_pow2_refuted",
    "C31_parity"
   ],
   "note": "Parity and bit length for all values, is_pow2 for positive ones; is_pow2 of 0 and of negative numbers is refuted."
  },
  {
   "property": "C32",
   "status": "proved",
   "theorems": [
    "C32_div_value",
    "C32_div_value_zero",
    "C32_divisible_value",
    "C32_mod_value",
    "C32_mod_value_negative_refuted"
   ],
   "note": "mod_value proved for non-negative dividends; for negative ones the documented range is refuted."
  },
  {
   "property": "C33",
   "status": "proved",
   "theorems": [
    "C33_composite_accepted_refuted",
    "C33_exact_below",
    "C33_is_prime",
    "C33_leak_refuted",
    "C33_primes_accepted"
   ],
   "note": "Fermat test to the prime bases up to 29 after trial division, characterised exactly by apparent_prime; a composite that is accepted is exhibited. Refuted: the temporary leaks when memory runs out in the NDEBUG build (C33_leak_refuted)."
  },
  {
   "property": "C34",
   "status": "proved",
   "theorems": [
    "C34_find_prime",
    "C34_from_two_refuted",
    "C34_no_prime_missed"
   ],
   "note": "Termination uses a prime between m and 2*m^2, proved in NumTh.v."
  },
  {
   "property": "C35",
   "status": "proved",
   "theorems": [
    "C35_lowest_terms",
    "C35_reduce",
    "C35_set_uvalue",
    "C35_set_value",
    "C35_unique"
   ],
   "note": "What is stored is unique and in lowest terms; every C36/C38 theorem concludes with such a store. set_value excludes the smallest mp_small."
  },
  {
   "property": "C36",
   "status": "proved",
   "theorems": [
    "C36_abs",
    "C36_add",
    "C36_add_int",
    "C36_copy",
    "C36_div",
    "C36_div_by_zero",
    "C36_div_int",
    "C36_mul",
    "C36_mul_int",
    "C36_mul_int_alias_refuted",
    "C36_neg",
    "C36_recip",
    "C36_recip_of_zero",
    "C36_sub",
    "C36_sub_int",
    "C36_zero"
   ],
   "note": "All aliasings of the rational arguments; for mul_int and div_int the integer is not a member of a different destination (C36_mul_int_alias_refuted)."
  },
  {
   "property": "C37",
   "status": "proved",
   "theorems": [
    "C37_compare",
    "C37_compare_unsigned",
    "C37_compare_value",
    "C37_compare_value_zero_refuted",
    "C37_compare_zero",
    "C37_is_integer",
    "C37_sign",
    "C37_to_ints"
   ],
   "note": "compare_value with d = 0 returns INT_MAX instead of the documented MP_UNDEF (C37_compare_value_zero_refuted); the arguments of compare_value exclude the smallest mp_small."
  },
  {
   "property": "C38",
   "status": "proved",
   "theorems": [
    "C38_expt",
    "C38_expt_big_refuted",
    "C38_negative_exponent"
   ],
   "note": "Exponents below 2^32; larger ones are cut to 32 bits (C38_expt_big_refuted)."
  },
  {
   "property": "C39",
   "status": "proved",
   "theorems": [
    "C39_junk_refuted",
    "C39_read_any",
    "C39_read_fraction",
    "C39_read_integer",
    "C39_read_string",
    "C39_round_trip",
    "C39_slash_refuted",
    "C39_string_len",
    "C39_to_string",
    "C39_to_string_limit"
   ],
   "note": "Writing, limits, string_len, reading of every string, round trip. Refuted: with room for the numerator but less than three characters after it an assertion fails (C39_slash_refuted); characters behind the denominator leave an unreduced, possibly zero-denominator pair with MP_TRUNC (C39_junk_refuted)."
  },
  {
   "property": "C40",
   "status": "proved",
   "theorems": [
    "C40_carry_refuted",
    "C40_decimal_len",
    "C40_exact_refuted",
    "C40_mode_refuted",
    "C40_to_decimal",
    "C40_to_decimal_limit"
   ],
   "note": "All modes, precisions and limits except: a rounding carry into 0..010..0 or out of the fraction digits (C40_carry_refuted) and a buffer without one spare character (C40_exact_refuted). An invalid mode leaks the temporaries (C40_mode_refuted)."
  },
  {
   "property": "C41",
   "status": "proved",
   "theorems": [
    "C41_read_any",
    "C41_read_badpoint",
    "C41_read_decimal",
    "C41_read_either",
    "C41_read_nopoint",
    "C41_read_point",
    "C41_round_trip"
   ],
   "note": "Exact for every string; a point followed by white space or a sign ends the number at the point (C41_read_badpoint), and the end is then not reported."
  },
  {
   "property": "C42",
   "status": "proved",
   "theorems": [
    "C42_decode",
    "C42_decode_overrun_refuted",
    "C42_decode_reject",
    "C42_encode",
    "C42_encode_too_long",
    "C42_max_message_len",
    "C42_round_trip"
   ],
   "note": "That decode stays inside the buffer is refuted (C42_decode_overrun_refuted); everything else proved."
  },
  {
   "property": "C43",
   "status": "proved",
   "theorems": [
    "C43_range",
    "C43_round_trip",
    "C43_transform"
   ],
   "note": "Fermat + CRT proved in NumTh.v with mathcomp, no axioms."
  },
  {
   "property": "C44",
   "status": "proved",
   "theorems": [
    "C44_i2osp",
    "C44_i2osp_longer_refuted",
    "C44_i2osp_shorter_refuted",
    "C44_os2ip",
    "C44_os2ip_high_refuted"
   ],
   "note": "For len = reported binary length and leading byte below 128, as the statement says; the wider reading of the function's comment is refuted by the *_refuted theorems."
  },
  {
   "property": "C45",
   "status": "proved",
   "theorems": [
    "C45_cdiv_q",
    "C45_fdiv_q",
    "C45_fdiv_q_ui",
    "C45_fdiv_r",
    "C45_tdiv_q"
   ],
   "note": "All values with d <> 0 and all aliasings."
  },
  {
   "property": "C46",
   "status": "proved",
   "theorems": [
    "C46_export",
    "C46_import",
    "C46_import_none_refuted",
    "C46_round_trip",
    "C46_words_unique"
   ],
   "note": "Destination supplied by the caller (the NULL form, which calls malloc, is in C57), nails 0; sizes up to 2^34-8 bytes. Importing no words leaves the result unchanged where GMP stores 0 (C46_import_none_refuted)."
  },
  {
   "property": "C47",
   "status": "proved",
   "theorems": [
    "C47_get_si",
    "C47_get_si_min_refuted",
    "C47_get_ui"
   ],
   "note": "get_ui for all values; get_si for all but -2^63, excluded in the statement, where it is undefined behaviour (C47_get_si_min_refuted)."
  },
  {
   "property": "C48",
   "status": "proved",
   "theorems": [
    "C48_add_ui",
    "C48_addmul",
    "C48_divexact",
    "C48_divexact_ui",
    "C48_divisible_p",
    "C48_gcd",
    "C48_lcm",
    "C48_mul_2exp",
    "C48_mul_2exp_assert_refuted",
    "C48_mul_2exp_refuted",
    "C48_mul_ui",
    "C48_pow_ui",
    "C48_sub_ui",
    "C48_submul"
   ],
   "note": "mul_2exp with 2^32 or more bits is refuted; all other operations proved for all values and aliasings."
  },
  {
   "property": "C49",
   "status": "proved",
   "theorems": [
    "C49_error_string",
    "C49_int_min_refuted"
   ],
   "note": "Refuted for INT_MIN (negation overflows)."
  },
  {
   "property": "C50",
   "status": "proved",
   "theorems": [
    "C50_abs",
    "C50_add",
    "C50_add_value",
    "C50_copy",
    "C50_copy_in_place",
    "C50_div",
    "C50_div_pow2",
    "C50_div_value",
    "C50_mod",
    "C50_mul",
    "C50_mul_alias_refuted",
    "C50_mul_pow2",
    "C50_mul_value",
    "C50_neg",
    "C50_set_uvalue",
    "C50_set_value",
    "C50_sqr",
    "C50_sub",
    "C50_sub_value",
    "C50_zero",
    "C50_zero_in_place"
   ],
   "note": "Refuted when the output of mul/sqr is an operand; the functions built on mul (powers, gcd, ...) are not treated separately."
  },
  {
   "property": "C51",
   "status": "proved",
   "theorems": [
    "C51_abs",
    "C51_add",
    "C51_clear",
    "C51_cmp",
    "C51_cmp_si",
    "C51_cmpabs",
    "C51_init",
    "C51_mpq_canonicalize",
    "C51_mpq_clear",
    "C51_mpq_cmp",
    "C51_mpq_init",
    "C51_mpq_mul",
    "C51_mpq_refs",
    "C51_mpq_set",
    "C51_mpq_set_ui",
    "C51_mpq_sgn",
    "C51_mul",
    "C51_neg",
    "C51_set",
    "C51_set_si",
    "C51_set_ui",
    "C51_sgn",
    "C51_sub",
    "C51_swap"
   ],
   "note": "mpz_set_si excludes the least long (C16)."
  },
  {
   "property": "C52",
   "status": "proved",
   "theorems": [
    "C52_get_str",
    "C52_mpq_get_str",
    "C52_mpq_get_str_int",
    "C52_mpq_get_str_refuted",
    "C52_mpq_round_trip",
    "C52_mpq_set_str",
    "C52_mpq_set_str_int",
    "C52_round_trip",
    "C52_set_str",
    "C52_sizeinbase"
   ],
   "note": "Sizes bounded as in C19 and by 2^29 bits; mpq_get_str reads up to two bytes behind the terminator, so it is undefined with a fresh buffer (C52_mpq_get_str_refuted). The branches that allocate the result are in C57."
  },
  {
   "property": "C53",
   "status": "proved",
   "theorems": [
    "C53_alloc",
    "C53_clear",
    "C53_denom",
    "C53_free",
    "C53_init",
    "C53_init_copy",
    "C53_init_size",
    "C53_numer"
   ],
   "note": "calls: a request that is refused inside mp_rat_init ends the statement; a refusal of the structure itself gives NULL."
  },
  {
   "property": "C54",
   "status": "proved",
   "theorems": [
    "C54_abs",
    "C54_add",
    "C54_add_refuted",
    "C54_add_value",
    "C54_copy",
    "C54_div_pow2",
    "C54_egcd",
    "C54_gcd",
    "C54_init_copy",
    "C54_init_size",
    "C54_init_uvalue",
    "C54_init_value",
    "C54_mul",
    "C54_mul_leak_refuted",
    "C54_mul_pow2",
    "C54_mul_value",
    "C54_neg",
    "C54_read_binary",
    "C54_read_string_refuted",
    "C54_read_unsigned",
    "C54_set_uvalue",
    "C54_set_value",
    "C54_sqr",
    "C54_sub",
    "C54_sub_value",
    "C54_to_string"
   ],
   "note": "For the functions named in the statement. add, sub and their _value forms: with the output cleared by the caller after a failure. mul: operands for which Karatsuba is not used (unsplit: both below the threshold, or one about twice as long as the other); sqr: below the threshold. Refuted: C54_add_refuted, C54_read_string_refuted, C54_mul_leak_refuted."
  },
  {
   "property": "C55",
   "status": "proved",
   "theorems": [
    "C55_all_released",
    "C55_no_false_alarm",
    "C55_no_leak",
    "C55_outputs",
    "C55_start",
    "C55_values",
    "C55_withstands"
   ],
   "note": "For the calls of SpecLow.safe: not division, powers, modular arithmetic, lcm, root, nor products and squares that use Karatsuba (these can mistake a refusal for success, C29)."
  },
  {
   "property": "C56",
   "status": "proved",
   "theorems": [
    "C56_history",
    "C56_lowest_terms",
    "C56_no_leak",
    "C56_outputs",
    "C56_safe",
    "C56_start"
   ],
   "note": "After a failed mp_rat_read_cstring (zero denominator, or characters left over after a fraction) the structure holds no rational until it is assigned again (C39_junk_refuted); mp_rat_to_decimal only where there is no carry out of the fraction (C40_carry_refuted) and with room for the text; mp_rat_string_len and mp_rat_decimal_len are sure to be enough up to 2^20000 (C19_string_len_refuted). All functions of imrat.h are among the calls except mp_rat_read_string/read_decimal, which are the c-variants without the end pointer, and the inline accessors."
  },
  {
   "property": "C57",
   "status": "proved",
   "theorems": [
    "C57_export",
    "C57_export_refused_refuted",
    "C57_get_str",
    "C57_get_str_free",
    "C57_get_str_given",
    "C57_mpq_get_str_int",
    "C57_mpq_get_str_refuted",
    "C57_set_str",
    "C57_set_str_int",
    "C57_set_str_refused_refuted"
   ],
   "note": "Blocks in the model have at most MAXD cells, requests for more are refused. mpz_get_str up to 2^29 bits (and the range of C19 for radices other than powers of two). Refuted for rationals that are not integers, and for refused requests in mpz_export and mpq_set_str."
  },
  {
   "property": "C58",
   "status": "proved",
   "theorems": [
    "C58_alone",
    "C58_read_binary_shared_refuted",
    "C58_threads_answers",
    "C58_threads_defined",
    "C58_threads_end",
    "C58_threads_no_race",
    "C58_threads_store"
   ],
   "note": "Integers (the calls of SpecHist.v); with rationals in C64. Sequentially consistent, atomic effects; see the trusted base in DESIGN.md. Refuted for a buffer decoded by two threads with mp_int_read_binary."
  },
  {
   "property": "C59",
   "status": "proved",
   "theorems": [
    "C59_arctan",
    "C59_last_digits_refuted",
    "C59_pi",
    "C59_radix_2_3_refuted"
   ],
   "note": "The statements mention the real numbers PI and atan of the standard library: Print Assumptions lists the axioms of Coq.Reals (sig_forall_dec, sig_not_dec, functional_extensionality_dep) and classic; all other properties are closed. Refuted: exactness of the last digits; radix 2 and 3 (buffer overrun). n >= 2^31 - 2 overflows an int in main (undefined in the model)."
  },
  {
   "property": "C60",
   "status": "proved",
   "theorems": [
    "C60_buffer_refuted",
    "C60_equal_primes_refuted",
    "C60_long_key_refuted",
    "C60_make_key",
    "C60_randomize",
    "C60_round_trip",
    "C60_rsakey",
    "C60_rsakey_random",
    "C60_seed",
    "C60_short_key_refuted",
    "C60_size"
   ],
   "note": "Refuted parts: different primes, number of bits of the modulus, buffer for a long exponent. The marks of progress and the messages are not modelled (the code reported with a message is); the numbers are released in the opposite order. The theorem about the whole program assumes 0 <= e <= n for the key made (proved for random exponents if half the number of bits is no multiple of 8)."
  },
  {
   "property": "C61",
   "status": "proved",
   "theorems": [
    "C61_abs",
    "C61_add_int_refuted",
    "C61_add_refuted",
    "C61_alloc",
    "C61_compare_refuted",
    "C61_compare_value_refuted",
    "C61_copy",
    "C61_copy_restores_refuted",
    "C61_denom",
    "C61_div_int_refuted",
    "C61_div_refuted",
    "C61_expt_refuted",
    "C61_init",
    "C61_init_copy",
    "C61_init_size",
    "C61_mul_int_refuted",
    "C61_mul_refuted",
    "C61_neg",
    "C61_numer",
    "C61_read_decimal_refuted",
    "C61_read_integer",
    "C61_recip",
    "C61_reduce_refuted",
    "C61_set_uvalue_refuted",
    "C61_set_value_refuted",
    "C61_sub_int_refuted",
    "C61_sub_refuted",
    "C61_to_decimal_refuted",
    "C61_to_string",
    "C61_zero"
   ],
   "note": "Positive theorems for copy, abs, neg, recip, zero, init, init_size, init_copy, alloc, numer, denom, to_string and reading of whole numbers. Refuted: restoring the output after a failed copy; MP_OK with a wrong number for mul, div, add, sub, add_int, sub_int, mul_int, div_int, expt, set_value, set_uvalue, reduce, read_decimal; MP_OK with a wrong text for to_decimal; order reported by compare, compare_unsigned and compare_value. Not treated: reading a fraction with a slash while requests are refused."
  },
  {
   "property": "C62",
   "status": "proved",
   "theorems": [
    "C62_crashes_refuted",
    "C62_exit_code_refuted",
    "C62_expression",
    "C62_machine",
    "C62_machine_variables",
    "C62_names_refuted",
    "C62_negative_modulus_refuted",
    "C62_power_refuted",
    "C62_save_refused_refuted",
    "C62_structures_refuted"
   ],
   "note": "Two theorems: texts that set no variable, all refusals; all texts, structures granted. Refuted parts: release of structures, exit code, exponent 2^32, negative modulus, root of order 0, pick -2^63, refused variable, digits in names. Growth of the arrays, messages on stderr, options and files are not modelled."
  },
  {
   "property": "C63",
   "status": "proved",
   "theorems": [
    "C63_basecvt",
    "C63_basecvt_radix",
    "C63_basecvt_short",
    "C63_findprime",
    "C63_findprime_leak_refuted",
    "C63_input",
    "C63_input_short",
    "C63_line_value",
    "C63_randprime",
    "C63_randprime_bits_refuted",
    "C63_randprime_strong",
    "C63_rounding",
    "C63_rounding_refuted",
    "C63_status_refuted"
   ],
   "note": "basecvt and input for all refusals of requests; rounding when all are granted (malloc is not checked). findprime: if the prime has at most 4095 digits (its buffer). randprime -s: if there is a prime of the form asked for within the bound of the model (whether there always is one is an open problem). For the error returns of findprime only the status is proved, memory is lost. Option parsing, files and the text of the messages are not modelled."
  },
  {
   "property": "C64",
   "status": "proved",
   "theorems": [
    "C64_threads_answers",
    "C64_threads_defined",
    "C64_threads_end",
    "C64_threads_no_race",
    "C64_threads_store"
   ],
   "note": "The calls of SpecQHist.v (with the conditions of C56). Sequentially consistent, atomic effects; see the trusted base in DESIGN.md."
  },
  {
   "property": "C65",
   "status": "proved",
   "theorems": [
    "C65_history",
    "C65_lowest_terms",
    "C65_no_leak",
    "C65_outputs",
    "C65_safe",
    "C65_settled"
   ],
   "note": "All functions of gmp_compat.h with the conditions written in glegal (SpecGHist.v), each with a reason; mpz_get_str, mpq_get_str and mpz_export with a buffer given (for NULL see C57)."
  },
  {
   "property": "C66",
   "status": "proved",
   "theorems": [
    "C66_abs",
    "C66_add",
    "C66_add_refuted",
    "C66_add_ui_refuted",
    "C66_addmul_refuted",
    "C66_call",
    "C66_divisible_refuted",
    "C66_fdiv_q_refuted",
    "C66_fdiv_q_ui_refuted",
    "C66_fdiv_r_refuted",
    "C66_gcd",
    "C66_lcm_refuted",
    "C66_mul",
    "C66_mul_2exp",
    "C66_mul_refuted",
    "C66_mul_ui_refuted",
    "C66_neg",
    "C66_pow_ui_refuted",
    "C66_q_init",
    "C66_q_set",
    "C66_set",
    "C66_set_si",
    "C66_set_ui",
    "C66_sub",
    "C66_sub_ui_refuted",
    "C66_survives",
    "C66_tdiv_q_refuted"
   ],
   "note": "NDEBUG build. Products with Karatsuba (where C54 has a leak), addmul/submul after a refusal, and the functions with string or byte buffers are not treated; the clauses about what goes wrong are the _refuted theorems, each a concrete run of the model."
  },
  {
   "property": "C67",
   "status": "proved",
   "theorems": [
    "C67_threads_answers",
    "C67_threads_defined",
    "C67_threads_end",
    "C67_threads_no_race",
    "C67_threads_store"
   ],
   "note": "The calls of SpecGHist.v (with the conditions of C65). Sequentially consistent, atomic effects; see the trusted base in DESIGN.md."
  },
  {
   "property": "C68",
   "status": "proved",
   "theorems": [
    "C68_history",
    "C68_no_leak_refuted",
    "C68_safe",
    "C68_values"
   ],
   "note": "All of C65 but the absence of leaks, which is refuted (C68_no_leak_refuted). The fill pattern written into new blocks is modelled as indeterminate contents; the number of digits copied is the length of the old block (MP_ALLOC)."
  },
  {
   "property": "C69",
   "status": "proved",
   "theorems": [
    "C69_add_full_refuted",
    "C69_div_refuted",
    "C69_mul_alias_refuted",
    "C69_never_fails",
    "C69_prepared",
    "C69_prepared_granted"
   ],
   "note": "Products of up to seven digits and squares of up to eight, because the multiplication threshold may be as low as 8 and longer ones may use Karatsuba with temporaries. Calls not listed in thrifty (SpecFits.v) may ask for memory; C69_mul_alias_refuted, C69_div_refuted and C69_add_full_refuted show that for three kinds."
  }
 ]
}