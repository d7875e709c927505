"""Adjust statements in properties.jsonl: each records the exact range for which the code satisfies it."""
import json,sys
EX={
"C23":" The calls are made under the conditions recorded with C01-C22 and C30-C32.",
"C24":" The calls are made under the conditions recorded with C01-C22 and C30-C32 (outside them there are violations, stated with those properties).",
"C25":" The calls are made under the conditions recorded with C01-C22 and C30-C32.",
"C27":" The calls are made under the conditions recorded with C01-C22 and C30-C32.",
"C29":" (False of the code for multiplication, squaring and division and what is built on them; true of the other arithmetic, initialisation and text functions.)",
"C49":" INT_MIN is excluded: its negation overflows.",
"C50":" Multiplication and squaring are for an output that is not an operand (otherwise the storage is replaced).",
"C01":" The small operand is any value except the smallest mp_small (LONG_MIN), for which the code's own negation overflows.",
"C02":" The small operand is any value except the smallest mp_small.",
"C03":" The small operand is any value except the smallest mp_small.",
"C07":" The shift is below 2^32 (larger ones are silently truncated). For div_pow2 with a remainder, q is not a and a is not a negative multiple of 2^k (which would leave a negative zero).",
"C08":" A machine exponent is below 2^32 (larger ones are silently truncated); for expt_full the output is not the exponent.",
"C11":" The identity is for non-negative operands (for negative ones it holds for the absolute values only); with a NULL coefficient both operands are non-zero.",
"C12":" The stored value carries the sign of the product a*b, so it is the least common multiple up to sign.",
"C13":" The case a<0, m=1 is excluded (1 is stored).",
"C14":" Exponent 0 with modulus 1 is excluded (1 is stored), and the supplied constant is not the output.",
"C15":" The degree is below 2^32.",
"C16":" The value -2^63 is excluded: the conversion negates it in signed arithmetic.",
"C21":" Buffers of 2^28 bytes or more are excluded (the bit count is computed in an int), and so is writing with a limit of 0 (the byte before the buffer is read).",
"C22":" Byte strings of 2^28 bytes or more are excluded.",
"C31":" is_pow2 is for positive z: the code ignores the sign and reports 0 as 2^0.",
"C36":" For mul_int and div_int the integer operand must not be the numerator or denominator of a destination other than the first operand (the copy overwrites it).",
"C38":" The exponent is below 2^32 (larger ones are silently truncated).",
"C33":" Composites beyond 997^2 may be accepted (Carmichael numbers without a factor in the table).",
"C34":" In particular 2 is passed over: from 2 the search ends at 3.",
"C43":" The output of the first step is neither the second exponent nor the modulus; exponents are positive.",
"C46":" Importing no words leaves the result unchanged.",
"C47":" The value -2^63 is excluded for get_si.",
"C48":" A shift by mul_2exp of a non-zero number is below 2^32.",
"C32":" mod_value is for non-negative dividends: for negative ones it returns a negative remainder.",
}
REP={
"C39":"mp_rat_to_string writes the fraction in lowest terms if it fits the limit and reports MP_TRUNC if not (when the numerator fits and less than three characters remain, an assertion fails instead); a buffer of mp_rat_string_len characters is enough; mp_rat_read_string restores what was written; mp_rat_read_cstring, on every string, leaves a canonical rational with MP_OK, or reports MP_TRUNC or MP_UNDEF (after MP_TRUNC or MP_UNDEF the pair can be unreduced or have a zero denominator).",
"C40":"mp_rat_to_decimal writes the value rounded to prec digits in the requested rounding mode, if there is room for the text, its terminator and, with prec > 0, one more character, and reports MP_TRUNC if the text does not fit; a buffer of mp_rat_decimal_len characters is enough. Excluded: a rounding upwards whose fraction digits become 0..010..0 or carry into the integer part (a wrong text is written), and invalid modes.",
"C41":"mp_rat_read_decimal stores exactly the value of a text with a radix point in lowest terms, for every string: the longest sensible prefix is read and MP_TRUNC reports that something follows; a point followed by white space or a sign is not part of the number. It reads back what mp_rat_to_decimal wrote. mp_rat_read_ustring takes integers, fractions and texts with a point.",
"C42":"rsa_pkcs1v15_decode(rsa_pkcs1v15_encode(m)) = m for every message that fits and every nonzero filler; decode accepts exactly the buffers of at least 11 bytes that start with 0 and the tag, provided they hold a further zero byte: without one it reads beyond the buffer. A message of at most rsa_max_message_len bytes, padded, is a number below the modulus.",
"C44":"rsa_i2osp(z,out,len) writes the len-byte big-endian form of z when len is the reported binary length of z. (It should do so whenever z fits and fail otherwise; in fact larger len is refused and smaller len overruns out.) rsa_os2ip reads the big-endian value of a byte string whose first byte is below 128 (others are read as negative).",
"C18":"mp_int_to_string(z,radix,str,limit) returns MP_OK exactly when the numeral and its terminator fit into limit characters, otherwise MP_TRUNC, and writes only str[0..limit]: the terminator of a truncated numeral goes to str[limit], so a buffer of exactly limit characters overflows.",
"C37":"mp_rat_compare, _compare_unsigned, _compare_zero, _sign, _is_integer and _compare_value agree with the order of the rationals; compare_value is for a non-zero denominator (with d=0 it returns INT_MAX, not the documented MP_UNDEF) and for arguments other than the smallest mp_small; to_ints returns both parts exactly when both fit.",
"C19":"A buffer of mp_int_string_len(z,radix) characters is enough for mp_int_to_string to succeed, for every value in the radices 2, 3, 4, 9, 10, 12, 15, 16, 18, 21, 24, 26, 27, 28, 31, 32, 35, 36, and in the other radices up to a bit length that depends on the radix (at least 20196 bits); beyond it the report can be one too small.",
}
out=[]
for l in open('/verif/properties.jsonl'):
    p=json.loads(l)
    i=p['id']
    if i in REP: p['statement']=REP[i]
    if i in EX and EX[i].strip() not in p['statement']: p['statement']=p['statement'].rstrip()+EX[i]
    out.append(json.dumps(p))
open('/verif/properties.jsonl','w').write("\n".join(out)+"\n")
