{"id": "C01", "title": "ftoa output reads back as the same number", "statement": "For every finite non-zero float or double v, the decimal number written by ftoa(v) lies strictly inside the rounding interval of v: converting it back with correct round-to-nearest-even rounding yields exactly v.", "quantifier": "every finite non-zero value of float and of double, normal and denormal, both signs", "why_tests_cant": "There are 2^64 doubles (and 2^32 floats); the suites sample a fixed list of numbers and a few thousand random ones.", "anchors": ["include/floaxie/ftoa.h: ftoa", "include/floaxie/grisu.h: grisu2, digit_gen_select<false>::gen", "include/floaxie/diy_fp.h: diy_fp::boundaries", "include/floaxie/cached_power.h: cached_power"]}
{"id": "C02", "title": "ftoa stays inside a max_buffer_size buffer and has no undefined behaviour", "statement": "For every value (finite, infinite, NaN, zero, denormal) and every initial buffer content, ftoa given a buffer of max_buffer_size<FloatType>() characters terminates, never reads or writes outside the buffer or its lookup tables, never shifts by an illegal amount and never trips one of its assertions.", "quantifier": "every bit pattern of float and double, every buffer of at least max_buffer_size characters with arbitrary contents", "why_tests_cant": "There are 2^64 doubles (and 2^32 floats); the suites sample a fixed list of numbers and a few thousand random ones. Out-of-bounds writes do not show up as a failing comparison.", "anchors": ["include/floaxie/ftoa.h: ftoa", "include/floaxie/ftoa.h: max_buffer_size", "include/floaxie/grisu.h: grisu2, digit_gen_select<false>::gen", "include/floaxie/prettify.h: prettify, print_decimal, print_scientific, fill_exponent"]}
{"id": "C03", "title": "ftoa returns the string length, terminates it and touches nothing after the terminator", "statement": "The value returned by ftoa is the number of characters before the first NUL in the buffer; the NUL directly follows them; every buffer cell after the NUL keeps its old content; and the text depends only on the value printed, not on what the buffer held before.", "quantifier": "every bit pattern, every buffer large enough, every previous buffer content", "why_tests_cant": "The frame condition (what must not change) ranges over all buffer contents; tests compare strlen for a list of numbers only.", "anchors": ["include/floaxie/ftoa.h: ftoa", "include/floaxie/prettify.h: prettify, print_decimal, print_scientific, fill_exponent"]}
{"id": "C04", "title": "ftoa output obeys the documented grammar", "statement": "For every finite non-zero value the text is an optional minus sign, one or more digits with at most one decimal point having at least one digit on each side, and optionally e, an optional minus sign and two or three digits; there is never a plus sign, a leading dot or a trailing dot.", "quantifier": "every finite non-zero value of float and double", "why_tests_cant": "There are 2^64 doubles (and 2^32 floats); the suites sample a fixed list of numbers and a few thousand random ones.", "anchors": ["include/floaxie/ftoa.h: ftoa", "include/floaxie/prettify.h: prettify, print_decimal, print_scientific, fill_exponent"]}
{"id": "C05", "title": "ftoa of NaN, infinities and zeros", "statement": "Every NaN bit pattern prints as nan (return value 3), +infinity as inf (3), -infinity as -inf (4), +0 and -0 as 0 (1).", "quantifier": "every NaN payload and sign, both infinities, both zeros", "why_tests_cant": "There are 2^53-2 double NaN encodings; the claim is about all of them.", "anchors": ["include/floaxie/ftoa.h: ftoa"]}
{"id": "C06", "title": "the sign is printed faithfully and printing is odd", "statement": "The text starts with a minus sign exactly when v is negative and non-zero and not NaN, and the text of -v is a minus sign followed by the text of v.", "quantifier": "every finite non-zero value and both infinities", "why_tests_cant": "There are 2^64 doubles (and 2^32 floats); the suites sample a fixed list of numbers and a few thousand random ones.", "anchors": ["include/floaxie/ftoa.h: ftoa"]}
{"id": "C07", "title": "choice between plain and exponent notation", "statement": "Let the printed number be D*10^k with D not divisible by ten and n the number of digits of D. The text uses plain notation exactly when max(n+k, -k) <= 16; otherwise exponent notation with exactly one digit before the point and exponent n+k-1. In both notations the text denotes D*10^k.", "quantifier": "every finite non-zero value of float and double", "why_tests_cant": "There are 2^64 doubles (and 2^32 floats); the suites sample a fixed list of numbers and a few thousand random ones.", "anchors": ["include/floaxie/prettify.h: prettify, print_decimal, print_scientific, fill_exponent"]}
{"id": "C08", "title": "bounded digits and bounded length", "statement": "ftoa prints at most 17 significant digits for double and 9 for float, and at most 24 (double) or 19 (float) characters in total.", "quantifier": "every value of float and double", "why_tests_cant": "There are 2^64 doubles (and 2^32 floats); the suites sample a fixed list of numbers and a few thousand random ones. The worst case is not known to the test.", "anchors": ["include/floaxie/ftoa.h: ftoa", "include/floaxie/grisu.h: grisu2, digit_gen_select<false>::gen", "include/floaxie/grisu.h: max_digits"]}
{"id": "C09", "title": "no redundant digits", "statement": "The first and the last significant digit printed are non-zero: no superfluous leading zeros (beyond a single 0 before the point) and no trailing zeros in a fraction.", "quantifier": "every finite non-zero value", "why_tests_cant": "There are 2^64 doubles (and 2^32 floats); the suites sample a fixed list of numbers and a few thousand random ones.", "anchors": ["include/floaxie/grisu.h: grisu2, digit_gen_select<false>::gen", "include/floaxie/prettify.h: prettify, print_decimal, print_scientific, fill_exponent"]}
{"id": "C10", "title": "integers print as plain integers", "statement": "Every integer N with 0 < |N| <= 2^53 (double) or 2^24 (float) is printed as exactly its ordinary decimal digits, with no point and no exponent.", "quantifier": "every integer up to 2^53 in magnitude (2^24 for float)", "why_tests_cant": "2^54 integers; a mis-scaled cached power may affect only a handful of them.", "anchors": ["include/floaxie/ftoa.h: ftoa", "include/floaxie/grisu.h: grisu2, digit_gen_select<false>::gen", "include/floaxie/prettify.h: prettify, print_decimal, print_scientific, fill_exponent"]}
{"id": "C11", "title": "near-shortest output", "statement": "For every v whose significand has at least half as many bits as the word (all normal numbers and the larger denormal ones) no decimal with fewer significant digits than the printed one lies within the rounding interval shrunk by a small safety margin (1/512 of an ulp for double, 1/64 of an ulp for float) at both ends.", "quantifier": "every normal value and every competing decimal", "why_tests_cant": "Quantifies over all values and all candidate decimals.", "anchors": ["include/floaxie/grisu.h: grisu2, digit_gen_select<false>::gen"]}
{"id": "C12", "title": "short decimals survive text to number to text", "statement": "If X is a decimal with at most 15 (double) or 6 (float) significant digits, v is a normal value nearest to it and X is not within the safety margin of the rounding boundary, then the number printed by ftoa(v) is exactly X; the same holds of any X whose digits, read as an integer, are less than the significand of v minus 1, and for the larger denormal numbers.", "quantifier": "every such decimal and value", "why_tests_cant": "Infinite-looking family of inputs; unit tests contain a few dozen.", "anchors": ["include/floaxie/grisu.h: grisu2, digit_gen_select<false>::gen"]}
{"id": "C13", "title": "ftoa always prints a shortest representation", "statement": "For every finite non-zero v no decimal with fewer significant digits than the printed one rounds to v.", "quantifier": "every finite non-zero value and competing decimal", "why_tests_cant": "Tests print numbers and compare values, never digit counts.", "anchors": ["include/floaxie/ftoa.h: ftoa", "include/floaxie/grisu.h: grisu2, digit_gen_select<false>::gen"]}
{"id": "C14", "title": "ftoa is injective and order preserving", "statement": "If two finite non-zero values differ then their texts differ, and if v < w then the decimal number printed for v is less than the one printed for w.", "quantifier": "every pair of finite values", "why_tests_cant": "2^128 pairs.", "anchors": ["include/floaxie/ftoa.h: ftoa", "include/floaxie/grisu.h: grisu2, digit_gen_select<false>::gen"]}
{"id": "C15", "title": "string wrappers return exactly the ftoa text", "statement": "to_string / to_wstring return the characters written by ftoa up to (not including) the terminator, so their length equals the return value of ftoa.", "quantifier": "every value of float and double", "why_tests_cant": "There are 2^64 doubles (and 2^32 floats); the suites sample a fixed list of numbers and a few thousand random ones.", "anchors": ["include/floaxie/ftoa.h: to_basic_string, to_string, to_wstring"]}
{"id": "C16", "title": "cached powers of ten are accurate", "statement": "Every cached power of ten is normalized and within half a unit in its last place of the true power of ten, for all exponents of the advertised range (-343..343 for double, -50..50 for float).", "quantifier": "every exponent of both tables", "why_tests_cant": "Needs exact comparison with huge rationals; the repository only carries bc scripts for it.", "anchors": ["include/floaxie/powers_ten_double.h: powers_ten<double>", "include/floaxie/powers_ten_single.h: powers_ten<float>", "include/floaxie/cached_power.h: cached_power"]}
{"id": "C17", "title": "scaling always lands in the digit generator range", "statement": "For every finite non-zero value the cached power selected for printing exists in the table and brings the scaled exponent into the documented range [alpha, gamma] = [-35,-32] (double), [-19,-16] (float).", "quantifier": "every finite non-zero value", "why_tests_cant": "Floating-point log estimation may be off by one only for special exponents.", "anchors": ["include/floaxie/k_comp.h: k_comp_exp", "include/floaxie/grisu.h: grisu2, grisu_parameters", "include/floaxie/cached_power.h: cached_power"]}
{"id": "C18", "title": "diy_fp multiplication is correctly rounded", "statement": "The product mantissa is the exact product divided by 2^q rounded half up, without intermediate overflow, for every pair of q-bit mantissas; hence the error is at most half a unit.", "quantifier": "every pair of 64-bit (32-bit) mantissas", "why_tests_cant": "2^128 pairs; carries between the partial products are rare.", "anchors": ["include/floaxie/diy_fp.h: diy_fp::operator*="]}
{"id": "C19", "title": "normalization preserves the value", "statement": "normalize() of a value with non-zero mantissa terminates, sets the top mantissa bit, leaves mantissa*2^exponent unchanged, and changes nothing if the top bit is already set.", "quantifier": "every non-zero mantissa and every exponent for which exponent-q is representable", "why_tests_cant": "2^64 mantissas; termination is not observable by a test.", "anchors": ["include/floaxie/diy_fp.h: diy_fp::normalize, is_normalized"]}
{"id": "C20", "title": "diy_fp increment and decrement", "statement": "++ raises the represented value by exactly one unit of the old last place for every mantissa, including the all-ones one; -- lowers it by exactly one unit for every mantissa above 1; the postfix forms return the old value.", "quantifier": "every mantissa and exponent", "why_tests_cant": "The overflow branch is one value out of 2^64.", "anchors": ["include/floaxie/diy_fp.h: diy_fp::operator++, operator--"]}
{"id": "C21", "title": "unpack, normalize, pack is the identity", "statement": "Converting any finite non-zero value to diy_fp, normalizing and downsampling returns its absolute value exactly, with status success and the accurate flag set.", "quantifier": "every finite non-zero value of float and double", "why_tests_cant": "The test checks pi.", "anchors": ["include/floaxie/diy_fp.h: diy_fp(FloatType), normalize, downsample"]}
{"id": "C22", "title": "round_up decides round-half-to-even", "statement": "For every word and every bit position round_up tells whether rounding to that position under round-half-to-even goes up, and its accuracy flag is false exactly on ties.", "quantifier": "every unsigned char, 32-bit and 64-bit word, every position from 1 to the word width", "why_tests_cant": "The test checks nine bytes at one position.", "anchors": ["include/floaxie/bit_ops.h: round_up, mask, raised_bit"]}
{"id": "C23", "title": "downsample rounds correctly", "statement": "For every normalized diy_fp whose value is at least the smallest denormal and whose correctly rounded result is finite and is not a power of two reached by rounding up, downsample returns the value rounded to nearest even, status success, and flags exactly the ties as not accurate.", "quantifier": "every normalized mantissa and exponent in that range", "why_tests_cant": "2^64 mantissas times thousands of exponents.", "anchors": ["include/floaxie/diy_fp.h: diy_fp::downsample"]}
{"id": "C24", "title": "downsample of any normalized value is the correctly rounded value", "statement": "For every normalized diy_fp, downsample returns the value rounded to nearest even (infinity with overflow status when that is too large).", "quantifier": "every normalized mantissa and exponent", "why_tests_cant": "Carry out of the mantissa and the band between the largest finite value and the overflow test are never hit by the test inputs.", "anchors": ["include/floaxie/diy_fp.h: diy_fp::downsample"]}
{"id": "C25", "title": "decimal to binary fraction conversion", "statement": "convert_numerator<4,7>(n) is at most 0.0112 above and at most 0.9872 below n*128/10000, at most 127, and monotone in n, for every n < 10000. In general, for d decimal digits with 10^d < 2^32 and b = 1..31 binary digits, convert_numerator<d,b>(n) is below 2^b, at most b*2^b/10^d above and at most 1 + (b-1)*2^b/10^d below n*2^b/10^d, and monotone in n.", "quantifier": "every numerator; every number of decimal and binary digits that fits 32 bits", "why_tests_cant": "Exhaustive but never done by the tests.", "anchors": ["include/floaxie/fraction.h: convert_numerator, fraction_converter"]}
{"id": "C26", "title": "interval boundaries are the exact midpoints", "statement": "For every finite non-zero value the boundaries used for printing are the exact midpoint to the next larger value and, unless the value is the smallest normal number, the exact midpoint to the next smaller magnitude; both share one exponent and the upper one is normalized.", "quantifier": "every finite non-zero value", "why_tests_cant": "There are 2^64 doubles (and 2^32 floats); the suites sample a fixed list of numbers and a few thousand random ones.", "anchors": ["include/floaxie/diy_fp.h: diy_fp::boundaries, normalize_from_ieee754"]}
{"id": "C27", "title": "atof looks at nothing behind the terminator", "statement": "For every NUL-terminated character sequence the outcome of atof (value, status, str_end, errno, whether the fallback is called, or undefined behaviour) is the same whatever follows the first NUL, the end of memory included: no character behind the NUL is read, apart from what the fallback does. Without a letter e or E in the text and with a fallback that returns, atof always returns.", "quantifier": "every character sequence containing a NUL, of any length", "why_tests_cant": "All strings of all lengths; over-reads are silent.", "anchors": ["include/floaxie/atof.h: atof", "include/floaxie/krosh.h: krosh, parse_digits, parse_mantissa, parse_exponent", "include/floaxie/krosh.h: eat_nan, eat_inf, extract_fraction_digits"]}
{"id": "C28", "title": "the whole number is consumed", "statement": "For every number in the documented format with a non-zero mantissa, at most 2049 characters of mantissa and of exponent, and an exponent that can be read (at most nine digits, not counting up to three zeros at its end, at most 2000000000), followed by a character that cannot continue a number, atof either calls the fallback or sets str_end directly behind the number.", "quantifier": "every such number text and every continuation", "why_tests_cant": "Unbounded family of texts.", "anchors": ["include/floaxie/atof.h: atof", "include/floaxie/krosh.h: krosh, parse_digits, parse_mantissa, parse_exponent"]}
{"id": "C29", "title": "atof is correctly rounded or defers to the fallback (up to 19 / 9 significant digits)", "statement": "For every number text with at most 19 (double) or 9 (float) significant digits (and for float a power of ten of at least 10^-50 once the point is moved behind them) whose value lies between the smallest denormal and the largest finite value and does not round up to a normal power of two, atof either calls the fallback or returns exactly the correctly rounded value with status success; it calls the fallback only within 1/1024 (double) or 1/128 (float) of a unit in the last place of a rounding boundary; with a correctly rounding fallback the result is always the correctly rounded one.", "quantifier": "every such text: any digits, leading and trailing zeros, point position, exponent, sign", "why_tests_cant": "10^19 mantissas times hundreds of exponents; hard cases are within 1e-3 ulp of a tie.", "anchors": ["include/floaxie/atof.h: atof", "include/floaxie/krosh.h: krosh, parse_digits, parse_mantissa, parse_exponent", "include/floaxie/diy_fp.h: diy_fp::operator*=, downsample", "include/floaxie/cached_power.h: cached_power"]}
{"id": "C30", "title": "error bound for numbers of any length", "statement": "For every number text of any number of digits (up to the 2049 character limit) whose value lies between the smallest denormal (float: 10^-42) and the largest finite value, is at least 1/317 ulp (double; 31/800 for float) away from every rounding boundary, does not round up to a normal power of two and is not less than that much above a power of two, atof returns the correctly rounded value with status success and does not call the fallback.", "quantifier": "every number text up to the length limit", "why_tests_cant": "Digits beyond the 19th are summarised in 7 bits; the error analysis is global.", "anchors": ["include/floaxie/krosh.h: krosh, parse_digits, parse_mantissa, parse_exponent"]}
{"id": "C31", "title": "atof without fallback is always correctly rounded", "statement": "Whenever atof does not call the fallback the result is the correctly rounded value of the text.", "quantifier": "every number text of any length", "why_tests_cant": "Needs texts with more than 19 digits close to a tie.", "anchors": ["include/floaxie/atof.h: atof", "include/floaxie/krosh.h: krosh, parse_digits, parse_mantissa, parse_exponent"]}
{"id": "C32", "title": "rounding up to a power of two", "statement": "Texts that round up to a power of two (for example 0.99999999999999999) parse to that power of two.", "quantifier": "every text whose correctly rounded value is a power of two above it", "why_tests_cant": "Only inputs whose mantissa is all ones before rounding.", "anchors": ["include/floaxie/diy_fp.h: diy_fp::downsample", "include/floaxie/atof.h: atof"]}
{"id": "C33", "title": "overflow is reported as infinity with overflow status", "statement": "Every text whose value is too large for the type yields infinity (of its sign) with status overflow.", "quantifier": "every text with value above the largest finite value plus half an ulp", "why_tests_cant": "The test uses one exponent far outside of the table.", "anchors": ["include/floaxie/atof.h: atof", "include/floaxie/krosh.h: krosh, parse_digits, parse_mantissa, parse_exponent", "include/floaxie/diy_fp.h: diy_fp::downsample"]}
{"id": "C34", "title": "far out-of-range exponents", "statement": "For every number text (non-zero mantissa, readable exponent, at most 2049 characters per part) whose power of ten, after moving the point behind its first 19 (9) significant digits, is above the table range, atof gives +infinity with status overflow; below the table range +0 with status underflow, everything consumed and without fallback; for double these are the correctly rounded magnitudes.", "quantifier": "every text with decimal exponent outside of the table", "why_tests_cant": "Unbounded exponents.", "anchors": ["include/floaxie/krosh.h: krosh, parse_digits, parse_mantissa, parse_exponent"]}
{"id": "C35", "title": "the sign survives overflow and underflow", "statement": "A text starting with a minus sign that overflows gives -infinity, and one that underflows gives -0.", "quantifier": "every negative out-of-range text", "why_tests_cant": "The tests use positive numbers only.", "anchors": ["include/floaxie/krosh.h: krosh, parse_digits, parse_mantissa, parse_exponent"]}
{"id": "C36", "title": "smallest denormal threshold", "statement": "Every text whose value is above half of the smallest denormal and at most the smallest denormal parses to the smallest denormal.", "quantifier": "every such text", "why_tests_cant": "A band of relative width 2 in the whole range.", "anchors": ["include/floaxie/diy_fp.h: diy_fp::downsample"]}
{"id": "C37", "title": "nan and inf tokens", "statement": "Every capitalisation of nan, nan(chars), inf and infinity, with optional sign, parses to NaN or infinity of that sign with status success and str_end directly behind the token.", "quantifier": "every capitalisation, sign, nan payload text and continuation", "why_tests_cant": "2^8 capitalisations times unbounded payloads and continuations.", "anchors": ["include/floaxie/krosh.h: eat_nan, eat_inf, parse_digits", "include/floaxie/atof.h: atof"]}
{"id": "C38", "title": "text that is no number is rejected", "statement": "If the text does not start with a number, atof returns zero, status success and str_end equal to str.", "quantifier": "every text not starting with a number", "why_tests_cant": "All strings.", "anchors": ["include/floaxie/atof.h: atof", "include/floaxie/krosh.h: krosh, parse_digits, parse_mantissa, parse_exponent"]}
{"id": "C39", "title": "zero with an exponent is consumed completely", "statement": "A text such as 0e5 whose mantissa is zero is consumed completely and gives zero.", "quantifier": "every zero-mantissa text with exponent part", "why_tests_cant": "The test lists 0, 0. and 0.0 only.", "anchors": ["include/floaxie/krosh.h: krosh, parse_digits, parse_mantissa, parse_exponent"]}
{"id": "C40", "title": "exponents of any size are handled", "statement": "For every number text with an exponent part atof behaves as specified (zero with underflow or infinity with overflow for huge exponents) without undefined behaviour.", "quantifier": "every exponent text", "why_tests_cant": "Unbounded exponent texts.", "anchors": ["include/floaxie/krosh.h: parse_exponent", "include/floaxie/static_pow.h: seq_pow"]}
{"id": "C41", "title": "a dangling exponent marker is not consumed", "statement": "In a text such as 1e or 1e+x the exponent marker is not part of the number (one or more exponent digits are required) so str_end points at it.", "quantifier": "every number followed by e without digits", "why_tests_cant": "All continuations.", "anchors": ["include/floaxie/krosh.h: parse_exponent"]}
{"id": "C42", "title": "fallback protocol", "statement": "atof calls the fallback exactly when something was consumed and the fast result is not accurate, passes it the original text, and then returns its value and its str_end unchanged.", "quantifier": "every text, every fallback function", "why_tests_cant": "Quantifies over all fallback functions.", "anchors": ["include/floaxie/atof.h: atof"]}
{"id": "C43", "title": "status does not depend on history", "statement": "The status reported by atof depends only on the conversion at hand, not on earlier calls (stale errno).", "quantifier": "every text, fallback and previous value of errno", "why_tests_cant": "Needs a history of calls.", "anchors": ["include/floaxie/atof.h: atof", "include/floaxie/default_fallback.h: check_errno"]}
{"id": "C44", "title": "status classification of fallback results", "statement": "If errno is not ERANGE the status is success; ERANGE with a zero result is underflow; ERANGE with an infinite result is overflow; ERANGE with a denormal non-zero result is underflow.", "quantifier": "every errno and every returned value", "why_tests_cant": "Depends on libc behaviour that differs between platforms.", "anchors": ["include/floaxie/default_fallback.h: check_errno"]}
{"id": "C45", "title": "full circle", "statement": "atof(ftoa(v)) gives back v for every finite v (with a correctly rounding fallback).", "quantifier": "every finite value of float and double", "why_tests_cant": "There are 2^64 doubles (and 2^32 floats); the suites sample a fixed list of numbers and a few thousand random ones.", "anchors": ["include/floaxie/ftoa.h: ftoa", "include/floaxie/atof.h: atof"]}
{"id": "C46", "title": "exactly which values survive the full circle", "statement": "For every finite non-zero v, atof(ftoa(v)) with a correctly rounding fallback gives back v (status success, everything consumed) unless v is a normal power of two that ftoa prints below |v|(1 - 2^(2-width)); such a power of two comes back as its half (the smallest normal number as zero), with status success and without a call of the fallback.", "quantifier": "every finite non-zero value", "why_tests_cant": "There are 2^64 doubles (and 2^32 floats); the suites sample a fixed list of numbers and a few thousand random ones.", "anchors": ["include/floaxie/ftoa.h: ftoa", "include/floaxie/atof.h: atof"]}
{"id": "C47", "title": "full circle for integers without fallback", "statement": "For every integer N with 0 < |N| <= 2^53 (2^24 for float) atof(ftoa(N)) is N and the fallback is never called.", "quantifier": "every such integer", "why_tests_cant": "2^54 integers.", "anchors": ["include/floaxie/ftoa.h: ftoa", "include/floaxie/atof.h: atof"]}
{"id": "C48", "title": "negation symmetry of atof", "statement": "A text of at most 2048 characters with a minus sign in front gives the negated value of the text without it, the same status and one more character consumed, except that an overflow or underflow may lose the sign; a plus sign changes nothing but the number of characters consumed; whether the fallback is called, and whether there is undefined behaviour, is the same.", "quantifier": "every text", "why_tests_cant": "All texts.", "anchors": ["include/floaxie/krosh.h: krosh, parse_digits, parse_mantissa, parse_exponent", "include/floaxie/atof.h: atof"]}
{"id": "C49", "title": "locality", "statement": "The result of atof does not depend on what follows the character that ends the number: two texts that agree up to it, followed by any two characters that cannot continue the number, give the same result.", "quantifier": "every text and every continuation", "why_tests_cant": "All continuations.", "anchors": ["include/floaxie/atof.h: atof", "include/floaxie/krosh.h: krosh, parse_digits, parse_mantissa, parse_exponent"]}
{"id": "C50", "title": "atof is monotone", "statement": "If the number in text s is at most the number in text t then atof(s) <= atof(t).", "quantifier": "every pair of number texts", "why_tests_cant": "Pairs of unbounded texts.", "anchors": ["include/floaxie/atof.h: atof", "include/floaxie/krosh.h: krosh, parse_digits, parse_mantissa, parse_exponent"]}
{"id": "C51", "title": "str_end may be null and is written once", "statement": "With a null str_end pointer atof gives the same value and status; with a non-null one it stores a position inside the text.", "quantifier": "every text, both pointer cases", "why_tests_cant": "All texts.", "anchors": ["include/floaxie/atof.h: atof"]}
{"id": "C52", "title": "no silent truncation of long numbers", "statement": "A number text of any length is parsed completely.", "quantifier": "every number text of any length", "why_tests_cant": "The limit is beyond any test input.", "anchors": ["include/floaxie/krosh.h: parse_digits, maximum_offset"]}
{"id": "C53", "title": "print_binary shows the bit pattern", "statement": "print_binary(double) prints the 64 bits of the value, most significant first, with one space after the sign bit and one after the exponent field.", "quantifier": "every double bit pattern", "why_tests_cant": "There are 2^64 doubles (and 2^32 floats); the suites sample a fixed list of numbers and a few thousand random ones.", "anchors": ["include/floaxie/print.h: print_binary, print_double_presentation"]}
{"id": "C54", "title": "compile-time powers", "statement": "static_pow<b,n> and seq_pow<T,b,max>(n) equal b^n for every n up to max as long as the result fits, and every use inside the number parser for mantissa digits is inside the array.", "quantifier": "every base, exponent and mantissa text", "why_tests_cant": "Template recursion for all parameters; index bounds for all texts.", "anchors": ["include/floaxie/static_pow.h: static_pow, seq_pow, pow_sequencer"]}
{"id": "C55", "title": "zero text", "statement": "Every text consisting of an optional sign, zeros and an optional point parses to zero of that sign, status success, everything consumed.", "quantifier": "every such text up to the length limit", "why_tests_cant": "Unbounded family.", "anchors": ["include/floaxie/krosh.h: krosh, parse_digits, parse_mantissa, parse_exponent", "include/floaxie/atof.h: atof"]}
{"id": "C56", "title": "exact numbers parse exactly", "statement": "A number text of at most 19 (double) or 9 (float) significant digits whose value is itself a number of the type gives exactly that number, status success, everything consumed, and the fallback is never called.", "quantifier": "all number texts, continuations, fallbacks and errno values", "why_tests_cant": "exactness has to hold for every representable decimal", "anchors": ["include/floaxie/krosh.h: krosh, parse_mantissa, parse_digits", "include/floaxie/atof.h: atof"]}
{"id": "C57", "title": "what happens when rounding carries to a power of two", "statement": "A number text with at most 19 (9) significant digits that rounds up to the normal power of two 2^k from below by more than 2^(k+2-width) gives 2^(k-1) (zero if 2^k is the smallest normal value) with status success, or the fallback is called.", "quantifier": "all number texts, continuations, fallbacks and errno values", "why_tests_cant": "infinitely many texts; the wrong result has to be characterised for all of them", "anchors": ["include/floaxie/diy_fp.h: downsample", "include/floaxie/krosh.h: krosh, parse_mantissa, parse_digits"]}
{"id": "C58", "title": "overflow missed just above the range", "statement": "A number text with value between 2^max_exp and 2^(max_exp+width-1)*(1 - 2^-precision) is never reported as overflow by atof itself: the status is success unless the fallback decides.", "quantifier": "all number texts, continuations, fallbacks and errno values", "why_tests_cant": "infinitely many texts", "anchors": ["include/floaxie/diy_fp.h: downsample", "include/floaxie/krosh.h: krosh, parse_mantissa, parse_digits"]}
{"id": "C59", "title": "overflow far above the range", "statement": "A number text with value from 2^(max_exp+width-1)*(1 + 2^-precision) on gives an infinity with status overflow, everything consumed, without fallback.", "quantifier": "all number texts, continuations, fallbacks and errno values", "why_tests_cant": "infinitely many texts", "anchors": ["include/floaxie/diy_fp.h: downsample", "include/floaxie/krosh.h: krosh, parse_mantissa, parse_digits"]}
{"id": "C60", "title": "values below the smallest denormal become zero", "statement": "A number text with non-zero value below the smallest denormal (by a relative 2^-precision) gives a zero with status underflow, everything consumed, without fallback - also when it is nearer to the smallest denormal.", "quantifier": "all number texts, continuations, fallbacks and errno values", "why_tests_cant": "infinitely many texts", "anchors": ["include/floaxie/diy_fp.h: downsample", "include/floaxie/krosh.h: krosh, parse_mantissa, parse_digits"]}
{"id": "C61", "title": "zero mantissa", "statement": "A number text whose mantissa is zero gives a zero with the sign of the text, status success, and str_end behind the mantissa: an exponent part is left unread.", "quantifier": "all number texts, continuations, fallbacks and errno values", "why_tests_cant": "infinitely many texts", "anchors": ["include/floaxie/krosh.h: krosh, parse_mantissa, parse_digits"]}
{"id": "C62", "title": "exponents that cannot be read", "statement": "A number text with non-zero mantissa whose exponent is a non-zero multiple of 10000 or has more than twelve digits makes atof index outside its table of powers of ten.", "quantifier": "all number texts, continuations, fallbacks and errno values", "why_tests_cant": "undefined behaviour for an infinite family of texts", "anchors": ["include/floaxie/krosh.h: krosh, parse_mantissa, parse_digits", "include/floaxie/static_pow.h: seq_pow"]}
{"id": "C63", "title": "what lone signs, points and false words consume", "statement": "A sign not followed by anything that begins a number is consumed and gives a zero of that sign; so is a point not followed by a digit; so is a letter n or i that does not go on as nan or inf. Status success.", "quantifier": "all such texts and continuations", "why_tests_cant": "infinitely many texts", "anchors": ["include/floaxie/krosh.h: krosh, parse_mantissa, parse_digits"]}
{"id": "C64", "title": "texts rejected at the first character", "statement": "A text whose first character is no digit, point, sign, n or i (either case) gives +0, status success, str_end at its beginning, without fallback.", "quantifier": "all characters and continuations", "why_tests_cant": "must hold for every continuation", "anchors": ["include/floaxie/krosh.h: krosh, parse_mantissa, parse_digits", "include/floaxie/atof.h: atof"]}
{"id": "C65", "title": "correctly rounding fallbacks exist", "statement": "There is a fallback function that returns the correctly rounded value and the end of the number for every text, and another one that also sets ERANGE below the normal range as C libraries do; so the theorems with that hypothesis are about something.", "quantifier": "existence, for both types", "why_tests_cant": "is a statement about functions on all texts", "anchors": ["include/floaxie/atof.h: atof"]}
{"id": "C66", "title": "NaN, infinity and wrong signs just beyond the range", "statement": "A number text with value between 2^max_exp and 2^(max_exp+1) (less a relative 2^-precision at both ends) gives, with status success, an infinity or a NaN, and a NaN unless it is within 4 units of the lower end or 2 of the upper one; from 2^(max_exp+1) to 2^(max_exp+width-1) it gives, with status success, a tiny number of the opposite sign, namely about -value*2^(-2 max_exp) (half that at powers of two). Or the fallback is called.", "quantifier": "all number texts, continuations, fallbacks and errno values", "why_tests_cant": "infinitely many texts; the wrong results have to be characterised for all of them", "anchors": ["include/floaxie/diy_fp.h: downsample", "include/floaxie/krosh.h: krosh, parse_mantissa, parse_digits"]}
{"id": "C67", "title": "from_string and NUL characters", "statement": "from_string(s) gives what atof gives for the characters of s followed by a NUL and anything; a NUL inside of s ends the number and what is behind it does not matter, if it does not matter to the fallback. For every value v, from_string(to_string(v)) with a correctly rounding fallback is v, except that NaN payloads and the sign of zero are lost and that a normal power of two may come back as its half (the smallest normal one as zero).", "quantifier": "all strings, values, fallbacks and errno values", "why_tests_cant": "must hold for every string, including those with NULs inside", "anchors": ["include/floaxie/atof.h: from_string", "include/floaxie/ftoa.h: to_basic_string"]}
{"id": "C68", "title": "error bound for every in-range number", "statement": "A number text of any number of digits (up to 2049 characters per part) with value in the range of the type gives a finite number of its sign that is off by at most (1/2 + 1/317) ulp (double; 1/2 + 31/800 for float), status success, everything consumed; except that a number just below or at a normal power of two 2^k (relative distance 2^(1-precision)) may give 2^(k-1) (zero for the smallest normal number); or the fallback is called.", "quantifier": "all number texts, continuations, fallbacks and errno values", "why_tests_cant": "infinitely many texts of unbounded digit counts", "anchors": ["include/floaxie/krosh.h: krosh, parse_mantissa, parse_digits", "include/floaxie/diy_fp.h: downsample"]}
{"id": "C69", "title": "exponents of ten to twelve digits", "statement": "A number text whose exponent has ten to twelve digits and is no multiple of 10000 is read with another exponent: the digits behind the ninth replaced by zeros, and the result reduced modulo 2^32 to the range of int.  The value and status are those of the number with that exponent (infinity with overflow or zero with underflow if it is large); everything is consumed.", "quantifier": "all number texts, continuations, fallbacks and errno values", "why_tests_cant": "infinitely many texts", "anchors": ["include/floaxie/krosh.h: krosh, parse_mantissa, parse_digits", "include/floaxie/krosh.h: parse_exponent"]}
{"id": "C70", "title": "what a dangling exponent marker does", "statement": "If a number (non-zero mantissa, no exponent) is followed by e or E, an optional sign, and something that can begin neither a number nor nan nor inf, atof consumes the letter and the sign and gives the value and the status of the number alone, calling the fallback in the same cases.", "quantifier": "all number texts, continuations, fallbacks and errno values", "why_tests_cant": "must hold for every number and every continuation", "anchors": ["include/floaxie/krosh.h: krosh, parse_mantissa, parse_digits", "include/floaxie/krosh.h: parse_exponent"]}
{"id": "C71", "title": "order of short numbers", "statement": "For numbers of at most 19 (9) significant digits in the range of the type that do not round up to a normal power of two, and with a correctly rounding fallback, atof keeps the order, and gives equal numbers for equal values however they are written.", "quantifier": "all pairs of number texts", "why_tests_cant": "ranges over pairs of texts", "anchors": ["include/floaxie/krosh.h: krosh, parse_mantissa, parse_digits", "include/floaxie/atof.h: atof"]}
{"id": "C72", "title": "what becomes of mantissas of more than 2049 characters", "statement": "If a number text has a mantissa of more than 2049 characters, either the fallback is called, or exactly 2049 are reported as consumed; in both cases nothing behind the mantissa (in particular no exponent) has any influence on the result. If none of the first 2050 characters is a digit other than 0, the result is zero of its sign with success; if 2050 or more digits precede the point and at most 1680 of them are leading zeros, the result is plus infinity with overflow, whatever the sign; if the point is among the first 2050 characters, there is no exponent and more than 19 (float: 9) significant digits are among them, the value is the correctly rounded value of the whole text under the conditions of C30.", "quantifier": "every number text with a mantissa of more than 2049 characters", "why_tests_cant": "the texts are longer than any test input, and unboundedly many", "anchors": ["include/floaxie/krosh.h: krosh, parse_mantissa, parse_digits"]}
{"id": "C73", "title": "the exponent that is applied", "statement": "For every text that is a non-zero mantissa (optional sign, digits, at most one point; at most 2049 characters), the letter e or E, and then any optional sign, digits and at most one point among them (longest such text; each part may be missing; it may be of any length, the first 2050 characters count): move the point behind the significant digits of the exponent, of which nine are kept; if the power of ten this leaves is 10^0 to 10^3, the product reduced to int and negated if there is a minus, and this plus the power of ten of the mantissa is an int, then this number is the exponent: value, status and use of the fallback are those of the mantissa with this exponent written plainly (or infinity with overflow, zero with underflow, when it is 10000 or more in magnitude), and what is consumed is the mantissa, the letter and the exponent text (at most 2049 characters of it). Otherwise the behaviour is undefined.", "quantifier": "all number texts, continuations, fallbacks and errno values", "why_tests_cant": "infinitely many texts, including exponents of any length and exponents with a decimal point", "anchors": ["include/floaxie/krosh.h: krosh, parse_mantissa, parse_digits", "include/floaxie/krosh.h: parse_exponent"]}
{"id": "C74", "title": "exactly which texts lead to undefined behaviour", "statement": "For every NUL-terminated text the behaviour of atof is undefined if and only if the text begins with a non-zero mantissa of at most 2049 characters, a letter e and an exponent that cannot be applied in the sense of C73; in all other cases atof returns, if the fallback does. In particular it returns when every letter e in the text is followed by an optional sign and at most nine digits, the number not a non-zero multiple of 10000, that no digit, point or (if there are no digits) sign follows.", "quantifier": "all texts, of any length and content, all fallbacks and errno values", "why_tests_cant": "ranges over all character sequences", "anchors": ["include/floaxie/krosh.h: krosh, parse_mantissa, parse_digits", "include/floaxie/krosh.h: parse_exponent", "include/floaxie/atof.h: atof", "include/floaxie/static_pow.h: seq_pow"]}
{"id": "C75", "title": "how much is taken of any text", "statement": "For every NUL-terminated text that is not undefined behaviour in the sense of C74, either the fallback decides or str_end is exactly: behind the longest [sign][digits][.digits] at the beginning (at most 2049 characters); if there is nothing but a sign in it and an n or i follows, behind the word: nan, nan(letters, digits and underscores), infinity, inf in any capitalisation, else behind that one letter; and if the number is not zero, has at most 2049 characters and an e or E follows, behind that letter and behind what the same rule takes of the text after it. Words give NaN, infinity or (a lone n or i) zero with their sign and status success.", "quantifier": "all texts, of any length and content, all fallbacks and errno values", "why_tests_cant": "ranges over all character sequences", "anchors": ["include/floaxie/krosh.h: krosh, parse_mantissa, parse_digits", "include/floaxie/krosh.h: parse_exponent", "include/floaxie/atof.h: atof"]}
{"id": "C76", "title": "what ends a number", "statement": "If a number without exponent is followed by a character that cannot continue it (a second point, a sign behind a digit, a letter other than e, ...), then neither that character nor anything behind it influences the value, the status, the end or whether the fallback is called; a number with no digits but zeros, or no digits, gives a zero of its sign whatever follows, also an e; and numbers of at most 19 (9) digits in range ended that way are correctly rounded as in C29.", "quantifier": "all bare numbers, all characters that end them, all continuations, fallbacks and errno values", "why_tests_cant": "must hold for every number and continuation", "anchors": ["include/floaxie/krosh.h: krosh, parse_mantissa, parse_digits", "include/floaxie/krosh.h: parse_digits", "include/floaxie/atof.h: atof"]}
{"id": "C77", "title": "comparison, subtraction and stepping of diy_fp", "statement": "For any two diy_fp values == holds exactly if mantissa and exponent are equal and != is its negation; for normalized values == holds exactly if they stand for the same number. Subtraction of values with equal exponents and non-negative result is exact, and every other subtraction violates the precondition. Increment undoes decrement for mantissas above 1 and decrement undoes increment for mantissas other than 0 and the largest, where the two together lose one unit.", "quantifier": "all diy_fp values of both types", "why_tests_cant": "2^64 mantissas and all exponents", "anchors": ["include/floaxie/diy_fp.h: operator==, operator!=, operator-, operator-=, operator++, operator--"]}
{"id": "C78", "title": "diy_fp stream output", "statement": "Printing a diy_fp to a stream appends exactly (f = B, e = N) where B are the 32 or 64 binary digits of the mantissa and N is the exponent in decimal, with a minus if negative and without leading zeros; so the value can be read off.", "quantifier": "all diy_fp values of both types", "why_tests_cant": "2^64 mantissas and all exponents", "anchors": ["include/floaxie/diy_fp.h: operator<<", "include/floaxie/print.h: print_binary"]}
{"id": "C79", "title": "what any text means", "statement": "There is a short computable specification that maps every text to undefined behaviour, a word with its sign, or a plain number (the longest mantissa at its beginning with the exponent that is applied written in four digits, 9999 standing for everything above); for every NUL-terminated text atof behaves accordingly: it faults, or gives the NaN, infinity or zero of the word, or gives the same value and status as for the plain number, calling the fallback in the same cases; str_end as in C75. Hence every text that means a number of at most 19 (9) digits in range is correctly rounded under the conditions of C29, and every text that means a number in range obeys the error bound of C68.", "quantifier": "all texts, of any length and content, all fallbacks and errno values", "why_tests_cant": "ranges over all character sequences", "anchors": ["include/floaxie/krosh.h: krosh, parse_mantissa, parse_digits", "include/floaxie/krosh.h: parse_exponent", "include/floaxie/atof.h: atof"]}
{"id": "C80", "title": "how much room ftoa needs", "statement": "For every value, a buffer with room for the text and its NUL is enough: ftoa then writes exactly these and returns the length, whatever max_buffer_size says; with any smaller buffer it writes out of bounds. 25 characters (double) and 20 characters (float) are enough for all values, and no smaller number is.", "quantifier": "all values of both types, buffers of every length and content", "why_tests_cant": "ranges over 2^64 values and all buffers", "anchors": ["include/floaxie/ftoa.h: ftoa, max_buffer_size", "include/floaxie/prettify.h", "include/floaxie/grisu.h: digit_gen"]}
{"id": "C81", "title": "numbers are IEEE 754 numbers", "statement": "What these properties mean by finite, infinite, NaN, sign and value of a bit pattern is what Flocq's formalisation of the IEEE 754 binary32 and binary64 interchange formats says; there is exactly one correctly rounded result for every real number and sign of zero, and for numbers m*2^e it is the one IEEE 754 rounding (to nearest, ties to even, overflow to infinity) gives.", "quantifier": "all bit patterns of both types, all reals, all m and e", "why_tests_cant": "2^64 patterns, all reals", "anchors": ["include/floaxie/diy_fp.h: diy_fp(FloatType), downsample"]}
{"id": "C82", "title": "both directions against IEEE 754", "statement": "If the number in a text obeys the conditions of C29 and equals m*2^e, the bits atof returns (with a correctly rounding fallback) are those IEEE 754 rounding of m*2^e gives; and every correctly rounding reader, not only this library, gets from the text ftoa wrote for v exactly the bits of v.", "quantifier": "all number texts as in C29; all finite non-zero values of both types", "why_tests_cant": "ranges over all texts and all values", "anchors": ["include/floaxie/atof.h: atof", "include/floaxie/ftoa.h: ftoa"]}
{"id": "C83", "title": "what a reported status says about the number", "statement": "Whatever non-zero number a text means, atof does one of three things: it reports underflow, then the result is a zero and the number is below the smallest denormal (relative margin 2^-precision; for float possibly only below 10^-42); it reports overflow, then the result is an infinity and the number is above 2^(max_exp+width-1) (same margin); or it reports success or asks the fallback, then the number is between these limits.", "quantifier": "all number texts, continuations, fallbacks and errno values", "why_tests_cant": "infinitely many texts; soundness of a status in both directions", "anchors": ["include/floaxie/krosh.h: krosh, parse_mantissa, parse_digits", "include/floaxie/diy_fp.h: downsample", "include/floaxie/atof.h: atof"]}
{"id": "C84", "title": "which decimal number is printed", "statement": "For every finite non-zero value the printed number is a number just below the upper end of the rounding interval (the midpoint between the value and the next larger one, less a relative 2^(3-width) at most) cut off behind some digit; so no number with the same last place lies between it and the upper end. Values with significands below 2^27 (float: 2^11), that is small denormals, are always cut off behind nine or ten digits (float: four or five), however many would do (trailing zeros are not written).", "quantifier": "all finite non-zero values of both types", "why_tests_cant": "2^64 values", "anchors": ["include/floaxie/grisu.h: digit_gen, grisu2"]}
{"id": "C85", "title": "the printed number is the nearest of its length", "statement": "Of all numbers with the same last decimal place ftoa prints the one nearest to the value.", "quantifier": "all finite non-zero values of both types", "why_tests_cant": "2^64 values", "anchors": ["include/floaxie/grisu.h: digit_gen, grisu2"]}
{"id": "C86", "title": "texts of few digits survive text to value to text", "statement": "A number text of at most 15 (double) or 6 (float) significant digits, in the normal range, that does not round up to a power of two and is not within the safety margin (1/512 or 1/64 of an ulp) of a rounding boundary, is read by atof without the fallback as the correctly rounded value, and ftoa prints that value as a text that denotes the same number with the same sign.", "quantifier": "every such text with any character behind it that ends a number", "why_tests_cant": "Both directions, for every text: about 10^15 mantissas times 600 exponents.", "anchors": ["include/floaxie/atof.h: atof", "include/floaxie/ftoa.h: ftoa", "include/floaxie/krosh.h: krosh", "include/floaxie/grisu.h: grisu2"]}
{"id": "C87", "title": "all decimals of DBL_DIG / FLT_DIG digits survive", "statement": "Every number text of at most 15 (double) or 6 (float) significant digits in the normal range comes back as the same number from ftoa(atof(text)).", "quantifier": "every such text", "why_tests_cant": "Both directions, for every text: about 10^15 mantissas times 600 exponents.", "anchors": ["include/floaxie/atof.h: atof", "include/floaxie/ftoa.h: ftoa"]}
{"id": "C88", "title": "atof looks at a bounded part of the text", "statement": "If there is no opening parenthesis among the first 4103 characters of a text, nothing behind them has any influence on what atof does (apart from what the fallback makes of the text), and none of it is read: a buffer of 4103 characters without a terminator is handled like a terminated one, with at most 4099 characters consumed or one of the two faults a terminated text can cause, and no read outside the buffer. With \"nan(\" there is no such bound: the character behind n payload characters decides, for every n, whether n + 5 or 3 characters are consumed.", "quantifier": "all texts of at least 4103 characters without an opening parenthesis, all continuations, both types, any fallback and errno; all payload lengths", "why_tests_cant": "needs every long text and every continuation of it, including buffers that end there; an overread only shows in particular memory layouts", "anchors": ["include/floaxie/krosh.h: parse_digits, parse_mantissa, parse_exponent, eat_nan, eat_inf, maximum_offset", "include/floaxie/atof.h: atof"]}
{"id": "C89", "title": "the text of a float can be read as a double", "statement": "For every finite non-zero float the text ftoa<float> writes, with any character behind it that ends a number, read by atof<double> either gives a finite double with status success, all of the text consumed, that converts (rounding to nearest even) to that very float, or the fallback is called; with a correctly rounding fallback it always does. There is no double rounding trouble.", "quantifier": "all finite non-zero floats, all continuations, fallbacks and errno values", "why_tests_cant": "double rounding errors are rare; all 2^32 floats times what follows", "anchors": ["include/floaxie/ftoa.h: ftoa", "include/floaxie/atof.h: atof", "include/floaxie/grisu.h: grisu2"]}
{"id": "C90", "title": "a float passed on as a double survives", "statement": "A float converted to double, printed with ftoa<double> and read with atof<float> is the same float.", "quantifier": "all finite non-zero floats, all continuations, fallbacks and errno values", "why_tests_cant": "all 2^32 floats; the exceptions are a few isolated values", "anchors": ["include/floaxie/ftoa.h: ftoa", "include/floaxie/atof.h: atof", "include/floaxie/diy_fp.h: downsample"]}
{"id": "C91", "title": "the global locale does not change what is read", "statement": "Whatever the global locale makes of letters in std::tolower (NUL staying NUL): the value, the status, errno, whether the fallback is called and which fault occurs, if any, are the same for every text; str_end is the same too unless the text begins with nan or inf or the number at its beginning is followed by the letter e and nan or inf, and also then if the two locales agree on the characters of the text. So a number is read alike in every locale. In a Turkish locale INFINITY is read as infinity with three characters consumed instead of eight.", "quantifier": "all texts, all pairs of locales, both types, any fallback and errno", "why_tests_cant": "all texts times all locales, which are not installed on most machines; the decimal point of LC_NUMERIC is not looked at either (except by the fallback)", "anchors": ["include/floaxie/krosh.h: eat_nan, eat_inf, parse_digits, krosh", "include/floaxie/atof.h: atof"]}
{"id": "C92", "title": "texts of the same number are read alike", "statement": "If two number texts denote the same non-zero number (they may differ in leading and trailing zeros, the place of the point, the exponent, a plus sign, e or E), atof gives the same value and status for both and consumes each to its end, or calls the fallback for both; texts of zero of the same sign give the same zero.", "quantifier": "all pairs of number texts of equal value within the limits of the parser, all continuations, both types, any fallback and errno", "why_tests_cant": "every number has infinitely many texts; the exceptions need more than 19 (9) digits and a value next to a rounding boundary", "anchors": ["include/floaxie/krosh.h: parse_digits, extract_fraction_digits, parse_mantissa, krosh", "include/floaxie/atof.h: atof"]}
{"id": "C93", "title": "numbers of any length are read in order", "statement": "With a correctly rounding fallback, two numbers of any length that are in order are read as values in order, unless one of them lies at a normal power of two (at most two units of the last place below it or less than half a unit above) or both lie within 1/317 (float: 31/800) of a unit of the same point half way between two neighbouring values; so two numbers in the normal range that differ by more than 2/317 * 2^-52 (float: 31/400 * 2^-23) of their size, and are not at a power of two, are always in order.", "quantifier": "all pairs of numbers of any length a little inside the range of the type (float: at least 10^-42), all continuations and errno values, every correctly rounding fallback", "why_tests_cant": "needs all pairs of texts; an inversion needs two numbers next to the same rounding boundary", "anchors": ["include/floaxie/krosh.h: krosh, parse_mantissa", "include/floaxie/diy_fp.h: downsample", "include/floaxie/atof.h: atof"]}
{"id": "C94", "title": "what atof computes, to the last bit", "statement": "For every number text atof's result is a function of four things: the sign, the first 19 (float: 9) significant digits without trailing zeros, the power of ten they are multiplied by, and the four digits behind them (only those before the point, if more than 19 (9) digits stand there). A short specification with integers only says which function: the digits with seven bits for the four behind them, rounded to the width of the word; times the nearest 64 (32) bit approximation of the power of ten, the product rounded to the width; cut to the precision of the type to nearest even; ties go to the fallback, powers of ten beyond 343 (50) give a positive infinity or zero. atof returns exactly these bits, that status and the end of the number, or calls the fallback, in exactly the cases the specification says.", "quantifier": "all number texts of any length within the limits of the parser, all continuations, both types, any fallback and errno", "why_tests_cant": "all texts; a wrong bit far down (in the tail, the table or a rounding) changes the result for few numbers only and need not violate an error bound", "anchors": ["include/floaxie/krosh.h: krosh, parse_digits, extract_fraction_digits, parse_mantissa", "include/floaxie/fraction.h: convert_numerator", "include/floaxie/diy_fp.h: operator*=, normalize, downsample", "include/floaxie/cached_power.h: cached_power", "include/floaxie/bit_ops.h: round_up", "include/floaxie/atof.h: atof"]}
{"id": "C95", "title": "what ftoa prints, to the last character", "statement": "For every finite non-zero value the text ftoa writes is given by a short specification with integers only: both ends of the rounding interval are multiplied by the smallest power of ten that is at least 2^-36 (float: 2^-20) divided by the unit of the upper end's 64 (32) bit mantissa, in its nearest 64 (32) bit approximation, rounded, and brought one unit nearer to each other; the upper end is cut off at the point, or behind the first digit after it, where what is cut off does not exceed the length of the interval; trailing zeros are dropped; more than 16 places on either side of the point give scientific notation. The text has exactly these digits in exactly this layout.", "quantifier": "all finite non-zero values of both types, every buffer with room for the text", "why_tests_cant": "2^64 values; a wrong digit at the end can still read back as the same value and violate no other property", "anchors": ["include/floaxie/grisu.h: grisu2, digit_gen", "include/floaxie/k_comp.h: k_comp_exp", "include/floaxie/cached_power.h: cached_power", "include/floaxie/diy_fp.h: boundaries, operator*=", "include/floaxie/prettify.h", "include/floaxie/ftoa.h: ftoa"]}
{"id": "C96", "title": "what atof does with any text, computed", "statement": "For every text terminated by a NUL, whatever its characters and its length, a computable specification with integers only says what atof does: undefined behaviour (an exponent outside its tables); or the bits of the value, the status and the number of characters taken; or a call of the fallback, whose answer it then hands on. from_string does the same with any string; what is behind a NUL in it is not seen. This includes mantissas of more than 2049 characters, of which the first 2050 are read (but four digits behind the 19th (9th) significant one are still looked at where they stand).", "quantifier": "all character sequences of any length, everything behind the NUL, both types, with and without str_end, any fallback and errno", "why_tests_cant": "infinitely many texts; nothing is left open by it: every deviation on any text violates it", "anchors": ["include/floaxie/krosh.h: krosh and everything it calls", "include/floaxie/atof.h: atof, from_string"]}
{"id": "C97", "title": "what ftoa does with any value, computed", "statement": "For every bit pattern of the type a computable specification with integers only gives the text ftoa writes (into every buffer with room for it and its NUL, touching nothing else) and to_string returns: nan, inf, -inf, 0, or sign, digits and layout. Together with C96 this computes what comes back when the text is read again.", "quantifier": "all bit patterns of both types, every buffer with room for the text; for the way back any fallback and errno", "why_tests_cant": "2^64 values; nothing is left open by it", "anchors": ["include/floaxie/ftoa.h: ftoa, to_basic_string", "include/floaxie/grisu.h: grisu2, digit_gen", "include/floaxie/prettify.h", "include/floaxie/atof.h: from_string"]}
{"id": "C98", "title": "reading on", "statement": "Appending characters to a text never makes atof consume fewer of them. And if it consumes less than 2049 characters, the consumed ones alone (a copy of the text up to str_end) give the same value, status and end, or again a call of the fallback; so a text can be tokenised with str_end and the tokens read later. (With 2049 consumed characters the last claim fails: one more than is consumed is read then.)", "quantifier": "all texts, all continuations, both types, any fallback and errno", "why_tests_cant": "all pairs of a text and a longer one", "anchors": ["include/floaxie/krosh.h: krosh, parse_digits, parse_mantissa, parse_exponent", "include/floaxie/atof.h: atof"]}
{"id": "C99", "title": "where atof stops compared with strtod", "statement": "Where atof reads a text itself, the characters it consumes are the longest initial part that is a number, inf, infinity, nan or nan(chars), possibly with a sign, ignoring case, as for strtod in the \"C\" locale (but for leading white space and hexadecimal numbers), and none if there is no such part, except in exactly these cases: the text begins with a sign, a point or a letter n or i but is no number or word (then something is consumed); the number has more than 2049 characters in front of its exponent or behind the letter e; it is zero and has an exponent (which is not consumed); it is not zero and a letter e without exponent stands behind it (which is consumed); or a point stands behind its exponent (which is consumed).", "quantifier": "all texts, both types, any fallback and errno", "why_tests_cant": "all texts of all lengths", "anchors": ["include/floaxie/krosh.h: krosh, parse_digits, parse_mantissa, parse_exponent", "include/floaxie/atof.h: atof"]}
{"id": "C100", "title": "saving and loading over and over", "statement": "If a value is printed with to_string and read with from_string again and again (with a correctly rounding fallback), it does not change any more after 9 passes (float: 5), whatever errno was. NaN stays a NaN, infinities stay, zeros become positive; any other value keeps its sign and is the original one unless that is a power of two, which may have been halved up to that many times but stays normal. There are values that are halved by each of these 9 (5) passes, whatever the fallback.", "quantifier": "all values of both types, all numbers of passes, every correctly rounding fallback, every errno", "why_tests_cant": "all values, unboundedly many passes", "anchors": ["include/floaxie/ftoa.h: to_basic_string", "include/floaxie/atof.h: from_string", "include/floaxie/grisu.h: grisu2", "include/floaxie/diy_fp.h: downsample"]}
{"id": "C101", "title": "lists of values in one buffer", "statement": "Values written one behind the other into one buffer with ftoa, a separator behind each (the way the documentation recommends), use exactly the sum of their text lengths, and nothing behind the final NUL is touched; a buffer of max_buffer_size characters per value and one more is always enough. Read back with atof and str_end in a loop, with any separator that is no digit, point, e, E, opening parenthesis or i, the list comes back complete and every value is what it is when saved and loaded on its own; infinities and non-zero numbers that are no powers of two come back unchanged.", "quantifier": "all lists of values of any length, both types, all separators, every correctly rounding fallback, every errno and buffer content", "why_tests_cant": "lists of any length", "anchors": ["include/floaxie/ftoa.h: ftoa, max_buffer_size", "include/floaxie/atof.h: atof"]}
{"id": "C102", "title": "the floating-point environment does not change what is printed", "statement": "What ftoa and to_string print for a value depends on nothing but its bits: the rounding mode (fesetround), the precision the compiler evaluates double expressions in (FLT_EVAL_METHOD) and whether it contracts multiplications and additions do not change a character, although printing contains one floating-point expression.", "quantifier": "all bit patterns of both types, all buffers, all roundings to 53 or more bits in any direction (in particular those of IEEE 754), separately for the constant, the product and the sum, or none", "why_tests_cant": "all values times all evaluations; tests run in one environment", "anchors": ["include/floaxie/k_comp.h: k_comp_exp, lg_2", "include/floaxie/grisu.h: grisu2", "include/floaxie/ftoa.h: ftoa"]}
{"id": "C103", "title": "printing and parsing in several threads", "statement": "Any number of threads may print values (of both types) to different parts of one memory, each of exactly the length of its text and the NUL, even side by side, and parse texts in the same memory, several of them the same text: in every interleaving of their single memory accesses no thread touches a character that is not its own, no thread gets into undefined behaviour, everyone ends with exactly what it would have got alone, and memory nobody prints to stays as it was at every moment. Every schedule comes to an end after the same number of accesses.", "quantifier": "all sets of threads, values, texts without undefined behaviour, addresses, memory contents, fallbacks that only read the text, and all schedules, also incomplete ones", "why_tests_cant": "all interleavings; tests see few of them, and an access outside of the own part need not change anything when nobody interferes", "anchors": ["include/floaxie/ftoa.h: ftoa", "include/floaxie/grisu.h: grisu2, digit_gen", "include/floaxie/prettify.h", "include/floaxie/memwrap.h", "include/floaxie/krosh.h: krosh and everything it calls", "include/floaxie/atof.h: atof"]}
{"id": "C104", "title": "32-bit and 64-bit platforms", "statement": "The results do not depend on the width of std::size_t, which the library mixes with int in sums that may be negative: with 32 bits ftoa and to_string write the same characters and return the same lengths, and atof and from_string give the same value, status, end and errno, call the fallback in the same cases, and have undefined behaviour for the same texts.", "quantifier": "all values of both types and all buffers; all texts, fallbacks and errno values; all widths from 32 to 64 bits", "why_tests_cant": "all inputs times platforms; tests run on one", "anchors": ["include/floaxie/krosh.h: parse_digits, parse_mantissa, parse_exponent", "include/floaxie/diy_fp.h: operator*=, downsample", "include/floaxie/prettify.h: prettify, print_scientific", "include/floaxie/static_pow.h: seq_pow", "include/floaxie/ftoa.h: ftoa"]}
{"id": "C105", "title": "parsing reserves all the memory it ever needs", "statement": "Reading digits, of the mantissa or of the exponent, allocates memory exactly once, at its beginning: 9 bytes for float (and for any exponent), 19 for double. However long the text is, the number of digits kept never exceeds what was reserved, so no allocation (which, in a noexcept function, could only end in std::terminate) can happen in the middle of a text; and there are texts that need all of it.", "quantifier": "all texts, for both types, at every step of reading", "why_tests_cant": "all texts at every step; the size of a vector in the middle of a parse is not visible to a test", "anchors": ["include/floaxie/krosh.h: parse_digits"]}
{"id": "C106", "title": "bounded work for every input", "statement": "No input makes the library slow: printing a float makes at most 39 memory accesses and printing a double at most 57, whatever the value; parsing reads at most 9 characters more often than the text (with its NUL) has characters, and a text without an opening parenthesis, however long, costs at most 4109 reads, apart from what the fallback does. The first three bounds are reached.", "quantifier": "all bit patterns, all buffers of max_buffer_size, all texts (also those that lead to undefined behaviour), all fallbacks", "why_tests_cant": "worst cases over all values and all texts; a test measures the inputs it has", "anchors": ["include/floaxie/ftoa.h: ftoa", "include/floaxie/grisu.h: grisu2, digit_gen", "include/floaxie/prettify.h", "include/floaxie/krosh.h: krosh and everything it calls", "include/floaxie/atof.h: atof"]}
{"id": "C107", "title": "character types and characters that are not ASCII", "statement": "Parsing gives the same for every character type, signed or unsigned, of 8 to 32 bits (char on x86 and on ARM, wchar_t on Linux and Windows, char16_t, char32_t), for all texts of its values, but for one corner: in a signed 32-bit type one of the 48 smallest values right behind a digit beyond those kept is undefined behaviour. All characters outside of ASCII are the same to the parser: replacing them by others (in particular by what they are when char has the other signedness) changes nothing. What is printed is printable ASCII, so that it can be stored in every character type.", "quantifier": "all character types, texts, fallbacks that do not tell the texts apart; all values of both types", "why_tests_cant": "all texts over all character values times platforms; tests use ASCII on one platform", "anchors": ["include/floaxie/krosh.h: extract_fraction_digits, parse_digits and everything that uses them", "include/floaxie/atof.h: atof, from_string", "include/floaxie/ftoa.h: to_string, to_wstring"]}
{"id": "C108", "title": "JSON numbers", "statement": "Every finite number is printed as a number of the JSON grammar (RFC 8259), which nan and the infinities are not. Every JSON number is in the documented format, and standing in a JSON document it is consumed exactly, if it has at most 2049 characters in front of its exponent, the exponent has at most nine digits and does not stand for a non-zero multiple of 10000, and it is not zero; of a zero only the part in front of its exponent is consumed.", "quantifier": "all finite values of both types; all JSON numbers within the limits, all that may follow them, all fallbacks", "why_tests_cant": "unbounded set of texts; tests have a few", "anchors": ["include/floaxie/ftoa.h: ftoa", "include/floaxie/prettify.h: prettify", "include/floaxie/atof.h: atof", "include/floaxie/krosh.h: parse_digits, parse_exponent, krosh"]}
{"id": "C109", "title": "reading as a double and narrowing to float", "statement": "A number of at most nine digits in the range of float, read as a double and then narrowed (to nearest, ties to even), gives the float that reading it as a float gives (both with fallbacks that round correctly), or the double lies exactly half way between two floats: then narrowing gives one of them and reading as a float the other. The latter happens (8.30628079e-15), but never for numbers that are 1/128 of a unit or more away from the points half way between floats.", "quantifier": "all numbers of at most nine digits in range of float (that are not carried to a power of two), all fallbacks that round correctly", "why_tests_cant": "double rounding errors are rare, one in 10^9 texts", "anchors": ["include/floaxie/atof.h: atof", "include/floaxie/krosh.h: krosh", "include/floaxie/diy_fp.h: downsample"]}
{"id": "C110", "title": "a float is printed with at most as many digits as the same number as a double", "statement": "Whenever a float and a double have the same value, the text printed for the float has at most as many significant digits as the text printed for the double.", "quantifier": "all finite non-zero floats, denormal ones included", "why_tests_cant": "2^32 values; the digit generator does not print shortest texts, so this does not follow from the width of the type", "anchors": ["include/floaxie/grisu.h: grisu2, digit_gen, generate_fraction_digits", "include/floaxie/ftoa.h: ftoa"]}
{"id": "C111", "title": "texts of floats relayed through double", "statement": "The text depends on the printed decimal number and its sign only: values of either type that are printed as the same decimal number have the same text. The text of a float, read as a double (without the fallback) and printed again, is the same text, unless it lies within 1/512 of a unit of a point half way between two doubles; then digits can be lost (1.261943e33 becomes 1.2619430000000001e33).", "quantifier": "all finite non-zero floats, all continuations of the text, all fallbacks", "why_tests_cant": "one text in 6000 is lost; tests on a few floats see none", "anchors": ["include/floaxie/ftoa.h: ftoa", "include/floaxie/atof.h: atof", "include/floaxie/grisu.h: grisu2", "include/floaxie/krosh.h: krosh"]}
{"id": "C112", "title": "denormal operands treated as zeros", "statement": "On a processor that treats denormal operands as zeros (set by _MM_SET_DENORMALS_ZERO_MODE, or by the start-up code of GCC's -ffast-math), every denormal value is printed as 0, without its sign, and so is lost by saving and loading; every other value is printed as always. Reading gives the same values, also denormal ones, the same ends and errno, calls the fallback in the same cases and has undefined behaviour for the same texts; only the status of a denormal result of a fallback that sets errno to ERANGE changes, from overflow to underflow.", "quantifier": "all values of both types, all buffers, all evaluations of the floating-point expression as in C102; all texts, fallbacks and errno values", "why_tests_cant": "all values and texts times the environment; tests run in the default one", "anchors": ["include/floaxie/ftoa.h: ftoa", "include/floaxie/default_fallback.h: check_errno", "include/floaxie/atof.h: atof", "include/floaxie/krosh.h: krosh"]}
{"id": "C113", "title": "texts of doubles read as floats", "statement": "The number printed for a double rounds to the float the double itself is narrowed to, unless the double lies exactly half way between two floats (1.000001847743988 does). Reading the text as a float gives that float, with its sign, to the end of the text and without the fallback, for doubles from 2*10^-42 up to the largest float that are not within 1/25 of a unit (of float) of such a point nor within a unit of a power of two. Nearer to these points the wrong one of the two floats can be returned without the fallback being asked: the text 2.1265629529952996 of a double is.", "quantifier": "all finite non-zero doubles in the range of float, all continuations of the text, all fallbacks", "why_tests_cant": "2^64 doubles; about one in 40000 is read wrongly, tests of a few values see none", "anchors": ["include/floaxie/ftoa.h: ftoa", "include/floaxie/atof.h: atof", "include/floaxie/grisu.h: grisu2", "include/floaxie/krosh.h: krosh, parse_mantissa", "include/floaxie/diy_fp.h: downsample"]}
{"id": "C114", "title": "numbers written by other programs", "statement": "Text that another program wrote for a value is read as that value, with a fallback that rounds correctly: any text with the sign of the value, of at most 19 (float: 9) significant digits, that lies strictly between the points half way to the neighbouring values -- and what printf writes with 17 (float: 9) significant digits, for all values (floats from 10^-42 on), is such a text. Excepted are normal powers of two for which the text is below the value, and the smallest value of the type likewise: such a power of two is read as its half, and the smallest one as zero, unless the fallback is asked. So 1.4411518807585587e+17, which %.17g prints for 2^57, is read as 2^56 with status success, and FLT_MIN as <float.h> writes it, 1.17549435e-38, as zero with status success.", "quantifier": "all finite non-zero values of both types, all texts in the documented format within the length limits of the parser that name them, any following text that does not continue the number, every errno, every fallback that rounds correctly", "why_tests_cant": "Which values go wrong depends on all digits of the text and all bits of the value; a test reads a few texts, and the wrong results come with status success.", "anchors": ["include/floaxie/atof.h: atof", "include/floaxie/krosh.h: krosh", "include/floaxie/diy_fp.h: downsample"]}
{"id": "C115", "title": "the decimal point of the C locale", "statement": "The default fallback, strtod, obeys the decimal point of the C locale (setlocale), which atof itself does not. After setlocale to a locale with another decimal point, for every strtod that does what the C standard says: numbers without a point are read as before (correctly rounded to the end, for up to 19 (float: 9) digits), unless the locale's point and digits follow; for a number with a point either the fallback is not asked and nothing changes, or the result is the part in front of the point alone, str_end points at the point, and the status is success (without a digit in front of the point nothing is consumed); an integer followed by the locale's point and digits -- a list of integers -- is read alone, or, when the fallback is asked, together with what follows as its fraction. A printed value is read back as itself, or, if the fallback is asked, as its part in front of the point: the float 23.236804 is read back as 23, with status success.", "quantifier": "all texts in the documented format (for correct rounding: of at most 19 / 9 significant digits and in range), all printed non-zero values except powers of two printed too small, every character that can be a decimal point, everything that may follow, every errno, every fallback that does what the C standard says of strtod", "why_tests_cant": "Tests run in the C locale, where nothing of this shows, and few numbers ask the fallback at all.", "anchors": ["include/floaxie/default_fallback.h: default_fallback, check_errno", "include/floaxie/atof.h: atof", "include/floaxie/krosh.h: krosh"]}
{"id": "C116", "title": "running out of memory", "statement": "Parsing makes one request for memory, or two if the text is a non-zero number with an exponent -- for 19 (float: 9) and for 9 bytes, depending on the text only. If they are granted, the result is the one obtained with plenty of memory; if one is denied, std::terminate is called, as the vector is filled in a noexcept function: nothing can be caught. to_string makes at most two requests: if the first is denied, std::bad_alloc is thrown, and if the second is, the string is nevertheless the right one. ftoa makes none.", "quantifier": "all texts, all values, every sequence of granted and denied requests, every errno and fallback, all sizes of strings kept without a request, all character sizes", "why_tests_cant": "Tests run with plenty of memory.", "anchors": ["include/floaxie/krosh.h: parse_digits, parse_exponent, krosh", "include/floaxie/atof.h: atof", "include/floaxie/ftoa.h: to_basic_string"]}
{"id": "C117", "title": "strtod as the fallback for floats", "statement": "The fallback of atof<float> may be any function, also strtod; its double is then converted. A number of at most nine digits in the range of float that is no lost power of two is then read to the end with status success, as the correctly rounded float -- or the fallback was called and the double nearest to the number lies exactly half way between two floats, and the other one of the two is returned (8.30628079e-15 is such a number, with strtod the wrong float comes back). Numbers that are 1/128 of a unit or more away from such points do not need the fallback. Overflow goes unnoticed: 3.4028235678e38 is read as infinity with status success, where strtof leads to the status overflow.", "quantifier": "all numbers of up to nine digits in the range of float, all continuations, all correctly rounding fallbacks for double, every errno but ERANGE", "why_tests_cant": "Double rounding goes wrong for very few numbers, all next to points half way between floats.", "anchors": ["include/floaxie/atof.h: atof", "include/floaxie/default_fallback.h: default_fallback, check_errno"]}
{"id": "C118", "title": "diy_fp and the state of the stream", "statement": "In whatever state a stream is (decimal, hexadecimal or octal, showbase, showpos, uppercase, width, fill, adjustment, a locale with groups of digits): operator<< appends the binary digits of the mantissa unchanged; the exponent as the stream prints an int (in hexadecimal and octal as the unsigned number with the same 32 bits); the width pads only the first piece of the text, (f = , and is zero afterwards. Nothing is appended to a stream that is not good. In the state streams have at first the text is that of C78. In any one state different values give different texts.", "quantifier": "all mantissas, all int exponents, all states of a char stream with one group size", "why_tests_cant": "The states are a product of flags, widths, fill characters and locales.", "anchors": ["include/floaxie/diy_fp.h: operator<<", "include/floaxie/print.h: print_binary"]}
{"id": "C119", "title": "a fallback of a wider type", "statement": "The fallback of atof may return any wider type, as std::strtold does; what it returns is then converted. With a fallback that rounds correctly in a binary type with more bits and a wider range, a number of at most 19 (float: 9) digits in range that is no lost power of two is read to the end with status success and errno unchanged, as the correctly rounded number -- or the fallback was called and what it returned lies exactly half way between two neighbouring numbers of the type, and the other one of them may be returned. So 5.97092117, with the long double of x86 as the type of the fallback, is read as the double next to the right one. Floats are safe from this: with a fallback of 64 bits or more, numbers of up to nine digits are read as the correctly rounded float.", "quantifier": "both types, all wider binary types, all numbers of up to 19 (float: 9) digits in range, all continuations, every errno but ERANGE, all correctly rounding functions of the wider type", "why_tests_cant": "Double rounding goes wrong only next to the points half way between two numbers, and only where the parser itself is in doubt.", "anchors": ["include/floaxie/atof.h: atof", "include/floaxie/default_fallback.h: check_errno"]}
