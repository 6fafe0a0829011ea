{
"C01": "Exact value of every finite nonzero pattern of every instantiation whose FT holds the fraction.",
"C02": "Every pattern is classified; classes are disjoint; special classes pack back to their pattern.",
"C03": "Round trip for every pattern; the room condition says exactly when packing shifts stay in range.",
"C04": "All six operators against the order of the rationals.",
"C05": "NaN unordered; signed infinities outside all finite values.",
"C06": "Injectivity of the value on finite patterns.",
"C07": "Exact, involutive.",
"C08": "Exact.",
"C09": "False in general. The theorem gives the outcome in every case: the signed infinities swap; the pattern 10..0 is kept only when T has exactly totalbits bits and at most 16 of them; with 32 or 64 such bits negation overflows, and with a wider T the result is no pattern of the format.",
"C10": "Truncation toward zero with saturation at both ends.",
"C11": "Monotone, and posits are fixed points.",
"C12": "With the exact condition (room) under which the result is defined. The FT condition is needed (shown).",
"C13": "With the exact condition (room) under which the result is defined. The FT condition is needed (shown).",
"C14": "With the exact conditions (near, room) under which the result is defined.",
"C15": "Faithful, exact when representable, correct sign, for sums and differences.",
"C16": "False: undefined exactly when the exponents are at least max(32,bits of FT) apart.",
"C17": "False: undefined exactly when pack_room fails, which roomy instantiations (totalbits+1 < max(32, bits of T)) exclude.",
"C18": "Equal outcomes including undefined ones; false with a NaN operand (shown).",
"C19": "All identities, with the room condition for those that pack.",
"C20": "False for a NaN on the right, which returns the left operand; true on the left.",
"C21": "All combinations of infinities, zero and finite operands.",
"C22": "All three specs.",
"C23": "False at the smallest posits of WithNanInf formats, where inv returns an infinity; proved everywhere else.",
"C24": "False: inv(0)=0 and inv(infinity)=infinity.",
"C25": "Exact whenever 1/x is a posit.",
"C26": "False only for the largest posit of WithNanInf formats with es=0, which becomes infinite.",
"C27": "False at the smallest posit, whose half is 0; proved everywhere else.",
"C28": "False at two points: next(lowest) is lowest (not its successor) and next(max) is an infinity, NaN, no pattern or undefined, by instantiation (proved for each). Proved everywhere else; prev is proved for every finite posit.",
"C29": "Every instantiation, except that two() is the infinity pattern of the 3 bit WithNanInf formats.",
"C30": "False for holders wider than totalbits; proved when they are equal.",
"C31": "With the exact packing condition (room); without room fma is undefined where a+c is not.",
"C32": "Any length, by induction; dot is the left to right unpacked sum of unpacked products, packed once. C32_dot_error bounds the distance to the exact sum for every length an int can hold (8 bit holders with fewer than 8 bits used: FT of at most 32 bits).",
"C33": "Needs an exponent type with more bits than the source exponent. Proved for all bit patterns when FT holds the source fraction, and for normal numbers when FT only holds the posit fraction. False for denormals and NaNs when FT is narrower than the source fraction (shown); C33_from_float_narrow_partial states exactly what happens there for every bit pattern. Formats declared without denormals read denormals as 0.",
"C34": "Exactness and round trip for the values covered by the target format; specials round trip too.",
"C35": "Proved for exponents whose sum with the bias stays in the exponent type. False above that (shown). Below the normal range of a format declared without denormals the outcome is stated for every format and exponent: truncated, undefined behaviour when the shift is too long, and in formats of 32 and 64 bits the least negative denormal for tiny negative numbers.",
"C36": "All ints; INT_MIN is undefined behaviour.",
"C37": "False for 1<=|x|<2 (undefined shift) and 2^31<=|x|<2^32 (wrong sign or overflow); the theorem gives the outcome on every range when FT holds the posit fraction.",
"C38": "urOneMinus is exact for es=0 and wrong for every es>0.",
"C39": "False for every negative x unless holder and posit have 32 bits.",
"C40": "min and max proved; std::sqrt returns the absolute value, so the square root claim is false.",
"C41": "False: != returns the same as == unless an operand is NaN. Equality itself is characterised.",
"C42": "False for specials: unary minus turns zero, infinity and NaN into 1 or -1, so u - zero is wrong too (shown). Regular numbers proved.",
"C43": "Relative error bounds for multiplication of any fractions, and for division and inv of any fractions except exactly those where the quotient is half of what it should be (characterised, C43_div_half_refuted).",
"C44": "All widths and inputs, including the undefined cases.",
"C45": "Proved at offset 0. False at other offsets: the low size bits of input are cleared instead of the addressed field; the general theorem says what is computed.",
"C46": "All nonzero 64 bit integers.",
"C47": "Every finite float but -0, and the outcome for infinities and NaN. The float operations of the source are exact on the inputs they meet and are modelled on integers multiples of 2^-149.",
"C52": "Every format of 8,16,32,64 bits with 2 to 11 exponent bits; half, single and double traits are instances.",
"C53": "All formats and bit patterns.",
"C54": "False (undefined shifts) for es=0 with 32/64 bit holders and for 64 bit FT with narrower holders; proved for all other instantiations.",
"C55": "FT three or four bits wider than the posit fraction (add_fits); excludes the 3 bit WithNanInf formats, where one() is the largest posit.",
"C56": "+ - * / - abs half give finite posits; inv, twice and division by zero give patterns of the format, possibly an infinity or NaN.",
"C57": "Equality of outcomes, undefined ones included, for + * /; for inv whenever both sides are defined.",
"C58": "Whenever both results are defined: products, quotients, sums and differences of operands of any signs.",
"C61": "Every instantiation.",
"C62": "False: a finite nonzero number divided by an infinity is an infinity.",
"C63": "Every instantiation with a wide FT: faithful. C63_fma_error bounds the error for FT with two spare bits.",
"C48": "All shipped table entries, lifted from exhaustive kernel computation; inv(0)=0 is stated.",
"C49": "False in general: the generic operators ignore a NaN right operand, sums of operands of opposite sign may differ by one step, half of the smallest numbers differs. Agreement proved elsewhere.",
"C50": "False: posit8::two() is 1.25, posit8 is_infinity holds of NaN, posit12 and posit10 onehalf are 1/16, their infinities are finite numbers, posit10::max is not the largest, -NaN of posit12 leaves the format.",
"C51": "All finite operands; posit12 addition is the generic one (C15).",
"C59": "False for unary minus (absolute value), hence for minus, half and twice; the table operators are lanewise for any vector length.",
"C60": "False: float16nto32 returns the bit pattern of the float as a number. The pattern itself is right.",
"C64": "Proved for every posit8, and for posit12 when 0 <= x < 128 or -143 < x < -2^-25. False elsewhere, and settled exactly: the posit12 entry is 1 for -2^-25 <= x < 0, NaN from 128 on, 0 up to -143.",
"C65": "Finite operands; false for NaN, which is ordered below everything and equal to itself.",
"C66": "Every pattern.",
"C67": "Every pair of formats.",
"C68": "Every instantiation satisfying the stated conditions.",
"C69": "Every pattern, every rounding mode. Missing: multiplication and division need the exponent range of products_fit (C69_overflow_refuted shows why), fits excludes out of range shifts, and a - NaN is wrong or undefined when T has spare bits (C69_subtract_nan_refuted).",
"C70": "Every instantiation the float type covers, every rounding mode; room excludes the out of range shifts.",
"C71": "Proved when the float type holds every product exactly; C71_multiply_refuted gives a 32 bit es=2 product over double that is rounded up.",
"C72": "Finite operands, and isinfinity for formats with infinities; NaN compares equal to itself and below every number, and isinfinity(NaN) is true in formats with NaN only.",
"C73": "Every format and every rational. This mode is part of the trusted description of the hardware floats.",
"C74": "Quiet NaNs; for 32 bit formats built from double also only zero and normal doubles. C74_signalling_refuted: a signalling NaN becomes an infinity in the half format. C74_subnormal_refuted: binary32_emu(double) shifts out of range for a subnormal double.",
"C75": "Numbers below the normal range of the implementation type become zero (C75_flush_refuted, the 16 bit format with 8 exponent bits); C75_convert_room proves the full claim for formats float has room for, the 8 bit and the half format.",
"C76": "Every format inside float or double.",
"C77": "Every format inside float or double; the exact form for formats with the implementation type more than twice as precise. Subnormals of the implementation type count as zero.",
"C78": "As C77; a zero divisor counts as positive, as its converted value has no sign.",
"C79": "The sum is rounded to the implementation type before it is truncated; C79_truncation_refuted shows 65504 + (-2^-14) = 65504 in the half format.",
"C80": "half of the double format goes through one rounding, which C80_half_double_refuted shows; all else as stated.",
"C81": "Numbers below the normal range of the implementation type count as zero (C81_tiny_refuted); with C81_seen_room the full claim holds for the 8 bit and the half format.",
"C82": "Every pattern. C82_iszero_refuted: iszero is false for negative zero.",
"C83": "All ints but INT_MIN, which overflows.",
"C84": "Numbers from 1 to 2 in magnitude shift out of range (C84_to_int_refuted); the theorem also says what happens beyond 2^31.",
"C85": "Every format.",
"C86": "All arrays of posit8; opinv, opsquare, op2float of posit12; exp2 of posit12 for every faithful exp2 outside (-2^-22, 0) and (127, inf), and for every entry when exp2 rounds to nearest. The claim for every faithful exp2 is false just below 0 (refuted with exp2 rounded down).",
"C87": "Every pattern; sums and differences pass through a float (via_float: truncated when the sum is a float, otherwise a neighbour). exp2 for every argument from -142 on is a neighbour of 2^x, or NaN above 127 when the machine's exp2 overflows; refuted below -142, where the result is 0, and from 128 on for an overflowing exp2.",
"C88": "Every number. C88_nan_refuted: NaN equals itself, is below every number, and its negation is not a pattern and exceeds every number.",
"C89": "All floats and doubles: truncated, except that subnormals below the last bit FT keeps become 0 (stated exactly). All ints but INT_MIN, which is undefined behaviour (shown).",
"C90": "Sums of operands near each other in magnitude (or with a zero); the theorem says exactly when the sum is undefined, and C90_add_refuted that it can be.",
"C91": "is_negative for every number. has_neg_exponent for numbers that are not negative, posit10 and posit12; C91_neg_exponent_refuted: wrong for negative numbers, and posit8 tests the sign.",
"C92": "Predicates and floats for every vector. C92_infinity_refuted: maxpos counts as infinite. C92_minus_adds_abs and C92_minus_refuted: a-b is a+|b|. C92_twice_refuted.",
"C93": "Single rounding of sums of two products for every finite operand when FT holds exact products; differences for nonzero factors on the right (C93_difference_of_products_partial). C93_minus_zero_refuted: 1*1-0*1 is 0. C93_sum_error bounds the error of sums for narrower FT.",
"C94": "x >= 0: finite, at least max(1,x), monotone; 1+x truncated on [0,1] for es=0; useed*x truncated above 1. Negative x only for 32 bit posits in 32 bit holders; refuted for negative x elsewhere and for the largest number of formats with infinities. C94_accuracy_refuted: for even patterns x >= 1 the result exceeds ln(1+exp(x)) by more than x-1 (uses the axioms of the standard real numbers).",
"C95": "Proved for es=0 in Posit (truncated) and PositF (faithful). C95_delta_refuted: for es>0 the factor used for 1-x is wrong.",
"C96": "Every finite posit of every instantiation.",
"C97": "Proved for x >= 0 in every instantiation with es=0 and for all x when holder and posit have 32 bits; for every negative posit8 the result is off by more than 1/2 (refuted). Uses the axioms of the standard real numbers.",
"C98": "Definedness is exactly the room predicate of the other operations.",
"C99": "For + the sum is rounded to float before it is cut: refuted that it truncates the exact sum. exp2 also for infinities and NaN.",
"C100": "The code is wrong: negation right for 4 of 256 numbers, order reversed among negatives, NaN ordered. The theorems say exactly where it is right.",
"C101": "Infinity and NaN to int is undefined behaviour; constructors from int, float and double are refuted; epsilon is refuted.",
"C102": "+ - and conversions proved; shifts for counts 1..127, count 0 is undefined; < is sound but not complete (refuted).",
"C103": "The code is wrong: the theorems say for exactly which operands the result is exact; 3*3, 3/2 and 1/3 refuted. Special values agree with the native version.",
"C104": "Counter overflow and the shift 1<<totalbits exclude wide formats, each refuted. The binary output is C148, the text output C152. The program is taken without the line that uses the undefined posit_formatter.",
"C105": "has_infinity for WithNan formats, is_bounded and digits10 are wrong, min_exponent and max_exponent are one less than the C++ standard's (refuted); epsilon and what the exponents do say are C55, min/max/lowest C29.",
"C106": "Fifteen AVX2 classes. The instructions' meaning is trusted (first part of Asimd.v).",
"C107": "Proved for the eight classes with a correct blendindex; for simd_i16_16, simd_u16_16 and simd_d_2 the places that are right are proved and the claim is refuted; four classes have no definition.",
"C108": "Any number of vectors, elements without NaN, the eight classes with a correct blendindex; the greatest elements also for the other classes with a blendindex, their indices refuted.",
"C109": "Classes that gather need byte offsets within 32 bits (refuted without); memory is total, so allocation is not modelled.",
"C110": "The SoftFloat library is trusted to be the IEEE operations; the divisor may not be negative zero, whose quotient's sign the model does not give. rem, sqrt and mulAdd are not modelled.",
"C111": "All constants but min_exponent and max_exponent, which are off by one from what the standard asks (refuted).",
"C112": "All 32 bit patterns and arrays.",
"C113": "All doubles but NaN with all of the payload in the lower word, which become infinite (refuted).",
"C114": "All halves and arrays.",
"C115": "For targets whose lower words are 0; in general the upper word is right and the lower one is kept, so the result may be another number (refuted).",
"C116": "For every earlier content of the targets, although C115 fails for some.",
"C117": "Arrays of doubles are given as words in either byte order.",
"C118": "With a long of 32 bits; with 64 bits the routines return 1 and convert nothing (refuted).",
"C119": "All classes; doubles with the restriction of C113 (NaN with all of the payload in the lower word becomes infinite, refuted). single() of an integer is any rounding that keeps representable numbers and the order; conversion to other classes is MATLAB's.",
"C120": "p1, p2, p4 and p8; p8a raises (refuted). p16a and ppi8 are not modelled.",
"C121": "All well-formed alphabets; membership is defined in SpecPunum.v without the code.",
"C122": "Floats, and fractions that are doubles; other fractions get the pnum of their rounded value, which can be another (refuted).",
"C123": "All pnums of all well-formed alphabets of fractions.",
"C124": "Containment except for the two unbounded pnums of opposite sign (refuted for every alphabet), where sums and products of two points are doubles; that nothing else is contained is refuted.",
"C125": "Equal signs, exact pnums, 0 and infinity, where sums and products of two points are doubles; different signs refuted, other alphabets refuted.",
"C126": "Complement except of everything, reciprocal except of the empty bound (both refuted).",
"C127": "Relative error below 2^-fracbits for mul, div, inv, add, sub, fma and conversions; factor useed for truncating operations at the ends.",
"C128": "Exact close differences (defined when roomy), exact sums up to 1 with esbits 0, zero results.",
"C129": "Integers below 2^(e+1) with e <= fracbits e: conversion, sums, differences, products, whole quotients.",
"C130": "Induction over the values a program can compute, no condition on FT. Partial: negation of 10..0 and next of the largest leave the format when totalbits is smaller than the holder (C130_exit_refuted). C130_finite is complete.",
"C131": "Exact condition: the exponents of the largest and smallest number differ by less than max(32, bits of FT) (C131_numbers is an equivalence, for programs over numbers). C131_defined_partial covers all patterns for 8 and 16 bit types filling their holder. C131_products adds fma, sums of two products and dot of up to n elements, again with the exact condition. Partial: wider formats execute out of range shifts in + (C131_wide_refuted).",
"C132": "posit8 complete (range, 1 exactly at mu, symmetry, monotonicity, NaN). Partial: posit12 only where x - mu is defined, and with 0 and 1 allowed away from mu (C132_posit12_refuted); symmetry (swapping x and mu, signs) holds there too, undefined outcomes included. The SIMD type computes something else: every lane is at least 1 (C132_simd_refuted). posit10 and binary8tab, whose tables are not in the repository, are left out.",
"C133": "Relative error by induction over the program; the condition on sizes is on the exact results of the steps (precise_steps). C133_not_with_subtraction shows why subtraction is left out.",
"C134": "General lists by induction (C134_sum, C134_dot); C134_positive and C134_positive_dot have conditions on the inputs only and include definedness.",
"C135": "fma: exact condition when FT holds exact products. dot: for vectors of up to n elements (2 or 3 <= n < 2^31) the exact condition on range and length, both for nonnegative products and for any signs; posit8 meets it for every vector of fewer than 2^31 elements, posit10, posit12 and posit16 already fail it for two elements. Missing: outside the condition the claim is false; which single vectors are fine there is not characterised, C32_dot_error gives the outcome up to definedness.",
"C136": "Base restored: all modes. Pattern as a decimal number: all holders but 8 bits, which are written as a character (refuted). Octal mode: all numbers and special values, different posits give different texts. Decimal mode: exact float when the format fits into float; different 32 bit posits can give the same text (refuted). Nothing is written when no base flag is set (refuted).",
"C137": "Fields and distinctness for every unpacked number and fraction width. The base is left alone by special values and on decimal streams only (refuted beyond); PositF likewise.",
"C138": "posit8, posit10, posit12: all patterns and bases. binary8tab is written as a character (refuted). Vectors: 8, 16, 32 bit elements on decimal streams, any length; __m256i makes the stream decimal (refuted).",
"C139": "Proved when twice the range plus log2 of the length less one (at least 1) plus 2 is at most the bits of FT (posit8 with a 64 bit FT: every vector of fewer than 2^31 elements; with 32 bits: up to 128 elements). Refuted for posit8 with its 8 bit FT. Missing: formats whose squared range exceeds FT, where it is false in general.",
"C140": "All well formed alphabets whose sums and products are doubles (p1, p2, p4, p8): rows right, none twice, all pairs but p and -p below 1, which are missing (refuted); 4n^2-3n+1 rows. Unary operations other than float raise (refuted).",
"C141": "Whole for b - a and absolute values (outcomes, undefined behaviour included); doubling but for the largest number of WithNanInf types with esbits 0; halving but for +-minpos, where it is false in every type (refuted).",
"C142": "Triangle inequalities whole. Round trips when the quotient or product is not below minpos (refuted below); inv(inv(x)) but for +-minpos of WithNanInf.",
"C143": "a + (b-a).half() whole; (a+b).half() never exceeds the larger magnitude, and is not below the smaller of two positive numbers when its double is a posit (refuted otherwise).",
"C144": "Whole for the three AVX-512 classes except loadstrided, which needs byte offsets within 32 bits (refuted without). The instructions' meaning is trusted (first part of Asimd512.v).",
"C145": "Whole except blendindex, which is right for the eleven classes whose own blendindex is (C107, C144) and wrong for three others (refuted); four classes do not define it.",
"C146": "The four generators: the text is defined, reads back as one namespace with exactly the declared arrays, sizes and entries, each in range of its type; posit8 equals the shipped arrays, posit12 the shipped opinv, opsquare and op2float (its opexp2 depends on the exp2 used, see C86). The reader of SpecGenText stands for the compiler.",
"C147": "Whole, for any rounding that satisfies the definition of rounding and any faithful exp2 on floats. The reader of SpecGenText stands for the compiler.",
"C148": "Under rounding of doubles and formats whose values and patterns are doubles: columns, summary, resolution (exact when the distances have at most 53 bits), limits and searches. Missing: existence of the file where the counter overflows (C104), the unsigned column for all but 8 bit formats (refuted: it repeats the signed one), the search by value when squared distances vanish (refuted).",
"C149": "Whole, for both byte orders.",
"C150": "Columns, ends, summary and the resolution of all numbers but zero. Refuted for zero: its two patterns have a row each and count as neighbours of one another, so the rows of zero have half the resolution and the least resolution of the table is 2^-25.",
"C151": "The nearest posit for every double up to twice the greatest posit, ties going to the lower one, under any rounding, for formats with N + 2^es <= 48 and range and resolution within 2^390; the sum, the posit nearest to it and the error, exact for formats up to 2^26. Refuted: 2^1000 gives the most negative posit because all squares overflow; the sum of the greatest and smallest 16 bit posits with one exponent bit is no double.",
"C152": "Lines, range and order for every format string without p (with the letter o for 8 bit formats only; with U up to 30 bits); the heading unless the letter o is asked for; existence without overview; the sizes in the overview, its special patterns when the format has an infinity, least and greatest number for esbits 0. Refuted: the unsigned column of other formats, the heading with o, the infinities shown for a format without any, the value shown as half (at least 1).",
"C153": "Both limits, and the bounds of the conversion for every finite double.",
"C154": "Right for n = 2; for every n from 2 on the returned list is described. Refuted for n from 3 on (all indices in the first four rows and columns, repeated) and for 0 and 1 (an error).",
"C155": "Every element for two real or two complex arrays, for any special value setting; refusals. Refuted: complex with real of twice the elements writes out of bounds; unknown operators return unwritten memory; an empty operator text and too few arguments are read out of bounds.",
"C156": "Exact to the float classes, cut from every float, round trip for every array. Refuted: NaNs with a small payload become infinities and tiny numbers become 0.",
"C157": "Error bound and exactness for all exponents that stay in range and less than max(32, F) apart; u + u, 2 * u and u - u. Refuted: a NaN on the right is ignored, exponents further apart and differences of one unit shift out of range, the two lowest bits are lost, exponents wrap around.",
"C158": "All formats and fields. Refuted: the pattern the README gives for one, 001(0)+, is 2^-2^es; one is 01(0)+. For es=0 two is 011(0)*, as the formula 01(0){es}1 says.",
"C159": "All words, and all positive posits of at most 32 bits.",
"C160": "Products and quotients need two bits more than the float, sums and differences four. Refuted: with 8 bit fractions and 7 bit floats sums lose the last bit; subtracting a zero that was read from a float shifts by more bits than there are.",
"C161": "Every float and every fraction type with four bits more than the float. Refuted without them: 127.5 with 7 fraction bits, inverted twice with 8 bit fractions, is 64.",
"C162": "All arrays and formats. C162_limit shows that past the bound the low bits are lost.",
"C163": "Proved for positive divisors. For negative divisors the result is the floor only when the division is exact (refuted, with the size of the error); the two undefined cases are stated.",
"C164": "All types and integers. C164_empty_refuted: a field of no bits is zero with the instruction and undefined without it.",
"C165": "Normal floats (C165_number_partial) and zeros (C165_zero). C165_infinity_refuted: infinities pass only in formats with two infinities.",
"C166": "Posits: numbers whose packing has room for its shifts, whatever the fraction type (C166_posit_partial); without it the inverse is undefined (C166_room_refuted). Unpacked: all exponents but the lowest, for which C166_lowest_refuted shows the overflow."
}
